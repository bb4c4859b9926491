(** Independent vocabulary for the tidal tracks (C52-C54). *)
From Verif Require Import Prelude.
From Coquelicot Require Import Coquelicot.
Local Open Scope R_scope.
Local Open Scope list_scope.

(** the calibrated profiles: inner slope gamma, outer slope beta, transition alpha, truncation slope delta *)
Definition supported (alpha beta gamma delta : R) : Prop :=
  (delta = 2 \/ delta = 3) /\ (beta = 3 \/ beta = 4)
  /\ ((alpha = 1 /\ (gamma = 0 \/ gamma = 0.5 \/ gamma = 1 \/ gamma = 1.5)) \/ (alpha = 2 /\ gamma = 0)).

(** fitted coefficients of the density normalisation: alpha, beta, gamma, delta, D, E *)
Definition track_table : list (R * R * R * R * R * R) := [
  (1, 3, 0, 2, 1.48242247, 0.63639230);
  (1, 3, 0.5, 2, 1.17122717, 0.45000174);
  (1, 3, 1, 2, 0.75826635, 0.23376409);
  (1, 3, 1.5, 2, (-0.995103536), 0.000131454694);
  (1, 4, 0, 2, 1.18519061, 0.73729078);
  (1, 4, 0.5, 2, 0.75235790, 0.47771706);
  (1, 4, 1, 2, 0.36838147, 0.22307797);
  (1, 4, 1.5, 2, 0.28500656, 0.10528364);
  (2, 3, 0, 2, 1.37068893, 0.83149579);
  (2, 4, 0, 2, 0.83836120, 1.23071929);
  (1, 3, 0, 3, 1.40209850, 0.63252747);
  (1, 3, 0.5, 3, 1.08663071, 0.45228951);
  (1, 3, 1, 3, 1.43637351, (-0.24907289));
  (1, 3, 1.5, 3, 0.08092773, 0.08490512);
  (1, 4, 0, 3, 1.08789526, 0.72799030);
  (1, 4, 0.5, 3, 0.68794863, 0.48619566);
  (1, 4, 1, 3, 0.33591171, 0.25084764);
  (1, 4, 1.5, 3, 0.15135479, 0.12838997);
  (2, 3, 0, 3, 1.31446961, 0.82402378);
  (2, 4, 0, 3, 0.77798730, 1.21267992)].
(** the fitted track (1 + D) x^E / (1 + D x^(2E)) of the bound mass fraction x *)
Definition track (D E x : R) : R := (1 + D) * Rpower x E / (1 + D * Rpower x (2 * E)).

(** the generalised NFW density in units of its normalisation and scale radius *)
Definition density (alpha beta gamma x : R) : R :=
  Rpower x (- gamma) * Rpower (1 + Rpower x alpha) (- ((beta - gamma) / alpha)).
(** [M] is the mass inside radius [X]: the integral of 4 pi x^2 density from 0 to X *)
Definition enclosed_mass (alpha beta gamma X M : R) : Prop :=
  is_RInt_gen (fun x => 4 * PI * x ^ 2 * density alpha beta gamma x) (at_right 0) (at_point X) M.
(** [M] is the total mass of the profile truncated at [tau]: the integral from 0 to infinity *)
Definition truncated (alpha beta gamma delta tau x : R) : R :=
  density alpha beta gamma x / (1 + Rpower (x / tau) delta).
Definition total_mass (alpha beta gamma delta tau M : R) : Prop :=
  is_RInt_gen (fun x => 4 * PI * x ^ 2 * truncated alpha beta gamma delta tau x) (at_right 0) (Rbar_locally p_infty) M.

(** the inner slopes for which the module has closed forms with outer slope 3 *)
Definition inner (gamma : R) : Prop := gamma = 0 \/ gamma = 0.5 \/ gamma = 1 \/ gamma = 1.5.
(** the profiles whose enclosed mass has a closed form; the others use a hypergeometric function *)
Definition closed_form (alpha beta gamma : R) : Prop :=
  (alpha = 1 /\ beta = 3 /\ inner gamma) \/ (alpha = 1 /\ beta = 4 /\ gamma < 3)
  \/ (alpha = 2 /\ (beta = 3 \/ beta = 4) /\ (gamma = 0 \/ gamma = 1)).
(** the truncated profiles whose total mass has a closed form *)
Definition closed_total (alpha beta gamma delta : R) : Prop :=
  (delta = 2 /\ alpha = 1 /\ beta = 3 /\ inner gamma) \/ (delta = 2 /\ alpha = 2 /\ beta = 4 /\ gamma = 0)
  \/ (delta = 3 /\ alpha = 1 /\ beta = 3 /\ gamma = 1).
