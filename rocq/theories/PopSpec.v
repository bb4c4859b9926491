(** Specification vocabulary for the populations added to a realization (C43, C44, C61, C70-C72). *)
From Verif Require Import Prelude RealizationModel RealizationSpec MassFnSpec.
Local Open Scope string_scope.
Local Open Scope R_scope.
Local Open Scope list_scope.

(** The [n] existing halo objects are as before. *)
Definition untouched (hp hp' : heap) (n : nat) : Prop := forall r, (r < n)%nat -> hp' r = hp r.

(** [out] consists of exactly the new objects [objs], in this order, with the settings of [rz]. *)
Definition only_new (hp hp' : heap) (n : nat) (rz out : Realz) (objs : list Halo) : Prop :=
  untouched hp hp' n /\
  NoDup (rz_halos out) /\ Forall (fun r => (n <= r)%nat) (rz_halos out) /\ map hp' (rz_halos out) = objs /\
  same_setup out rz /\ rz_shifted out = false /\ in_sync hp' out.

(** [out] consists of the halos of [rz] and the new objects [objs], each exactly once, with the settings of [rz]. *)
Definition joined (hp hp' : heap) (n : nat) (rz out : Realz) (objs : list Halo) : Prop :=
  untouched hp hp' n /\
  (exists new, NoDup new /\ Forall (fun r => (n <= r)%nat) new /\ map hp' new = objs /\
     Permutation (rz_halos out) (rz_halos rz ++ new)) /\
  same_setup out rz /\ rz_shifted out = false /\ in_sync hp' out.

(** All tags, old and new, are different (they are random numbers in the code). *)
Definition tags_all_distinct (hp : heap) (rz : Realz) (objs : list Halo) : Prop :=
  NoDup (map (fun r => h_tag (hp r)) (rz_halos rz) ++ map h_tag objs).
Definition allocated (n : nat) (rz : Realz) : Prop := Forall (fun r => (r < n)%nat) (rz_halos rz).

(** A point mass: its lens model is one POINT_MASS whose Einstein radius is factor(z) * sqrt(mass). *)
Definition is_point_mass (factor : R -> R) (fixed : bool) (b : Halo) : Prop :=
  h_mdef b = "PT_MASS" /\ h_sub b = false /\ h_fixed b = fixed /\ h_bound b = None /\ h_ids b = ["POINT_MASS"] /\
  h_kwargs b = [[("center_x", h_x b); ("center_y", h_y b); ("theta_E", factor (h_z b) * sqrt (h_mass b))]].

(** A Gaussian convergence fluctuation of peak convergence kappa0 and width sigma: amp = 2 pi sigma^2 kappa0. *)
Definition is_fluctuation (zlens kappa0 sigma : R) (b : Halo) : Prop :=
  h_mdef b = "GAUSSIAN_KAPPA" /\ h_sub b = true /\ h_fixed b = true /\ h_bound b = None /\ h_z b = zlens /\
  0 <= sigma /\ h_mass b = Rabs (2 * PI * sigma ^ 2 * kappa0) /\ h_ids b = ["GAUSSIAN"] /\
  h_kwargs b = [[("amp", 2 * PI * sigma ^ 2 * kappa0); ("sigma", sigma); ("center_x", h_x b); ("center_y", h_y b)]].

(** Coordinates relative to axes rotated by [angle]. *)
Definition along (angle x y : R) : R := x * cos angle + y * sin angle.
Definition across (angle x y : R) : R := - x * sin angle + y * cos angle.

(** numpy.random.poisson: nothing for mean 0, otherwise the count supplied by the generator. *)
Definition poisson_number (mean : R) (count n : nat) : Prop :=
  (mean = 0 /\ n = 0%nat) \/ (0 < mean /\ n = count).

(** A stream of tags without repetition, none of which is used in [rz]. *)
Definition fresh_tags (hp : heap) (rz : Realz) (tag : nat -> Z) : Prop :=
  tags_distinct hp rz /\ (forall i j, tag i = tag j -> i = j) /\ (forall r j, In r (rz_halos rz) -> h_tag (hp r) <> tag j).

(** ULDM fluctuations: above [n_cut] objects only [n_cut] are created (if rescaling is requested) ... *)
Definition shown (rescale : bool) (n_cut : R) (mean : R) (n : nat) : nat :=
  if rescale then if Rlt_dec n_cut mean then Z.to_nat (Int_part n_cut) else n else n.
(** ... with the standard deviation multiplied by sqrt(n_cut / n). *)
Definition strength (rescale : bool) (n_cut amplitude mean : R) : R :=
  if rescale then if Rlt_dec n_cut mean then amplitude * sqrt (n_cut / mean) else amplitude else amplitude.
Definition average (l : list nat) : R := fold_right Rplus 0 (map INR l) / INR (List.length l).
