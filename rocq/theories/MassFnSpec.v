(** Specification vocabulary for C26-C30 and C62. *)
From Verif Require Import Prelude.
From Coquelicot Require Import Coquelicot.

(** Mass limits are given in log10. *)
Definition ten_to (x : R) : R := Rpower 10 x.

(** Fraction of objects below mass [m] for dN/dm proportional to m^index on [mL, mH]. *)
Definition plaw_cdf (index mL mH m : R) : R :=
  RInt (fun t => Rpower t index) mL m / RInt (fun t => Rpower t index) mL mH.

(** [thinned keep i l l']: [l'] is [l] without the entries that [keep] rejects; [keep] sees the position
    (counted from [i]) and the mass; order is preserved. *)
Inductive thinned (keep : nat -> R -> Prop) : nat -> list R -> list R -> Prop :=
| th_nil i : thinned keep i nil nil
| th_take i m l l' : keep i m -> thinned keep (S i) l l' -> thinned keep i (m :: l) (m :: l')
| th_drop i m l l' : ~ keep i m -> thinned keep (S i) l l' -> thinned keep i (m :: l) l'.

(** A quadrature routine that integrates every integrable function exactly. *)
Definition exact_quad (quad : (R -> R) -> R -> R -> R) : Prop :=
  forall f a b, ex_RInt f a b -> quad f a b = RInt f a b.

(** Nearest integer, ties to even. *)
Definition nearest_even (x : R) (n : Z) : Prop :=
  Rabs (x - IZR n) <= 1 / 2 /\ (Rabs (x - IZR n) = 1 / 2 -> Z.even n = true).
