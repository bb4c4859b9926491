(** Specification vocabulary for C31-C34. *)
From Verif Require Import Prelude Interp.

(** A spatially flat universe: every distance comes from one comoving distance [chi], increasing with redshift. *)
Record flat_universe (chi : R -> R) (DA : R -> R -> R) (DAz DCt : R -> R) : Prop := {
  fu_zero : chi 0 = 0;
  fu_incr : forall z z', 0 <= z -> z < z' -> chi z < chi z';
  fu_DA : forall z1 z2, 0 <= z1 -> 0 <= z2 -> DA z1 z2 = (chi z2 - chi z1) / (1 + z2);
  fu_DAz : forall z, 0 <= z -> DAz z = chi z / (1 + z);
  fu_DC : forall z, 0 <= z -> DCt z = chi z }.

(** [z] is given to two decimal places. *)
Definition two_decimals (z : R) : Prop := exists n : Z, z = IZR n / 100.

Definition total (l : list R) : R := fold_right Rplus 0 l.

(** Each plane plus its thickness is the next plane; the last one reaches the source. *)
Inductive tiles (zsource : R) : list R -> list R -> Prop :=
| tiles_last z d : z + d = zsource -> tiles zsource [z] [d]
| tiles_cons z z' d zs ds : z + d = z' -> tiles zsource (z' :: zs) ds -> tiles zsource (z :: z' :: zs) (d :: ds).

Definition dist2 (x y cx cy : R) : R := sqrt ((x - cx) ^ 2 + (y - cy) ^ 2).
