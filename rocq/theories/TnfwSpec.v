(** Specification vocabulary for C22-C25. *)
From Verif Require Import Prelude.
From Coquelicot Require Import Coquelicot.

(** Density of a truncated NFW halo, in its textbook form. *)
Definition rho_tnfw (rhos rs rt r : R) : R :=
  rhos / ((r / rs) * (1 + r / rs) ^ 2) * (rt ^ 2 / (r ^ 2 + rt ^ 2)).
(** Density of an untruncated NFW halo. *)
Definition rho_nfw (rhos rs r : R) : R := rhos / ((r / rs) * (1 + r / rs) ^ 2).

(** Mass of a spherical density inside radius [rmax]. *)
Definition sphere_mass (rho : R -> R) (rmax : R) : R := RInt (fun r => 4 * PI * r ^ 2 * rho r) 0 rmax.

(** [l] lists exactly the real zeros of [f]. *)
Definition zeros_of (f : R -> R) (l : list R) : Prop := forall x, In x l <-> f x = 0.
