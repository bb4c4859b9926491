(** Deflection angles of truncated NFW halos: Halos/HaloModels/TNFW.py 58-75 (repeated in 99-116). *)
From Verif Require Import Prelude HaloStateModel.

(** lenstronomy's TNFW().derivatives(x, y, Rs, alpha_Rs, r_trunc, center_x, center_y): an external function *)
Definition derivatives := R -> R -> R -> R -> R -> R -> R -> R * R.

(** TNFW.py 58-75: the halo is put at the origin, whatever its position on the sky *)
Definition deflection_angle (E : Env) (H : Static) (dv : derivatives) (r_arcsec : R) : M R :=
  let* k := lenstronomy_params E H in
  ret (fst (dv r_arcsec 0 (k_Rs k) (k_alpha k) (k_rtrunc k) 0 0)).
