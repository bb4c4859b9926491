(** Model of the analytic functions of truncated NFW halos over exact reals (floating-point rounding is
    not modelled). *)
From Verif Require Import Prelude.

(** Halos/tnfw_halo_util.py 7-20 *)
Definition tnfw_density_profile (r rhos rs rt : R) : R :=
  let x := r / rs in
  let tau := rt / rs in
  let nfw_prof := rhos / (x * (1 + x) ^ 2) in
  let truncation := tau ^ 2 / (x ^ 2 + tau ^ 2) in
  nfw_prof * truncation.

(** Halos/HaloModels/TNFW.py 254-265 *)
Definition log_profile_slope (r rs rt : R) : R :=
  let x := r / rs in
  let t := rt / rs in
  -5 + 2 / (1 + x) + (2 * t ^ 2) / (t ^ 2 + x ^ 2).

(** numpy.cbrt: the real cube root *)
Definition np_cbrt (x : R) : R :=
  if Rltb 0 x then Rpower x (/ 3) else if Rltb x 0 then - Rpower (- x) (/ 3) else 0.

(** Halos/tnfw_halo_util.py 63-89. [x ** 0.5] of a non-negative number is [sqrt]. *)
Definition cubic_real_roots (a b c d : R) : list R :=
  if Rltb (Rabs a) 1e-14 then
    if Rltb (Rabs b) 1e-14 then
      if Rltb (Rabs c) 1e-14 then [] else [- d / c]
    else
      let disc := c * c - 4 * b * d in
      if Rltb disc 0 then []
      else let s := sqrt disc in [(- c + s) / (2 * b); (- c - s) / (2 * b)]
  else
    let b := b / a in
    let c := c / a in
    let d := d / a in
    let p := c - b * b / 3 in
    let q := 2 * b ^ 3 / 27 - b * c / 3 + d in
    let off := - b / 3 in
    let disc := (q / 2) ^ 2 + (p / 3) ^ 3 in
    if Rltb 0 disc then
      let s := sqrt disc in
      [np_cbrt (- q / 2 + s) + np_cbrt (- q / 2 - s) + off]
    else
      let r := if Rltb p 0 then sqrt (- (p / 3)) else 0 in
      if Reqb r 0 then [off; off; off]
      else
        let phi := acos (Rmax (-1) (Rmin 1 ((- q / 2) / r ^ 3))) in
        map (fun k => 2 * r * cos ((phi + 2 * PI * k) / 3) + off) [0; 1; 2].

(** Halos/HaloModels/TNFW.py 245-252; [x[0]] of an empty list raises IndexError. *)
Definition log_derivative_inverse (gamma rs rt : R) : result R :=
  let tau := rt / rs in
  let A := - gamma - 5 in
  let roots := cubic_real_roots A (A + 2) ((A + 2) * tau ^ 2) ((A + 4) * tau ^ 2) in
  match filter (fun r => Rltb 0 r) roots with
  | [] => Err EIndexError
  | x :: _ => Ok (x * rs)
  end.

(** Halos/HaloModels/TNFWemulator.py 7-23 (with Rs = 1). The same closed form is lenstronomy's
    [TNFW.mass_3d], called in Halos/tnfw_halo_util.py 22-35 and batch_halo_util.py 485-486 with
    rho0 = 1/(4 pi) and Rs = 1. *)
Definition tnfw_mass_fraction (tau c : R) : R :=
  let x := c in
  let Rs := 1 in
  let r_trunc := tau * Rs in
  let func :=
    (r_trunc ^ 2 * (-2 * x * (1 + r_trunc ^ 2) + 4 * (1 + x) * r_trunc * atan (x / r_trunc)
       - 2 * (1 + x) * (-1 + r_trunc ^ 2) * ln Rs + 2 * (1 + x) * (-1 + r_trunc ^ 2) * ln (Rs * (1 + x))
       + 2 * (1 + x) * (-1 + r_trunc ^ 2) * ln (Rs * r_trunc)
       - (1 + x) * (-1 + r_trunc ^ 2) * ln (Rs ^ 2 * (x ^ 2 + r_trunc ^ 2))))
    / (2 * (1 + x) * (1 + r_trunc ^ 2) ^ 2) in
  func / (ln (1 + c) - c / (1 + c)).

(** Halos/tnfw_halo_util.py 22-35, relative to the external function [mass_3d r rs rho0 tau] *)
Definition tnfw_mass_fraction_util (mass_3d : R -> R -> R -> R -> R) (tau c : R) : R :=
  let rs := 1 in
  let rho0 := 1 / (4 * PI * rs ^ 3) in
  mass_3d c rs rho0 tau / (ln (1 + c) - c / (1 + c)).

(** Halos/HaloModels/TNFW.py 305-317: the last line of [bound_mass] *)
Definition bound_mass_value (tau c mass rescale : R) : R := tnfw_mass_fraction tau c * mass * rescale.
