(** Ultra-light dark matter helpers: minimum halo mass, wavelength and amplitude of the density fluctuations
    (pyHalo/utilities.py 224-338). *)
From Verif Require Import Prelude SpaceModel TwoPointModel.
From Coquelicot Require Import Coquelicot.
Local Open Scope R_scope.

Definition log10 (x : R) : R := ln x / ln 10.

(** utilities.py:331-332 _a *)
Definition scale_factor (z : R) : R := / (1 + z).
(** utilities.py:337-338 _zeta; [Om] is astropy's Om(z) (334-335 _Om) *)
Definition zeta (Om : R -> R) (z : R) : R := (18 * PI ^ 2 + 82 * (Om z - 1) - 39 * (Om z - 1) ^ 2) / Om z.
(** utilities.py:318-319: _Mmin0 *)
Definition Mmin0 (log10_m : R) : R := 44000000 * Rpower (Rpower 10 (log10_m + 22)) (- 3 / 2).
(** utilities.py:328-329 m_min; floats raised to a power of a positive number *)
Definition m_min (Om : R -> R) (log10_m z : R) : R :=
  Rpower (scale_factor z) (- 3 / 4) * Rpower (zeta Om z / zeta Om 0) (1 / 4) * Mmin0 log10_m.
(** utilities.py:323-326 __call__ *)
Definition min_halo_mass (Om : R -> R) (log10_m log_mlow z : R) : R := Rmax (log10 (m_min Om log10_m z)) log_mlow.

(** utilities.py:224-232 de_broglie_wavelength; a zero velocity (ZeroDivisionError) is an error *)
Definition de_broglie_wavelength (log10_m v : R) : result R :=
  if Reqb v 0 then Err EZeroDivision
  else Ok (12 / 10 * (Rpower 10 (-22) / Rpower 10 log10_m) * (100 / v)).

(** utilities.py:270-288 projected_density_squared; None is nan (the square root of a negative number). scipy's quad is the
    Riemann integral. *)
Definition projected_density_squared (Rein rhos rs c : R) : option R :=
  let r200 := c * rs in
  if Rltb (r200 ^ 2 - Rein ^ 2) 0 then None
  else
    let zmax := sqrt (r200 ^ 2 - Rein ^ 2) in
    let x := fun z => sqrt (Rein ^ 2 + z ^ 2) / rs in
    Some (2 * RInt (fun z => rhos ^ 2 / (x z * (1 + x z) ^ 2) ^ 2) 0 zmax).

(** utilities.py:250-268 delta_sigma; [rhos], [rs], [c] are the NFW parameters of the host from the concentration model
    (259-264); x ** 0.5 *)
Definition delta_sigma (rhos rs c Rein wavelength : R) : option R :=
  match projected_density_squared Rein rhos rs c with
  | Some s => Some (sqrt (sqrt PI * s * wavelength))
  | None => None
  end.
(** utilities.py:234-248 delta_kappa; [sigma_crit_mpc] is the critical surface density in Msun / Mpc^2 *)
Definition delta_kappa (sigma_crit_mpc rhos rs c Rein wavelength : R) : option R :=
  match delta_sigma rhos rs c Rein wavelength with
  | Some d => Some (d / (sigma_crit_mpc * (1 / 1000) ^ 2))
  | None => None
  end.

(** utilities.py:290-304 nfw_velocity_dispersion, x = 1 by default; [simpson] is scipy's rule as in TwoPointModel *)
Definition nfw_velocity_dispersion (rhos rs c x : R) : R :=
  let G := 43 / 10000000 in
  let prefactor := 4 * PI * G * rhos ^ 2 * rs ^ 2 in
  let density_at_r := rhos / (x * (1 + x) ^ 2) in
  let integrand := fun t => (ln (1 + t) - t / (1 + t)) / (t * (1 + t) ^ 2) / t ^ 2 in
  let xs := np_linspace x c 150 in
  sqrt (prefactor * simpson (map integrand xs) xs / density_at_r).
