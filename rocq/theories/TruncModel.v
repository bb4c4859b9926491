(** The closed-form truncation classes of Halos/tidal_truncation.py: truncation_radius of TruncationSplashBack (30-44),
    TruncationRN (67-77), TruncationRoche (108-117), TruncateMeanDensity (150-168), Multiple_RS (178-183),
    and the vectorised TruncationRN of Halos/batch_halo_util.py (445-456). *)
From Verif Require Import Prelude MassFnModel NfwModel.

(** tidal_truncation.py 67-77 (N is LOS_truncation_factor) *)
Definition rn_radius (C : cosmo) (N mass z : R) : R := rN_M C (mass * co_h C) z N * 1000.
(** batch_halo_util.py 445-456, array expression by array expression *)
Definition rn_radius_batch (C : cosmo) (N : R) (masses zs : list R) : list R :=
  let rhoc := map (fun z => co_rhoc C * co_E C z ^ 2) zs in
  let rn := zip_with (fun m r => Rpower (3 * m * co_h C / (4 * PI * r * N)) (1 / 3) / co_h C) masses rhoc in
  map (fun r => r * 1000) rn.

(** tidal_truncation.py 30-44; [ratio nu z] is colossus' splashbackModel('RspR200m') and [nu m z] its peakHeight *)
Definition splashback_radius (C : cosmo) (nu : R -> R -> R) (ratio : R -> R -> R) (mass z : R) : R :=
  let nu200m := nu (mass * co_h C) z in
  let r200m_mpc := rN_M C (mass * co_h C) z 200 / Rpower (co_Om0 C) (1 / 3) in
  ratio nu200m z * r200m_mpc * 10 ^ 3.

(** numpy.round(x, 3): scale, round half to even, scale back *)
Definition np_round3 (x : R) : R := IZR (np_round (x * 1000)) / 1000.
(** tidal_truncation.py 108-117 *)
Definition roche_radius (norm m_power nu mass r3d : R) : R :=
  np_round3 (norm * Rpower (mass / 10 ^ 7) m_power * Rpower (r3d / 50) nu).

(** tidal_truncation.py 150-168; [g mean sd] is numpy.random.normal *)
Definition mean_density_radius (C : cosmo) (g : R -> R -> R) (norm cpower mass z c_median c_actual scatter : R) : result R :=
  let mu := norm * Rpower (c_actual / c_median) cpower in
  let q := if Rltb 0 scatter then Rabs (g mu (scatter * mu)) else mu in
  do p <- NFW_params_physical C mass c_actual z (Some false);
  Ok (snd (fst p) * q).

(** tidal_truncation.py 178-183 *)
Definition multiple_rs_radius (tau rs : R) : R := tau * rs.
