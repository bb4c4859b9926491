(** The tables that turn a bound mass into a truncation radius: Halos/tnfw_halo_util.py 37-60 and
    Halos/HaloModels/TNFWemulator.py 26-47, with their use in Halos/tidal_truncation.py 247-266 and TNFWemulator.py 114-127.
    The axes and the two-dimensional interpolator are those of MassLossModel.v. *)
From Verif Require Import Prelude MassFnModel MassLossModel TnfwModel.
Local Open Scope R_scope.

(** scipy interp1d(x, y, fill_value='extrapolate') at [u], for [n] nodes with increasing [x]: the index is
    numpy.searchsorted(x, u) limited to 1 .. n-1, so points outside use the first or the last interval.  interp1d first sorts
    the nodes by [x]; the mass fractions increase with tau (C25_monotone), so the sort does nothing. *)
Fixpoint nodes_below (x : nat -> R) (n : nat) (u : R) : nat :=
  match n with O => O | S k => ((if Rltb (x k) u then 1 else 0) + nodes_below x k u)%nat end.
Definition interval (x : nat -> R) (n : nat) (u : R) : nat := Nat.min (nodes_below x n u - 1) (n - 2).
Definition interp_extrapolate (x y : nat -> R) (n : nat) (u : R) : R :=
  let i := interval x n u in
  (y (S i) - y i) / (x (S i) - x i) * (u - x i) + y i.

(** one set of grids: log10 tau, the first coordinate with the concentration it stands for, and log10 of the mass fraction *)
Record tau_grid := mkTauGrid { tg_tau : axis; tg_x : axis; tg_conc : R -> R; tg_mf : axis }.
(** tnfw_halo_util.py 44-48: N = 100, tau = logspace(-4.1, 2.3), log10_c = linspace(0, 2.7), logspace(-6, log10(0.9999)) *)
Definition grid_util : tau_grid := mkTauGrid (mkAxis (-4.1) 2.3 100) (mkAxis 0 2.7 100) pow10 (mkAxis (-6) (log10 0.9999) 100).
(** TNFWemulator.py 27-31: N = 250, tau = logspace(-3.5, 2.5), concentration = linspace(1, 200), linspace(-4, -0.001) *)
Definition grid_emulator : tau_grid := mkTauGrid (mkAxis (-3.5) 2.5 250) (mkAxis 1 200 250) (fun c => c) (mkAxis (-4) (-0.001) 250).

(** tnfw_halo_util.py 52-56 and TNFWemulator.py 35-41: log10tau_2d[i, j]; [frac] is tnfw_mass_fraction *)
Definition log10tau_2d (frac : R -> R -> R) (g : tau_grid) (i j : nat) : R :=
  let tau := fun k => pow10 (node (tg_tau g) k) in
  let log10final_mass := fun k => log10 (frac (tau k) (tg_conc g (node (tg_x g) i))) in
  interp_extrapolate log10final_mass (fun k => log10 (tau k)) (ax_n (tg_tau g)) (node (tg_mf g) j).
(** tnfw_halo_util.py 58-59, TNFWemulator.py 43-44: the RegularGridInterpolator evaluated at one point *)
Definition tau_lookup (frac : R -> R -> R) (g : tau_grid) (x y : R) : R :=
  lin (tg_x g) (fun i => lin (tg_mf g) (fun j => log10tau_2d frac g i j) y) x.

(** tnfw_halo_util.py 37-60, with lenstronomy's mass_3d as an argument *)
Definition tau_mf_interpolation (mass_3d : R -> R -> R -> R -> R) : R -> R -> R :=
  tau_lookup (tnfw_mass_fraction_util mass_3d) grid_util.
(** TNFWemulator.py 26-47 *)
Definition tau_mf_interpolator : R -> R -> R := tau_lookup tnfw_mass_fraction grid_emulator.

(** tidal_truncation.py 209-220 and 258-266: TruncationGalacticusKeeley24.truncation_radius after the mass-loss draw
    [log10mf], with the scale radius [rs] of the halo *)
Definition keeley_radius (mass_3d : R -> R -> R -> R -> R) (c log10mf rs : R) : R :=
  let lc := Rmin (log10 (pow10 2.7)) (Rmax (log10 1) (log10 c)) in
  let lm := Rmin (-0.001) (Rmax (-8) log10mf) in
  pow10 (tau_mf_interpolation mass_3d lc lm) * rs.
(** TNFWemulator.py 114-127: the truncation radius in profile_args; [rs_angle] and [kpc] as in the code *)
Definition emulator_radius (c fraction rs_angle kpc : R) : R :=
  rs_angle * pow10 (tau_mf_interpolator c (log10 fraction)) * kpc.
