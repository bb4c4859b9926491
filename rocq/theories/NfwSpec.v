(** Specification vocabulary for C55 and C74-C76: NFW-type halos, projected mass, circular velocity. *)
From Verif Require Import Prelude TnfwSpec.
From Coquelicot Require Import Coquelicot.
Local Open Scope R_scope.

(** NFW-like density with (1 + x^2) in the denominator. *)
Definition rho_pseudo_nfw (rhos rs r : R) : R := rhos / ((r / rs) * (1 + (r / rs) ^ 2)).
Definition halo_density (pseudo : bool) : R -> R -> R -> R := if pseudo then rho_pseudo_nfw else rho_nfw.

(** [rhos], [rs], [r200] describe the halo of mass [m] and concentration [c]: r_200 is [c] scale radii, the density
    profile has mass [m] inside r_200, and the mean density there is 200 times critical. *)
Record describes_halo (pseudo : bool) (m c rho_crit rhos rs r200 : R) : Prop := {
  dh_rs : 0 < rs;
  dh_conc : r200 = c * rs;
  dh_int : ex_RInt (fun r => 4 * PI * r ^ 2 * halo_density pseudo rhos rs r) 0 r200;
  dh_mass : sphere_mass (halo_density pseudo rhos rs) r200 = m;
  dh_mean : m / (4 / 3 * PI * r200 ^ 3) = 200 * rho_crit }.

(** Mass of a spherical density inside an infinite cylinder of radius [R0] through its centre: everything inside the
    sphere of radius [R0], and of each shell of radius [r > R0] the two polar caps, a fraction
    1 - sqrt (1 - (R0 / r)^2) of it. *)
Definition cylinder_mass (rho : R -> R) (R0 M : R) : Prop :=
  exists M1 M2 : R,
    is_RInt (fun r => 4 * PI * r ^ 2 * rho r) 0 R0 M1 /\
    is_RInt_gen (fun r => 4 * PI * r ^ 2 * rho r * (1 - sqrt (1 - (R0 / r) ^ 2))) (at_right R0) (Rbar_locally p_infty) M2 /\
    M = M1 + M2.

(** Circular velocity squared at radius [r]. *)
Definition v_circ2 (G : R) (rho : R -> R) (r : R) : R := G * sphere_mass rho r / r.

(** Physical critical density in M_sun / kpc^3, from lenstronomy's value in h^2 M_sun / Mpc^3. *)
From Verif Require Import NfwModel.
Definition critical_kpc (C : cosmo) (z : R) : R := co_rhoc C * co_E C z ^ 2 * co_h C ^ 2 / 1000 ^ 3.
(** A cosmology with positive Hubble constant, critical density and expansion rate. *)
Definition expanding (C : cosmo) : Prop := 0 < co_h C /\ 0 < co_rhoc C /\ (forall z, 0 <= z -> 0 < co_E C z).
(** The distances between observer, lens at [z] and source at [zs] are positive, and D_A_z agrees with D_A(0, .). *)
Definition distances_ok (C : cosmo) (z zs : R) : Prop :=
  0 < co_DAz C z /\ 0 < co_DAz C zs /\ 0 < co_DA C z zs /\ co_DA C 0 zs = co_DAz C zs.

(** Mass of a singular isothermal sphere with velocity dispersion [sigma] inside a cylinder of radius [R0]:
    pi sigma^2 R0 / G, everything in Mpc, seconds and solar masses. *)
Definition sis_cylinder_mass (G sigma R0 : R) : R := PI * sigma ^ 2 * R0 / G.

(** [m] is a global minimum of [f] over positive numbers. *)
Definition minimum_at (f : R -> R) (m : R) : Prop := 0 < m /\ forall m', 0 < m' -> f m <= f m'.
