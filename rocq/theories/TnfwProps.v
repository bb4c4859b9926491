(** C22-C25. Analytic properties of truncated NFW halos (exact real arithmetic). *)
From Verif Require Import Prelude TnfwModel TnfwSpec CubicProofs TnfwProofs.
From Coquelicot Require Import Coquelicot.
From Coq Require Import Psatz.
Open Scope R_scope.

(** ** C22 *)
Theorem C22_density : forall r rhos rs rt, 0 < r -> 0 < rs -> 0 < rt ->
  tnfw_density_profile r rhos rs rt = rho_tnfw rhos rs rt r.
Proof.
  intros r rhos rs rt Hr Hs Ht. unfold tnfw_density_profile, rho_tnfw. f_equal.
  pose proof (sq_pos r Hr). pose proof (sq_pos rt Ht). field. simpl in *. repeat split; try lra; nra.
Qed.
Theorem C22_slope_is_log_derivative : forall rhos rs rt u, 0 < rhos -> 0 < rs -> 0 < rt ->
  is_derive (fun u => ln (tnfw_density_profile (exp u) rhos rs rt)) u (log_profile_slope (exp u) rs rt).
Proof. exact slope_derive. Qed.
Theorem C22_slope_range : forall rs rt, 0 < rs -> 0 < rt ->
  (forall r, 0 < r -> -5 < log_profile_slope r rs rt < -1) /\
  (forall r r', 0 < r -> r < r' -> log_profile_slope r' rs rt < log_profile_slope r rs rt) /\
  (forall eps, 0 < eps ->
     (exists d, 0 < d /\ forall r, 0 < r < d -> Rabs (log_profile_slope r rs rt - -1) < eps) /\
     (exists m, forall r, m < r -> Rabs (log_profile_slope r rs rt - -5) < eps)).
Proof.
  intros rs rt Hs Ht. split; [|split].
  - intros r Hr. rewrite slope_unfold. apply slope_x_bounds; apply Rdiv_lt_0_compat; assumption.
  - intros r r' Hr L. apply slope_decr; assumption.
  - intros eps He. apply slope_limits; assumption.
Qed.
Example C22_demo : log_profile_slope 2 2 2 = -3.
Proof. unfold log_profile_slope. field. Qed.

(** ** C23 *)
Theorem C23_inverse : forall g rs rt, -5 + 1e-14 <= g -> g < -1 -> 0 < rs -> 0 < rt ->
  exists r, log_derivative_inverse g rs rt = Ok r /\ 0 < r /\ log_profile_slope r rs rt = g /\
    forall r', 0 < r' -> log_profile_slope r' rs rt = g -> r' = r.
Proof.
  intros g rs rt G1 G2 Hs Ht. destruct (inverse_ok g rs rt) as (r & E & P & S); try lra.
  exists r. split; [exact E|]. split; [exact P|]. split; [exact S|]. intros r' P' S'.
  apply (inverse_unique g rs rt); assumption.
Qed.
(** Round trip: the inverse recovers the radius from its slope. *)
Theorem C23_round_trip : forall r rs rt, 0 < r -> 0 < rs -> 0 < rt -> -5 + 1e-14 <= log_profile_slope r rs rt ->
  log_derivative_inverse (log_profile_slope r rs rt) rs rt = Ok r.
Proof.
  intros r rs rt Hr Hs Ht G. destruct (C22_slope_range rs rt Hs Ht) as (B & _).
  destruct (C23_inverse (log_profile_slope r rs rt) rs rt) as (r0 & E & _ & _ & U); try assumption; [apply B; exact Hr|].
  rewrite E. f_equal. symmetry. apply U; auto.
Qed.
(** Everywhere else, including slopes within 1e-14 of -5 that some radius does have, it raises IndexError. *)
Theorem C23_outside : forall g rs rt, 0 < rs -> 0 < rt -> g < -5 + 1e-14 \/ -1 <= g ->
  log_derivative_inverse g rs rt = Err EIndexError.
Proof. intros g rs rt Hs Ht G. apply inverse_fails; try assumption. destruct G; lra. Qed.
Theorem C23_all_slopes_refuted : exists g rs rt r,
  -5 < g < -1 /\ 0 < r /\ log_profile_slope r rs rt = g /\ log_derivative_inverse g rs rt = Err EIndexError.
Proof.
  destruct (slope_onto (-5 + 1e-15) 1 1) as (r & R1 & R2); try lra.
  exists (-5 + 1e-15), 1, 1, r. split; [lra|]. split; [exact R1|]. split; [exact R2|].
  apply C23_outside; lra.
Qed.
Example C23_demo : log_derivative_inverse (-3) 2 2 = Ok 2.
Proof. rewrite <- C22_demo. apply C23_round_trip; try lra. rewrite C22_demo. lra. Qed.

(** ** C24 *)
Theorem C24_cubic : forall a b c d, 1e-14 <= Rabs a ->
  zeros_of (fun x => a * x ^ 3 + b * x ^ 2 + c * x + d) (cubic_real_roots a b c d).
Proof. exact roots_cubic. Qed.
Theorem C24_quadratic : forall a b c d, Rabs a < 1e-14 -> 1e-14 <= Rabs b ->
  zeros_of (fun x => b * x ^ 2 + c * x + d) (cubic_real_roots a b c d).
Proof. exact roots_quadratic. Qed.
Theorem C24_linear : forall a b c d, Rabs a < 1e-14 -> Rabs b < 1e-14 -> 1e-14 <= Rabs c ->
  zeros_of (fun x => c * x + d) (cubic_real_roots a b c d).
Proof. exact roots_linear. Qed.
Theorem C24_constant : forall a b c d, Rabs a < 1e-14 -> Rabs b < 1e-14 -> Rabs c < 1e-14 ->
  cubic_real_roots a b c d = nil.
Proof. exact roots_constant. Qed.
(** The guard is absolute, not relative: a rescaled cubic with small coefficients loses its roots. *)
Theorem C24_scale_refuted : exists a b c d k x, 0 < k /\ a * x ^ 3 + b * x ^ 2 + c * x + d = 0 /\
  In x (cubic_real_roots a b c d) /\ ~ In x (cubic_real_roots (k * a) (k * b) (k * c) (k * d)).
Proof.
  exists 1, 0, 0, (-1), 1e-15, 1. split; [lra|]. split; [ring|]. split.
  - apply (C24_cubic 1 0 0 (-1)); [rewrite Rabs_R1; lra|ring].
  - rewrite C24_constant; [intros []|rewrite Rabs_right; lra| |]; rewrite Rmult_0_r, Rabs_R0; lra.
Qed.
Example C24_demo : forall x, In x (cubic_real_roots 1 (-6) 11 (-6)) <-> x = 1 \/ x = 2 \/ x = 3.
Proof.
  intros x. assert (Z : zeros_of (fun x => 1 * x ^ 3 + -6 * x ^ 2 + 11 * x + -6) (cubic_real_roots 1 (-6) 11 (-6)))
    by (apply C24_cubic; rewrite Rabs_R1; lra).
  rewrite (Z x).
  replace (1 * x ^ 3 + -6 * x ^ 2 + 11 * x + -6) with ((x - 1) * (x - 2) * (x - 3)) by ring. split.
  - intros X. apply Rmult_integral in X. destruct X as [X|X]; [apply Rmult_integral in X; destruct X|]; lra.
  - intros [->|[->| ->]]; ring.
Qed.

(** ** C25 *)
(** The closed form is the ratio of the masses inside c*rs of the truncated and untruncated profiles. *)
Theorem C25_mass_fraction : forall rhos rs rt c, 0 < rhos -> 0 < rs -> 0 < rt -> 0 < c ->
  tnfw_mass_fraction (rt / rs) c = sphere_mass (rho_tnfw rhos rs rt) (c * rs) / sphere_mass (rho_nfw rhos rs) (c * rs).
Proof.
  intros rhos rs rt c Hr Hs Ht Hc. assert (T : 0 < rt / rs) by (apply Rdiv_lt_0_compat; assumption).
  rewrite frac_unfold by assumption.
  destruct (tnfw_mass rhos rs rt c Hs Ht (Rlt_le _ _ Hc)) as [_ ->].
  destruct (nfw_mass rhos rs c Hs (Rlt_le _ _ Hc)) as [_ ->].
  pose proof (Func0_pos c Hc). pose proof PI_RGT_0. assert (0 < rs ^ 3) by (apply pow_lt; assumption).
  field. repeat split; lra.
Qed.
(** The integrals exist (so they are not a default value), and the untruncated mass is the NFW formula. *)
Theorem C25_integrable : forall rhos rs rt c, 0 < rs -> 0 < rt -> 0 <= c ->
  ex_RInt (fun r => 4 * PI * r ^ 2 * rho_tnfw rhos rs rt r) 0 (c * rs) /\
  ex_RInt (fun r => 4 * PI * r ^ 2 * rho_nfw rhos rs r) 0 (c * rs) /\
  sphere_mass (rho_nfw rhos rs) (c * rs) = 4 * PI * rhos * rs ^ 3 * (ln (1 + c) - c / (1 + c)).
Proof.
  intros rhos rs rt c Hs Ht Hc. destruct (tnfw_mass rhos rs rt c Hs Ht Hc) as [A _].
  destruct (nfw_mass rhos rs c Hs Hc) as [B C]. auto.
Qed.
(** If lenstronomy's mass_3d is the mass inside the radius, the function used by [bound_mass] is the same fraction. *)
Theorem C25_util : forall mass_3d tau c, 0 < tau -> 0 < c ->
  (forall r rs rho0 tau, 0 < r -> 0 < rs -> 0 < tau ->
     mass_3d r rs rho0 tau = sphere_mass (rho_tnfw rho0 rs (tau * rs)) r) ->
  tnfw_mass_fraction_util mass_3d tau c = tnfw_mass_fraction tau c.
Proof.
  intros m tau c Ht Hc Hm. unfold tnfw_mass_fraction_util. rewrite Hm by lra.
  replace c with (c * 1) at 1 by ring. rewrite frac_unfold by assumption.
  assert (T : 0 < tau * 1) by lra. destruct (tnfw_mass (1 / (4 * PI * 1 ^ 3)) 1 (tau * 1) c Rlt_0_1 T (Rlt_le _ _ Hc)) as [_ ->].
  replace (tau * 1 / 1) with tau by field. pose proof (Func0_pos c Hc) as P. unfold Func0 in *. pose proof PI_RGT_0.
  assert (0 < 1 + c) by lra. unfold Rdiv in *. field_simplify_eq; [ring|]. repeat split; try lra.
  intros X. assert (Y : (ln (1 + c) - c * / (1 + c)) * (1 + c) = 0) by (field_simplify; lra).
  apply Rmult_integral in Y. lra.
Qed.
(** Bounds and monotonicity. *)
Theorem C25_bounds : forall tau c, 0 < tau -> 0 < c -> 0 < tnfw_mass_fraction tau c < 1.
Proof.
  intros tau c Ht Hc. rewrite frac_unfold by assumption. pose proof (Func_pos tau c Ht Hc). pose proof (Func0_pos c Hc).
  pose proof (Func_lt0 c tau Hc Ht). split; [apply Rdiv_lt_0_compat; assumption|].
  apply Rmult_lt_reg_r with (Func0 c); [assumption|]. unfold Rdiv. rewrite Rmult_assoc, Rinv_l; lra.
Qed.
Theorem C25_monotone : forall tau tau' c, 0 < tau -> tau < tau' -> 0 < c ->
  tnfw_mass_fraction tau c < tnfw_mass_fraction tau' c.
Proof.
  intros tau tau' c Ht L Hc. rewrite !frac_unfold by lra. pose proof (Func_lt c tau tau' Hc Ht L). pose proof (Func0_pos c Hc).
  unfold Rdiv. apply Rmult_lt_compat_r; [apply Rinv_0_lt_compat; assumption|assumption].
Qed.
Theorem C25_bound_mass : forall tau c mass rescale, 0 < tau -> 0 < c -> 0 < mass -> 0 < rescale <= 1 ->
  0 < bound_mass_value tau c mass rescale < mass.
Proof.
  intros tau c m k Ht Hc Hm Hk. destruct (C25_bounds tau c Ht Hc) as [A B]. unfold bound_mass_value.
  set (f := tnfw_mass_fraction tau c) in *. clearbody f.
  assert (0 < f * m) by (apply Rmult_lt_0_compat; assumption). assert (f * m < m) by nra. split; nra.
Qed.
Example C25_demo : 0 < bound_mass_value 2 10 1e8 (1 / 2) < 1e8.
Proof. apply C25_bound_mass; lra. Qed.

Print Assumptions C22_density.
Print Assumptions C22_slope_is_log_derivative.
Print Assumptions C22_slope_range.
Print Assumptions C23_inverse.
Print Assumptions C23_round_trip.
Print Assumptions C23_outside.
Print Assumptions C23_all_slopes_refuted.
Print Assumptions C24_cubic.
Print Assumptions C24_quadratic.
Print Assumptions C24_linear.
Print Assumptions C24_constant.
Print Assumptions C24_scale_refuted.
Print Assumptions C25_mass_fraction.
Print Assumptions C25_integrable.
Print Assumptions C25_util.
Print Assumptions C25_bounds.
Print Assumptions C25_monotone.
Print Assumptions C25_bound_mass.
