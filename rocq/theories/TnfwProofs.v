From Verif Require Import Prelude TnfwModel TnfwSpec CubicProofs.
From Coquelicot Require Import Coquelicot.
From Coq Require Import Lra Psatz.
Open Scope R_scope.

(** ** Slope *)
Definition slope_x (x t : R) : R := -5 + 2 / (1 + x) + (2 * t ^ 2) / (t ^ 2 + x ^ 2).
Lemma slope_unfold r rs rt : log_profile_slope r rs rt = slope_x (r / rs) (rt / rs).
Proof. reflexivity. Qed.

Lemma sq_pos t : 0 < t -> 0 < t ^ 2.
Proof. intros; simpl; nra. Qed.

Lemma slope_x_decr x y t : 0 < t -> 0 <= x -> x < y -> slope_x y t < slope_x x t.
Proof.
  intros Ht Hx Hy. unfold slope_x. pose proof (sq_pos t Ht) as Hp.
  assert (A : 2 / (1 + y) < 2 / (1 + x)).
  { unfold Rdiv. apply Rmult_lt_compat_l; [lra|]. apply Rinv_lt_contravar; [nra|lra]. }
  assert (B : 2 * t ^ 2 / (t ^ 2 + y ^ 2) < 2 * t ^ 2 / (t ^ 2 + x ^ 2)).
  { unfold Rdiv. apply Rmult_lt_compat_l; [lra|]. assert (0 <= x ^ 2) by apply pow2_ge_0. assert (x ^ 2 < y ^ 2) by (simpl; nra).
    apply Rinv_lt_contravar; [apply Rmult_lt_0_compat; lra|lra]. }
  lra.
Qed.
Lemma slope_x_bounds x t : 0 < t -> 0 < x -> -5 < slope_x x t < -1.
Proof.
  intros Ht Hx. split.
  - unfold slope_x. pose proof (sq_pos t Ht). assert (0 < x ^ 2) by (apply sq_pos; assumption).
    assert (0 < 2 / (1 + x)) by (apply Rdiv_lt_0_compat; lra).
    assert (0 < 2 * t ^ 2 / (t ^ 2 + x ^ 2)) by (apply Rdiv_lt_0_compat; lra). lra.
  - replace (-1) with (slope_x 0 t); [apply slope_x_decr; lra|]. unfold slope_x. pose proof (sq_pos t Ht). field.
    simpl in *; lra.
Qed.

Lemma slope_derive rhos rs rt u : 0 < rhos -> 0 < rs -> 0 < rt ->
  is_derive (fun u => ln (tnfw_density_profile (exp u) rhos rs rt)) u (log_profile_slope (exp u) rs rt).
Proof.
  intros Hr Hs Ht. unfold tnfw_density_profile, log_profile_slope.
  pose proof (exp_pos u) as He. set (e := exp u) in *.
  assert (X : 0 < e / rs) by (apply Rdiv_lt_0_compat; assumption).
  assert (T : 0 < rt / rs) by (apply Rdiv_lt_0_compat; assumption).
  assert (X2 : 0 < (e / rs) ^ 2) by (apply sq_pos; assumption).
  assert (T2 : 0 < (rt / rs) ^ 2) by (apply sq_pos; assumption).
  assert (P1 : 0 < e / rs * (1 + e / rs) ^ 2) by (apply Rmult_lt_0_compat; [assumption|apply sq_pos; lra]).
  auto_derive.
  - change (exp u) with e. change (e * / rs) with (e / rs). simpl in *.
    split; [lra|]. split; [lra|]. split; [|exact I].
    apply Rmult_lt_0_compat; apply Rmult_lt_0_compat; try assumption; apply Rinv_0_lt_compat; lra.
  - change (exp u) with e. field. repeat split; nra.
Qed.

(** ** Inverse *)
Lemma slope_cubic x t g : 0 < t -> 0 <= x ->
  (slope_x x t - g) * ((1 + x) * (t ^ 2 + x ^ 2)) =
  cubic (- g - 5) (- g - 5 + 2) ((- g - 5 + 2) * t ^ 2) ((- g - 5 + 4) * t ^ 2) x.
Proof.
  intros Ht Hx. unfold slope_x, cubic. pose proof (sq_pos t Ht). assert (0 <= x ^ 2) by apply pow2_ge_0. field.
  split; simpl in *; lra.
Qed.
Lemma slope_zero x t g : 0 < t -> 0 <= x ->
  (slope_x x t = g <-> cubic (- g - 5) (- g - 5 + 2) ((- g - 5 + 2) * t ^ 2) ((- g - 5 + 4) * t ^ 2) x = 0).
Proof.
  intros Ht Hx. rewrite <- slope_cubic by assumption. pose proof (sq_pos t Ht). assert (0 <= x ^ 2) by apply pow2_ge_0. split.
  - intros ->. ring.
  - intros X. apply Rmult_integral in X. destruct X as [X|X]; [lra|].
    exfalso. apply Rmult_integral in X. destruct X; lra.
Qed.

Lemma positive_root A t : -4 < A -> A < 0 -> 0 < t ->
  exists x, 0 < x /\ cubic A (A + 2) ((A + 2) * t ^ 2) ((A + 4) * t ^ 2) x = 0.
Proof.
  intros A1 A2 Ht. pose proof (sq_pos t Ht) as Hp. set (T := t ^ 2) in *.
  set (f := fun x => - cubic A (A + 2) ((A + 2) * T) ((A + 4) * T) x).
  set (M := 1 + (2 + 6 * T) / - A).
  assert (Q : 0 < (2 + 6 * T) / - A) by (apply Rdiv_lt_0_compat; lra).
  assert (AM : (2 + 6 * T) - A = - A * M).
  { unfold M. field. lra. }
  destruct (IVT f 0 M) as (z & [Z1 Z2] & Z3).
  - intros x. apply derivable_continuous_pt. unfold f, cubic. reg.
  - unfold M; lra.
  - unfold f, cubic. assert (0 < (A + 4) * T) by (apply Rmult_lt_0_compat; lra). simpl. lra.
  - unfold f, cubic.
    assert (M1 : 1 <= M) by (unfold M; lra).
    assert (M2 : M <= M ^ 2) by (simpl; nra). assert (M2' : 1 <= M ^ 2) by lra.
    assert (E1 : - A * M ^ 3 = (2 + 6 * T - A) * M ^ 2) by (rewrite AM; ring).
    assert (E2 : (A + 2) * M ^ 2 <= 2 * M ^ 2) by nra.
    assert (E3 : (A + 2) * T * M <= 2 * T * M ^ 2) by nra.
    assert (E4 : (A + 4) * T <= 4 * T * M ^ 2) by nra.
    assert (E5 : 0 < - A * M ^ 2) by nra.
    lra.
  - exists z. unfold f in Z3.
    assert (C0 : cubic A (A + 2) ((A + 2) * T) ((A + 4) * T) z = 0) by lra. split; [|exact C0].
    destruct (Rle_lt_or_eq_dec 0 z Z1) as [h|h]; [exact h|]. exfalso. subst z. unfold cubic in C0. simpl in C0. nra.
Qed.

Lemma filter_pos_cons l x xs : filter (fun r => Rltb 0 r) l = x :: xs -> In x l /\ 0 < x.
Proof.
  intros E. assert (I : In x (filter (fun r => Rltb 0 r) l)) by (rewrite E; left; reflexivity).
  apply filter_In in I. destruct I as [I J]. apply Rltb_true in J. auto.
Qed.
Lemma filter_pos_nil l : (forall x, In x l -> x <= 0) -> filter (fun r => Rltb 0 r) l = nil.
Proof.
  induction l as [|a l IH]; simpl; intros H; auto. replace (Rltb 0 a) with false by (symmetry; apply Rltb_false; apply H; auto).
  apply IH. intros; apply H; auto.
Qed.

Lemma inverse_ok g rs rt : -5 < g -> g < -1 -> 1e-14 <= g + 5 -> 0 < rs -> 0 < rt ->
  exists r, log_derivative_inverse g rs rt = Ok r /\ 0 < r /\ log_profile_slope r rs rt = g.
Proof.
  intros G1 G2 G3 Hs Ht. unfold log_derivative_inverse.
  assert (T : 0 < rt / rs) by (apply Rdiv_lt_0_compat; assumption). set (t := rt / rs) in *.
  assert (HA : 1e-14 <= Rabs (- g - 5)) by (rewrite Rabs_left by lra; lra).
  pose proof (roots_cubic (- g - 5) (- g - 5 + 2) ((- g - 5 + 2) * t ^ 2) ((- g - 5 + 4) * t ^ 2) HA) as Z.
  set (l := cubic_real_roots _ _ _ _) in *.
  destruct (filter (fun r => Rltb 0 r) l) as [|x xs] eqn:E.
  - exfalso. destruct (positive_root (- g - 5) t) as (x & X1 & X2); try lra.
    apply Z in X2. assert (I : In x (filter (fun r => Rltb 0 r) l)) by (apply filter_In; split; [exact X2|apply Rltb_true; exact X1]).
    rewrite E in I. destruct I.
  - apply filter_pos_cons in E. destruct E as [I J]. apply Z in I.
    exists (x * rs). split; [reflexivity|]. split; [nra|]. rewrite slope_unfold. fold t.
    replace (x * rs / rs) with x by (field; lra). apply (slope_zero x t g T); [lra|exact I].
Qed.

Lemma inverse_unique g rs rt r r' : 0 < rs -> 0 < rt -> 0 < r -> 0 < r' ->
  log_profile_slope r rs rt = g -> log_profile_slope r' rs rt = g -> r = r'.
Proof.
  intros Hs Ht Hr Hr' E E'. rewrite slope_unfold in E, E'.
  assert (T : 0 < rt / rs) by (apply Rdiv_lt_0_compat; assumption).
  assert (X : 0 < r / rs) by (apply Rdiv_lt_0_compat; assumption).
  assert (X' : 0 < r' / rs) by (apply Rdiv_lt_0_compat; assumption).
  assert (Q : r / rs = r' / rs).
  { destruct (Rtotal_order (r / rs) (r' / rs)) as [h|[h|h]]; auto; exfalso.
    - pose proof (slope_x_decr _ _ _ T (Rlt_le _ _ X) h). lra.
    - pose proof (slope_x_decr _ _ _ T (Rlt_le _ _ X') h). lra. }
  apply Rmult_eq_reg_r with (/ rs); [exact Q|]. apply Rinv_neq_0_compat; lra.
Qed.

(** outside the open interval, and inside the degeneracy guard, there is nothing to return *)
Lemma inverse_fails g rs rt : 0 < rs -> 0 < rt -> (g + 5 < 1e-14 \/ -1 <= g) ->
  log_derivative_inverse g rs rt = Err EIndexError.
Proof.
  intros Hs Ht G. unfold log_derivative_inverse.
  assert (T : 0 < rt / rs) by (apply Rdiv_lt_0_compat; assumption). set (t := rt / rs) in *.
  pose proof (sq_pos t T) as T2.
  rewrite filter_pos_nil; [reflexivity|]. intros x Hx. apply Rnot_lt_le. intros X.
  destruct (Rlt_le_dec (Rabs (- g - 5)) 1e-14) as [h|h].
  - assert (B : -1e-14 < - g - 5 < 1e-14) by (apply Rabs_def2 in h; lra).
    apply roots_quadratic in Hx; [|exact h|rewrite Rabs_right; lra].
    assert (0 < (- g - 5 + 2) * x ^ 2) by (apply Rmult_lt_0_compat; [lra|apply sq_pos; exact X]).
    assert (0 < (- g - 5 + 2) * t ^ 2 * x) by (apply Rmult_lt_0_compat; [apply Rmult_lt_0_compat; lra|exact X]).
    assert (0 < (- g - 5 + 4) * t ^ 2) by (apply Rmult_lt_0_compat; lra). lra.
  - apply roots_cubic in Hx; [|exact h]. apply slope_zero in Hx; [|exact T|lra].
    pose proof (slope_x_bounds x t T X) as SB. destruct G as [G|G]; [|lra].
    destruct (Rle_lt_dec g (-5)) as [h'|h']; [lra|]. rewrite Rabs_left in h by lra. lra.
Qed.

(** ** Mass fraction *)
Definition nu (tau x : R) : R := x * tau ^ 2 / ((1 + x) ^ 2 * (x ^ 2 + tau ^ 2)).
Definition nu0 (x : R) : R := x / (1 + x) ^ 2.
Definition Func (tau x : R) : R :=
  (tau ^ 2 * (-2 * x * (1 + tau ^ 2) + 4 * (1 + x) * tau * atan (x / tau)
     + 2 * (1 + x) * (-1 + tau ^ 2) * ln (1 + x) + 2 * (1 + x) * (-1 + tau ^ 2) * ln tau
     - (1 + x) * (-1 + tau ^ 2) * ln (x ^ 2 + tau ^ 2))) / (2 * (1 + x) * (1 + tau ^ 2) ^ 2).

Lemma nu_denom tau x : 0 < tau -> 0 <= x -> 0 < (1 + x) ^ 2 * (x ^ 2 + tau ^ 2).
Proof.
  intros Ht Hx. apply Rmult_lt_0_compat; [apply sq_pos; lra|]. pose proof (sq_pos tau Ht). pose proof (pow2_ge_0 x). lra.
Qed.

Lemma Func_derive tau x : 0 < tau -> 0 <= x -> is_derive (Func tau) x (nu tau x).
Proof.
  intros Ht Hx. unfold Func, nu. pose proof (sq_pos tau Ht) as T2. pose proof (pow2_ge_0 x) as X2.
  auto_derive.
  - repeat split; try lra. apply Rmult_integral_contrapositive; split; [|simpl in *; nra]. simpl. lra.
  - simpl in *. field. repeat split; try nra.
Qed.
Lemma Func_0 tau : 0 < tau -> Func tau 0 = 0.
Proof.
  intros Ht. unfold Func. replace (0 / tau) with 0 by (field; lra). rewrite atan_0.
  replace (1 + 0) with 1 by ring. rewrite ln_1. replace (0 ^ 2 + tau ^ 2) with (tau * tau) by ring.
  rewrite ln_mult by assumption. pose proof (sq_pos tau Ht). unfold Rdiv. simpl. ring.
Qed.
Lemma nu_cont tau x : 0 < tau -> 0 <= x -> continuous (nu tau) x.
Proof.
  intros Ht Hx. apply (ex_derive_continuous (nu tau) x). unfold nu. auto_derive. pose proof (nu_denom tau x Ht Hx).
  simpl in *. lra.
Qed.
Lemma nu0_cont x : 0 <= x -> continuous nu0 x.
Proof. intros Hx. apply (ex_derive_continuous nu0 x). unfold nu0. auto_derive. nra. Qed.
Definition Func0 (x : R) : R := ln (1 + x) - x / (1 + x).
Lemma Func0_derive x : 0 <= x -> is_derive Func0 x (nu0 x).
Proof. intros Hx. unfold Func0, nu0. auto_derive; [lra|]. simpl. field. lra. Qed.
Lemma Func0_0 : Func0 0 = 0.
Proof. unfold Func0. replace (1 + 0) with 1 by ring. rewrite ln_1. field. Qed.

Lemma seg0 c x : 0 <= c -> Rmin 0 c <= x <= Rmax 0 c -> 0 <= x.
Proof. intros Hc. rewrite Rmin_left by assumption. tauto. Qed.

Lemma nu_int tau c : 0 < tau -> 0 <= c -> is_RInt (nu tau) 0 c (Func tau c).
Proof.
  intros Ht Hc. replace (Func tau c) with (minus (Func tau c) (Func tau 0))
    by (rewrite Func_0 by assumption; unfold minus, plus, opp; simpl; ring).
  apply (is_RInt_derive (Func tau)).
  - intros x Hx. apply Func_derive; [assumption|eapply seg0; eassumption].
  - intros x Hx. apply nu_cont; [assumption|eapply seg0; eassumption].
Qed.
Lemma nu0_int c : 0 <= c -> is_RInt nu0 0 c (Func0 c).
Proof.
  intros Hc. replace (Func0 c) with (minus (Func0 c) (Func0 0))
    by (rewrite Func0_0; unfold minus, plus, opp; simpl; ring).
  apply (is_RInt_derive Func0).
  - intros x Hx. apply Func0_derive. eapply seg0; eassumption.
  - intros x Hx. apply nu0_cont. eapply seg0; eassumption.
Qed.

Lemma frac_unfold tau c : 0 < tau -> 0 < c -> tnfw_mass_fraction tau c = Func tau c / Func0 c.
Proof.
  intros Ht Hc. unfold tnfw_mass_fraction, Func, Func0. cbv zeta. rewrite !Rmult_1_r, ln_1, !Rmult_1_l.
  replace (1 ^ 2) with 1 by ring. rewrite !Rmult_1_l. f_equal. f_equal. f_equal. ring.
Qed.

(** physical radii *)
Lemma sphere_gen (rho g : R -> R) G k rs c : 0 < rs -> 0 <= c ->
  (forall r, 0 <= r -> 4 * PI * r ^ 2 * rho r = k * rs ^ 2 * g (r / rs)) ->
  (forall x, 0 <= x -> is_derive G x (g x)) -> (forall x, 0 <= x -> continuous g x) -> G 0 = 0 ->
  ex_RInt (fun r => 4 * PI * r ^ 2 * rho r) 0 (c * rs) /\ sphere_mass rho (c * rs) = k * rs ^ 3 * G c.
Proof.
  intros Hs Hc E D C G0.
  assert (Hcr : 0 <= c * rs) by (apply Rmult_le_pos; lra).
  assert (dom : forall r, Rmin 0 (c * rs) <= r <= Rmax 0 (c * rs) -> 0 <= r / rs).
  { intros r Hr. apply seg0 in Hr; [|assumption]. apply Rmult_le_pos; [assumption|]. left. apply Rinv_0_lt_compat; assumption. }
  assert (I : is_RInt (fun r => k * rs ^ 2 * g (r / rs)) 0 (c * rs) (k * rs ^ 3 * G c)).
  { replace (k * rs ^ 3 * G c) with (minus ((fun r => k * rs ^ 3 * G (r / rs)) (c * rs)) ((fun r => k * rs ^ 3 * G (r / rs)) 0)).
    - apply (is_RInt_derive (fun r => k * rs ^ 3 * G (r / rs))).
      + intros r Hr. pose proof (D _ (dom r Hr)) as Dr.
        assert (De : ex_derive G (r / rs)) by (eexists; exact Dr).
        auto_derive; [repeat split; exact De|]. fold (r / rs). change (fun x : R => G x) with G. rewrite (is_derive_unique G _ _ Dr). field. lra.
      + intros r Hr. apply (continuous_scal_r (k * rs ^ 2) (fun r => g (r / rs))).
        apply (continuous_comp (fun r => r / rs) g); [|apply C, dom, Hr].
        apply (ex_derive_continuous (fun r => r / rs) r). auto_derive. exact I.
    - unfold minus, plus, opp. simpl. replace (c * rs / rs) with c by (field; lra). replace (0 / rs) with 0 by (field; lra).
      rewrite G0. ring. }
  assert (I2 : is_RInt (fun r => 4 * PI * r ^ 2 * rho r) 0 (c * rs) (k * rs ^ 3 * G c)).
  { eapply is_RInt_ext; [|exact I]. intros r Hr. rewrite Rmin_left, Rmax_right in Hr by assumption. simpl. symmetry. apply E. lra. }
  split; [eexists; exact I2|]. apply is_RInt_unique. exact I2.
Qed.

Lemma rho_tnfw_nu rhos rs rt r : 0 < rs -> 0 < rt -> 0 <= r ->
  4 * PI * r ^ 2 * rho_tnfw rhos rs rt r = 4 * PI * rhos * rs ^ 2 * nu (rt / rs) (r / rs).
Proof.
  intros Hs Ht Hr. unfold rho_tnfw, nu. destruct (Req_dec r 0) as [->|N].
  - replace (0 / rs) with 0 by (field; lra). unfold Rdiv. ring.
  - assert (0 < r) by lra. pose proof (sq_pos r H). pose proof (sq_pos rt Ht). pose proof (sq_pos rs Hs).
    field. repeat split; try lra; simpl in *; nra.
Qed.
Lemma rho_nfw_nu rhos rs r : 0 < rs -> 0 <= r ->
  4 * PI * r ^ 2 * rho_nfw rhos rs r = 4 * PI * rhos * rs ^ 2 * nu0 (r / rs).
Proof.
  intros Hs Hr. unfold rho_nfw, nu0. destruct (Req_dec r 0) as [->|N].
  - replace (0 / rs) with 0 by (field; lra). unfold Rdiv. ring.
  - field. repeat split; lra.
Qed.
Lemma tnfw_mass rhos rs rt c : 0 < rs -> 0 < rt -> 0 <= c ->
  ex_RInt (fun r => 4 * PI * r ^ 2 * rho_tnfw rhos rs rt r) 0 (c * rs) /\
  sphere_mass (rho_tnfw rhos rs rt) (c * rs) = 4 * PI * rhos * rs ^ 3 * Func (rt / rs) c.
Proof.
  intros Hs Ht Hc. assert (T : 0 < rt / rs) by (apply Rdiv_lt_0_compat; assumption).
  apply (sphere_gen _ (nu (rt / rs))); auto.
  - intros r Hr. apply rho_tnfw_nu; assumption.
  - intros x Hx. apply Func_derive; assumption.
  - intros x Hx. apply nu_cont; assumption.
  - apply Func_0; assumption.
Qed.
Lemma nfw_mass rhos rs c : 0 < rs -> 0 <= c ->
  ex_RInt (fun r => 4 * PI * r ^ 2 * rho_nfw rhos rs r) 0 (c * rs) /\
  sphere_mass (rho_nfw rhos rs) (c * rs) = 4 * PI * rhos * rs ^ 3 * Func0 c.
Proof.
  intros Hs Hc. apply (sphere_gen _ nu0); auto.
  - intros r Hr. apply rho_nfw_nu; assumption.
  - intros x Hx. apply Func0_derive; assumption.
  - intros x Hx. apply nu0_cont; assumption.
  - apply Func0_0.
Qed.

(** order *)
Lemma RInt_of (f : R -> R) a b (v : R) : is_RInt f a b v -> RInt f a b = v.
Proof. intros X. exact (is_RInt_unique (V := R_CompleteNormedModule) f a b v X). Qed.
Lemma Func_pos tau c : 0 < tau -> 0 < c -> 0 < Func tau c.
Proof.
  intros Ht Hc. rewrite <- (RInt_of _ _ _ _ (nu_int tau c Ht (Rlt_le _ _ Hc))).
  apply RInt_gt_0; [assumption| |].
  - intros x Hx. unfold nu. apply Rdiv_lt_0_compat; [apply Rmult_lt_0_compat; [lra|apply sq_pos; assumption]|].
    apply nu_denom; lra.
  - intros x Hx. apply nu_cont; lra.
Qed.
Lemma Func0_pos c : 0 < c -> 0 < Func0 c.
Proof.
  intros Hc. rewrite <- (RInt_of _ _ _ _ (nu0_int c (Rlt_le _ _ Hc))). apply RInt_gt_0; [assumption| |].
  - intros x Hx. unfold nu0. apply Rdiv_lt_0_compat; [lra|apply sq_pos; lra].
  - intros x Hx. apply nu0_cont; lra.
Qed.
Lemma RInt_lt' (f g : R -> R) (a b : R) : a < b -> (forall x, a <= x <= b -> continuous f x) -> (forall x, a <= x <= b -> continuous g x) ->
  (forall x, a < x < b -> f x < g x) -> RInt f a b < RInt g a b.
Proof. intros L Cf Cg H. apply RInt_lt; assumption. Qed.
Lemma Func_lt c tau tau' : 0 < c -> 0 < tau -> tau < tau' -> Func tau c < Func tau' c.
Proof.
  intros Hc Ht Ht'. rewrite <- (RInt_of _ _ _ _ (nu_int tau c Ht (Rlt_le _ _ Hc))).
  assert (Ht2 : 0 < tau') by lra. rewrite <- (RInt_of _ _ _ _ (nu_int tau' c Ht2 (Rlt_le _ _ Hc))).
  apply RInt_lt'; [assumption| | |].
  - intros x Hx; apply nu_cont; lra.
  - intros x Hx; apply nu_cont; lra.
  - intros x Hx. unfold nu.
    assert (X2 : 0 < x ^ 2) by (apply sq_pos; lra). pose proof (sq_pos tau Ht) as A. pose proof (sq_pos tau' Ht2) as B.
    assert (AB : tau ^ 2 < tau' ^ 2) by (simpl; nra).
    assert (P : 0 < (1 + x) ^ 2) by (apply sq_pos; lra).
    replace (x * tau ^ 2 / ((1 + x) ^ 2 * (x ^ 2 + tau ^ 2))) with (x / (1 + x) ^ 2 * (1 - x ^ 2 / (x ^ 2 + tau ^ 2)))
      by (field; split; [lra|simpl in *; lra]).
    replace (x * tau' ^ 2 / ((1 + x) ^ 2 * (x ^ 2 + tau' ^ 2))) with (x / (1 + x) ^ 2 * (1 - x ^ 2 / (x ^ 2 + tau' ^ 2)))
      by (field; split; [lra|simpl in *; lra]).
    apply Rmult_lt_compat_l; [apply Rdiv_lt_0_compat; lra|].
    assert (x ^ 2 / (x ^ 2 + tau' ^ 2) < x ^ 2 / (x ^ 2 + tau ^ 2)).
    { unfold Rdiv. apply Rmult_lt_compat_l; [assumption|]. apply Rinv_lt_contravar; [apply Rmult_lt_0_compat; lra|lra]. }
    lra.
Qed.
Lemma Func_lt0 c tau : 0 < c -> 0 < tau -> Func tau c < Func0 c.
Proof.
  intros Hc Ht. rewrite <- (RInt_of _ _ _ _ (nu_int tau c Ht (Rlt_le _ _ Hc))).
  rewrite <- (RInt_of _ _ _ _ (nu0_int c (Rlt_le _ _ Hc))).
  apply RInt_lt'; [assumption| | |].
  - intros x Hx; apply nu_cont; lra.
  - intros x Hx; apply nu0_cont; lra.
  - intros x Hx. unfold nu, nu0.
    assert (X2 : 0 < x ^ 2) by (apply sq_pos; lra). pose proof (sq_pos tau Ht) as A.
    assert (P : 0 < (1 + x) ^ 2) by (apply sq_pos; lra).
    replace (x * tau ^ 2 / ((1 + x) ^ 2 * (x ^ 2 + tau ^ 2))) with (x / (1 + x) ^ 2 * (1 - x ^ 2 / (x ^ 2 + tau ^ 2)))
      by (field; split; [lra|simpl in *; lra]).
    rewrite <- (Rmult_1_r (x / (1 + x) ^ 2)) at 2.
    apply Rmult_lt_compat_l; [apply Rdiv_lt_0_compat; lra|].
    assert (0 < x ^ 2 / (x ^ 2 + tau ^ 2)) by (apply Rdiv_lt_0_compat; lra). lra.
Qed.

Lemma slope_onto g rs rt : -5 < g < -1 -> 0 < rs -> 0 < rt -> exists r, 0 < r /\ log_profile_slope r rs rt = g.
Proof.
  intros G Hs Ht. assert (T : 0 < rt / rs) by (apply Rdiv_lt_0_compat; assumption).
  destruct (positive_root (- g - 5) (rt / rs)) as (x & X1 & X2); try lra.
  exists (x * rs). split; [nra|]. rewrite slope_unfold. replace (x * rs / rs) with x by (field; lra).
  apply slope_zero; lra || exact X2 || auto.
Qed.
Lemma slope_decr r r' rs rt : 0 < rs -> 0 < rt -> 0 < r -> r < r' -> log_profile_slope r' rs rt < log_profile_slope r rs rt.
Proof.
  intros Hs Ht Hr L. rewrite !slope_unfold. apply slope_x_decr.
  - apply Rdiv_lt_0_compat; assumption.
  - left. apply Rdiv_lt_0_compat; assumption.
  - unfold Rdiv. apply Rmult_lt_compat_r; [apply Rinv_0_lt_compat; assumption|exact L].
Qed.
Lemma slope_limits rs rt eps : 0 < rs -> 0 < rt -> 0 < eps ->
  (exists d, 0 < d /\ forall r, 0 < r < d -> Rabs (log_profile_slope r rs rt - -1) < eps) /\
  (exists m, forall r, m < r -> Rabs (log_profile_slope r rs rt - -5) < eps).
Proof.
  intros Hs Ht He.
  assert (B : forall r, 0 < r -> -5 < log_profile_slope r rs rt < -1).
  { intros r Hr. rewrite slope_unfold. apply slope_x_bounds; apply Rdiv_lt_0_compat; assumption. }
  assert (M : 0 < Rmin eps 3 /\ Rmin eps 3 <= eps /\ Rmin eps 3 <= 3).
  { split; [apply Rmin_glb_lt; lra|]. split; [apply Rmin_l|apply Rmin_r]. }
  split.
  - destruct (slope_onto (-1 - Rmin eps 3) rs rt) as (d & D1 & D2); try lra.
    exists d. split; [exact D1|]. intros r [R1 R2]. pose proof (slope_decr r d rs rt Hs Ht R1 R2). pose proof (B r R1).
    rewrite Rabs_left by lra. lra.
  - destruct (slope_onto (-5 + Rmin eps 3) rs rt) as (d & D1 & D2); try lra.
    exists d. intros r R1. pose proof (slope_decr d r rs rt Hs Ht D1 R1).
    assert (R0 : 0 < r) by lra. pose proof (B r R0). rewrite Rabs_right by lra. lra.
Qed.
