From Verif Require Import Prelude TnfwModel TnfwSpec.
From Coq Require Import Lra Psatz.
Import ListNotations.
Open Scope list_scope.
Open Scope R_scope.

(** ** Cubic equations *)
Lemma pow2_gt_0 x : x <> 0 -> 0 < x ^ 2.
Proof. intros; simpl; nra. Qed.
Lemma cbrt_cube x : np_cbrt x ^ 3 = x.
Proof.
  unfold np_cbrt, Rltb. destruct (Rlt_dec 0 x) as [h|h].
  - rewrite <- Rpower_pow by (unfold Rpower; apply exp_pos). rewrite Rpower_mult.
    replace (/ 3 * INR 3) with 1 by (simpl; lra). apply Rpower_1; assumption.
  - destruct (Rlt_dec x 0) as [h'|h'].
    + replace ((- Rpower (- x) (/ 3)) ^ 3) with (- (Rpower (- x) (/ 3)) ^ 3) by ring.
      rewrite <- Rpower_pow by (unfold Rpower; apply exp_pos). rewrite Rpower_mult.
      replace (/ 3 * INR 3) with 1 by (simpl; lra). rewrite Rpower_1 by lra. ring.
    + assert (x = 0) by lra. subst. ring.
Qed.
Lemma cube_inj x y : x ^ 3 = y ^ 3 -> x = y.
Proof.
  intros E. assert (F : (x - y) * (x ^ 2 + x * y + y ^ 2) = 0) by (replace ((x - y) * (x ^ 2 + x * y + y ^ 2)) with (x ^ 3 - y ^ 3) by ring; lra).
  apply Rmult_integral in F. destruct F as [F|F]; [lra|].
  destruct (Req_dec x y) as [h|h]; [exact h|exfalso].
  assert (0 < (x - y) ^ 2) by (apply pow2_gt_0; lra). assert (0 <= (x + y) ^ 2) by apply pow2_ge_0. nra.
Qed.

Definition cubic (a b c d x : R) : R := a * x ^ 3 + b * x ^ 2 + c * x + d.

(** depressed cubic *)
Lemma depress b c d t : let p := c - b * b / 3 in let q := 2 * b ^ 3 / 27 - b * c / 3 + d in
  cubic 1 b c d (t + - b / 3) = t ^ 3 + p * t + q.
Proof. unfold cubic. simpl. field. Qed.

Lemma cardano_one p q : 0 < (q / 2) ^ 2 + (p / 3) ^ 3 ->
  let s := sqrt ((q / 2) ^ 2 + (p / 3) ^ 3) in
  let t := np_cbrt (- q / 2 + s) + np_cbrt (- q / 2 - s) in
  forall x, x ^ 3 + p * x + q = 0 <-> x = t.
Proof.
  intros D s t. set (u := np_cbrt (- q / 2 + s)) in *. set (v := np_cbrt (- q / 2 - s)) in *.
  assert (S2 : s * s = (q / 2) ^ 2 + (p / 3) ^ 3) by (apply sqrt_sqrt; lra).
  assert (Sp : 0 < s) by (apply sqrt_lt_R0; exact D).
  assert (U : u ^ 3 = - q / 2 + s) by apply cbrt_cube.
  assert (V : v ^ 3 = - q / 2 - s) by apply cbrt_cube.
  assert (UV : u * v = - p / 3).
  { apply cube_inj. replace ((u * v) ^ 3) with (u ^ 3 * v ^ 3) by ring. rewrite U, V.
    replace ((- q / 2 + s) * (- q / 2 - s)) with ((q / 2) ^ 2 - s * s) by field. rewrite S2. field. }
  assert (NE : u <> v) by (intros X; rewrite X in U; lra).
  assert (P : p = - 3 * (u * v)) by (rewrite UV; field).
  assert (Q : q = - (u ^ 3 + v ^ 3)) by (rewrite U, V; field).
  intros x.
  assert (F : x ^ 3 + p * x + q = (x - (u + v)) * (x ^ 2 + (u + v) * x + (u ^ 2 - u * v + v ^ 2))).
  { rewrite P, Q. ring. }
  assert (G : 0 < x ^ 2 + (u + v) * x + (u ^ 2 - u * v + v ^ 2)).
  { assert (0 < (u - v) ^ 2) by (apply pow2_gt_0; lra). assert (0 <= (x + (u + v) / 2) ^ 2) by apply pow2_ge_0.
    replace (x ^ 2 + (u + v) * x + (u ^ 2 - u * v + v ^ 2)) with ((x + (u + v) / 2) ^ 2 + 3 / 4 * (u - v) ^ 2) by field. lra. }
  rewrite F. unfold t. split; intros X; [|subst x; ring].
  apply Rmult_integral in X. destruct X as [X|X]; lra.
Qed.

Lemma cos_3 a : cos (3 * a) = 4 * cos a ^ 3 - 3 * cos a.
Proof.
  replace (3 * a) with (2 * a + a) by ring. rewrite cos_plus, cos_2a, sin_2a.
  pose proof (sin2_cos2 a) as H. unfold Rsqr in H.
  replace ((cos a * cos a - sin a * sin a) * cos a - 2 * sin a * cos a * sin a)
    with (cos a * (cos a * cos a - 3 * (sin a * sin a))) by ring.
  replace (sin a * sin a) with (1 - cos a * cos a) by lra. ring.
Qed.
Lemma cos_2pi3 : cos (2 * PI / 3) = - / 2.
Proof. replace (2 * PI / 3) with (2 * (PI / 3)) by field. apply cos_2PI3 || (rewrite cos_2a_cos, cos_PI3; field). Qed.
Lemma sin_2pi3_sq : sin (2 * PI / 3) ^ 2 = 3 / 4.
Proof. pose proof (sin2_cos2 (2 * PI / 3)) as H. rewrite cos_2pi3 in H. unfold Rsqr in H. simpl. lra. Qed.
(** the three angles *)
Lemma three_cos a x : let C k := cos ((a + 2 * PI * k) / 3) in
  (x - C 0) * (x - C 1) * (x - C 2) = x ^ 3 - 3 / 4 * x - cos a / 4.
Proof.
  intros C. set (t := a / 3).
  assert (C0 : C 0 = cos t) by (unfold C, t; f_equal; field).
  set (w := 2 * PI / 3).
  assert (C1 : C 1 = cos t * (- / 2) - sin t * sin w).
  { unfold C. replace ((a + 2 * PI * 1) / 3) with (t + w) by (unfold t, w; field). rewrite cos_plus. unfold w at 1. rewrite cos_2pi3. reflexivity. }
  assert (C2 : C 2 = cos t * (- / 2) + sin t * sin w).
  { unfold C. replace ((a + 2 * PI * 2) / 3) with (t - w + 2 * PI) by (unfold t, w; field).
    rewrite cos_plus, cos_2PI, sin_2PI, cos_minus. unfold w at 1. rewrite cos_2pi3. ring. }
  assert (S : sin w ^ 2 = 3 / 4) by apply sin_2pi3_sq.
  assert (A : cos a = 4 * cos t ^ 3 - 3 * cos t) by (rewrite <- cos_3; f_equal; unfold t; field).
  assert (T : sin t ^ 2 = 1 - cos t ^ 2) by (pose proof (sin2_cos2 t) as H; unfold Rsqr in H; simpl; lra).
  rewrite C0, C1, C2, A.
  replace ((x - cos t) * (x - (cos t * - / 2 - sin t * sin w)) * (x - (cos t * - / 2 + sin t * sin w)))
    with ((x - cos t) * ((x + cos t / 2) ^ 2 - sin t ^ 2 * sin w ^ 2)) by field.
  rewrite S, T. field.
Qed.

Lemma trig_three p q : p < 0 -> (q / 2) ^ 2 + (p / 3) ^ 3 <= 0 ->
  let r := sqrt (- (p / 3)) in
  let phi := acos (Rmax (-1) (Rmin 1 ((- q / 2) / r ^ 3))) in
  0 < r /\ forall x, x ^ 3 + p * x + q =
    (x - 2 * r * cos ((phi + 2 * PI * 0) / 3)) * (x - 2 * r * cos ((phi + 2 * PI * 1) / 3)) *
    (x - 2 * r * cos ((phi + 2 * PI * 2) / 3)).
Proof.
  intros P D r phi.
  assert (R0 : 0 < r) by (apply sqrt_lt_R0; lra).
  assert (R2 : r ^ 2 = - (p / 3)) by (simpl; rewrite Rmult_1_r; apply sqrt_sqrt; lra).
  assert (R3 : 0 < r ^ 3) by (apply pow_lt; exact R0).
  assert (R6 : (r ^ 3) ^ 2 = - (p / 3) ^ 3).
  { replace ((r ^ 3) ^ 2) with ((r ^ 2) ^ 3) by ring. rewrite R2. ring. }
  assert (B : -1 <= (- q / 2) / r ^ 3 <= 1).
  { assert (- r ^ 3 <= - q / 2 <= r ^ 3).
    { assert ((- q / 2) ^ 2 <= (r ^ 3) ^ 2) by (rewrite R6; replace ((- q / 2) ^ 2) with ((q / 2) ^ 2) by field; lra).
      split; nra. }
    split; apply Rmult_le_reg_r with (r ^ 3); try assumption; unfold Rdiv; rewrite Rmult_assoc, Rinv_l; lra. }
  assert (CP : cos phi = (- q / 2) / r ^ 3).
  { unfold phi. rewrite Rmin_right, Rmax_right by lra. apply cos_acos. exact B. }
  split; [exact R0|]. intros x.
  pose proof (three_cos phi (x / (2 * r))) as T. cbv zeta in T.
  set (c0 := cos ((phi + 2 * PI * 0) / 3)) in *. set (c1 := cos ((phi + 2 * PI * 1) / 3)) in *. set (c2 := cos ((phi + 2 * PI * 2) / 3)) in *.
  replace ((x - 2 * r * c0) * (x - 2 * r * c1) * (x - 2 * r * c2))
    with (8 * r ^ 3 * ((x / (2 * r) - c0) * (x / (2 * r) - c1) * (x / (2 * r) - c2))) by (field; lra).
  rewrite T, CP. replace p with (- 3 * r ^ 2) by (rewrite R2; field). field. lra.
Qed.

Lemma quad_roots b c d : b <> 0 ->
  let disc := c * c - 4 * b * d in
  (disc < 0 -> forall x, b * x ^ 2 + c * x + d <> 0) /\
  (0 <= disc -> forall x, b * x ^ 2 + c * x + d = 0 <-> x = (- c + sqrt disc) / (2 * b) \/ x = (- c - sqrt disc) / (2 * b)).
Proof.
  intros B disc.
  assert (I : forall x, 4 * b * (b * x ^ 2 + c * x + d) = (2 * b * x + c) ^ 2 - disc) by (intros; unfold disc; ring).
  split.
  - intros D x X. specialize (I x). rewrite X in I. assert (0 <= (2 * b * x + c) ^ 2) by apply pow2_ge_0. lra.
  - intros D x. set (s := sqrt disc). assert (S : s * s = disc) by (apply sqrt_sqrt; exact D).
    specialize (I x). rewrite <- S in I.
    replace ((2 * b * x + c) ^ 2 - s * s) with ((2 * b * x + c - s) * (2 * b * x + c + s)) in I by ring.
    split.
    + intros X. rewrite X, Rmult_0_r in I. symmetry in I. apply Rmult_integral in I.
      destruct I as [I|I]; [left|right]; apply Rmult_eq_reg_l with (2 * b); try lra; field_simplify; lra.
    + intros X. assert (Z : 4 * b * (b * x ^ 2 + c * x + d) = 0).
      { rewrite I. destruct X as [->| ->]; field; exact B. }
      apply Rmult_integral in Z. destruct Z as [Z|Z]; [exfalso; lra|exact Z].
Qed.

Lemma cubic_scale a b c d x : a <> 0 -> cubic a b c d x = a * cubic 1 (b / a) (c / a) (d / a) x.
Proof. intros; unfold cubic; field; assumption. Qed.

Lemma monic_roots b c d :
  let p := c - b * b / 3 in
  let q := 2 * b ^ 3 / 27 - b * c / 3 + d in
  let off := - b / 3 in
  let disc := (q / 2) ^ 2 + (p / 3) ^ 3 in
  zeros_of (cubic 1 b c d)
   (if Rltb 0 disc then
      [np_cbrt (- q / 2 + sqrt disc) + np_cbrt (- q / 2 - sqrt disc) + off]
    else
      let r := if Rltb p 0 then sqrt (- (p / 3)) else 0 in
      if Reqb r 0 then [off; off; off]
      else
        let phi := acos (Rmax (-1) (Rmin 1 ((- q / 2) / r ^ 3))) in
        map (fun k => 2 * r * cos ((phi + 2 * PI * k) / 3) + off) [0; 1; 2]).
Proof.
  intros p q off disc x.
  pose proof (depress b c d (x - off)) as Dp. cbv zeta in Dp. fold p q in Dp.
  replace (x - off + - b / 3) with x in Dp by (unfold off; field). rewrite Dp.
  destruct (Rltb 0 disc) eqn:E1.
  - apply Rltb_true in E1. simpl. rewrite (cardano_one p q E1 (x - off)). fold disc. lra.
  - apply Rltb_false in E1. destruct (Rltb p 0) eqn:E2.
    + apply Rltb_true in E2. destruct (trig_three p q E2 E1) as [R0 T]. cbv zeta in T |- *.
      destruct (Reqb (sqrt (- (p / 3))) 0) eqn:E3; [apply Reqb_true in E3; lra|]. clear E3.
      rewrite T. simpl. split.
      * intros [X|[X|[X|[]]]]; rewrite <- X; ring.
      * intros X. apply Rmult_integral in X. destruct X as [X|X]; [apply Rmult_integral in X; destruct X as [X|X]|]; lra.
    + apply Rltb_false in E2. cbv zeta. rewrite Reqb_refl.
      assert (P0 : p = 0 /\ q = 0).
      { unfold disc in E1. assert (0 <= (q / 2) ^ 2) by apply pow2_ge_0.
        assert (Z : (p / 3) ^ 3 <= 0) by lra.
        assert (p = 0) by (destruct (Req_dec p 0); auto; exfalso; assert (0 < (p / 3) ^ 3) by (apply pow_lt; lra); lra).
        split; auto. subst p. rewrite H0 in E1. assert ((q / 2) ^ 2 = 0) by (simpl in *; lra).
        assert (q / 2 = 0) by nra. lra. }
      destruct P0 as [P0 Q0]. rewrite P0, Q0. simpl. split.
      * intros [X|[X|[X|[]]]]; rewrite <- X; ring.
      * intros X. left. assert (Y : (x - off) ^ 3 = 0 ^ 3) by (simpl in *; lra). apply cube_inj in Y. lra.
Qed.

Lemma roots_cubic a b c d : 1e-14 <= Rabs a -> zeros_of (cubic a b c d) (cubic_real_roots a b c d).
Proof.
  intros Ha. assert (a <> 0) by (intros ->; rewrite Rabs_R0 in Ha; lra).
  unfold cubic_real_roots. replace (Rltb (Rabs a) 1e-14) with false by (symmetry; apply Rltb_false; exact Ha).
  intros x. rewrite cubic_scale by assumption. rewrite (monic_roots (b / a) (c / a) (d / a) x).
  split; intros X; [rewrite X; ring|]. apply Rmult_integral in X. destruct X; [contradiction|assumption].
Qed.
Lemma roots_quadratic a b c d : Rabs a < 1e-14 -> 1e-14 <= Rabs b ->
  zeros_of (fun x => b * x ^ 2 + c * x + d) (cubic_real_roots a b c d).
Proof.
  intros Ha Hb. assert (B : b <> 0) by (intros ->; rewrite Rabs_R0 in Hb; lra).
  unfold cubic_real_roots. replace (Rltb (Rabs a) 1e-14) with true by (symmetry; apply Rltb_true; exact Ha).
  replace (Rltb (Rabs b) 1e-14) with false by (symmetry; apply Rltb_false; exact Hb).
  destruct (quad_roots b c d B) as [Q1 Q2]. cbv zeta in *. intros x.
  destruct (Rltb (c * c - 4 * b * d) 0) eqn:E.
  - apply Rltb_true in E. simpl. split; [tauto|]. intros X. exact (Q1 E x X).
  - apply Rltb_false in E. rewrite (Q2 E x). simpl. intuition congruence.
Qed.
Lemma roots_linear a b c d : Rabs a < 1e-14 -> Rabs b < 1e-14 -> 1e-14 <= Rabs c ->
  zeros_of (fun x => c * x + d) (cubic_real_roots a b c d).
Proof.
  intros Ha Hb Hc. assert (c <> 0) by (intros ->; rewrite Rabs_R0 in Hc; lra).
  unfold cubic_real_roots. replace (Rltb (Rabs a) 1e-14) with true by (symmetry; apply Rltb_true; exact Ha).
  replace (Rltb (Rabs b) 1e-14) with true by (symmetry; apply Rltb_true; exact Hb).
  replace (Rltb (Rabs c) 1e-14) with false by (symmetry; apply Rltb_false; exact Hc).
  intros x. simpl. split.
  - intros [<-|[]]. field. assumption.
  - intros X. left. apply Rmult_eq_reg_l with c; [|assumption]. field_simplify; [|assumption]. lra.
Qed.
Lemma roots_constant a b c d : Rabs a < 1e-14 -> Rabs b < 1e-14 -> Rabs c < 1e-14 -> cubic_real_roots a b c d = [].
Proof.
  intros Ha Hb Hc. unfold cubic_real_roots.
  replace (Rltb (Rabs a) 1e-14) with true by (symmetry; apply Rltb_true; exact Ha).
  replace (Rltb (Rabs b) 1e-14) with true by (symmetry; apply Rltb_true; exact Hb).
  replace (Rltb (Rabs c) 1e-14) with true by (symmetry; apply Rltb_true; exact Hc). reflexivity.
Qed.
