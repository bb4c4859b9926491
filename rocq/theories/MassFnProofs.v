From Verif Require Import Prelude MassFnModel MassFnSpec.
From Coquelicot Require Import Coquelicot.

Lemma ten_gt1 : 1 < 10. Proof. lra. Qed.
Lemma ln10_pos : 0 < ln 10.
Proof. rewrite <- ln_1. apply ln_increasing; lra. Qed.
Lemma pow10_pos x : 0 < pow10 x.
Proof. apply exp_pos. Qed.
Lemma pow10_lt x y : x < y -> pow10 x < pow10 y.
Proof. intros; apply Rpower_lt; lra. Qed.
Lemma pow10_plus x y : pow10 (x + y) = pow10 x * pow10 y.
Proof. unfold pow10; apply Rpower_plus. Qed.
Lemma pow10_log10 x : 0 < x -> pow10 (log10 x) = x.
Proof.
  intros; unfold pow10, log10, Rpower.
  replace (ln x / ln 10 * ln 10) with (ln x) by (field; pose proof ln10_pos; lra).
  apply exp_ln; auto.
Qed.
Lemma log10_pow10 x : log10 (pow10 x) = x.
Proof. unfold log10, pow10, Rpower. rewrite ln_exp. field. pose proof ln10_pos; lra. Qed.
Lemma pow10_0 : pow10 0 = 1.
Proof. apply Rpower_O; lra. Qed.
Lemma log10_1 : log10 1 = 0.
Proof. unfold log10; rewrite ln_1; unfold Rdiv; ring. Qed.
Lemma log10_mult x y : 0 < x -> 0 < y -> log10 (x * y) = log10 x + log10 y.
Proof. intros; unfold log10; rewrite ln_mult by auto. field. pose proof ln10_pos; lra. Qed.
Lemma log10_div x y : 0 < x -> 0 < y -> log10 (x / y) = log10 x - log10 y.
Proof.
  intros; unfold log10, Rdiv at 2; rewrite ln_mult, ln_Rinv; auto.
  - field. pose proof ln10_pos; lra.
  - apply Rinv_0_lt_compat; auto.
Qed.
Lemma log10_Rpower x p : 0 < x -> log10 (Rpower x p) = p * log10 x.
Proof. intros; unfold log10, Rpower; rewrite ln_exp; field. pose proof ln10_pos; lra. Qed.
Lemma log10_lt x y : 0 < x -> x < y -> log10 x < log10 y.
Proof.
  intros; unfold log10. apply Rmult_lt_compat_r.
  - apply Rinv_0_lt_compat, ln10_pos.
  - apply ln_increasing; auto.
Qed.

Lemma Rpower_pos x p : 0 < Rpower x p. Proof. apply exp_pos. Qed.
Lemma Rpower_div x y p : 0 < x -> 0 < y -> Rpower (x / y) p = Rpower x p / Rpower y p.
Proof.
  intros; unfold Rpower, Rdiv. rewrite ln_mult, ln_Rinv, <- exp_Ropp, <- exp_plus; auto.
  - f_equal; ring.
  - apply Rinv_0_lt_compat; auto.
Qed.

(** monotonicity of t -> t^p on positive numbers *)
Lemma Rpower_incr x y p : 0 < x -> x < y -> 0 < p -> Rpower x p < Rpower y p.
Proof. intros; apply exp_increasing. apply Rmult_lt_compat_l; auto. apply ln_increasing; auto. Qed.
Lemma Rpower_decr x y p : 0 < x -> x < y -> p < 0 -> Rpower y p < Rpower x p.
Proof.
  intros; apply exp_increasing.
  pose proof (ln_increasing x y H H0). nra.
Qed.
Lemma Rpower_root x p : 0 < x -> p <> 0 -> Rpower (Rpower x p) (/ p) = x.
Proof. intros. rewrite Rpower_mult, Rinv_r by auto. apply Rpower_1; auto. Qed.
Lemma Rpower_root' x p : 0 < x -> p <> 0 -> Rpower (Rpower x (/ p)) p = x.
Proof. intros. rewrite Rpower_mult, Rinv_l by auto. apply Rpower_1; auto. Qed.

(** antiderivative of a power *)
Lemma is_derive_Rpower p t : 0 < t -> is_derive (fun t => Rpower t p) t (p * Rpower t (p - 1)).
Proof.
  intros. unfold Rpower.
  auto_derive; auto.
  replace (p * ln t) with ((p - 1) * ln t + ln t) by ring.
  rewrite exp_plus, exp_ln by auto. field. lra.
Qed.

Lemma continuous_Rpower p t : 0 < t -> continuous (fun t => Rpower t p) t.
Proof.
  intros. apply (ex_derive_continuous (fun t => Rpower t p) t).
  eexists; apply is_derive_Rpower; auto.
Qed.

Lemma is_RInt_Rpower p a b : 0 < a -> 0 < b ->
  is_RInt (fun t => Rpower t p) a b
    (if Reqb (p + 1) 0 then ln (b / a) else (Rpower b (p + 1) - Rpower a (p + 1)) / (p + 1)).
Proof.
  intros Ha Hb.
  assert (Hm : 0 < Rmin a b) by (apply Rmin_glb_lt; auto).
  unfold Reqb; destruct (Req_EM_T (p + 1) 0) as [E|E].
  - replace (ln (b / a)) with (minus (ln b) (ln a)).
    2:{ unfold Rdiv; rewrite ln_mult, ln_Rinv; auto. apply Rinv_0_lt_compat; auto. }
    apply (is_RInt_derive (V := R_CompleteNormedModule) ln (fun t => Rpower t p)).
    + intros x Hx. auto_derive. lra.
      replace p with (- (1)) by lra. rewrite Rpower_Ropp, Rpower_1 by lra. field; lra.
    + intros x Hx. apply continuous_Rpower. lra.
  - replace ((Rpower b (p + 1) - Rpower a (p + 1)) / (p + 1))
      with (minus (Rpower b (p + 1) / (p + 1)) (Rpower a (p + 1) / (p + 1))).
    2:{ unfold minus, plus, opp; simpl. field; auto. }
    apply (is_RInt_derive (V := R_CompleteNormedModule) (fun t => Rpower t (p + 1) / (p + 1)) (fun t => Rpower t p)).
    + intros x Hx. unfold Rdiv.
      replace (Rpower x p) with (/ (p + 1) * ((p + 1) * Rpower x (p + 1 - 1))).
      2:{ replace (p + 1 - 1) with p by ring. field; auto. }
      apply (is_derive_ext (fun t => / (p + 1) * Rpower t (p + 1))). { intros; simpl; ring. }
      apply is_derive_scal. apply is_derive_Rpower; lra.
    + intros x Hx. apply continuous_Rpower. lra.
Qed.

Lemma ex_RInt_Rpower p a b : 0 < a -> 0 < b -> ex_RInt (fun t => Rpower t p) a b.
Proof. intros; eexists; apply is_RInt_Rpower; auto. Qed.

Lemma RInt_Rpower p a b : 0 < a -> 0 < b ->
  RInt (fun t => Rpower t p) a b =
    (if Reqb (p + 1) 0 then ln (b / a) else (Rpower b (p + 1) - Rpower a (p + 1)) / (p + 1)).
Proof. intros; apply (is_RInt_unique (V := R_CompleteNormedModule)), is_RInt_Rpower; auto. Qed.

Lemma RInt_Rpower_incr p a b c : 0 < a -> 0 < b -> b < c ->
  RInt (fun t => Rpower t p) a b < RInt (fun t => Rpower t p) a c.
Proof.
  intros. rewrite !RInt_Rpower by lra.
  unfold Reqb; destruct (Req_EM_T (p + 1) 0).
  - apply ln_increasing. { apply Rdiv_lt_0_compat; auto. }
    apply Rmult_lt_compat_r; auto. apply Rinv_0_lt_compat; auto.
  - destruct (Rlt_dec 0 (p + 1)).
    + apply Rmult_lt_compat_r. { apply Rinv_0_lt_compat; auto. }
      pose proof (Rpower_incr b c (p + 1)). lra.
    + assert (/ (p + 1) < 0) by (apply Rinv_lt_0_compat; lra).
      pose proof (Rpower_decr b c (p + 1)). unfold Rdiv. nra.
Qed.

Lemma RInt_same (f : R -> R) a : RInt f a a = 0.
Proof. rewrite RInt_point. reflexivity. Qed.

Lemma RInt_Rpower_pos p a b : 0 < a -> a < b -> 0 < RInt (fun t => Rpower t p) a b.
Proof.
  intros. rewrite <- (RInt_same (fun t => Rpower t p) a) at 1. apply RInt_Rpower_incr; lra.
Qed.

Lemma analytic_is_integral norm a b n index : 0 < a -> 0 < b ->
  integrate_power_law_analytic norm a b n index = norm * RInt (fun t => Rpower t (n + index)) a b.
Proof.
  intros. rewrite RInt_Rpower by auto. unfold integrate_power_law_analytic.
  replace (n + 1 + index) with (n + index + 1) by ring. reflexivity.
Qed.

(** *** the inverse CDF *)
Lemma sample_cdf lo hi index po norm x : lo < hi -> 0 <= x <= 1 ->
  let X := pl_sample (mk_power_law lo hi index po norm) x in
  0 < X /\
  RInt (fun t => Rpower t index) (pow10 lo) X = x * RInt (fun t => Rpower t index) (pow10 lo) (pow10 hi).
Proof.
  intros Hlh Hx X. unfold X, pl_sample; simpl pl_index; simpl pl_logmhigh; simpl pl_logmlow. clear X.
  set (mL := pow10 lo). set (mH := pow10 hi).
  assert (HL : 0 < mL) by apply pow10_pos.
  assert (HH : 0 < mH) by apply pow10_pos.
  assert (Hlt : mL < mH) by (apply pow10_lt; auto).
  destruct (Reqb index (-1)) eqn:E.
  - apply Reqb_true in E. subst index.
    assert (0 < mL * exp (ln (mH / mL) * x)) by (apply Rmult_lt_0_compat; auto; apply exp_pos).
    split; auto. rewrite !RInt_Rpower by auto.
    replace (-1 + 1) with 0 by ring. rewrite Reqb_refl.
    replace (mL * exp (ln (mH / mL) * x) / mL) with (exp (ln (mH / mL) * x)) by (field; lra).
    rewrite ln_exp. apply Rmult_comm.
  - apply Reqb_false in E.
    set (e := 1 + index) in *. assert (He : e <> 0) by (unfold e; lra).
    assert (Hb : 0 < x * (Rpower mH e - Rpower mL e) + Rpower mL e).
    { pose proof (Rpower_pos mH e). pose proof (Rpower_pos mL e). nra. }
    split. apply Rpower_pos.
    rewrite !RInt_Rpower by (auto; apply Rpower_pos).
    replace (index + 1) with e by (unfold e; ring).
    replace (Reqb e 0) with false by (symmetry; apply Reqb_false; auto).
    rewrite (Rpower_root' _ e) by auto. match goal with |- ?a = ?b => change (@eq R a b) end. field; auto.
Qed.

Lemma sample_le_iff lo hi index po norm x m : lo < hi -> 0 <= x <= 1 -> 0 < m ->
  (pl_sample (mk_power_law lo hi index po norm) x <= m <-> x <= plaw_cdf index (pow10 lo) (pow10 hi) m).
Proof.
  intros Hlh Hx Hm.
  destruct (sample_cdf lo hi index po norm x Hlh Hx) as [HX HI].
  set (X := pl_sample _ x) in *.
  assert (HL : 0 < pow10 lo) by apply pow10_pos.
  assert (Hlt : pow10 lo < pow10 hi) by (apply pow10_lt; auto).
  pose proof (RInt_Rpower_pos index _ _ HL Hlt) as HT.
  unfold plaw_cdf. set (T := RInt _ (pow10 lo) (pow10 hi)) in *.
  split; intros H.
  - apply Rmult_le_reg_r with T; auto. unfold Rdiv.
    rewrite Rmult_assoc, Rinv_l, Rmult_1_r by lra.
    rewrite <- HI. destruct H as [H|H]. 2: subst m; lra.
    left; apply RInt_Rpower_incr; auto.
  - destruct (Rle_dec X m); auto. exfalso.
    assert (m < X) by lra.
    pose proof (RInt_Rpower_incr index (pow10 lo) m X HL Hm H0).
    rewrite HI in H1. apply Rmult_le_compat_r with (r := T) in H; [|lra].
    unfold Rdiv in H. rewrite Rmult_assoc, Rinv_l, Rmult_1_r in H by lra. lra.
Qed.

Lemma plaw_cdf_ends index lo hi : lo < hi ->
  plaw_cdf index (pow10 lo) (pow10 hi) (pow10 lo) = 0 /\ plaw_cdf index (pow10 lo) (pow10 hi) (pow10 hi) = 1.
Proof.
  intros H. pose proof (RInt_Rpower_pos index (pow10 lo) (pow10 hi) (pow10_pos lo) (pow10_lt _ _ H)).
  unfold plaw_cdf. rewrite RInt_same. split; field; lra.
Qed.

Lemma sample_range lo hi index po norm x : lo < hi -> 0 <= x <= 1 ->
  pow10 lo <= pl_sample (mk_power_law lo hi index po norm) x <= pow10 hi.
Proof.
  intros Hlh Hx.
  destruct (plaw_cdf_ends index lo hi Hlh) as [E0 E1].
  split.
  2: apply sample_le_iff; auto; [apply pow10_pos | lra].
  destruct (sample_cdf lo hi index po norm x Hlh Hx) as [HX HI].
  set (X := pl_sample _ x) in *.
  destruct (Rle_dec (pow10 lo) X); auto. exfalso.
  pose proof (RInt_Rpower_incr index (pow10 lo) X (pow10 lo) (pow10_pos lo) HX ltac:(lra)).
  rewrite RInt_same, HI in H.
  pose proof (RInt_Rpower_pos index (pow10 lo) (pow10 hi) (pow10_pos lo) (pow10_lt _ _ Hlh)). nra.
Qed.

(** *** counts *)
Lemma np_round_spec x : nearest_even x (np_round x).
Proof.
  unfold np_round, nearest_even.
  pose proof (base_Int_part x) as [A B].
  set (f := Int_part x) in *.
  unfold Rltb.
  destruct (Rlt_dec (x - IZR f) (1 / 2)).
  - rewrite Rabs_pos_eq by lra. split; lra.
  - destruct (Rlt_dec (1 / 2) (x - IZR f)).
    + rewrite plus_IZR, Rabs_left by lra. split; lra.
    + assert (x - IZR f = 1 / 2) by lra.
      destruct (Z.even f) eqn:Ev.
      * rewrite Rabs_pos_eq by lra. split; try lra. auto.
      * rewrite plus_IZR. rewrite Rabs_left by lra. split; try lra.
        intros _. rewrite Z.add_1_r, Z.even_succ. rewrite <- Z.negb_even, Ev. reflexivity.
Qed.

Lemma nearest_even_unique x n m : nearest_even x n -> nearest_even x m -> n = m.
Proof.
  intros [A A'] [B B'].
  assert (Rabs (IZR n - IZR m) <= 1).
  { replace (IZR n - IZR m) with ((x - IZR m) - (x - IZR n)) by ring.
    eapply Rle_trans. apply Rabs_triang. rewrite Rabs_Ropp. lra. }
  rewrite <- minus_IZR, <- abs_IZR in H. apply le_IZR in H.
  destruct (Z.eq_dec n m); auto. exfalso.
  assert (n = m + 1 \/ m = n + 1)%Z as [E|E] by lia; subst.
  - rewrite plus_IZR in *. assert (x = IZR m + 1 / 2).
    { unfold Rabs in A, B; destruct (Rcase_abs (x - (IZR m + 1))); destruct (Rcase_abs (x - IZR m)); lra. }
    subst x. specialize (A' ltac:(replace (IZR m + 1 / 2 - (IZR m + 1)) with (- (1 / 2)) by field; rewrite Rabs_Ropp, Rabs_pos_eq; lra)).
    specialize (B' ltac:(replace (IZR m + 1 / 2 - IZR m) with (1 / 2) by field; rewrite Rabs_pos_eq; lra)).
    rewrite Z.add_1_r, Z.even_succ, <- Z.negb_even, B' in A'. discriminate.
  - rewrite plus_IZR in *. assert (x = IZR n + 1 / 2).
    { unfold Rabs in A, B; destruct (Rcase_abs (x - (IZR n + 1))); destruct (Rcase_abs (x - IZR n)); lra. }
    subst x. specialize (B' ltac:(replace (IZR n + 1 / 2 - (IZR n + 1)) with (- (1 / 2)) by field; rewrite Rabs_Ropp, Rabs_pos_eq; lra)).
    specialize (A' ltac:(replace (IZR n + 1 / 2 - IZR n) with (1 / 2) by field; rewrite Rabs_pos_eq; lra)).
    rewrite Z.add_1_r, Z.even_succ, <- Z.negb_even, A' in B'. discriminate.
Qed.

Lemma nearest_even_nonneg x n : 0 <= x -> nearest_even x n -> (0 <= n)%Z.
Proof.
  intros H [A B]. destruct (Z_le_dec 0 n); auto. exfalso.
  assert (n <= -1)%Z by lia. apply IZR_le in H0.
  rewrite Rabs_pos_eq in A by lra. lra.
Qed.

Lemma np_round_0 : np_round 0 = 0%Z.
Proof.
  apply (nearest_even_unique 0). apply np_round_spec.
  split; rewrite Rminus_0_r, Rabs_R0; [lra|auto].
Qed.
