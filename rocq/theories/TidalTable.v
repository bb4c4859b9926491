(** The table inverting the total mass (C54). *)
From Verif Require Import Prelude MassFnModel MassFnProofs InfallModel TidalModel TidalSpec TidalProofs TidalInt TidalTotal TidalHalf2.
From Coquelicot Require Import Coquelicot.
Local Open Scope R_scope.
Local Open Scope list_scope.

(** ** comparison of improper integrals *)
Lemma gen_lower (f : R -> R) (I a b v : R) : (forall x, 0 < x -> 0 <= f x) -> (forall x, 0 < x -> continuous f x) ->
  is_RInt_gen f (at_right 0) (Rbar_locally p_infty) I -> 0 < a -> a <= b -> is_RInt f a b v -> v <= I.
Proof.
  intros Hf Hc HI Ha Hab Hv. apply Rnot_lt_le. intro Hlt.
  assert (HP : locally I (fun y => y < v)).
  { exists (mkposreal (v - I) ltac:(lra)). intros y Hy. apply Rabs_def2 in Hy. cbn in Hy. unfold minus, plus, opp in Hy. cbn in Hy. lra. }
  specialize (HI _ HP). unfold filtermapi in HI. destruct HI as [Q S HQ HS HQS].
  destruct HQ as [e He]. destruct HS as [X HX].
  set (a' := Rmin a (e / 2)). set (b' := Rmax (b + 1) (X + 1)).
  assert (He0 := cond_pos e).
  assert (Ha' : 0 < a' <= a /\ a' < e) by (unfold a', Rmin; destruct (Rle_dec a (e / 2)); lra).
  assert (Hb' : b < b' /\ X < b') by (unfold b', Rmax; destruct (Rle_dec (b + 1) (X + 1)); lra).
  destruct (HQS a' b') as (y & Hy & Hyv).
  - apply He; [|lra]. unfold ball; cbn. unfold AbsRing_ball, abs, minus, plus, opp; cbn. rewrite Rabs_pos_eq; lra.
  - apply HX. lra.
  - cbn [fst snd] in Hy.
    assert (E1 : forall u w, 0 < u -> u <= w -> ex_RInt f u w).
    { intros u w Hu Huw. apply (ex_RInt_continuous (V := R_CompleteNormedModule)). intros z Hz. rewrite Rmin_left in Hz by exact Huw. apply Hc. lra. }
    destruct (E1 a' a ltac:(lra) ltac:(lra)) as [v1 H1]. destruct (E1 b b' ltac:(lra) ltac:(lra)) as [v2 H2].
    pose proof (is_RInt_Chasles f a' a b v1 v H1 Hv) as H3.
    pose proof (is_RInt_Chasles f a' b b' _ v2 H3 H2) as H4.
    pose proof (is_RInt_unique (V := R_CompleteNormedModule) _ _ _ _ H4) as U1. pose proof (is_RInt_unique (V := R_CompleteNormedModule) _ _ _ _ Hy) as U2.
    assert (Hsum : y = v1 + v + v2) by (rewrite <- U2, U1; reflexivity).
    assert (0 <= v1).
    { apply (is_RInt_ge_0 f a' a v1); [lra|exact H1|]. intros z Hz. apply Hf. lra. }
    assert (0 <= v2).
    { apply (is_RInt_ge_0 f b b' v2); [lra|exact H2|]. intros z Hz. apply Hf. lra. }
    lra.
Qed.
Lemma gen_le (f g : R -> R) (I J : R) : (forall x, 0 < x -> f x <= g x) -> (forall x, 0 < x -> continuous f x) -> (forall x, 0 < x -> continuous g x) ->
  is_RInt_gen f (at_right 0) (Rbar_locally p_infty) I -> is_RInt_gen g (at_right 0) (Rbar_locally p_infty) J -> I <= J.
Proof.
  intros H Hf Hg HI HJ.
  pose proof (is_RInt_gen_minus g f J I HJ HI) as HD.
  assert (0 <= minus J I).
  { apply (gen_lower (fun y => minus (g y) (f y)) (minus J I) 1 1 0); try lra.
    - intros x Hx. specialize (H x Hx). unfold minus, plus, opp; cbn. lra.
    - intros x Hx. apply (continuous_minus (V := R_NormedModule)); auto.
    - exact HD.
    - apply (is_RInt_point (V := R_NormedModule)). }
  unfold minus, plus, opp in H0; cbn in H0. lra.
Qed.
Lemma gen_lt (f g : R -> R) (I J : R) : (forall x, 0 < x -> f x < g x) -> (forall x, 0 < x -> continuous f x) -> (forall x, 0 < x -> continuous g x) ->
  is_RInt_gen f (at_right 0) (Rbar_locally p_infty) I -> is_RInt_gen g (at_right 0) (Rbar_locally p_infty) J -> I < J.
Proof.
  intros H Hf Hg HI HJ.
  pose proof (is_RInt_gen_minus g f J I HJ HI) as HD.
  assert (Hc : forall x, 0 < x -> continuous (fun y => minus (g y) (f y)) x) by (intros; apply (continuous_minus (V := R_NormedModule)); auto).
  destruct (ex_RInt_continuous (V := R_CompleteNormedModule) (fun y => minus (g y) (f y)) 1 2) as [v Hv].
  { intros z Hz. rewrite Rmin_left in Hz by lra. apply Hc. lra. }
  assert (0 < v).
  { rewrite <- (is_RInt_unique (V := R_CompleteNormedModule) _ _ _ _ Hv). apply RInt_gt_0; [lra| |].
    - intros x Hx. specialize (H x ltac:(lra)). unfold minus, plus, opp; cbn. lra.
    - intros x Hx. apply Hc. lra. }
  assert (v <= minus J I).
  { apply (gen_lower (fun y => minus (g y) (f y)) (minus J I) 1 2 v); try lra; [|exact Hc|exact HD|exact Hv].
    intros x Hx. specialize (H x Hx). unfold minus, plus, opp; cbn. lra. }
  unfold minus, plus, opp in H1; cbn in H1. lra.
Qed.

(** ** total masses as functions of tau *)
Lemma dens_pos alpha beta gamma x : 0 < density alpha beta gamma x.
Proof. unfold density. apply Rmult_lt_0_compat; apply rpow_pos. Qed.
Lemma trunc_cont alpha beta gamma delta tau x : 0 < tau -> 0 < x ->
  continuous (fun x => 4 * PI * x ^ 2 * truncated alpha beta gamma delta tau x) x.
Proof.
  intros Ht Hx. apply (ex_derive_continuous (V := R_NormedModule)). unfold truncated, density, Rpower.
  auto_derive. pose proof (exp_pos (alpha * ln x)). pose proof (exp_pos (delta * ln (x * / tau))).
  repeat split; try lra. apply Rdiv_lt_0_compat; lra.
Qed.
Lemma trunc_pos alpha beta gamma delta tau x : 0 < x -> 0 < 4 * PI * x ^ 2 * truncated alpha beta gamma delta tau x.
Proof.
  intros Hx. pose proof PI_RGT_0. pose proof (dens_pos alpha beta gamma x). pose proof (rpow_pos (x / tau) delta).
  unfold truncated. apply Rmult_lt_0_compat; [apply Rmult_lt_0_compat; [lra|apply pow_lt, Hx]|apply Rdiv_lt_0_compat; lra].
Qed.
Lemma total_increasing alpha beta gamma delta tau tau' M M' : 0 < delta -> 0 < tau -> tau < tau' ->
  total_mass alpha beta gamma delta tau M -> total_mass alpha beta gamma delta tau' M' -> M < M'.
Proof.
  intros Hd Ht Htt H H'.
  refine (gen_lt _ _ M M' _ _ _ H H').
  - intros x Hx. pose proof PI_RGT_0. apply Rmult_lt_compat_l.
    { apply Rmult_lt_0_compat; [lra|apply pow_lt, Hx]. }
    unfold truncated, Rdiv. apply Rmult_lt_compat_l; [apply dens_pos|]. pose proof (rpow_pos (x / tau') delta). 
    apply Rinv_lt_contravar; [pose proof (rpow_pos (x / tau) delta); nra|]. apply Rplus_lt_compat_l.
    apply rpow_lt; [exact Hd|apply Rdiv_lt_0_compat; lra|]. unfold Rdiv. apply Rmult_lt_compat_l; [exact Hx|].
    apply Rinv_lt_contravar; [nra|exact Htt].
  - intros x Hx. apply trunc_cont; lra.
  - intros x Hx. apply trunc_cont; lra.
Qed.
Lemma total_pos alpha beta gamma delta tau M : 0 < tau -> total_mass alpha beta gamma delta tau M -> 0 < M.
Proof.
  intros Ht H. pose proof PI_RGT_0.
  assert (Hc : forall x, 0 < x -> continuous (fun x => 4 * PI * x ^ 2 * truncated alpha beta gamma delta tau x) x) by (intros; apply trunc_cont; assumption).
  destruct (ex_RInt_continuous (V := R_CompleteNormedModule) (fun x => 4 * PI * x ^ 2 * truncated alpha beta gamma delta tau x) 1 2) as [v Hv].
  { intros z Hz. rewrite Rmin_left in Hz by lra. apply Hc. lra. }
  assert (0 < v).
  { rewrite <- (is_RInt_unique (V := R_CompleteNormedModule) _ _ _ _ Hv). apply RInt_gt_0; [lra| |].
    - intros x Hx. apply trunc_pos; lra.
    - intros x Hx. apply Hc. lra. }
  pose proof (gen_lower _ M 1 2 v (fun x Hx => Rlt_le _ _ (trunc_pos alpha beta gamma delta tau x Hx)) Hc H ltac:(lra) ltac:(lra) Hv). lra.
Qed.
Lemma shape_bounds gamma x : 0 <= gamma <= 2 -> 0 < x -> 0 <= x ^ 2 * density 1 3 gamma x <= 1 /\ (1 <= x -> / (8 * x) <= x ^ 2 * density 1 3 gamma x).
Proof.
  intros Hg Hx.
  assert (E : x ^ 2 * density 1 3 gamma x = Rpower (x / (1 + x)) (2 - gamma) * / (1 + x)).
  { rewrite den_1 by exact Hx. rewrite rpow_div by lra. replace (3 - gamma) with (2 - gamma + 1) by lra.
    rewrite Rpower_plus, (Rpower_1 (1 + x)) by lra. rewrite <- (rpow_2 x Hx).
    replace (Rpower x 2) with (Rpower x (2 - gamma) * Rpower x gamma) by (rewrite <- Rpower_plus; f_equal; lra).
    pose proof (rpow_pos x gamma). pose proof (rpow_pos (1 + x) (2 - gamma)). field. repeat split; lra. }
  rewrite E. assert (Hu : 0 < x / (1 + x)) by (apply Rdiv_lt_0_compat; lra).
  assert (Hu1 : x / (1 + x) <= 1) by (apply (Rmult_le_reg_r (1 + x)); [lra|]; unfold Rdiv; rewrite Rmult_assoc, Rinv_l; lra).
  assert (Hle : Rpower (x / (1 + x)) (2 - gamma) <= 1).
  { destruct (Req_dec gamma 2) as [->|]; [replace (2 - 2) with 0 by ring; rewrite Rpower_O by exact Hu; lra|].
    apply rpow_le1; lra. }
  pose proof (rpow_pos (x / (1 + x)) (2 - gamma)) as Hp.
  assert (Hi : 0 < / (1 + x) <= 1).
  { split; [apply Rinv_0_lt_compat; lra|]. rewrite <- Rinv_1 at 2. apply Rinv_le_contravar; lra. }
  split; [split; nra|]. intro H1.
  assert (Hl : / 4 <= Rpower (x / (1 + x)) (2 - gamma)).
  { assert (Hh : / 2 <= x / (1 + x)).
    { apply (Rmult_le_reg_r (1 + x)); [lra|]. unfold Rdiv. rewrite Rmult_assoc, Rinv_l by lra. lra. }
    apply Rle_trans with (Rpower (/ 2) 2); [rewrite rpow_2 by lra; lra|].
    apply Rle_trans with (Rpower (/ 2) (2 - gamma)).
    - unfold Rpower. assert (ln (/ 2) < 0) by (rewrite <- ln_1; apply ln_increasing; lra).
      assert (2 * ln (/ 2) <= (2 - gamma) * ln (/ 2)) by nra.
      destruct (Req_dec (2 * ln (/ 2)) ((2 - gamma) * ln (/ 2))) as [->|]; [lra|]. left. apply exp_increasing. lra.
    - destruct (Req_dec gamma 2) as [->|]; [replace (2 - 2) with 0 by ring; rewrite !Rpower_O by lra; lra|].
      destruct Hh as [Hh|<-]; [left; apply rpow_lt; lra|lra]. }
  replace (/ (8 * x)) with (/ 4 * / (2 * x)) by (field; lra).
  apply Rmult_le_compat; [lra|left; apply Rinv_0_lt_compat; lra|exact Hl|apply Rinv_le_contravar; lra].
Qed.
Lemma lorentz_total tau : 0 < tau -> is_RInt_gen (fun x => 4 * PI * (tau ^ 2 / (x ^ 2 + tau ^ 2))) (at_right 0) (Rbar_locally p_infty) (2 * PI ^ 2 * tau).
Proof.
  intro Ht. pose proof (pow_lt tau 2 Ht) as H2. replace (2 * PI ^ 2 * tau) with (2 * PI ^ 2 * tau - 0) by ring.
  apply (gen_total (fun x => 4 * PI * tau * atan (x / tau))).
  - intros x Hx. pose proof (pow_lt x 2 Hx). auto_derive; [lra|]. field. repeat split; lra.
  - intros x Hx. pose proof (pow_lt x 2 Hx). auto_derive. cbn [pow] in *. lra.
  - cont0; [auto_derive; lra|]. replace (0 / tau) with 0 by (field; lra). rewrite atan_0. ring.
  - apply (inf_lim _ (fun y => 4 * PI * tau * (PI / 2 - atan (tau * y)))).
    + intros x Hx. rewrite atan_recip by assumption. reflexivity.
    + apply (ex_derive_continuous (V := R_NormedModule)). auto_derive. auto.
    + rewrite Rmult_0_r, atan_0. field.
Qed.
(** the total mass vanishes with the truncation radius and diverges logarithmically *)
Lemma total_upper gamma tau M : 0 <= gamma <= 2 -> 0 < tau -> total_mass 1 3 gamma 2 tau M -> M <= 2 * PI ^ 2 * tau.
Proof.
  intros Hg Ht H. pose proof PI_RGT_0. pose proof (pow_lt tau 2 Ht) as H2.
  refine (gen_le _ _ M _ _ _ _ H (lorentz_total tau Ht)).
  - intros x Hx. rewrite trunc_2 by assumption. pose proof (pow_lt x 2 Hx). destruct (shape_bounds gamma x Hg Hx) as [[h0 h1] _].
    assert (0 < tau ^ 2 / (x ^ 2 + tau ^ 2)) by (apply Rdiv_lt_0_compat; lra).
    replace (4 * PI * x ^ 2 * (density 1 3 gamma x * (tau ^ 2 / (x ^ 2 + tau ^ 2)))) with
      (4 * PI * ((x ^ 2 * density 1 3 gamma x) * (tau ^ 2 / (x ^ 2 + tau ^ 2)))) by ring.
    apply Rmult_le_compat_l; [lra|]. nra.
  - intros x Hx. apply trunc_cont; assumption.
  - intros x Hx. apply (ex_derive_continuous (V := R_NormedModule)). pose proof (pow_lt x 2 Hx). auto_derive. cbn [pow] in *. lra.
Qed.
Lemma total_lower gamma tau M : 0 <= gamma <= 2 -> 1 <= tau -> total_mass 1 3 gamma 2 tau M -> PI / 4 * ln tau <= M.
Proof.
  intros Hg Ht H. pose proof PI_RGT_0.
  assert (Hint : is_RInt (fun x => PI / 4 * / x) 1 tau (PI / 4 * ln tau)).
  { replace (PI / 4 * ln tau) with (minus (PI / 4 * ln tau) (PI / 4 * ln 1)) by (rewrite ln_1; unfold minus, plus, opp; cbn; ring).
    apply (is_RInt_derive (fun x => PI / 4 * ln x)).
    - intros x Hx. rewrite Rmin_left in Hx by exact Ht. auto_derive; [lra|]. field. lra.
    - intros x Hx. rewrite Rmin_left in Hx by exact Ht. apply (ex_derive_continuous (V := R_NormedModule)). auto_derive. lra. }
  destruct (ex_RInt_continuous (V := R_CompleteNormedModule) (fun x => 4 * PI * x ^ 2 * truncated 1 3 gamma 2 tau x) 1 tau) as [v Hv].
  { intros z Hz. rewrite Rmin_left in Hz by lra. apply trunc_cont; lra. }
  assert (v <= M).
  { apply (gen_lower _ M 1 tau v (fun x Hx => Rlt_le _ _ (trunc_pos 1 3 gamma 2 tau x Hx))); try lra; [|exact H|exact Hv].
    intros x Hx. apply trunc_cont; lra. }
  assert (PI / 4 * ln tau <= v); [|lra].
  apply (is_RInt_le (fun x => PI / 4 * / x) (fun x => 4 * PI * x ^ 2 * truncated 1 3 gamma 2 tau x) 1 tau); [lra|exact Hint|exact Hv|].
  intros x Hx. rewrite trunc_2 by lra. destruct (shape_bounds gamma x Hg ltac:(lra)) as [[h0 _] h1]. specialize (h1 ltac:(lra)).
  assert (Hx2 : 0 < x ^ 2) by (apply pow_lt; lra).
  assert (/ 2 <= tau ^ 2 / (x ^ 2 + tau ^ 2)).
  { apply (Rmult_le_reg_r (x ^ 2 + tau ^ 2)); [nra|]. unfold Rdiv. rewrite Rmult_assoc, Rinv_l by nra. nra. }
  replace (4 * PI * x ^ 2 * (density 1 3 gamma x * (tau ^ 2 / (x ^ 2 + tau ^ 2)))) with
      (4 * PI * ((x ^ 2 * density 1 3 gamma x) * (tau ^ 2 / (x ^ 2 + tau ^ 2)))) by ring.
  replace (PI / 4 * / x) with (4 * PI * (/ (8 * x) * / 2)) by (field; lra).
  apply Rmult_le_compat_l; [lra|]. apply Rmult_le_compat; try lra. left. apply Rinv_0_lt_compat. lra.
Qed.

(** ** the loops *)
Lemma halve_sound fuel M q x y : halve fuel M q x = Some y -> M y <= q /\ exists k, y = x / 2 ^ k.
Proof.
  revert x. induction fuel as [|n IH]; intros x H; cbn in H; destruct (rlt_cases q (M x)) as [[h E]|[h E]]; rewrite E in H.
  - discriminate.
  - injection H as <-. split; [exact h|]. exists O. cbn. field.
  - destruct (IH _ H) as [h1 [k ->]]. split; [exact h1|]. exists (S k). cbn [pow]. pose proof (pow_lt 2 k ltac:(lra)). field. lra.
  - injection H as <-. split; [exact h|]. exists O. cbn. field.
Qed.
Lemma double_sound fuel M q x y : double fuel M q x = Some y -> q <= M y /\ exists k, y = x * 2 ^ k.
Proof.
  revert x. induction fuel as [|n IH]; intros x H; cbn in H; destruct (rlt_cases (M x) q) as [[h E]|[h E]]; rewrite E in H.
  - discriminate.
  - injection H as <-. split; [exact h|]. exists O. cbn. ring.
  - destruct (IH _ H) as [h1 [k ->]]. split; [exact h1|]. exists (S k). cbn [pow]. ring.
  - injection H as <-. split; [exact h|]. exists O. cbn. ring.
Qed.
Lemma halve_stops M q x k : M (x / 2 ^ k) <= q -> forall fuel, (k <= fuel)%nat -> exists y, halve fuel M q x = Some y.
Proof.
  revert x. induction k as [|k IH]; intros x H fuel Hf.
  - replace (x / 2 ^ 0) with x in H by (cbn; field). exists x.
    destruct fuel; cbn; rewrite (proj2 (Rltb_false q (M x)) H); reflexivity.
  - destruct fuel as [|fuel]; [lia|]. cbn. destruct (Rltb q (M x)) eqn:E; [|eauto].
    apply (IH (x / 2)); [|lia]. replace (x / 2 / 2 ^ k) with (x / 2 ^ S k); [exact H|]. cbn [pow].
    pose proof (pow_lt 2 k ltac:(lra)). field. lra.
Qed.
Lemma double_stops M q x k : q <= M (x * 2 ^ k) -> forall fuel, (k <= fuel)%nat -> exists y, double fuel M q x = Some y.
Proof.
  revert x. induction k as [|k IH]; intros x H fuel Hf.
  - replace (x * 2 ^ 0) with x in H by (cbn; ring). exists x.
    destruct fuel; cbn; rewrite (proj2 (Rltb_false (M x) q) H); reflexivity.
  - destruct fuel as [|fuel]; [lia|]. cbn. destruct (Rltb (M x) q) eqn:E; [|eauto].
    apply (IH (x * 2)); [|lia]. replace (x * 2 * 2 ^ k) with (x * 2 ^ S k) by (cbn [pow]; ring). exact H.
Qed.
Lemma pow2_big r : exists k, r < 2 ^ k.
Proof.
  destruct (Pow_x_infinity 2 ltac:(rewrite Rabs_pos_eq; lra) (r + 1)) as [N HN]. exists N. specialize (HN N (le_n _)).
  rewrite Rabs_pos_eq in HN by (apply pow_le; lra). lra.
Qed.
(** for a function below A tau and above B ln tau both loops end *)
Lemma loops_end (M : R -> R) A B q q' x x' : 0 < A -> 0 < B -> (forall t, 0 < t -> M t <= A * t) -> (forall t, 1 <= t -> B * ln t <= M t) ->
  0 < q -> 0 < x -> 1 <= x' -> exists n, forall fuel, (n <= fuel)%nat ->
  (exists y, halve fuel M q x = Some y) /\ (exists y, double fuel M q' x' = Some y).
Proof.
  intros HA HB Hup Hlo Hq Hx Hx'.
  destruct (pow2_big (A * x / q)) as [k1 Hk1]. destruct (pow2_big (exp (q' / B))) as [k2 Hk2].
  exists (Nat.max k1 k2). intros fuel Hf. split.
  - apply (halve_stops M q x k1); [|lia]. pose proof (pow_lt 2 k1 ltac:(lra)) as Hp.
    apply Rle_trans with (A * (x / 2 ^ k1)); [apply Hup, Rdiv_lt_0_compat; lra|].
    apply (Rmult_lt_compat_r q) in Hk1; [|exact Hq]. replace (A * x / q * q) with (A * x) in Hk1 by (field; lra).
    apply (Rmult_le_reg_r (2 ^ k1)); [exact Hp|]. replace (A * (x / 2 ^ k1) * 2 ^ k1) with (A * x) by (field; lra). lra.
  - apply (double_stops M q' x' k2); [|lia]. assert (Hp : 1 <= 2 ^ k2) by (apply pow_R1_Rle; lra).
    apply Rle_trans with (B * ln (x' * 2 ^ k2)); [|apply Hlo; nra].
    assert (q' / B < ln (2 ^ k2)).
    { rewrite <- (ln_exp (q' / B)). apply ln_increasing; [apply exp_pos|exact Hk2]. }
    assert (ln (2 ^ k2) <= ln (x' * 2 ^ k2)).
    { destruct (Req_dec x' 1) as [->|]; [rewrite Rmult_1_l; lra|]. left. apply ln_increasing; nra. }
    apply (Rmult_lt_compat_r B) in H; [|exact HB]. replace (q' / B * B) with q' in H by (field; lra). nra.
Qed.

(** ** minimum and maximum of an array *)
Lemma fold_min_spec l a : fold_left Rmin l a <= a /\ (forall x, In x l -> fold_left Rmin l a <= x) /\ (fold_left Rmin l a = a \/ In (fold_left Rmin l a) l).
Proof.
  revert a. induction l as [|b l IH]; intro a; cbn [fold_left].
  - repeat split; [lra|intros x []|left; reflexivity].
  - destruct (IH (Rmin a b)) as (H1 & H2 & H3). pose proof (Rmin_l a b). pose proof (Rmin_r a b). repeat split.
    + lra.
    + intros x [<-|Hx]; [lra|apply H2, Hx].
    + destruct H3 as [->|H3]; [|right; right; exact H3]. unfold Rmin. destruct (Rle_dec a b); [left; reflexivity|right; left; reflexivity].
Qed.
Lemma fold_max_spec l a : a <= fold_left Rmax l a /\ (forall x, In x l -> x <= fold_left Rmax l a) /\ (fold_left Rmax l a = a \/ In (fold_left Rmax l a) l).
Proof.
  revert a. induction l as [|b l IH]; intro a; cbn [fold_left].
  - repeat split; [lra|intros x []|left; reflexivity].
  - destruct (IH (Rmax a b)) as (H1 & H2 & H3). pose proof (Rmax_l a b). pose proof (Rmax_r a b). repeat split.
    + lra.
    + intros x [<-|Hx]; [lra|apply H2, Hx].
    + destruct H3 as [->|H3]; [|right; right; exact H3]. unfold Rmax. destruct (Rle_dec a b); [right; left; reflexivity|left; reflexivity].
Qed.
Lemma list_min_spec l : l <> [] -> In (list_min l) l /\ forall x, In x l -> list_min l <= x.
Proof.
  destruct l as [|a l]; [contradiction|]. intros _. cbn [list_min]. destruct (fold_min_spec l a) as (H1 & H2 & H3). split.
  - destruct H3 as [->|H]; [left; reflexivity|right; exact H].
  - intros x [<-|Hx]; auto.
Qed.
Lemma list_max_spec l : l <> [] -> In (list_max l) l /\ forall x, In x l -> x <= list_max l.
Proof.
  destruct l as [|a l]; [contradiction|]. intros _. cbn [list_max]. destruct (fold_max_spec l a) as (H1 & H2 & H3). split.
  - destruct H3 as [->|H]; [left; reflexivity|right; exact H].
  - intros x [<-|Hx]; auto.
Qed.

(** ** the table *)
Lemma geom_len lo hi n : List.length (geomspace lo hi n) = n.
Proof. unfold geomspace. rewrite map_length, seq_length. reflexivity. Qed.
Lemma geom_ends lo hi n : 0 < lo -> 0 < hi -> (2 <= n)%nat -> exists t, geomspace lo hi n = lo :: t /\ last (lo :: t) 0 = hi.
Proof.
  intros Hl Hh Hn. assert (Hq : 0 < hi / lo) by (apply Rdiv_lt_0_compat; assumption).
  unfold geomspace. destruct n as [|n]; [lia|]. 
  exists (map (fun i => lo * Rpower (hi / lo) (INR i / INR (S n - 1))) (seq 1 n)). split.
  - cbn [seq map]. f_equal. replace (INR 0 / INR (S n - 1)) with 0 by (cbn [INR]; unfold Rdiv; ring). rewrite Rpower_O by exact Hq. ring.
  - destruct n as [|n]; [lia|]. rewrite seq_S, map_app. cbn [map].
    rewrite app_comm_cons, last_last.
    replace (1 + n)%nat with (S n) by lia. replace (S (S n) - 1)%nat with (S n) by lia.
    replace (INR (S n) / INR (S n)) with 1 by (field; apply not_0_INR; lia). rewrite Rpower_1 by exact Hq. field. lra.
Qed.
Lemma n_tab_big lo hi : 0 < lo <= / 10 ^ 6 -> 10 ^ 4 <= hi -> (2 <= n_tab lo hi)%nat.
Proof.
  intros Hl Hh. unfold n_tab.
  assert (H10 : 10 ^ 10 <= hi / lo).
  { assert (E6 : / 10 ^ 6 = 1 / 1000000) by (cbn [pow]; field). rewrite E6 in Hl.
    apply (Rmult_le_reg_r lo); [lra|]. unfold Rdiv. rewrite Rmult_assoc, Rinv_l, Rmult_1_r by lra. lra. }
  assert (Hlog : 1 <= log10 (hi / lo)).
  { rewrite <- (log10_pow10 1).
    apply Rlt_le, log10_lt; [apply pow10_pos|]. unfold pow10. rewrite Rpower_1 by lra. lra. }
  destruct (base_Int_part (log10 (hi / lo) * 10)) as [H1 H2].
  assert (2 <= Int_part (log10 (hi / lo) * 10))%Z.
  { apply Z.lt_succ_r. apply lt_IZR. rewrite succ_IZR. lra. }
  lia.
Qed.
Definition mktab (M : R -> R) (lo hi : R) : list (R * R) := map (fun x => (ln (M x), ln x)) (geomspace lo hi (n_tab lo hi)).
Lemma last_map_fst {A B} (f : A -> B * B) (t : list A) a d d' : fst (last (map f (a :: t)) d') = fst (f (last (a :: t) d)).
Proof. revert a. induction t as [|b t IH]; intro a; [reflexivity|]. cbn [map]. cbn [map] in IH. exact (IH b). Qed.
Lemma spline_ok spline M lo hi q : 0 < lo <= / 10 ^ 6 -> 10 ^ 4 <= hi -> 0 < M lo -> 0 < M hi -> M lo <= q -> q <= M hi ->
  spline_at spline (mktab M lo hi) (ln q) = Ok (spline (mktab M lo hi) (ln q)).
Proof.
  intros Hl Hh H1 H2 H3 H4. unfold mktab.
  destruct (geom_ends lo hi (n_tab lo hi) ltac:(lra) ltac:(lra) (n_tab_big lo hi Hl Hh)) as (t & -> & Hlast).
  unfold spline_at. cbn [map]. 
  change ((ln (M lo), ln lo) :: map (fun x => (ln (M x), ln x)) t) with (map (fun x => (ln (M x), ln x)) (lo :: t)).
  rewrite (last_map_fst (fun x => (ln (M x), ln x)) t lo 0 (0, 0)), Hlast. cbn [fst].
  assert (E1 : ln (M lo) <= ln q) by (destruct H3 as [H3| <-]; [left; apply ln_increasing; lra|lra]).
  assert (E2 : ln q <= ln (M hi)) by (destruct H4 as [H4| <-]; [left; apply ln_increasing; lra|lra]).
  rewrite (proj2 (Rltb_false (ln q) (ln (M lo))) E1), (proj2 (Rltb_false (ln (M hi)) (ln q)) E2). reflexivity.
Qed.
Lemma eval_ok spline M lo hi Ms : 0 < lo <= / 10 ^ 6 -> 10 ^ 4 <= hi -> 0 < M lo -> 0 < M hi -> Ms <> [] ->
  M lo <= list_min Ms -> list_max Ms <= M hi ->
  eval_all spline (mktab M lo hi) Ms = Ok (map (fun q => exp (spline (mktab M lo hi) (ln q))) Ms).
Proof.
  intros Hl Hh H1 H2 Hne H3 H4. destruct (list_min_spec Ms Hne) as [_ Hmin]. destruct (list_max_spec Ms Hne) as [_ Hmax].
  unfold eval_all. assert (Hall : forall q, In q Ms -> M lo <= q <= M hi).
  { intros q Hq. specialize (Hmin q Hq). specialize (Hmax q Hq). lra. }
  clear Hmin Hmax Hne H3 H4. set (T := mktab M lo hi). induction Ms as [|q Ms IH]; [reflexivity|].
  cbn [mapM map]. unfold T at 1. rewrite (spline_ok spline M lo hi q) by (auto; apply Hall; left; reflexivity). cbn [bind].
  rewrite IH by (intros; apply Hall; right; assumption). reflexivity.
Qed.

(** ** the calls for the profiles with beta = 3 *)
Definition Mof (gamma tau : R) : R := num (M_total 1 3 gamma 2 tau).
Lemma M_closed gamma tau : inner gamma -> M_total 1 3 gamma 2 tau = PNum (Mof gamma tau).
Proof. intros [-> | [-> | [-> | ->]]]; unfold Mof, M_total; reqb; reflexivity. Qed.
Lemma Mof_total gamma tau : inner gamma -> 0 < tau -> total_mass 1 3 gamma 2 tau (Mof gamma tau).
Proof.
  intros H Ht. destruct H as [-> | [-> | [-> | ->]]]; unfold Mof, M_total; reqb; cbn [num].
  - apply total_130, Ht.
  - apply total_130h, Ht.
  - apply total_131, Ht.
  - apply total_131h, Ht.
Qed.
Lemma inner_range gamma : inner gamma -> 0 <= gamma <= 2.
Proof. intros [-> | [-> | [-> | ->]]]; lra. Qed.
Lemma Mof_pos gamma tau : inner gamma -> 0 < tau -> 0 < Mof gamma tau.
Proof. intros H Ht. exact (total_pos _ _ _ _ _ _ Ht (Mof_total gamma tau H Ht)). Qed.
Lemma same_refl p : same_params p p = true.
Proof. destruct p as [[[a b] c] d]. cbn. rewrite !Reqb_refl. reflexivity. Qed.
Lemma same_true p q : same_params p q = true -> p = q.
Proof.
  destruct p as [[[a b] c] d], q as [[[a' b'] c'] d']. cbn. rewrite !andb_true_iff. intros [[[H1 H2] H3] H4].
  apply Reqb_true in H1, H2, H3, H4. congruence.
Qed.
Definition range_ok (st : table) : Prop := 0 < t_xmin st <= / 10 ^ 6 /\ 10 ^ 4 <= t_xmax st.
Definition cinv (st : table) : Prop :=
  range_ok st /\ forall p, t_used st = Some p -> exists gamma, inner gamma /\ p = (1, 3, gamma, 2)
    /\ t_Mmin st = PNum (Mof gamma (t_xmin st)) /\ t_Mmax st = PNum (Mof gamma (t_xmax st))
    /\ t_tab st = mktab (Mof gamma) (t_xmin st) (t_xmax st).
Lemma cinv0 : cinv table0.
Proof.
  split; [|discriminate]. unfold range_ok, table0; cbn [t_xmin t_xmax]. pose proof (pow_lt 10 6 ltac:(lra)).
  pose proof (Rinv_0_lt_compat _ H). repeat split; lra.
Qed.
(** what a successful call establishes *)
Definition served (spline : list (R * R) -> R -> R) (st : table) (Ms : list R) (gamma : R) (r : result (list R)) (st' : table) : Prop :=
  cinv st' /\ t_used st' = Some (1, 3, gamma, 2) /\ t_xmin st' <= t_xmin st /\ t_xmax st <= t_xmax st'
  /\ Mof gamma (t_xmin st') <= list_min Ms /\ list_max Ms <= Mof gamma (t_xmax st')
  /\ r = Ok (map (fun q => exp (spline (t_tab st') (ln q))) Ms).
Lemma halved_le x k : 0 < x -> 0 < x / 2 ^ k <= x.
Proof.
  intro H. pose proof (pow_R1_Rle 2 k ltac:(lra)). split; [apply Rdiv_lt_0_compat; lra|].
  apply (Rmult_le_reg_r (2 ^ k)); [lra|]. unfold Rdiv. rewrite Rmult_assoc, Rinv_l by lra. nra.
Qed.
Lemma doubled_ge x k : 0 < x -> x <= x * 2 ^ k.
Proof. intro H. pose proof (pow_R1_Rle 2 k ltac:(lra)). nra. Qed.
Lemma rebuild_serves spline fuel st Ms gamma xmin xmax : cinv st -> inner gamma -> Ms <> [] ->
  halve fuel (Mof gamma) (list_min Ms) (t_xmin st) = Some xmin -> double fuel (Mof gamma) (list_max Ms) (t_xmax st) = Some xmax ->
  served spline st Ms gamma (eval_all spline (mktab (Mof gamma) xmin xmax) Ms)
    (mkTable xmin xmax (PNum (Mof gamma xmin)) (PNum (Mof gamma xmax)) (Some (1, 3, gamma, 2)) (mktab (Mof gamma) xmin xmax)).
Proof.
  intros [[Hr1 Hr2] Hu] Hg Hne H1 H2.
  destruct (halve_sound _ _ _ _ _ H1) as [L1 [k1 ->]]. destruct (double_sound _ _ _ _ _ H2) as [L2 [k2 ->]].
  pose proof (halved_le (t_xmin st) k1 ltac:(lra)) as B1. pose proof (doubled_ge (t_xmax st) k2 ltac:(lra)) as B2.
  unfold served; cbn [t_xmin t_xmax t_used t_tab]. repeat split; try lra.
  - cbn [t_xmin]; lra.
  - cbn [t_xmin]; lra.
  - cbn [t_xmax]; lra.
  - intros p Hp. cbn [t_used] in Hp. injection Hp as <-. exists gamma. repeat split; auto.
  - apply eval_ok; try lra; try assumption; apply Mof_pos; try assumption; lra.
Qed.
Lemma step_any spline fuel st Ms gamma r st' : cinv st -> inner gamma -> Ms <> [] ->
  truncation_radius spline fuel st Ms 1 3 gamma 2 = Some (r, st') -> served spline st Ms gamma r st'.
Proof.
  intros Hc Hg Hne H. unfold truncation_radius in H. rewrite (M_closed gamma (t_xmin st) Hg) in H.
  change (fun x : R => num (M_total 1 3 gamma 2 x)) with (Mof gamma) in H.
  change (fun x : R => (ln (num (M_total 1 3 gamma 2 x)), ln x)) with (fun x : R => (ln (Mof gamma x), ln x)) in H.
  assert (HR : match halve fuel (Mof gamma) (list_min Ms) (t_xmin st) with
        | Some xmin => match double fuel (Mof gamma) (list_max Ms) (t_xmax st) with
            | Some xmax => Some (eval_all spline (mktab (Mof gamma) xmin xmax) Ms,
               mkTable xmin xmax (PNum (Mof gamma xmin)) (PNum (Mof gamma xmax)) (Some (1, 3, gamma, 2)) (mktab (Mof gamma) xmin xmax))
            | None => None end
        | None => None end = Some (r, st') -> served spline st Ms gamma r st').
  { intro HR. destruct (halve _ _ _ _) as [xmin|] eqn:E1; [|discriminate]. destruct (double _ _ _ _) as [xmax|] eqn:E2; [|discriminate].
    injection HR as <- <-. apply (rebuild_serves spline fuel); assumption. }
  destruct (t_used st) as [u|] eqn:Hu; [|apply HR; exact H].
  destruct (same_params u (1, 3, gamma, 2)) eqn:Hs; [|apply HR; exact H].
  apply same_true in Hs. subst u. pose proof Hc as [Hr Hused]. destruct (Hused _ Hu) as (g & Hg' & Hp & Hmin & Hmax & Htab).
  assert (g = gamma) by congruence. subst g. rewrite Hmin, Hmax in H.
  destruct (rlt_cases (list_min Ms) (Mof gamma (t_xmin st))) as [[h E]|[h E]]; rewrite E in H; [apply HR; exact H|].
  destruct (rlt_cases (Mof gamma (t_xmax st)) (list_max Ms)) as [[h' E']|[h' E']]; rewrite E' in H; [apply HR; exact H|].
  injection H as <- <-. unfold served. destruct Hr as [Hr1 Hr2]. repeat split; try lra; try assumption.
  rewrite Htab. apply eval_ok; try lra; try assumption; apply Mof_pos; try assumption; lra.
Qed.
Lemma step_total spline st Ms gamma : cinv st -> inner gamma -> Ms <> [] -> List.Forall (fun q => 0 < q) Ms ->
  exists n, forall fuel, (n <= fuel)%nat -> exists r st', truncation_radius spline fuel st Ms 1 3 gamma 2 = Some (r, st').
Proof.
  intros Hc Hg Hne Hpos. destruct (list_min_spec Ms Hne) as [Hin _]. rewrite List.Forall_forall in Hpos. pose proof (Hpos _ Hin) as Hq.
  pose proof Hc as [[Hr1 Hr2] Hused]. pose proof PI_RGT_0 as Hpi. pose proof (inner_range gamma Hg) as Hgr.
  destruct (loops_end (Mof gamma) (2 * PI ^ 2) (PI / 4) (list_min Ms) (list_max Ms) (t_xmin st) (t_xmax st)) as [n Hn]; try lra.
  - pose proof (pow_lt PI 2 Hpi). lra.
  - intros t Ht. apply (total_upper gamma); [exact Hgr|exact Ht|apply Mof_total; assumption].
  - intros t Ht. apply (total_lower gamma); [exact Hgr|exact Ht|apply Mof_total; [assumption|lra]].
  - exists n. intros fuel Hf. destruct (Hn fuel Hf) as [[y1 E1] [y2 E2]].
    unfold truncation_radius. rewrite (M_closed gamma (t_xmin st) Hg).
    change (fun x : R => num (M_total 1 3 gamma 2 x)) with (Mof gamma). rewrite E1, E2.
    destruct (t_used st) as [u|] eqn:Hu; [|eauto].
    destruct (same_params u (1, 3, gamma, 2)); [|eauto].
    destruct (Hused _ eq_refl) as (g & _ & _ & Hmin & Hmax & _). rewrite Hmin, Hmax.
    destruct (Rltb _ _); [eauto|]. destruct (Rltb _ _); eauto.
Qed.

(** ** enclosed masses are positive *)
Lemma enclosed_pos alpha beta gamma X M : 0 < X -> enclosed_mass alpha beta gamma X M -> 0 < M.
Proof.
  intros HX H. apply Rnot_le_lt. intro Hle. pose proof PI_RGT_0 as Hpi.
  set (f := fun x => 4 * PI * x ^ 2 * density alpha beta gamma x) in *.
  assert (Hf : forall x, 0 < x -> 0 < f x).
  { intros x Hx. unfold f. apply Rmult_lt_0_compat; [apply Rmult_lt_0_compat; [lra|apply pow_lt, Hx]|apply dens_pos]. }
  assert (Hc : forall x, 0 < x -> continuous f x).
  { intros x Hx. apply (ex_derive_continuous (V := R_NormedModule)). unfold f, density, Rpower. auto_derive.
    pose proof (exp_pos (alpha * ln x)). repeat split; lra. }
  assert (E1 : forall u w, 0 < u -> u <= w -> ex_RInt f u w).
  { intros u w Hu Huw. apply (ex_RInt_continuous (V := R_CompleteNormedModule)). intros z Hz. rewrite Rmin_left in Hz by exact Huw. apply Hc. lra. }
  destruct (E1 (X / 2) X ltac:(lra) ltac:(lra)) as [v Hv].
  assert (Hv0 : 0 < v).
  { rewrite <- (is_RInt_unique (V := R_CompleteNormedModule) _ _ _ _ Hv). apply RInt_gt_0; [lra| |].
    - intros x Hx. apply Hf. lra.
    - intros x Hx. apply Hc. lra. }
  assert (HP : locally M (fun y => y < v)).
  { exists (mkposreal (v - M) ltac:(lra)). intros y Hy. apply Rabs_def2 in Hy. cbn in Hy. unfold minus, plus, opp in Hy. cbn in Hy. lra. }
  specialize (H _ HP). unfold filtermapi in H. destruct H as [Q S HQ HS HQS].
  destruct HQ as [e He]. unfold at_point in HS. assert (He0 := cond_pos e).
  set (a' := Rmin (X / 2) (e / 2)).
  assert (Ha' : 0 < a' <= X / 2 /\ a' < e) by (unfold a', Rmin; destruct (Rle_dec (X / 2) (e / 2)); lra).
  destruct (HQS a' X) as (y & Hy & Hyv); [|exact HS|].
  - apply He; [|lra]. unfold ball; cbn. unfold AbsRing_ball, abs, minus, plus, opp; cbn. rewrite Rabs_pos_eq; lra.
  - cbn [fst snd] in Hy. destruct (E1 a' (X / 2) ltac:(lra) ltac:(lra)) as [v1 H1].
    pose proof (is_RInt_Chasles f a' (X / 2) X v1 v H1 Hv) as H3.
    pose proof (is_RInt_unique (V := R_CompleteNormedModule) _ _ _ _ H3) as U1. pose proof (is_RInt_unique (V := R_CompleteNormedModule) _ _ _ _ Hy) as U2.
    assert (Hsum : y = v1 + v) by (transitivity (RInt f a' X); [symmetry; exact U2|exact U1]).
    assert (0 <= v1).
    { apply (is_RInt_ge_0 f a' (X / 2) v1); [lra|exact H1|]. intros z Hz. left. apply Hf. lra. }
    lra.
Qed.
Lemma enclosed_closed hyp X alpha beta gamma : closed_form alpha beta gamma -> 0 < X ->
  enclosed_mass alpha beta gamma X (M_enclosed hyp X alpha beta gamma).
Proof.
  intros H HX. unfold M_enclosed. cbv zeta.
  destruct H as [(-> & -> & [-> | [-> | [-> | ->]]])|[(-> & -> & Hg)|(-> & [-> | ->] & [-> | ->])]]; reqb.
  - apply enc_130, HX.
  - apply enc_130h, HX.
  - apply enc_131, HX.
  - apply enc_131h, HX.
  - apply enc_14; assumption.
  - apply enc_230, HX.
  - apply enc_231, HX.
  - apply enc_240, HX.
  - apply enc_241, HX.
Qed.
Lemma M_enclosed_pos hyp X gamma : inner gamma -> 0 < X -> 0 < M_enclosed hyp X 1 3 gamma.
Proof.
  intros Hg HX. apply (enclosed_pos 1 3 gamma X); [exact HX|]. apply enclosed_closed; [|exact HX]. left. auto.
Qed.

(** ** the whole computation *)
Definition halo_ok (h : halo_in) : Prop := 0 < i_mbound h /\ 0 < i_mvir h /\ 0 < i_rvir h /\ 0 < i_c h.
Lemma R_max_inner gamma : inner gamma -> exists r, R_max 1 3 gamma = Ok r /\ 0 < r.
Proof.
  intros [-> | [-> | [-> | ->]]]; unfold R_max; reqb; rewrite (proj2 (Rltb_true _ 2)) by lra; eexists; (split; [reflexivity|lra]).
Qed.
Lemma ref_inner hyp gamma : inner gamma -> exists y z, convert_to_reference hyp 1 3 gamma = Ok (y, z) /\ 0 < y.
Proof.
  intros Hg. unfold convert_to_reference.
  assert (HM : exists m, Mbound_ref_0 1 3 gamma = Ok m /\ 0 < m).
  { destruct Hg as [-> | [-> | [-> | ->]]]; unfold Mbound_ref_0; reqb; eexists; (split; [reflexivity|lra]). }
  destruct HM as (m & -> & Hm). destruct (R_max_inner gamma Hg) as (r & -> & Hr). cbn [bind]. cbv zeta.
  eexists _, _. split; [reflexivity|].
  pose proof (M_enclosed_pos hyp r gamma Hg Hr). pose proof (M_enclosed_pos hyp c_ref gamma Hg ltac:(unfold c_ref; lra)).
  apply Rdiv_lt_0_compat; [|exact Hm]. apply Rmult_lt_0_compat; [|lra]. apply Rdiv_lt_0_compat; assumption.
Qed.
