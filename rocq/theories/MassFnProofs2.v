From Verif Require Import Prelude MassFnModel MassFnSpec MassFnProofs.
From Coquelicot Require Import Coquelicot.

(** *** drawing *)
Lemma pl_draw_nth p k u ms : pl_draw p k u = Ok ms ->
  forall i, (i < List.length ms)%nat -> nth i ms 0 = pl_sample p (u i).
Proof.
  unfold pl_draw, np_deviates. destruct (pl_ndraw p k) as [n|]; simpl; try discriminate.
  destruct (n <? 0)%Z; simpl; try discriminate. intros H i Hi. inversion H; subst ms; clear H.
  rewrite !map_length, seq_length in Hi.
  rewrite (nth_indep _ 0 (pl_sample p (u 0%nat))) by (rewrite !map_length, seq_length; auto).
  rewrite map_map. rewrite (map_nth (fun x => pl_sample p (u x))). rewrite seq_nth by auto. reflexivity.
Qed.

Lemma pl_draw_length p k u ms : pl_draw p k u = Ok ms ->
  pl_ndraw p k = Ok (Z.of_nat (List.length ms)).
Proof.
  unfold pl_draw, np_deviates. destruct (pl_ndraw p k) as [n|]; simpl; try discriminate.
  destruct (n <? 0)%Z eqn:E; simpl; try discriminate. intros H. inversion H; subst ms; clear H.
  rewrite !map_length, seq_length. apply Z.ltb_ge in E. rewrite Z2Nat.id; auto.
Qed.

Lemma pl_draw_ok lo hi index po norm k u : 0 <= norm ->
  exists ms, pl_draw (mk_power_law lo hi index po norm) k u = Ok ms.
Proof.
  intros Hn. unfold pl_draw.
  assert (Hm : 0 <= pl_n_mean (mk_power_law lo hi index po norm)).
  { simpl. destruct (Rleb hi lo) eqn:E; try lra. apply Rleb_false in E.
    rewrite analytic_is_integral by apply pow10_pos.
    apply Rmult_le_pos; auto. left. apply RInt_Rpower_pos. apply pow10_pos. apply pow10_lt; auto. }
  unfold pl_ndraw. destruct (pl_draw_poisson _).
  - unfold np_poisson. replace (Rltb _ 0) with false by (symmetry; apply Rltb_false; auto).
    simpl bind. unfold np_deviates.
    match goal with |- context [(Z.of_nat ?n <? 0)%Z] => replace (Z.of_nat n <? 0)%Z with false end.
    2: symmetry; apply Z.ltb_ge; lia. simpl. eexists; reflexivity.
  - simpl bind. unfold np_deviates.
    replace (np_round _ <? 0)%Z with false. simpl; eexists; reflexivity.
    symmetry. apply Z.ltb_ge. eapply nearest_even_nonneg. apply Hm. apply np_round_spec.
Qed.

Lemma where_lt_thinned f v ms i :
  thinned (fun j m => v j < f m) i ms (where_lt (map v (seq i (List.length ms))) (map f ms) ms).
Proof.
  revert i; induction ms as [|m t IH]; intros i; simpl. constructor.
  destruct (Rltb (v i) (f m)) eqn:E.
  - apply th_take. apply Rltb_true; auto. apply IH.
  - apply th_drop. apply Rltb_false in E; lra. apply IH.
Qed.

Lemma thinned_In keep i l l' : thinned keep i l l' -> forall m, In m l' -> In m l.
Proof. induction 1; simpl; intros; auto. destruct H1; auto. Qed.
Lemma thinned_length keep i l l' : thinned keep i l l' -> (List.length l' <= List.length l)%nat.
Proof. induction 1; simpl; lia. Qed.
Lemma thinned_all keep i l l' : thinned keep i l l' ->
  (forall j m, (i <= j)%nat -> In m l -> keep j m) -> l' = l.
Proof.
  induction 1; intros K; auto.
  - f_equal. apply IHthinned. intros; apply K; simpl; auto; lia.
  - exfalso. apply H. apply K; simpl; auto.
Qed.
Lemma thinned_fun keep i l l' l'' : thinned keep i l l' -> thinned keep i l l'' -> l' = l''.
Proof.
  intros H; revert l''; induction H; intros l'' H2; inversion H2; subst; try tauto; auto. f_equal; auto.
Qed.

Lemma tl_draw_thinned t k u v ms ms' :
  pl_draw (tl_unbroken t) k u = Ok ms -> tl_draw t k u v = Ok ms' ->
  thinned (fun i m => v i < tl_turnover t m) 0 ms ms'.
Proof.
  intros E. unfold tl_draw. rewrite E. simpl bind. destruct ms as [|m ms].
  - intros H; inversion H; constructor.
  - unfold np_deviates. replace (_ <? 0)%Z with false by (symmetry; apply Z.ltb_ge; lia).
    rewrite Nat2Z.id. simpl bind. intros H; inversion H. apply (where_lt_thinned (tl_turnover t) v (m :: ms)).
Qed.

Lemma tl_draw_ok t k u v ms : pl_draw (tl_unbroken t) k u = Ok ms -> exists ms', tl_draw t k u v = Ok ms'.
Proof.
  intros E; unfold tl_draw; rewrite E; simpl bind. destruct ms. eexists; reflexivity.
  unfold np_deviates. replace (_ <? 0)%Z with false by (symmetry; apply Z.ltb_ge; lia).
  simpl bind; eexists; reflexivity.
Qed.

(** *** suppression factors *)
Lemma wdm_base_pos log_mc a b m : 0 < a -> 0 < m -> 0 < a * Rpower (pow10 log_mc / m) b.
Proof. intros; apply Rmult_lt_0_compat; auto. apply Rpower_pos. Qed.

Lemma wdm_range log_mc a b c m : 0 < a -> c < 0 -> 0 < m -> 0 < wdm_turnover log_mc a b c m < 1.
Proof.
  intros. unfold wdm_turnover. split. apply Rpower_pos.
  pose proof (wdm_base_pos log_mc a b m H H1).
  apply Rlt_le_trans with (Rpower (1 + a * Rpower (pow10 log_mc / m) b) 0).
  apply Rpower_lt; lra. rewrite Rpower_O; lra.
Qed.

Lemma wdm_incr log_mc a b c m m' : 0 < a -> 0 < b -> c < 0 -> 0 < m -> m < m' ->
  wdm_turnover log_mc a b c m < wdm_turnover log_mc a b c m'.
Proof.
  intros. unfold wdm_turnover.
  pose proof (pow10_pos log_mc).
  assert (pow10 log_mc / m' < pow10 log_mc / m).
  { apply Rmult_lt_compat_l; auto. apply Rinv_lt_contravar; auto. nra. }
  assert (Rpower (pow10 log_mc / m') b < Rpower (pow10 log_mc / m) b).
  { apply Rpower_incr; auto. apply Rdiv_lt_0_compat; lra. }
  pose proof (wdm_base_pos log_mc a b m' H ltac:(lra)).
  apply Rpower_decr; try lra. apply Rplus_lt_compat_l. apply Rmult_lt_compat_l; auto.
Qed.

Lemma mixed_range log_mc a b c f m : 0 < a -> c < 0 -> 0 < m -> 0 <= f <= 1 ->
  f ^ 2 <= mixed_turnover log_mc a b c f m <= 1.
Proof.
  intros Ha Hc Hm Hf. pose proof (wdm_range log_mc a b c m Ha Hc Hm).
  unfold mixed_turnover, wdm_turnover in *. set (w := Rpower _ c) in *.
  assert (0 < sqrt w) by (apply sqrt_lt_R0; lra).
  assert (sqrt w <= 1) by (rewrite <- sqrt_1; apply sqrt_le_1; lra).
  split; [apply pow_incr|rewrite <- (pow1 2); apply pow_incr]; nra.
Qed.

Lemma mixed_incr log_mc a b c f m m' : 0 < a -> 0 < b -> c < 0 -> 0 < m -> m < m' -> 0 <= f < 1 ->
  mixed_turnover log_mc a b c f m < mixed_turnover log_mc a b c f m'.
Proof.
  intros. pose proof (wdm_incr log_mc a b c m m' H H0 H1 H2 H3).
  pose proof (wdm_range log_mc a b c m H H1 H2).
  change ((f + (1 - f) * sqrt (wdm_turnover log_mc a b c m)) ^ 2 < (f + (1 - f) * sqrt (wdm_turnover log_mc a b c m')) ^ 2).
  set (w := wdm_turnover log_mc a b c m) in *. set (w' := wdm_turnover log_mc a b c m') in *.
  assert (sqrt w < sqrt w') by (apply sqrt_lt_1; lra).
  assert (0 < sqrt w) by (apply sqrt_lt_R0; lra).
  assert (0 <= f + (1 - f) * sqrt w) by nra.
  assert (f + (1 - f) * sqrt w < f + (1 - f) * sqrt w') by (apply Rplus_lt_compat_l, Rmult_lt_compat_l; lra).
  set (A := f + (1 - f) * sqrt w) in *. set (B := f + (1 - f) * sqrt w') in *. simpl. nra.
Qed.

Lemma mixed_ends log_mc a b c m : 0 < a -> c < 0 -> 0 < m ->
  mixed_turnover log_mc a b c 0 m = wdm_turnover log_mc a b c m /\ mixed_turnover log_mc a b c 1 m = 1.
Proof.
  intros. pose proof (wdm_range log_mc a b c m H H0 H1).
  unfold mixed_turnover, wdm_turnover in *. split; [|ring].
  replace (0 + (1 - 0) * sqrt (Rpower (1 + a * Rpower (pow10 log_mc / m) b) c))
    with (sqrt (Rpower (1 + a * Rpower (pow10 log_mc / m) b) c)) by ring.
  rewrite pow2_sqrt by lra. reflexivity.
Qed.

Lemma wdm_continuous log_mc a b c m : 0 < a -> 0 < m -> continuous (wdm_turnover log_mc a b c) m.
Proof.
  intros. apply (ex_derive_continuous (wdm_turnover log_mc a b c) m).
  unfold wdm_turnover, Rpower. pose proof (pow10_pos log_mc). auto_derive.
  repeat split; auto; try lra.
  - apply Rdiv_lt_0_compat; auto.
  - pose proof (exp_pos (b * ln (pow10 log_mc * / m))). nra.
Qed.

Lemma mixed_continuous log_mc a b c f m : 0 < a -> c < 0 -> 0 < m -> continuous (mixed_turnover log_mc a b c f) m.
Proof.
  intros. apply (ex_derive_continuous (mixed_turnover log_mc a b c f) m).
  unfold mixed_turnover, Rpower. pose proof (pow10_pos log_mc).
  auto_derive. repeat split; auto; try lra.
  - apply Rdiv_lt_0_compat; auto.
  - pose proof (exp_pos (b * ln (pow10 log_mc * / m))). nra.
  - apply exp_pos.
Qed.

(** *** moments of a suppressed mass function *)
Section Moments.
  Variables (norm index : R) (S : R -> R).
  Hypothesis S_cont : forall m, 0 < m -> continuous S m.
  Lemma supp_ex a b : 0 < a -> 0 < b -> ex_RInt (fun m => norm * Rpower m index * S m) a b.
  Proof.
    intros. apply (ex_RInt_continuous (V := R_CompleteNormedModule)). intros z Hz.
    assert (0 < Rmin a b) by (apply Rmin_glb_lt; auto).
    apply (continuous_mult (fun m => norm * Rpower m index) S).
    - apply (continuous_scal_r norm (fun m => Rpower m index)). apply continuous_Rpower; lra.
    - apply S_cont; lra.
  Qed.
  Lemma supp_le a b : 0 <= norm -> 0 < a -> a <= b -> (forall m, 0 < m -> S m <= 1) ->
    RInt (fun m => norm * Rpower m index * S m) a b <= norm * RInt (fun m => Rpower m index) a b.
  Proof.
    intros. 
    assert (norm * RInt (fun m => Rpower m index) a b = RInt (fun m => norm * Rpower m index) a b).
    { symmetry. apply (RInt_scal (V := R_CompleteNormedModule) (fun m => Rpower m index)).
      apply ex_RInt_Rpower; lra. }
    rewrite H3. apply RInt_le; auto. apply supp_ex; lra.
    apply (ex_RInt_scal (V := R_CompleteNormedModule) (fun m => Rpower m index)), ex_RInt_Rpower; lra.
    intros. pose proof (H2 x ltac:(lra)). pose proof (Rpower_pos x index).
    assert (0 <= norm * Rpower x index) by nra. nra.
  Qed.
  Lemma supp_pos a b : 0 < norm -> 0 < a -> a < b -> (forall m, 0 < m -> 0 < S m) ->
    0 < RInt (fun m => norm * Rpower m index * S m) a b.
  Proof.
    intros. apply RInt_gt_0; auto.
    - intros. pose proof (Rpower_pos x index). apply Rmult_lt_0_compat; [nra|apply H2; lra].
    - intros z Hz. apply (continuous_mult (fun m => norm * Rpower m index) S).
      + apply (continuous_scal_r norm (fun m => Rpower m index)). apply continuous_Rpower; lra.
      + apply S_cont; lra.
  Qed.
End Moments.

(** *** least squares on the ten log-spaced masses *)
Lemma sumR_map_lin (c d : R) (x : list R) : sumR (map (fun a => c * a + d) x) = c * sumR x + d * INR (List.length x).
Proof.
  induction x as [|a t IH]. { simpl; ring. }
  change (List.length (a :: t)) with (S (List.length t)). rewrite S_INR. simpl map; simpl sumR.
  unfold sumR in *; simpl. rewrite IH. ring.
Qed.
Lemma sumR_comb_lin c d x :
  sumR (map (fun p => fst p * snd p) (combine x (map (fun a => c * a + d) x)))
  = c * sumR (map (fun a => a * a) x) + d * sumR x.
Proof. induction x as [|a t IH]; unfold sumR in *; simpl; [ring|]. rewrite IH. ring. Qed.

(** the least-squares line of points on a line is that line *)
Lemma polyfit1_line c d x :
  INR (List.length x) * sumR (map (fun a => a * a) x) - sumR x * sumR x <> 0 ->
  polyfit1 x (map (fun a => c * a + d) x) = (c, d).
Proof.
  intros H. unfold polyfit1. rewrite sumR_comb_lin, sumR_map_lin.
  set (n := INR _) in *. set (sxx := sumR (map _ x)) in *. set (sx := sumR x) in *.
  assert (n <> 0).
  { intro E. apply H. unfold n in E. destruct x as [|a t]. unfold sx, sxx, n, sumR; simpl; ring.
    exfalso. change (List.length (a :: t)) with (S (List.length t)) in E. rewrite S_INR in E.
    pose proof (pos_INR (List.length t)). lra. }
  assert ((n * (c * sxx + d * sx) - sx * (c * sx + d * n)) / (n * sxx - sx * sx) = c) by (field; auto).
  rewrite H1. f_equal. field; auto.
Qed.

Lemma logspace_spread lo hi q : lo < hi ->
  let x := map (fun i => (lo + INR i * ((hi - lo) / 9)) - q) (seq 0 10) in
  INR (List.length x) * sumR (map (fun a => a * a) x) - sumR x * sumR x <> 0.
Proof.
  intros H x. unfold x; clear x. rewrite map_length, seq_length.
  unfold sumR. cbn [seq map fold_right]. simpl INR.
  set (d := (hi - lo) / 9). assert (0 < d) by (unfold d; lra).
  set (z := lo - q).
  match goal with |- ?e <> 0 => replace e with (825 * d ^ 2) end.
  - pose proof (pow_lt d 2 H0). lra.
  - unfold z. ring.
Qed.
