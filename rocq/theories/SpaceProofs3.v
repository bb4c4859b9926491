From Verif Require Import Prelude Interp MassFnModel SpaceModel SpaceSpec SpaceProofs.

(** *** uniform points *)
Lemma uniform_dist rmax cx cy k ua ur : 0 < k -> 0 <= ur ->
  let p := uniform_point rmax cx cy k ua ur in
  dist2 (fst p * / k) (snd p * / k) cx cy = Rabs rmax * sqrt ur.
Proof.
  intros Hk Hu. unfold uniform_point, dist2. cbn [fst snd].
  replace ((sqrt (rmax ^ 2 * ur) * cos (2 * PI * ua) + cx) * k * / k - cx) with (sqrt (rmax ^ 2 * ur) * cos (2 * PI * ua)) by (field; lra).
  replace ((sqrt (rmax ^ 2 * ur) * sin (2 * PI * ua) + cy) * k * / k - cy) with (sqrt (rmax ^ 2 * ur) * sin (2 * PI * ua)) by (field; lra).
  rewrite !Rpow_mult_distr, <- Rmult_plus_distr_l.
  replace (cos (2 * PI * ua) ^ 2 + sin (2 * PI * ua) ^ 2) with 1.
  2:{ pose proof (sin2_cos2 (2 * PI * ua)). unfold Rsqr in H. simpl. lra. }
  rewrite Rmult_1_r, sqrt_pow2 by apply sqrt_pos.
  rewrite sqrt_mult by (auto; apply pow2_ge_0). f_equal.
  rewrite <- sqrt_Rsqr_abs. f_equal. unfold Rsqr. ring.
Qed.

Lemma mapM_length {A B} (f : A -> result B) l l' : mapM f l = Ok l' -> List.length l' = List.length l.
Proof.
  revert l'; induction l as [|a l IH]; simpl; intros l' E. injection E as <-; auto.
  destruct (f a); simpl in E; [|discriminate]. destruct (mapM f l) eqn:E'; simpl in E; [|discriminate].
  injection E as <-. simpl. f_equal; auto.
Qed.

(** *** inverse transform sampling *)
Lemma removelast_sorted (l : list R) : StronglySorted Rlt l -> StronglySorted Rlt (removelast l).
Proof.
  induction l as [|a [|b t] IH]; intros S; [constructor|constructor|].
  change (removelast (a :: b :: t)) with (a :: removelast (b :: t)). inversion S; subst.
  constructor; auto. apply Forall_forall. intros x Hx.
  assert (In x (b :: t)). { clear - Hx. remember (b :: t) as l. clear Heql. induction l as [|c [|d l] IHl]; simpl in *; intuition. }
  eapply Forall_forall in H2; eauto.
Qed.
Lemma removelast_In {A} (l : list A) x : In x (removelast l) -> In x l.
Proof. induction l as [|c [|d l] IHl]; simpl in *; intuition. Qed.
Lemma shells_length p rho x : List.length (shells p rho x) = List.length (removelast x).
Proof. induction x as [|a [|b t] IH]; simpl in *; auto. Qed.
Lemma pow_lt_incr a b p : 0 <= a < b -> (0 < p)%nat -> a ^ p < b ^ p.
Proof.
  intros H Hp. induction p as [|p IH]; [lia|]. destruct p. simpl; lra.
  assert (a ^ S p < b ^ S p) by (apply IH; lia).
  assert (0 <= a ^ S p) by (apply pow_le; lra).
  change (a * a ^ S p < b * b ^ S p). nra.
Qed.
Lemma shells_pos p rho x s : (0 < p)%nat -> (forall r, 0 < r -> 0 < rho r) -> StronglySorted Rlt x ->
  (forall r, In r x -> 0 < r) -> In s (shells p rho x) -> 0 < s.
Proof.
  intros Hp Hr. induction x as [|a [|b t] IH]; intros S Hx Hin; try (destruct Hin; fail).
  inversion S; subst. inversion H2; subst.
  destruct Hin as [<-|Hin].
  - apply Rmult_lt_0_compat. apply Hr, Hx; left; auto.
    pose proof (pow_lt_incr a b p). pose proof (Hx a (or_introl eq_refl)). specialize (H ltac:(lra) Hp). lra.
  - apply IH; auto. intros; apply Hx; right; auto.
Qed.

Lemma mapM_nodes (xs ys tx ty : list R) : increasing_table (combine tx ty) ->
  (forall p, In p (combine xs ys) -> In p (combine tx ty)) -> List.length ys = List.length xs ->
  mapM (interp1d (combine tx ty)) xs = Ok ys.
Proof.
  intros T. revert ys; induction xs as [|x xs IH]; intros [|y ys] H L; try discriminate; auto.
  simpl in *. rewrite (interp1d_node _ x y); auto. simpl. rewrite (IH ys); auto.
Qed.

Lemma cumsum_from_length acc l : List.length (cumsum_from acc l) = List.length l.
Proof. revert acc; induction l; intros; simpl; auto. Qed.
Lemma cumsum_sorted acc l : (forall y, In y l -> 0 < y) ->
  StronglySorted Rlt (cumsum_from acc l) /\ Forall (Rlt acc) (cumsum_from acc l).
Proof.
  revert acc; induction l as [|y l IH]; intros acc H; simpl. split; constructor.
  destruct (IH (acc + y)) as [S F]. intros; apply H; right; auto.
  pose proof (H y (or_introl eq_refl)).
  split. constructor; auto. constructor. lra. eapply Forall_impl; [|exact F]. simpl; intros; lra.
Qed.
Lemma fold_max_ge l a : a <= fold_left Rmax l a.
Proof. revert a; induction l as [|b l IH]; intros; simpl. lra. eapply Rle_trans; [apply (Rmax_l a b)|apply IH]. Qed.
Lemma scale_sorted c l : 0 < c -> StronglySorted Rlt l -> StronglySorted Rlt (map (fun v => v * c) l).
Proof.
  intros Hc. induction 1; simpl; constructor; auto. apply Forall_forall. intros y Hy.
  apply in_map_iff in Hy. destruct Hy as (x & <- & Hx). eapply Forall_forall in H0; eauto.
Qed.
Lemma sorted_first_last (l : list R) d : StronglySorted Rlt l -> l <> [] -> nth 0 l d <= last l d.
Proof.
  intros S N. destruct l as [|a l]; [congruence|]. simpl nth. inversion S; subst.
  destruct l as [|b l]. simpl; lra. left. eapply Forall_forall in H2. exact H2.
  change (last (a :: b :: l) d) with (last (b :: l) d). apply last_In. discriminate.
Qed.
Lemma combine_last (xs ys : list R) x y : List.length xs = List.length ys ->
  last (combine xs ys) (x, y) = (last xs x, last ys y).
Proof.
  revert ys x y; induction xs as [|a xs IH]; intros [|b ys] x y L; try discriminate; auto.
  cbn [combine]. rewrite !last_cons_irrel. apply IH. simpl in L; lia.
Qed.

(** sampling from a strictly increasing positive cdf: the result lies on the grid's range; u = 0 and u = 1 give the ends *)
Lemma its_spec (xs cdf : list R) : StronglySorted Rlt cdf -> (forall c, In c cdf -> 0 < c) -> cdf <> [] ->
  List.length xs = List.length cdf ->
  (forall u, 0 <= u <= 1 -> exists r, its_from_cdf xs cdf u = Ok r /\
      forall lo hi, (forall x, In x xs -> lo <= x <= hi) -> lo <= r <= hi) /\
  its_from_cdf xs cdf 0 = Ok (nth 0 xs 0) /\ its_from_cdf xs cdf 1 = Ok (last xs 0).
Proof.
  intros S P N L.
  set (m := np_max cdf).
  assert (Hm : 0 < m).
  { unfold m. destruct cdf as [|a t]; [congruence|]. simpl. eapply Rlt_le_trans; [apply P; left; auto|apply fold_max_ge]. }
  unfold its_from_cdf. fold m. set (c := map (fun v => v * / m) cdf).
  assert (Sc : StronglySorted Rlt c) by (apply scale_sorted; auto; apply Rinv_0_lt_compat; auto).
  assert (Lc : List.length xs = List.length c) by (unfold c; rewrite map_length; auto).
  assert (Nc : c <> []) by (unfold c; destruct cdf; [congruence|discriminate]).
  assert (T : increasing_table (combine c xs)) by (apply combine_table; auto).
  pose proof (sorted_first_last c 0 Sc Nc) as FL.
  split; [|split].
  - intros u Hu.
    set (w := nth 0 c 0 + u * (last c 0 - nth 0 c 0)).
    assert (W : nth 0 c 0 <= w <= last c 0) by (unfold w; split; nra).
    clearbody w. destruct c as [|c0 c']; [congruence|]. destruct xs as [|x0 xs']; [discriminate|].
    cbn [combine] in *.
    assert (D : exists v, interp1d ((c0, x0) :: combine c' xs') w = Ok v).
    { apply interp1d_domain. rewrite combine_last by (simpl in Lc; lia). cbn [fst].
      rewrite last_cons_irrel in W. exact W. }
    destruct D as [v E]. exists v. split; auto. intros lo hi Hb.
    eapply interp1d_bounds; eauto. intros a b Hin. apply Hb.
    change ((c0, x0) :: combine c' xs') with (combine (c0 :: c') (x0 :: xs')) in Hin. eapply in_combine_r; eauto.
  - rewrite Rmult_0_l, Rplus_0_r. apply interp1d_node; auto.
    destruct c; [congruence|]. destruct xs; [discriminate|]. left; auto.
  - replace (nth 0 c 0 + 1 * (last c 0 - nth 0 c 0)) with (last c 0) by ring. apply interp1d_node; auto.
    rewrite <- (combine_last c xs 0 0) by auto. apply last_In. destruct c; [congruence|]. destruct xs; discriminate.
Qed.

Lemma linspace_grid a b n : np_linspace a b n = grid a ((b - a) / INR (n - 1)) n.
Proof. reflexivity. Qed.

Lemma nfw_radius_gen (n p : nat) (rho : R -> R) lo hi :
  (2 <= n)%nat -> (0 < p)%nat -> 0 < lo < hi -> (forall r, 0 < r -> 0 < rho r) ->
  let x := np_linspace lo hi n in
  let xs := removelast x in
  let draw u := inverse_transform_sampling xs (interp1d (combine xs (shells p rho x))) u in
  (forall u, 0 <= u <= 1 -> exists r, draw u = Ok r /\ lo <= r <= hi) /\
  draw 0 = Ok lo /\ draw 1 = Ok (hi - (hi - lo) / INR (n - 1)).
Proof.
  intros Hn Hp Hlo Hr x xs draw.
  assert (Hs : 0 < (hi - lo) / INR (n - 1)) by (apply Rdiv_lt_0_compat; [lra|apply lt_0_INR; lia]).
  assert (Sx : StronglySorted Rlt x) by (apply linspace_sorted; auto; lra).
  assert (Bx : forall r, In r x -> lo <= r <= hi).
  { intros r Hin. unfold x, np_linspace in Hin. apply in_map_iff in Hin. destruct Hin as (i & <- & Hi). apply in_seq in Hi.
    pose proof (pos_INR i). assert (INR i <= INR (n - 1)) by (apply le_INR; lia).
    assert (INR (n - 1) * ((hi - lo) / INR (n - 1)) = hi - lo) by (field; apply not_0_INR; lia).
    split; nra. }
  assert (Sxs : StronglySorted Rlt xs) by (apply removelast_sorted; auto).
  assert (Lsh : List.length (shells p rho x) = List.length xs) by apply shells_length.
  assert (Exs : xs = grid lo ((hi - lo) / INR (n - 1)) (n - 1)).
  { unfold xs, x. rewrite linspace_grid. unfold grid. generalize ((hi - lo) / INR (n - 1)). intros h.
    destruct n as [|m]; [lia|]. replace (S m - 1)%nat with m by lia.
    rewrite seq_S, map_app. apply removelast_last. }
  assert (Nxs : xs <> []). { rewrite Exs. unfold grid. destruct (n - 1)%nat eqn:En; [lia|discriminate]. }
  assert (T : increasing_table (combine xs (shells p rho x))) by (apply combine_table; auto).
  assert (Esh : mapM (interp1d (combine xs (shells p rho x))) xs = Ok (shells p rho x)) by (apply mapM_nodes; auto).
  assert (Psh : forall y, In y (shells p rho x) -> 0 < y).
  { intros y Hy. apply (shells_pos p rho x y Hp Hr Sx); auto. intros r Hin. apply Bx in Hin. lra. }
  destruct (cumsum_sorted 0 (shells p rho x) Psh) as [Sc Fc].
  destruct (its_spec xs (cumsum (shells p rho x))) as (A & B & C).
  - exact Sc.
  - intros c Hc. eapply Forall_forall in Fc; eauto.
  - unfold cumsum. destruct (shells p rho x) eqn:E; [|discriminate]. destruct xs; [congruence|discriminate].
  - unfold cumsum. rewrite cumsum_from_length. auto.
  - assert (ED : forall u, draw u = its_from_cdf xs (cumsum (shells p rho x)) u).
    { intros u. unfold draw, inverse_transform_sampling. rewrite Esh. reflexivity. }
    split; [|split].
    + intros u Hu. rewrite ED. destruct (A u Hu) as (r & E & Hb). exists r. split; auto.
      apply Hb. intros y Hy. apply Bx. apply removelast_In; auto.
    + rewrite ED, B. f_equal. rewrite Exs. destruct (n - 1)%nat eqn:En; [lia|]. cbn. ring.
    + rewrite ED, C. f_equal. rewrite Exs. destruct (n - 1)%nat as [|m] eqn:En; [lia|]. rewrite grid_last, S_INR.
      pose proof (pos_INR m). field. lra.
Qed.

Lemma n_grid_ge : (2 <= n_grid)%nat.
Proof. unfold n_grid. apply Nat2Z.inj_le. rewrite Z2Nat.id; lia. Qed.
Lemma n_grid_INR : INR (n_grid - 1) = 19999.
Proof. unfold n_grid. rewrite minus_INR. rewrite INR_IZR_INZ, Z2Nat.id by lia. simpl INR. lra. apply Nat2Z.inj_le. rewrite Z2Nat.id; lia. Qed.
#[local] Opaque n_grid.
Lemma nfw_radius_spec p rho lo hi : (0 < p)%nat -> 0 < lo < hi -> (forall r, 0 < r -> 0 < rho r) ->
  (forall u, 0 <= u <= 1 -> exists r, nfw_radius p rho lo hi u = Ok r /\ lo <= r <= hi) /\
  nfw_radius p rho lo hi 0 = Ok lo /\ nfw_radius p rho lo hi 1 = Ok (hi - (hi - lo) / 19999).
Proof.
  intros. pose proof (nfw_radius_gen n_grid p rho lo hi n_grid_ge H H0 H1) as G. rewrite n_grid_INR in G. exact G.
Qed.
