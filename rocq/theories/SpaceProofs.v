From Coquelicot Require Rcomplements.
From Verif Require Import Prelude Interp MassFnModel MassFnSpec MassFnProofs SpaceModel SpaceSpec.

(** *** arange *)
Lemma Zceil_spec x : x <= IZR (Zceil x) < x + 1.
Proof. unfold Zceil. rewrite opp_IZR. pose proof (base_Int_part (- x)). lra. Qed.

Lemma arange_length_pos a b s : 0 < s -> a < b -> (0 < Z.to_nat (Zceil ((b - a) / s)))%nat.
Proof.
  intros. pose proof (Zceil_spec ((b - a) / s)).
  assert (0 < (b - a) / s) by (apply Rdiv_lt_0_compat; lra).
  assert (0 < Zceil ((b - a) / s))%Z by (apply lt_IZR; lra). lia.
Qed.
Lemma arange_nil a b s : 0 < s -> b <= a -> np_arange a b s = [].
Proof.
  intros. unfold np_arange. pose proof (Zceil_spec ((b - a) / s)).
  assert ((b - a) / s <= 0).
  { apply Rmult_le_reg_r with s; auto. unfold Rdiv. rewrite Rmult_assoc, Rinv_l by lra. lra. }
  assert (Zceil ((b - a) / s) < 1)%Z by (apply lt_IZR; lra).
  replace (Z.to_nat (Zceil ((b - a) / s))) with 0%nat by lia. reflexivity.
Qed.
Lemma arange_In a b s x : 0 < s -> In x (np_arange a b s) ->
  exists i, x = a + INR i * s /\ a <= x < b.
Proof.
  intros Hs Hin. unfold np_arange in Hin. apply in_map_iff in Hin. destruct Hin as (i & E & Hi).
  exists i. split; auto. apply in_seq in Hi.
  pose proof (pos_INR i). split. subst x; nra.
  pose proof (Zceil_spec ((b - a) / s)).
  assert (Z.of_nat i < Zceil ((b - a) / s))%Z by lia.
  assert (IZR (Z.of_nat i) + 1 <= IZR (Zceil ((b - a) / s))).
  { rewrite <- plus_IZR. apply IZR_le. lia. }
  rewrite <- INR_IZR_INZ in H2.
  assert (INR i < (b - a) / s) by lra.
  assert (INR i * s < b - a).
  { apply Rmult_lt_compat_r with (r := s) in H3; auto. unfold Rdiv in H3. rewrite Rmult_assoc, Rinv_l in H3; lra. }
  subst x. lra.
Qed.
Lemma arange_head a b s : 0 < s -> a < b -> exists t, np_arange a b s = a :: t.
Proof.
  intros. unfold np_arange. pose proof (arange_length_pos a b s H H0).
  destruct (Z.to_nat _) as [|n]; [lia|]. simpl seq. simpl map. rewrite Rmult_0_l, Rplus_0_r. eauto.
Qed.

(** consecutive elements differ by [s], the last is within [s] of [b] *)
Fixpoint steps (s : R) (l : list R) : Prop :=
  match l with
  | a :: ((b :: _) as t) => b = a + s /\ steps s t
  | _ => True
  end.
Lemma steps_seq a s i n : steps s (map (fun i => a + INR i * s) (seq i n)).
Proof.
  revert i; induction n; intros i; simpl; auto. destruct n; simpl; auto.
  split. rewrite <- (S_INR i). destruct i; simpl; try ring. specialize (IHn (S i)). simpl in IHn. auto.
Qed.
Lemma arange_steps a b s : steps s (np_arange a b s).
Proof. apply steps_seq. Qed.
Lemma arange_last a b s : 0 < s -> a < b -> b - s <= last (np_arange a b s) 0.
Proof.
  intros. unfold np_arange. pose proof (arange_length_pos a b s H H0).
  set (n := Z.to_nat _) in *. destruct n as [|m] eqn:En; [lia|].
  rewrite seq_S, map_app. simpl. rewrite last_last.
  pose proof (Zceil_spec ((b - a) / s)).
  assert (INR m + 1 = IZR (Zceil ((b - a) / s))).
  { rewrite <- S_INR, INR_IZR_INZ. f_equal. unfold n in En. lia. }
  assert ((b - a) / s <= INR m + 1) by lra.
  apply Rmult_le_compat_r with (r := s) in H4; [|lra]. unfold Rdiv in H4. rewrite Rmult_assoc, Rinv_l in H4 by lra. lra.
Qed.
Lemma steps_sorted s l : 0 < s -> steps s l -> StronglySorted Rlt l.
Proof.
  intros Hs. induction l as [|a l IH]; intros H. constructor.
  assert (IHs : StronglySorted Rlt l) by (apply IH; destruct l; simpl in *; tauto).
  constructor; auto. destruct l as [|b t]; [constructor|]. simpl in H. destruct H as [E _].
  constructor. lra. inversion IHs; subst. eapply Forall_impl; [|eassumption]. intros; lra.
Qed.
Lemma arange_sorted a b s : 0 < s -> StronglySorted Rlt (np_arange a b s).
Proof. intros; eapply steps_sorted; eauto using arange_steps. Qed.
Lemma linspace_sorted a b n : a < b -> (2 <= n)%nat -> StronglySorted Rlt (np_linspace a b n).
Proof.
  intros. unfold np_linspace. eapply steps_sorted; [|apply steps_seq].
  apply Rdiv_lt_0_compat. lra. apply lt_0_INR. lia.
Qed.

(** *** tables *)
Lemma sorted_table {A} (xs : list R) (ys : list A) (f : A -> R) :
  StronglySorted Rlt xs -> (List.length ys = List.length xs)%nat -> xs <> [] ->
  increasing_table (map (fun p => (fst p, f (snd p))) (combine xs ys)).
Proof.
  intros S L N. destruct xs as [|x xs]; [congruence|]. destruct ys as [|y ys]; [discriminate|]. simpl.
  clear N. simpl in L. injection L as L. revert x y ys L S. induction xs as [|x1 xs IH]; intros x y [|y1 ys] L S; simpl; auto; try discriminate.
  inversion S as [|? ? S1 F]; subst. split. inversion F; auto. apply (IH x1 y1 ys); auto.
Qed.
Lemma fun_table (xs : list R) (f : R -> R) : StronglySorted Rlt xs -> xs <> [] ->
  increasing_table (map (fun z => (z, f z)) xs).
Proof.
  intros. replace (map (fun z => (z, f z)) xs) with (map (fun p => (fst p, f (snd p))) (combine xs xs)).
  - apply sorted_table; auto.
  - clear. induction xs; simpl; auto. f_equal; auto.
Qed.
Lemma combine_table (xs ys : list R) : StronglySorted Rlt xs -> (List.length ys = List.length xs)%nat -> xs <> [] ->
  increasing_table (combine xs ys).
Proof.
  intros. pose proof (sorted_table xs ys (fun y => y) H H0 H1).
  rewrite (map_ext _ (fun p => p)), map_id in H2; auto. intros []; auto.
Qed.

(** *** caches *)
Lemma lookup1_In k l v : lookup1 k l = Some v -> In (k, v) l.
Proof.
  unfold lookup1. destruct (find _ l) as [[x y]|] eqn:E; [|discriminate].
  intros H; injection H as <-. apply find_some in E. destruct E as [Hin E]. apply Reqb_true in E. simpl in E. subst. auto.
Qed.
Lemma lookup2_In k1 k2 l v : lookup2 k1 k2 l = Some v -> In ((k1, k2), v) l.
Proof.
  unfold lookup2. destruct (find _ l) as [[[x1 x2] y]|] eqn:E; [|discriminate].
  intros H; injection H as <-. apply find_some in E. destruct E as [Hin E]. apply andb_prop in E. destruct E as [E1 E2].
  apply Reqb_true in E1. apply Reqb_true in E2. simpl in *. subst. auto.
Qed.

#[local] Opaque DA_table DC_table kpc_table age_table.
(** history-free answers *)
Definition v_DAz (a : astro) (z : R) : R := match interp1d (DA_table a) z with Ok v => v | Err _ => as_DA a 0 z end.
Definition v_DCz (a : astro) (z : R) : result R :=
  match interp1d (DC_table a) z with Ok v => Ok v | Err _ => do s <- scale_factor z; Ok (v_DAz a z / s) end.
Definition v_age (a : astro) (z zf : R) : result R :=
  do t0 <- interp1d (age_table a) zf;
  if Rltb zf z then Ok 0 else do t <- interp1d (age_table a) z; Ok (t - t0).
Definition answer (a : astro) (q : query) : result R :=
  match q with
  | QDA z1 z2 => Ok (as_DA a z1 z2)
  | QDAz z => Ok (v_DAz a z)
  | QDCz z => v_DCz a z
  | QKpc z => interp1d (kpc_table a) z
  | QAge z zf => v_age a z zf
  end.

Record good (a : astro) (c : cache) : Prop := {
  g_DA2 : forall z1 z2 v, In ((z1, z2), v) (c_DA2 c) -> v = as_DA a z1 z2;
  g_DAz : forall z v, In (z, v) (c_DAz c) -> v = v_DAz a z;
  g_DCz : forall z v, In (z, v) (c_DCz c) -> Ok v = v_DCz a z;
  g_kpc : forall z v, In (z, v) (c_kpc c) -> Ok v = interp1d (kpc_table a) z;
  g_age : forall z zf v, In ((z, zf), v) (c_age c) -> Ok v = v_age a z zf }.

Lemma q_DA_good a c z1 z2 : good a c -> good a (fst (q_DA a c z1 z2)) /\ snd (q_DA a c z1 z2) = as_DA a z1 z2.
Proof.
  intros G. unfold q_DA. destruct (lookup2 z1 z2 (c_DA2 c)) eqn:E; simpl.
  - split; auto. apply lookup2_In in E. eapply g_DA2; eauto.
  - split; auto. destruct G; constructor; simpl; auto.
    intros ? ? ? [H|H]; [inversion H; auto|eauto].
Qed.
Lemma q_DAz_good a c z : good a c -> good a (fst (q_DAz a c z)) /\ snd (q_DAz a c z) = v_DAz a z.
Proof.
  intros G. unfold q_DAz. destruct (lookup1 z (c_DAz c)) eqn:E; simpl.
  - split; auto. apply lookup1_In in E. eapply g_DAz; eauto.
  - destruct (interp1d (DA_table a) z) as [v|e] eqn:EI; simpl.
    + assert (v = v_DAz a z) by (unfold v_DAz; rewrite EI; auto).
      split; auto. destruct G; constructor; simpl; auto. intros ? ? [H'|H']; [inversion H'; subst; auto|eauto].
    + pose proof (q_DA_good a c 0 z G) as [G' V]. destruct (q_DA a c 0 z) as [c' v]. simpl in *.
      assert (v = v_DAz a z) by (unfold v_DAz; rewrite EI; auto).
      split; auto. destruct G'; constructor; simpl; auto. intros ? ? [H'|H']; [inversion H'; subst; auto|eauto].
Qed.
Lemma ask_good a c q : good a c -> good a (fst (ask a c q)) /\ snd (ask a c q) = answer a q.
Proof.
  intros G. destruct q as [z1 z2|z|z|z|z zf]; simpl.
  - pose proof (q_DA_good a c z1 z2 G). destruct (q_DA a c z1 z2); simpl in *. intuition congruence.
  - pose proof (q_DAz_good a c z G). destruct (q_DAz a c z); simpl in *. intuition congruence.
  - unfold q_DCz. destruct (lookup1 z (c_DCz c)) eqn:E; simpl.
    + split; auto. apply lookup1_In in E. eapply g_DCz; eauto.
    + destruct (interp1d (DC_table a) z) as [v|e] eqn:EI; simpl.
      * assert (Ok v = v_DCz a z) by (unfold v_DCz; rewrite EI; auto). split; auto.
        destruct G; constructor; simpl; auto. intros ? ? [H'|H']; [inversion H'; subst; auto|eauto].
      * pose proof (q_DAz_good a c z G) as [G' V]. destruct (q_DAz a c z) as [c' d]. simpl in *. subst d.
        assert (v_DCz a z = do s <- scale_factor z; Ok (v_DAz a z / s)) by (unfold v_DCz; rewrite EI; auto).
        rewrite H. destruct (scale_factor z) as [s|]; simpl in *; split; auto.
        destruct G'; constructor; simpl; auto. intros ? ? [H'|H']; [inversion H'; subst; auto|eauto].
  - unfold q_kpc. destruct (lookup1 z (c_kpc c)) eqn:E; simpl.
    + split; auto. apply lookup1_In in E. eapply g_kpc; eauto.
    + destruct (interp1d (kpc_table a) z) as [v|e] eqn:EI; simpl; split; auto.
      destruct G; constructor; simpl; auto. intros ? ? [H'|H']; [inversion H'; subst; auto|eauto].
  - unfold q_age. destruct (lookup2 z zf (c_age c)) eqn:E; simpl.
    + split; auto. apply lookup2_In in E. eapply g_age; eauto.
    + fold (v_age a z zf). destruct (v_age a z zf) as [v|e] eqn:EV; simpl; split; auto.
      destruct G; constructor; simpl; auto. intros ? ? ? [H'|H']; [inversion H'; subst; auto|eauto].
Qed.
Lemma ask_all_good a c qs : good a c -> good a (fst (ask_all a c qs)) /\ snd (ask_all a c qs) = map (answer a) qs.
Proof.
  revert c; induction qs as [|q qs IH]; intros c G; simpl. auto.
  pose proof (ask_good a c q G) as [G1 E1]. destruct (ask a c q) as [c1 r]. simpl in *. subst r.
  pose proof (IH c1 G1) as [G2 E2]. destruct (ask_all a c1 qs) as [c2 rs]. simpl in *. subst rs. auto.
Qed.
Lemma init_good a : good a (cosmo_init a).
Proof.
  unfold cosmo_init. set (qs := map _ _). clearbody qs.
  refine (proj1 (ask_all_good a _ qs _)). constructor; simpl; intros; tauto.
Qed.

(** *** lens planes *)
Lemma round2_dec n : round2 (IZR n / 100) = IZR n / 100.
Proof.
  unfold round2. replace (100 * (IZR n / 100)) with (IZR n) by field. f_equal. f_equal.
  apply (nearest_even_unique (IZR n)). apply np_round_spec. split; rewrite Rminus_diag_eq, Rabs_R0; auto; lra.
Qed.
Lemma round2_two z : two_decimals z -> round2 z = z.
Proof. intros [n ->]. apply round2_dec. Qed.
Lemma round2_close z : Rabs (round2 z - z) <= 5e-3.
Proof.
  unfold round2. destruct (np_round_spec (100 * z)) as [H _].
  replace (IZR (np_round (100 * z)) / 100 - z) with (- (100 * z - IZR (np_round (100 * z))) / 100) by field.
  unfold Rdiv. rewrite Rabs_mult, Rabs_Ropp, (Rabs_pos_eq (/ 100)) by lra. lra.
Qed.
Lemma np_round_mono x y : x <= y -> (np_round x <= np_round y)%Z.
Proof.
  intros H. destruct (Z_le_gt_dec (np_round x) (np_round y)); auto. exfalso.
  destruct (np_round_spec x) as [A A'], (np_round_spec y) as [B B'].
  set (n := np_round x) in *. set (m := np_round y) in *.
  assert (IZR m + 1 <= IZR n). { rewrite <- plus_IZR. apply IZR_le. lia. }
  apply Rcomplements.Rabs_le_between in A. apply Rcomplements.Rabs_le_between in B.
  assert (x = y /\ IZR n = IZR m + 1 /\ x = IZR m + 1 / 2) as (E1 & E2 & E3) by lra. subst y.
  assert (n = m). { apply (nearest_even_unique x); apply np_round_spec. } lia.
Qed.
Lemma round2_mono x y : x <= y -> round2 x <= round2 y.
Proof.
  intros. unfold round2. apply Rmult_le_compat_r; [lra|]. apply IZR_le. apply np_round_mono. lra.
Qed.

Lemma gaps_length l zs : List.length (gaps l zs) = List.length l.
Proof. induction l as [|a [|b t] IH]; simpl in *; auto. Qed.
Lemma gaps_tiles l zs : l <> [] -> tiles zs l (gaps l zs).
Proof.
  induction l as [|a [|b t] IH]; intros H; [congruence| |].
  - simpl. constructor. ring.
  - simpl. constructor. ring. apply IH. discriminate.
Qed.
Lemma tiles_total zs l ds : tiles zs l ds -> total ds = zs - nth 0 l 0.
Proof.
  induction 1; simpl in *. lra. rewrite IHtiles. lra.
Qed.
Lemma gaps_two l zs : (forall z, In z l -> two_decimals z) -> two_decimals zs -> forall d, In d (gaps l zs) -> two_decimals d.
Proof.
  assert (M : forall a b, two_decimals a -> two_decimals b -> two_decimals (a - b)).
  { intros a b [n ->] [m ->]. exists (n - m)%Z. rewrite minus_IZR. field. }
  induction l as [|a [|b t] IH]; intros Hl Hz d Hin.
  - destruct Hin.
  - destruct Hin as [<-|[]]. apply M; auto. apply Hl; left; auto.
  - destruct Hin as [<-|Hin]. apply M; apply Hl; simpl; auto.
    apply IH; auto. intros; apply Hl; right; auto.
Qed.

Lemma last_app_ne {A} (l1 l2 : list A) d : l2 <> [] -> last (l1 ++ l2) d = last l2 d.
Proof.
  intros H. induction l1 as [|a l1 IH]; auto. simpl app. rewrite <- IH.
  destruct (l1 ++ l2) eqn:E; auto. apply app_eq_nil in E. tauto.
Qed.
Lemma sorted_app (l1 l2 : list R) : StronglySorted Rlt l1 -> StronglySorted Rlt l2 ->
  (forall a b, In a l1 -> In b l2 -> a < b) -> StronglySorted Rlt (l1 ++ l2).
Proof.
  induction l1 as [|a l1 IH]; intros S1 S2 H; simpl; auto.
  inversion S1; subst. constructor. apply IH; auto. intros; apply H; simpl; auto.
  apply Forall_app; split; auto. apply Forall_forall. intros; apply H; simpl; auto.
Qed.

Lemma grid_sorted zl zs step : 0 < step -> StronglySorted Rlt (plane_grid zl zs step).
Proof.
  intros. destruct zl as [zl|]; simpl; [|apply arange_sorted; auto].
  apply sorted_app; try apply arange_sorted; auto.
  intros a b Ha Hb. apply arange_In in Ha; auto. apply arange_In in Hb; auto.
  destruct Ha as (i & _ & Ha), Hb as (j & _ & Hb). lra.
Qed.
Lemma grid_below zl zs step z : 0 < step -> (match zl with Some l => l < zs | None => True end) ->
  In z (plane_grid zl zs step) -> (match zl with Some l => Rmin 0.01 l | None => 0.01 end) <= z < zs.
Proof.
  intros Hs Hz Hin. destruct zl as [l|]; simpl in Hin.
  - apply in_app_or in Hin. destruct Hin as [Hin|Hin]; apply arange_In in Hin; auto; destruct Hin as (i & _ & Hi).
    + pose proof (Rmin_l 0.01 l). lra.
    + pose proof (Rmin_r 0.01 l). lra.
  - apply arange_In in Hin; auto. destruct Hin as (i & _ & Hi). lra.
Qed.

(** gaps between consecutive planes are at most the step *)
Lemma gaps_steps s l zs : 0 < s -> steps s l -> l <> [] -> zs - s <= last l 0 < zs ->
  forall d, In d (gaps l zs) -> 0 < d <= s.
Proof.
  intros Hs. induction l as [|a [|b t] IH]; intros St N L d Hin; [congruence| |].
  - simpl in *. destruct Hin as [<-|[]]. lra.
  - destruct St as [E St]. destruct Hin as [<-|Hin]. lra.
    apply IH; auto. discriminate.
Qed.
Lemma gaps_app l1 b t zs : gaps (l1 ++ b :: t) zs = gaps l1 b ++ gaps (b :: t) zs.
Proof.
  induction l1 as [|a [|c l1] IH]; auto. simpl in *. f_equal. exact IH.
Qed.
Lemma last_In {A} (l : list A) d : l <> [] -> In (last l d) l.
Proof.
  induction l as [|a [|b t] IH]; intros H; [congruence|left; auto|]. right. apply IH. discriminate.
Qed.
Lemma arange_gaps a b s d : 0 < s -> In d (gaps (np_arange a b s) b) -> 0 < d <= s.
Proof.
  intros Hs Hin. destruct (Rlt_dec a b).
  - destruct (arange_head a b s Hs r) as [t E].
    apply (gaps_steps s (np_arange a b s) b); auto using arange_steps.
    + rewrite E; discriminate.
    + split. apply arange_last; auto.
      destruct (arange_In a b s (last (np_arange a b s) 0) Hs) as (i & _ & ?); [|lra].
      apply last_In. rewrite E; discriminate.
  - rewrite arange_nil in Hin by lra. destruct Hin.
Qed.
Lemma grid_gaps zl zs step d : 0 < step -> (match zl with Some l => l < zs | None => True end) ->
  In d (gaps (plane_grid zl zs step) zs) -> 0 < d <= step.
Proof.
  intros Hs Hz Hin. destruct zl as [l|]; simpl in Hin; [|eapply arange_gaps; eauto].
  destruct (arange_head l zs step Hs Hz) as [t E]. rewrite E, gaps_app in Hin.
  apply in_app_or in Hin. destruct Hin as [Hin|Hin].
  - eapply arange_gaps; eauto.
  - rewrite <- E in Hin. eapply arange_gaps; eauto.
Qed.
Lemma grid_two zl zs step z : 0 < step -> two_decimals step ->
  (match zl with Some l => two_decimals l | None => True end) ->
  In z (plane_grid zl zs step) -> two_decimals z.
Proof.
  intros Hs [k ->] Hz.
  assert (A : forall a b, two_decimals a -> In z (np_arange a b (IZR k / 100)) -> two_decimals z).
  { intros a b [n ->] Hin. apply arange_In in Hin; auto. destruct Hin as (i & -> & _).
    exists (n + Z.of_nat i * k)%Z. rewrite plus_IZR, mult_IZR, <- INR_IZR_INZ. field. }
  assert (two_decimals 0.01) by (exists 1%Z; lra).
  destruct zl as [l|]; simpl; intros Hin; [apply in_app_or in Hin; destruct Hin|]; eauto.
Qed.
Lemma map_round2_id l : (forall z, In z l -> two_decimals z) -> map round2 l = l.
Proof. intros. rewrite <- (map_id l) at 2. apply map_ext_in. intros; apply round2_two; auto. Qed.

(** *** exact counts and brackets of a regular grid *)
Lemma Zceil_unique x n : x <= IZR n < x + 1 -> Zceil x = n.
Proof.
  intros H. pose proof (Zceil_spec x).
  assert (IZR (Zceil x) < IZR n + 1) by lra. assert (IZR n < IZR (Zceil x) + 1) by lra.
  rewrite <- plus_IZR in H1, H2. apply lt_IZR in H1. apply lt_IZR in H2. lia.
Qed.
Definition grid (a s : R) (n : nat) : list R := map (fun i => a + INR i * s) (seq 0 n).
Lemma arange_grid a b s n : (b - a) / s <= IZR n < (b - a) / s + 1 -> np_arange a b s = grid a s (Z.to_nat n).
Proof. intros. unfold np_arange, grid. rewrite (Zceil_unique _ n); auto. Qed.
Lemma grid_sortedR a s n : 0 < s -> StronglySorted Rlt (grid a s n).
Proof. intros; eapply steps_sorted; eauto. apply steps_seq. Qed.
Lemma grid_split a s n i : (S i < n)%nat ->
  exists pre post, grid a s n = pre ++ (a + INR i * s) :: (a + INR (S i) * s) :: post.
Proof.
  intros H. unfold grid. replace n with (i + (2 + (n - i - 2)))%nat by lia. rewrite seq_app, map_app.
  exists (map (fun i => a + INR i * s) (seq 0 i)). eexists.
  change (seq (0 + i) (2 + (n - i - 2))) with (i :: S i :: seq (S (S i)) (n - i - 2)). reflexivity.
Qed.
Lemma grid_table a s n (f : R -> R) : 0 < s -> (0 < n)%nat -> increasing_table (map (fun z => (z, f z)) (grid a s n)).
Proof. intros. apply fun_table. apply grid_sortedR; auto. destruct n; [lia|]. discriminate. Qed.
Lemma grid_node a s n f i : 0 < s -> (i < n)%nat ->
  interp1d (map (fun z => (z, f z)) (grid a s n)) (a + INR i * s) = Ok (f (a + INR i * s)).
Proof.
  intros. apply interp1d_node. apply grid_table; auto; lia.
  apply in_map_iff. exists (a + INR i * s). split; auto. unfold grid. apply in_map_iff. exists i. split; auto. apply in_seq; lia.
Qed.
Lemma last_map_pair (f : R -> R) l x : last (map (fun z => (z, f z)) l) (x, f x) = (last l x, f (last l x)).
Proof. revert x; induction l as [|a l IH]; intros; auto. simpl map. rewrite !last_cons_irrel. apply IH. Qed.
Lemma grid_last a s m d : last (grid a s (S m)) d = a + INR m * s.
Proof. unfold grid. rewrite seq_S, map_app. simpl. apply last_last. Qed.
Lemma fun_domain (x0 : R) t f z :
  (exists v, interp1d (map (fun z => (z, f z)) (x0 :: t)) z = Ok v) <-> x0 <= z <= last t x0.
Proof. simpl map. rewrite interp1d_domain, last_map_pair. simpl fst. tauto. Qed.
Lemma grid_cons a s m : exists t, grid a s (S m) = a :: t /\ last t a = a + INR m * s.
Proof.
  pose proof (grid_last a s m a) as L. unfold grid in *. cbn [seq map] in *. rewrite last_cons_irrel in L.
  replace (a + INR 0 * s) with a in * by (simpl; ring). eauto.
Qed.
Lemma grid_domain a s m f z : 0 < s ->
  (exists v, interp1d (map (fun z => (z, f z)) (grid a s (S m))) z = Ok v) <-> a <= z <= a + INR m * s.
Proof. intros. destruct (grid_cons a s m) as (t & -> & <-). apply fun_domain. Qed.
Lemma grid_first_segment a s m f z : 0 < s -> a <= z <= a + s ->
  interp1d (map (fun z => (z, f z)) (grid a s (S (S m)))) z = Ok (f a + (f (a + s) - f a) / s * (z - a)).
Proof.
  intros Hs Hz.
  assert (E : exists t, grid a s (S (S m)) = a :: a + s :: t).
  { unfold grid. cbn [seq map]. eexists. f_equal. simpl; ring. f_equal. simpl; ring. }
  pose proof (grid_table a s (S (S m)) f Hs ltac:(lia)) as T.
  destruct E as [t E]. rewrite E in *. cbn [map] in *. destruct T as [_ T]. cbn [interp1d].
  rewrite (proj2 (Rltb_false _ _)) by lra. rewrite last_cons_irrel.
  pose proof (incr_from_last (a + s) (map (fun z => (z, f z)) t) (f (a + s)) T).
  rewrite (proj2 (Rltb_false _ _)) by lra. cbn [interp_from].
  rewrite (proj2 (Rleb_true _ _)) by lra. f_equal. replace (a + s - a) with s by ring. reflexivity.
Qed.
Lemma grid_index a s m z : 0 < s -> (0 < m)%nat -> a <= z <= a + INR m * s ->
  exists i, (i < m)%nat /\ a + INR i * s <= z <= a + INR (S i) * s.
Proof.
  intros Hs Hm Hz. induction m as [|m IH]; [lia|].
  destruct (Rle_dec z (a + INR m * s)).
  - destruct m. exists 0%nat. split; auto. simpl in *. lra.
    destruct IH as (i & ? & ?); [lia|lra|]. exists i. split; auto.
  - exists m. split; auto. lra.
Qed.
Lemma grid_between a s m f z v : 0 < s -> (0 < m)%nat ->
  interp1d (map (fun z => (z, f z)) (grid a s (S m))) z = Ok v ->
  exists i, (i < m)%nat /\ a + INR i * s <= z <= a + INR (S i) * s /\
    Rmin (f (a + INR i * s)) (f (a + INR (S i) * s)) <= v <= Rmax (f (a + INR i * s)) (f (a + INR (S i) * s)).
Proof.
  intros Hs Hm E.
  assert (D : a <= z <= a + INR m * s) by (apply (grid_domain a s m f z Hs); eauto).
  destruct (grid_index a s m z Hs Hm D) as (i & Hi & Hz). exists i. split; auto. split; auto.
  destruct (grid_split a s (S m) i) as (pre & post & Esplit); [lia|].
  assert (T := grid_table a s (S m) f Hs ltac:(lia)).
  rewrite Esplit in E, T. rewrite map_app in E, T. cbn [map] in E, T.
  set (P := map (fun z => (z, f z)) pre) in *. set (Q := map (fun z => (z, f z)) post) in *.
  set (A := a + INR i * s) in *. set (B := a + INR (S i) * s) in *.
  unfold interp1d in E. destruct (P ++ (A, f A) :: (B, f B) :: Q) as [|[x0 y0] t] eqn:EL; [discriminate|].
  destruct (Rltb z x0); [discriminate|]. destruct (Rltb _ z); [discriminate|]. injection E as <-.
  eapply interp_from_between; eauto.
Qed.

(** *** the four tables *)
#[local] Transparent DA_table DC_table kpc_table age_table.
Lemma DA_table_eq a : DA_table a = map (fun z => (z, as_DA a 0 z)) (grid 0.02 0.02 (S 199)).
Proof. unfold DA_table. rewrite (arange_grid _ _ _ 200). reflexivity. lra. Qed.
Lemma DC_table_eq a : DC_table a = map (fun z => (z, as_DC a z)) (grid 0.02 0.02 (S 199)).
Proof. unfold DC_table. rewrite (arange_grid _ _ _ 200). reflexivity. lra. Qed.
Lemma kpc_table_eq a : kpc_table a = map (fun z => (z, / as_asec_per_kpc a z)) (grid 0.001 0.025 (S 160)).
Proof. unfold kpc_table. rewrite (arange_grid _ _ _ 161). reflexivity. lra. Qed.
Lemma age_table_eq a : age_table a = map (fun z => (z, as_age a z)) (grid 0 (20 / 249) (S 249)).
Proof.
  unfold age_table, np_linspace, grid. f_equal. apply map_ext. intros i. f_equal. f_equal. 
  replace (INR (250 - 1)) with 249. field. rewrite INR_IZR_INZ. reflexivity.
Qed.

(** values of a decreasing function interpolate to a decreasing function *)
Fixpoint anti_from (y0 : R) (t : list (R * R)) : Prop :=
  match t with [] => True | (_, y1) :: t' => y1 <= y0 /\ anti_from y1 t' end.
Definition negt (t : list (R * R)) := map (fun p => (fst p, - snd p)) t.
Lemma interp_from_neg x0 y0 t x : interp_from x0 (- y0) (negt t) x = - interp_from x0 y0 t x.
Proof.
  revert x0 y0; induction t as [|[x1 y1] t IH]; intros; simpl; auto.
  unfold Rleb. destruct (Rle_dec x x1); auto. unfold Rdiv. ring.
Qed.
Lemma interp_from_anti x0 y0 t x x' : incr_from x0 t -> anti_from y0 t -> x0 <= x -> x <= x' ->
  interp_from x0 y0 t x' <= interp_from x0 y0 t x.
Proof.
  intros H A Hx Hxx.
  assert (I : forall t x0, incr_from x0 t -> incr_from x0 (negt t)).
  { clear. induction t as [|[x1 y1] t IH]; simpl; auto. intros x0 [? ?]; auto. }
  assert (M : forall t y0, anti_from y0 t -> mono_from (- y0) (negt t)).
  { clear. induction t as [|[x1 y1] t IH]; simpl; auto. intros y0 [? ?]; split; auto. lra. }
  pose proof (interp_from_mono x0 (- y0) (negt t) x x' (I _ _ H) (M _ _ A) Hx Hxx).
  rewrite !interp_from_neg in H0. lra.
Qed.
Lemma anti_fun f (l : list R) x0 : (forall u w, x0 <= u -> u < w -> f w <= f u) -> StronglySorted Rlt (x0 :: l) ->
  anti_from (f x0) (map (fun z => (z, f z)) l).
Proof.
  revert x0; induction l as [|a l IH]; intros x0 Hf S; simpl; auto. inversion S; subst. inversion H2; subst.
  split. apply Hf; lra. apply IH; auto. intros; apply Hf; lra.
Qed.
Lemma interp1d_anti f (l : list R) z z' v v' : (forall u w, 0 <= u -> u < w -> f w <= f u) ->
  (forall x, In x l -> 0 <= x) -> StronglySorted Rlt l -> z <= z' ->
  interp1d (map (fun z => (z, f z)) l) z = Ok v -> interp1d (map (fun z => (z, f z)) l) z' = Ok v' -> v' <= v.
Proof.
  intros Hf Hp S Hz. destruct l as [|x0 l]; simpl; [discriminate|].
  destruct (Rltb z x0) eqn:E1; [discriminate|]. destruct (Rltb _ z) eqn:E2; [discriminate|].
  destruct (Rltb z' x0) eqn:E3; [discriminate|]. destruct (Rltb _ z') eqn:E4; [discriminate|].
  intros E E'; injection E as <-; injection E' as <-. apply Rltb_false in E1.
  apply interp_from_anti; auto.
  - pose proof (fun_table (x0 :: l) f S ltac:(discriminate)). exact H.
  - apply anti_fun; auto. intros; apply Hf; auto. specialize (Hp x0 (or_introl eq_refl)). lra.
Qed.
