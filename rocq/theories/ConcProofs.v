(** Lemmas about the concentration models. *)
From Verif Require Import Prelude MassFnModel MassFnProofs Interp RenderProofs ConcModel ConcSpec.
Local Open Scope R_scope.
Local Open Scope list_scope.

(** ** Table *)

Lemma floor_nat_spec x : 0 <= x -> INR (floor_nat x) <= x < INR (floor_nat x) + 1.
Proof.
  intros H. unfold floor_nat. pose proof (base_Int_part x) as [H1 H2].
  assert (0 <= Int_part x)%Z. { apply Z.lt_succ_r, lt_IZR. rewrite succ_IZR. lra. }
  rewrite INR_IZR_INZ, Z2Nat.id by auto. lra.
Qed.

(** nodes *)
Definition wf_axis (lo hi : R) (n : nat) (w : R) : Prop := lo < hi /\ (2 <= n)%nat /\ (hi - lo) / INR (n - 1) <= w.
Lemma node_0 lo hi n : node lo hi n 0 = lo.
Proof. unfold node; cbn; lra. Qed.
Lemma node_S lo hi n i : node lo hi n (S i) = node lo hi n i + (hi - lo) / INR (n - 1).
Proof. unfold node; rewrite S_INR; ring. Qed.
Lemma step_pos lo hi n w : wf_axis lo hi n w -> 0 < (hi - lo) / INR (n - 1).
Proof. intros (H & H1 & _). apply Rdiv_lt_0_compat; [lra|]. apply lt_0_INR; lia. Qed.
Lemma node_last lo hi n w : wf_axis lo hi n w -> node lo hi n (S (n - 2)) = hi.
Proof.
  intros (H & H1 & _). unfold node. replace (S (n - 2)) with (n - 1)%nat by lia. field. apply not_0_INR; lia.
Qed.

Lemma cell lo hi n w x : wf_axis lo hi n w -> lo <= x <= hi ->
  let d := (hi - lo) / INR (n - 1) in
  let i := Nat.min (floor_nat ((x - lo) / d)) (n - 2) in
  node lo hi n i <= x <= node lo hi n (S i).
Proof.
  intros W Hx d i. pose proof (step_pos _ _ _ _ W) as Hd. fold d in Hd.
  assert (Hq : 0 <= (x - lo) / d) by (apply Rmult_le_pos; [lra|left; apply Rinv_0_lt_compat; auto]).
  pose proof (floor_nat_spec _ Hq) as [F1 F2].
  assert (Ex : x = lo + (x - lo) / d * d) by (field; lra).
  set (q := (x - lo) / d) in *. set (k := floor_nat q) in *.
  assert (L : node lo hi n i <= x).
  { unfold node. fold d. assert (INR i <= INR k) by (apply le_INR; unfold i; lia).
    assert (INR i * d <= q * d) by (apply Rmult_le_compat_r; lra). lra. }
  split; auto. unfold i. destruct (Nat.le_gt_cases k (n - 2)).
  - rewrite Nat.min_l by auto. rewrite node_S. fold d. unfold node. fold d.
    assert (q * d <= (INR k + 1) * d) by (apply Rmult_le_compat_r; lra). lra.
  - rewrite Nat.min_r by lia. rewrite (node_last lo hi n w) by auto. lra.
Qed.

Definition wf_table (t : table) : Prop :=
  wf_axis (tb_mlo t) (tb_mhi t) (tb_nm t) 0.064 /\ wf_axis (tb_ulo t) (tb_uhi t) (tb_nu t) 0.017.

Lemma wf_built lo hi n r w : 1 < (hi - lo) * INR r -> n = Nat.max 4 (floor_nat ((hi - lo) * INR r) + 1) -> lo < hi ->
  (hi - lo) <= w * ((hi - lo) * INR r - 1) -> 0 < w -> wf_axis lo hi n w.
Proof.
  intros H0 -> H H1 H2. repeat split; auto. lia.
  pose proof (floor_nat_spec ((hi - lo) * INR r) ltac:(lra)) as [F1 F2].
  set (k := floor_nat ((hi - lo) * INR r)) in *.
  assert (K : (hi - lo) * INR r - 1 <= INR (Nat.max 4 (k + 1) - 1)).
  { apply Rle_trans with (INR k); [lra|]. apply le_INR. lia. }
  apply Rmult_le_reg_r with (INR (Nat.max 4 (k + 1) - 1)). apply lt_0_INR; lia.
  unfold Rdiv. rewrite Rmult_assoc, Rinv_l, Rmult_1_r by (apply not_0_INR; lia).
  eapply Rle_trans; [exact H1|]. apply Rmult_le_compat_l; lra.
Qed.

Lemma build_wf mlo mhi ulo uhi : mlo <= 5 -> 11.5 <= mhi -> ulo <= 0 -> 1.05 <= uhi -> wf_table (build_table mlo mhi ulo uhi).
Proof.
  intros. unfold wf_table, build_table; cbn. split.
  - apply wf_built with (r := 16%nat); replace (INR 16) with 16 by (cbn; lra); auto; lra.
  - apply wf_built with (r := 60%nat); replace (INR 60) with 60 by (cbn; lra); auto; lra.
Qed.

Definition ok_table (t : table) : Prop := tb_mlo t <= 5 /\ 11.5 <= tb_mhi t /\ tb_ulo t = 0 /\ 1.05 <= tb_uhi t /\ wf_table t.
Definition ok_opt (o : option table) : Prop := match o with None => True | Some t => ok_table t end.

Lemma fold_min_le l a : fold_left Rmin l a <= a.
Proof.
  revert a; induction l as [|b l IH]; intros a; cbn. lra. eapply Rle_trans; [apply IH|apply Rmin_l].
Qed.
Lemma fold_min_In l a x : In x l -> fold_left Rmin l a <= x.
Proof.
  revert a; induction l as [|b l IH]; intros a; cbn; [tauto|]. intros [->|H]; auto.
  eapply Rle_trans; [apply fold_min_le|apply Rmin_r].
Qed.
Lemma amin_le l x : In x l -> amin l <= x.
Proof. destruct l as [|a t]; cbn; [tauto|]. intros [->|H]. apply fold_min_le. now apply fold_min_In. Qed.
Lemma fold_max_ge l a : a <= fold_left Rmax l a.
Proof.
  revert a; induction l as [|b l IH]; intros a; cbn. lra. eapply Rle_trans; [|apply IH]. apply Rmax_l.
Qed.
Lemma fold_max_In l a x : In x l -> x <= fold_left Rmax l a.
Proof.
  revert a; induction l as [|b l IH]; intros a; cbn; [tauto|]. intros [->|H]; auto.
  eapply Rle_trans; [|apply fold_max_ge]. apply Rmax_r.
Qed.
Lemma amax_ge l x : In x l -> x <= amax l.
Proof. destruct l as [|a t]; cbn; [tauto|]. intros [->|H]. apply fold_max_ge. now apply fold_max_In. Qed.
Lemma fold_min_glb l a b : b <= a -> (forall x, In x l -> b <= x) -> b <= fold_left Rmin l a.
Proof.
  revert a; induction l as [|c l IH]; intros a H1 H2; cbn; auto. apply IH.
  apply Rmin_glb; auto. apply H2; now left. intros; apply H2; now right.
Qed.
Lemma amin_glb l b : l <> [] -> (forall x, In x l -> b <= x) -> b <= amin l.
Proof.
  destruct l as [|a t]; [congruence|]. intros _ H; cbn. apply fold_min_glb. apply H; now left. intros; apply H; now right.
Qed.
Lemma fold_max_lub l a b : a <= b -> (forall x, In x l -> x <= b) -> fold_left Rmax l a <= b.
Proof.
  revert a; induction l as [|c l IH]; intros a H1 H2; cbn; auto. apply IH.
  apply Rmax_lub; auto. apply H2; now left. intros; apply H2; now right.
Qed.
Lemma amax_lub l b : l <> [] -> (forall x, In x l -> x <= b) -> amax l <= b.
Proof.
  destruct l as [|a t]; [congruence|]. intros _ H; cbn. apply fold_max_lub. apply H; now left. intros; apply H; now right.
Qed.

Definition covers (t : table) (x y : R) : Prop := tb_mlo t <= x <= tb_mhi t /\ tb_ulo t <= y <= tb_uhi t.
Definition extends (o : option table) (t : table) : Prop :=
  match o with None => True | Some s => tb_mlo t <= tb_mlo s /\ tb_mhi s <= tb_mhi t /\ tb_ulo t <= tb_ulo s /\ tb_uhi s <= tb_uhi t end.

Lemma ulo_zero y : Rmin (Rmax 0 y) 0 = 0.
Proof. rewrite Rmin_right; auto. apply Rmax_l. Qed.

Lemma ensure_ok o xs ys : ok_opt o -> xs <> [] -> ys <> [] -> (forall y, In y ys -> 0 <= y) ->
  let t := ensure_table o xs ys in
  ok_table t /\ extends o t /\ (forall x y, In x xs -> In y ys -> covers t x y).
Proof.
  intros Ho Hxs Hys Hy t. unfold t, ensure_table.
  pose proof (Rmin_r (amin xs - 0.5) 5). pose proof (Rmin_l (amin xs - 0.5) 5).
  pose proof (Rmax_r (amax xs + 0.5) 11.5). pose proof (Rmax_l (amax xs + 0.5) 11.5).
  pose proof (Rmax_r (amax ys + 0.1) 1.05). pose proof (Rmax_l (amax ys + 0.1) 1.05).
  rewrite ulo_zero. destruct o as [s|].
  - destruct Ho as (S1 & S2 & S3 & S4 & S5).
    destruct (_ || _ || _ || _)%bool eqn:E.
    + rewrite S3, (Rmin_left 0 0) by lra.
      set (lo := Rmin (amin xs - 0.5) 5) in *; set (hi := Rmax (amax xs + 0.5) 11.5) in *.
      set (uh := Rmax (amax ys + 0.1) 1.05) in *.
      pose proof (Rmin_l lo (tb_mlo s)); pose proof (Rmin_r lo (tb_mlo s)).
      pose proof (Rmax_l hi (tb_mhi s)); pose proof (Rmax_r hi (tb_mhi s)).
      pose proof (Rmax_l uh (tb_uhi s)); pose proof (Rmax_r uh (tb_uhi s)).
      set (l1 := Rmin lo (tb_mlo s)) in *. set (h1 := Rmax hi (tb_mhi s)) in *. set (u1 := Rmax uh (tb_uhi s)) in *.
      clearbody l1 h1 u1 lo hi uh. clear E.
      split; [|split].
      * unfold ok_table. cbn [build_table tb_mlo tb_mhi tb_ulo tb_uhi]. split; [lra|]. split; [lra|]. split; [reflexivity|].
        split; [lra|]. apply build_wf; lra.
      * cbn [extends build_table tb_mlo tb_mhi tb_ulo tb_uhi]. lra.
      * intros x y Hx Hy'. unfold covers. cbn [build_table tb_mlo tb_mhi tb_ulo tb_uhi].
        pose proof (amin_le _ _ Hx); pose proof (amax_ge _ _ Hx).
        pose proof (amax_ge _ _ Hy'); specialize (Hy _ Hy'); lra.
    + apply orb_false_iff in E as [E E4]. apply orb_false_iff in E as [E E3]. apply orb_false_iff in E as [E1 E2].
      apply Rltb_false in E1, E2, E3, E4.
      split; [|split]. { split; [auto|]. split; [auto|]. split; [auto|]. split; auto. } cbn [extends]; lra.
    intros x y Hx Hy'. unfold covers. pose proof (amin_le _ _ Hx); pose proof (amax_ge _ _ Hx).
    pose proof (amin_le _ _ Hy'); pose proof (amax_ge _ _ Hy'). lra.
  - split; [|split].
    + unfold ok_table. cbn [build_table tb_mlo tb_mhi tb_ulo tb_uhi]. split; [lra|]. split; [lra|]. split; [reflexivity|].
      split; [lra|]. apply build_wf; lra.
    + exact I.
    + intros x y Hx Hy'. unfold covers; cbn [build_table tb_mlo tb_mhi tb_ulo tb_uhi]. pose proof (amin_le _ _ Hx); pose proof (amax_ge _ _ Hx).
      pose proof (amax_ge _ _ Hy'). specialize (Hy _ Hy'). lra.
Qed.

Lemma ensure_same t xs ys : xs <> [] -> ys <> [] -> (forall x, In x xs -> tb_mlo t <= x <= tb_mhi t) -> (forall y, In y ys -> tb_ulo t <= y <= tb_uhi t) ->
  ensure_table (Some t) xs ys = t.
Proof.
  intros Hxs Hys Hx Hy. unfold ensure_table.
  rewrite (proj2 (Rltb_false (amin xs) (tb_mlo t))) by (apply amin_glb; auto; intros ? A; apply (proj1 (Hx _ A))).
  rewrite (proj2 (Rltb_false (tb_mhi t) (amax xs))) by (apply amax_lub; auto; intros ? A; apply (proj2 (Hx _ A))).
  rewrite (proj2 (Rltb_false (amin ys) (tb_ulo t))) by (apply amin_glb; auto; intros ? A; apply (proj1 (Hy _ A))).
  rewrite (proj2 (Rltb_false (tb_uhi t) (amax ys))) by (apply amax_lub; auto; intros ? A; apply (proj2 (Hy _ A))).
  reflexivity.
Qed.

Lemma in_table_covers t x y : in_table t x y = true <-> covers t x y.
Proof.
  unfold in_table, covers. rewrite !andb_true_iff, !Rleb_true. tauto.
Qed.

Lemma mnode_step t : mnode t 1 - mnode t 0 = (tb_mhi t - tb_mlo t) / INR (tb_nm t - 1).
Proof. unfold mnode. rewrite node_S. lra. Qed.
Lemma unode_step t : unode t 1 - unode t 0 = (tb_uhi t - tb_ulo t) / INR (tb_nu t - 1).
Proof. unfold unode. rewrite node_S. lra. Qed.

Lemma look_same f t x y : wf_table t -> look_scalar f t x y = look_array f t x y.
Proof.
  intros [W1 W2]. unfold look_scalar, look_array. rewrite mnode_step, unode_step.
  set (i := Nat.min _ (tb_nm t - 2)). set (j := Nat.min _ (tb_nu t - 2)).
  replace (mnode t i) with (mnode t 0 + INR i * ((tb_mhi t - tb_mlo t) / INR (tb_nm t - 1))) by (unfold mnode, node; cbn; ring).
  replace (unode t j) with (unode t 0 + INR j * ((tb_uhi t - tb_ulo t) / INR (tb_nu t - 1))) by (unfold unode, node; cbn; ring).
  do 2 f_equal; f_equal; ring.
Qed.

Lemma look_bilinear f t x y : wf_table t -> covers t x y ->
  bilinear_in_cell (fun a b => log10 (f (pow10 a) (pow10 b - 1))) 0.064 0.017 x y (log10 (look_array f t x y)).
Proof.
  intros [W1 W2] [C1 C2]. pose proof (cell _ _ _ _ _ W1 C1) as I. pose proof (cell _ _ _ _ _ W2 C2) as J.
  cbn zeta in I, J. unfold look_array. rewrite mnode_step, unode_step, log10_pow10.
  replace (mnode t 0) with (tb_mlo t) by (unfold mnode; now rewrite node_0).
  replace (unode t 0) with (tb_ulo t) by (unfold unode; now rewrite node_0).
  pose proof (step_pos _ _ _ _ W1) as D1. pose proof (step_pos _ _ _ _ W2) as D2.
  pose proof (proj2 (proj2 W1)) as B1. pose proof (proj2 (proj2 W2)) as B2.
  set (dm := (tb_mhi t - tb_mlo t) / INR (tb_nm t - 1)) in *. set (du := (tb_uhi t - tb_ulo t) / INR (tb_nu t - 1)) in *.
  set (i := Nat.min (floor_nat ((x - tb_mlo t) / dm)) (tb_nm t - 2)) in *.
  set (j := Nat.min (floor_nat ((y - tb_ulo t) / du)) (tb_nu t - 2)) in *.
  exists (mnode t i), (mnode t (S i)), (unode t j), (unode t (S j)), ((x - mnode t i) / dm), ((y - unode t j) / du).
  pose proof (node_S (tb_mlo t) (tb_mhi t) (tb_nm t) i) as Ei. pose proof (node_S (tb_ulo t) (tb_uhi t) (tb_nu t) j) as Ej.
  fold dm in Ei. fold du in Ej. fold (mnode t i) (mnode t (S i)) in Ei, I. fold (unode t j) (unode t (S j)) in Ej, J.
  assert (forall v d, 0 < d -> 0 <= v <= d -> 0 <= v / d <= 1) as U.
  { intros v d Hd Hv. split. apply Rmult_le_pos; [lra|left; apply Rinv_0_lt_compat; auto].
    apply Rmult_le_reg_r with d; auto. unfold Rdiv. rewrite Rmult_assoc, Rinv_l; lra. }
  split; [apply U; lra|]. split; [apply U; lra|]. split; [lra|]. split; [lra|].
  split; [rewrite Ei; field; lra|]. split; [rewrite Ej; field; lra|].
  unfold blend, entry. ring.
Qed.

Definition good_query (q : query) : Prop :=
  match q with QOne m z => 0 < m /\ 0 <= z | QMany l => l <> [] /\ (forall p, In p l -> 0 < fst p /\ 0 <= snd p) end.
Definition asks (q : query) (m z : R) : Prop := match q with QOne m' z' => m = m' /\ z = z' | QMany l => In (m, z) l end.

Lemma log10_1p_nonneg z : 0 <= z -> 0 <= log10 (1 + z).
Proof.
  intros. unfold log10. apply Rmult_le_pos; [|left; apply Rinv_0_lt_compat, ln10_pos].
  rewrite <- ln_1. destruct (Req_dec z 0) as [->|]. rewrite Rplus_0_r; lra. left; apply ln_increasing; lra.
Qed.

Lemma in_combine_same {A} (l : list A) (g h : A -> R) x y : In (x, y) (combine (map g l) (map h l)) -> exists a, In a l /\ x = g a /\ y = h a.
Proof.
  induction l as [|a t IH]; cbn; [tauto|]. intros [E|H]. injection E as <- <-. eauto. destruct (IH H) as (b & ? & ? & ?); eauto.
Qed.

Lemma query_ok f o q : ok_opt o -> good_query q ->
  let t := run_query f o q in ok_table t /\ extends o t /\ (forall m z, asks q m z -> covers t (log10 m) (log10 (1 + z))).
Proof.
  assert (M : forall o l, ok_opt o -> l <> [] -> (forall p, In p l -> 0 < fst p /\ 0 <= snd p) ->
    let t := fst (eval_array f o l) in ok_table t /\ extends o t /\ (forall m z, In (m, z) l -> covers t (log10 m) (log10 (1 + z)))).
  { intros o' l Ho Hl Hp t. unfold t, eval_array. cbn [fst].
    destruct (ensure_ok o' (map (fun p => log10 (fst p)) l) (map (fun p => log10 (1 + snd p)) l) Ho) as (A & B & C).
    destruct l; cbn; congruence. destruct l; cbn; congruence.
    intros y Hy. apply in_map_iff in Hy as (p & <- & Hin). apply log10_1p_nonneg, Hp; auto.
    split; [exact A|]. split; [exact B|]. intros m z Hin. apply C; apply in_map_iff; exists (m, z); auto. }
  intros Ho Hq t. unfold t. destruct q as [m z|l]; cbn [run_query asks good_query] in *.
  - assert (S1 : let t := fst (eval_array f o [(m, z)]) in ok_table t /\ extends o t /\ (forall m' z', In (m', z') [(m, z)] -> covers t (log10 m') (log10 (1 + z')))).
    { apply M; auto. discriminate. intros p [<-|[]]; auto. }
    cbn zeta in S1. destruct S1 as (A & B & C). unfold eval_scalar. destruct o as [s|].
    + destruct (in_table s (log10 m) (log10 (1 + z))) eqn:E; cbn [fst].
      * apply in_table_covers in E. split; [exact Ho|]. split. cbn; lra. intros ? ? [-> ->]; auto.
      * split; [exact A|]. split; [exact B|]. intros ? ? [-> ->]. apply C; now left.
    + cbn [fst]. split; [exact A|]. split; [exact B|]. intros ? ? [-> ->]. apply C; now left.
  - destruct Hq. apply M; auto.
Qed.

Lemma extends_trans o s t : extends o s -> extends (Some s) t -> extends o t.
Proof. destruct o; cbn; intros; auto; lra. Qed.
Lemma covers_extends s t x y : covers s x y -> extends (Some s) t -> covers t x y.
Proof. unfold covers, extends. lra. Qed.

Lemma run_queries_app f o h k : run_queries f o (h ++ k) = run_queries f (run_queries f o h) k.
Proof. revert o; induction h as [|q h IH]; intros o; cbn; auto. Qed.

Lemma queries_ok f o h : ok_opt o -> Forall good_query h ->
  ok_opt (run_queries f o h) /\
  (forall s, o = Some s -> exists t, run_queries f o h = Some t /\ extends (Some s) t) /\
  (forall q m z, In q h -> asks q m z -> exists t, run_queries f o h = Some t /\ covers t (log10 m) (log10 (1 + z))).
Proof.
  intros Ho Hh. revert o Ho; induction Hh as [|q h Hq Hh IH]; intros o Ho; cbn [run_queries].
  - split; auto. split. intros s ->; exists s; split; auto; cbn; lra. intros ? ? ? [].
  - destruct (query_ok f o q Ho Hq) as (A & B & C). set (t := run_query f o q) in *.
    destruct (IH (Some t) A) as (D & E & F). split; auto. split.
    + intros s ->. destruct (E t eq_refl) as (t' & -> & X). exists t'; split; auto. eapply extends_trans; eauto.
    + intros q' m z [<-|Hin] Ha; eauto. destruct (E t eq_refl) as (t' & -> & X). exists t'; split; auto.
      eapply covers_extends; eauto.
Qed.

(** the value of a query is the lookup in the table after it *)
Lemma scalar_value f o m z : ok_opt o -> 0 < m -> 0 <= z ->
  snd (eval_scalar f o m z) = look_array f (fst (eval_scalar f o m z)) (log10 m) (log10 (1 + z)).
Proof.
  intros Ho Hm Hz. unfold eval_scalar. destruct o as [s|]; [|reflexivity].
  destruct (in_table s _ _); [|reflexivity]. cbn [fst snd]. apply look_same. apply Ho.
Qed.

Lemma bilinear_bounds g wx wy x y v lo hi : bilinear_in_cell g wx wy x y v ->
  (forall a b, Rabs (a - x) <= wx -> Rabs (b - y) <= wy -> lo <= g a b <= hi) -> lo <= v <= hi.
Proof.
  intros (x0 & x1 & y0 & y1 & s & t & Hs & Ht & Hx & Hy & Ex & Ey & ->) H.
  assert (X0 : Rabs (x0 - x) <= wx) by (apply Rabs_le; nra).
  assert (X1 : Rabs (x1 - x) <= wx) by (apply Rabs_le; nra).
  assert (Y0 : Rabs (y0 - y) <= wy) by (apply Rabs_le; nra).
  assert (Y1 : Rabs (y1 - y) <= wy) by (apply Rabs_le; nra).
  pose proof (H x0 y0 X0 Y0) as A. pose proof (H x0 y1 X0 Y1) as B. pose proof (H x1 y0 X1 Y0) as C. pose proof (H x1 y1 X1 Y1) as D.
  set (a := g x0 y0) in *. set (b := g x0 y1) in *. set (c := g x1 y0) in *. set (d := g x1 y1) in *.
  assert (0 <= (1 - s) * (1 - t)) by nra. assert (0 <= s * (1 - t)) by nra. assert (0 <= (1 - s) * t) by nra. assert (0 <= s * t) by nra.
  assert (forall k u, 0 <= k -> lo <= u <= hi -> k * lo <= k * u <= k * hi) as K by (intros; split; apply Rmult_le_compat_l; lra).
  pose proof (K _ _ H0 A). pose proof (K _ _ H1 C). pose proof (K _ _ H2 B). pose proof (K _ _ H3 D).
  replace lo with ((1 - s) * (1 - t) * lo + s * (1 - t) * lo + (1 - s) * t * lo + s * t * lo) by ring.
  replace hi with ((1 - s) * (1 - t) * hi + s * (1 - t) * hi + (1 - s) * t * hi + s * t * hi) by ring. lra.
Qed.
