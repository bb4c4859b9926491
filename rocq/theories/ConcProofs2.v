(** Lemmas about suppression factors, bins, and batch evaluation. *)
From Verif Require Import Prelude MassFnModel MassFnProofs Interp RenderProofs ConcModel ConcSpec ConcProofs.
From Coq Require Import Rpower.
Local Open Scope R_scope.
Local Open Scope list_scope.

(** ** Suppression *)

Lemma Rpower_le_base x y p : 0 < x -> x <= y -> 0 <= p -> Rpower x p <= Rpower y p.
Proof. intros. apply Rle_Rpower_l; lra. Qed.
Lemma Rpower_neg_base x y p : 0 < x -> x <= y -> p <= 0 -> Rpower y p <= Rpower x p.
Proof.
  intros. replace p with (- - p) by ring. rewrite !(Rpower_Ropp _ (- p)).
  apply Rinv_le_contravar. apply exp_pos. apply Rle_Rpower_l; lra.
Qed.
Lemma Rpower_one_base p : Rpower 1 p = 1.
Proof. unfold Rpower. rewrite ln_1, Rmult_0_r, exp_0. reflexivity. Qed.
Lemma Rpower_ge1_neg x p : 1 <= x -> p <= 0 -> Rpower x p <= 1.
Proof. intros. rewrite <- (Rpower_one_base p). apply Rpower_neg_base; lra. Qed.

Lemma poly_core_le1 s q r p : 0 <= s -> p <= 0 -> Rpower (1 + s * Rpower q r) p <= 1.
Proof. intros. apply Rpower_ge1_neg; auto. assert (0 < Rpower q r) by apply exp_pos. nra. Qed.
Lemma poly_core_mono s mhm m m' r p : 0 <= s -> p <= 0 -> 0 <= r -> 0 < mhm -> 0 < m -> m <= m' ->
  Rpower (1 + s * Rpower (mhm / m) r) p <= Rpower (1 + s * Rpower (mhm / m') r) p.
Proof.
  intros. assert (0 < Rpower (mhm / m') r) by apply exp_pos.
  assert (Rpower (mhm / m') r <= Rpower (mhm / m) r).
  { apply Rpower_le_base; auto. apply Rdiv_lt_0_compat; lra.
    unfold Rdiv. apply Rmult_le_compat_l; [lra|]. apply Rinv_le_contravar; lra. }
  apply Rpower_neg_base; nra.
Qed.
Lemma bose_le1 z : 0 <= z -> z <= 20 / 13 -> bose_evolution z <= 1.
Proof. intros. unfold bose_evolution. apply Rpower_ge1_neg; lra. Qed.
Lemma bose_gt1 z : 20 / 13 < z -> 1 < bose_evolution z.
Proof.
  intros. unfold bose_evolution, Rpower. apply Rle_lt_trans with (exp 0); [rewrite exp_0; lra|]. apply exp_increasing.
  apply Rmult_lt_0_compat; [lra|]. rewrite <- ln_1. apply ln_increasing; lra.
Qed.

Lemma half_tanh x : 0.5 * (1 + tanh x) = / (1 + exp (- 2 * x)).
Proof.
  unfold tanh, sinh, cosh. pose proof (exp_pos x). pose proof (exp_pos (- x)).
  replace (exp (- 2 * x)) with (exp (- x) * / exp x) by (rewrite <- exp_Ropp, <- exp_plus; f_equal; ring).
  replace 0.5 with (/ 2) by lra. field. repeat split; lra.
Qed.
Lemma logistic_bounds x : 0 < 0.5 * (1 + tanh x) < 1.
Proof.
  rewrite half_tanh. pose proof (exp_pos (-2 * x)). split. apply Rinv_0_lt_compat; lra.
  rewrite <- Rinv_1. apply Rinv_lt_contravar; lra.
Qed.
Lemma logistic_mono x y : x <= y -> 0.5 * (1 + tanh x) <= 0.5 * (1 + tanh y).
Proof.
  intros. rewrite !half_tanh. pose proof (exp_pos (-2 * y)). apply Rinv_le_contravar. lra.
  apply Rplus_le_compat_l. destruct (Req_dec x y) as [->|]. lra. left; apply exp_increasing; lra.
Qed.
Lemma logistic_smono x y : x < y -> 0.5 * (1 + tanh x) < 0.5 * (1 + tanh y).
Proof.
  intros. rewrite !half_tanh. pose proof (exp_pos (-2 * y)). pose proof (exp_pos (-2 * x)).
  apply Rinv_lt_contravar. apply Rmult_lt_0_compat; lra. apply Rplus_lt_compat_l. apply exp_increasing; lra.
Qed.

Lemma log10_le x y : 0 < x -> x <= y -> log10 x <= log10 y.
Proof. intros H [H1|<-]; [|lra]. left. apply log10_lt; auto. Qed.

Lemma hyper_suppresses log_mc a b z : 0 < b -> suppresses (fun m => hyper_suppression log_mc a b m z).
Proof.
  intros Hb. unfold hyper_suppression. pose proof (pow10_pos log_mc) as P. split.
  - intros m Hm. set (x := _ / (2 * b)). pose proof (logistic_bounds x). lra.
  - intros m m' Hm Hle. apply logistic_mono. unfold Rdiv at 1 3. apply Rmult_le_compat_r.
    left; apply Rinv_0_lt_compat; lra. apply Rplus_le_compat_r. apply log10_le. apply Rdiv_lt_0_compat; lra.
    unfold Rdiv. apply Rmult_le_compat_r; [left; apply Rinv_0_lt_compat; lra|lra].
Qed.

(** *** the tabulated fit *)
Definition in_box (lo hi : R) (l : list R) : Prop := Forall (fun v => lo <= v <= hi) l.

Lemma line3_ok vals x lo hi : List.length vals = 5%nat -> in_box lo hi vals -> 0 <= x <= 4 ->
  exists v, interp1d (combine lw_points3 vals) x = Ok v /\ lo <= v <= hi.
Proof.
  intros L B Hx. destruct vals as [|a [|b [|c [|d [|e [|]]]]]]; try discriminate L.
  unfold lw_points3. cbn [combine].
  destruct (proj2 (interp1d_domain 0 a [(1, b); (2, c); (3, d); (4, e)] x)) as [v Hv]. cbn; lra.
  exists v; split; auto. eapply interp1d_bounds; [|  |exact Hv]. cbn; lra.
  unfold in_box in B. rewrite Forall_forall in B.
  intros p q [E|[E|[E|[E|[E|[]]]]]]; injection E as <- <-; apply B; cbn; tauto.
Qed.
Lemma line2_ok vals x lo hi : List.length vals = 3%nat -> in_box lo hi vals -> 6 <= x <= 8 ->
  exists v, interp1d (combine lw_points2 vals) x = Ok v /\ lo <= v <= hi.
Proof.
  intros L B Hx. destruct vals as [|a [|b [|c [|]]]]; try discriminate L.
  unfold lw_points2. cbn [combine].
  destruct (proj2 (interp1d_domain 6 a [(7, b); (8, c)] x)) as [v Hv]. cbn; lra.
  exists v; split; auto. eapply interp1d_bounds; [|  |exact Hv]. cbn; lra.
  unfold in_box in B. rewrite Forall_forall in B.
  intros p q [E|[E|[E|[]]]]; injection E as <- <-; apply B; cbn; tauto.
Qed.
Lemma line1_ok vals x lo hi : List.length vals = 5%nat -> in_box lo hi vals -> 1 <= x <= 4 ->
  exists v, interp1d (combine lw_points1 vals) x = Ok v /\ lo <= v <= hi.
Proof.
  intros L B Hx. destruct vals as [|a [|b [|c [|d [|e [|]]]]]]; try discriminate L.
  unfold lw_points1. cbn [combine].
  destruct (proj2 (interp1d_domain 1 a [(2, b); (2.7, c); (3.2, d); (4, e)] x)) as [v Hv]. cbn; lra.
  exists v; split; auto. eapply interp1d_bounds; [|  |exact Hv]. cbn; lra.
  unfold in_box in B. rewrite Forall_forall in B.
  intros p q [E|[E|[E|[E|[E|[]]]]]]; injection E as <- <-; apply B; cbn; tauto.
Qed.

Lemma mapM_ok_box {A} (f : A -> result R) l lo hi : (forall a, In a l -> exists v, f a = Ok v /\ lo <= v <= hi) ->
  exists vs, mapM f l = Ok vs /\ List.length vs = List.length l /\ in_box lo hi vs.
Proof.
  induction l as [|a t IH]; intros H; cbn.
  - exists []. repeat split. constructor.
  - destruct (H a) as (v & -> & Hv); [now left|]. destruct IH as (vs & -> & Hl & Hb). intros; apply H; now right.
    exists (v :: vs). cbn. repeat split; auto. constructor; auto.
Qed.

Definition table_box (lo hi : R) (t : list (list (list R))) : Prop :=
  List.length t = 5%nat /\ Forall (fun plane => List.length plane = 3%nat /\ Forall (fun line => List.length line = 5%nat /\ in_box lo hi line) plane) t.
Lemma interp3_ok t lo hi x1 x2 x3 : table_box lo hi t -> 1 <= x1 <= 4 -> 6 <= x2 <= 8 -> 0 <= x3 <= 4 ->
  exists v, interp3 t x1 x2 x3 = Ok v /\ lo <= v <= hi.
Proof.
  intros [L B] H1 H2 H3. unfold interp3.
  assert (R : exists rows, mapM (fun plane => do cols <- mapM (fun line => interp1d (combine lw_points3 line) x3) plane;
                                interp1d (combine lw_points2 cols) x2) t = Ok rows /\ List.length rows = List.length t /\ in_box lo hi rows).
  { apply mapM_ok_box. intros plane Hp. rewrite Forall_forall in B. destruct (B _ Hp) as [Lp Bp].
    destruct (mapM_ok_box (fun line => interp1d (combine lw_points3 line) x3) plane lo hi) as (cols & -> & Lc & Bc).
    { intros line Hl. rewrite Forall_forall in Bp. destruct (Bp _ Hl). apply line3_ok; auto. }
    cbn [bind]. apply line2_ok; auto. lia. }
  destruct R as (rows & -> & Lr & Br). cbn [bind]. apply line1_ok; auto. lia.
Qed.
Lemma lw_b_box : table_box 0.42 1.045 lw_b.
Proof. split; [reflexivity|]. unfold lw_b, in_box. 
  repeat match goal with |- Forall _ _ => constructor | |- _ = _ => reflexivity | |- _ /\ Forall _ _ => split | |- _ <= _ <= _ => split; lra end. Qed.
Lemma lw_a_box : table_box (-0.048) 0.554 lw_a.
Proof. split; [reflexivity|]. unfold lw_a, in_box. 
  repeat match goal with |- Forall _ _ => constructor | |- _ = _ => reflexivity | |- _ /\ Forall _ _ => split | |- _ <= _ <= _ => split; lra end. Qed.

Lemma fit_ok lm slope z : exists a b, suppression_fit lm slope z = Ok (a, b) /\ -0.048 <= a <= 0.554 /\ 0.42 <= b <= 1.045.
Proof.
  unfold suppression_fit, make_in_bounds.
  assert (forall lo hi v, lo <= hi -> lo <= Rmin hi (Rmax lo v) <= hi) as U.
  { intros lo hi v H. split; [apply Rmin_glb; [lra|apply Rmax_l]|apply Rmin_l]. }
  pose proof (U 6 8 lm ltac:(lra)). pose proof (U 1 4 (-1 * slope) ltac:(lra)). pose proof (U 0 4 z ltac:(lra)) as Z.
  rewrite (Rmin_comm 4), (Rmax_comm 0) in Z.
  destruct (interp3_ok lw_a _ _ _ _ _ lw_a_box H0 H Z) as (a & -> & Ha).
  destruct (interp3_ok lw_b _ _ _ _ _ lw_b_box H0 H Z) as (b & -> & Hb).
  cbn [bind]. exists a, b. auto.
Qed.

(** ** Bins *)

Lemma binned_loop_spec bins models i m z :
  binned_loop bins models i m z =
  match find (fun ib => Rltb m (pow10 (snd (snd ib)))) (enum_from i bins) with
  | Some ib => Ok (models (fst ib) m z) | None => Err EValueError end.
Proof.
  revert i; induction bins as [|b t IH]; intros i; cbn; auto.
  destruct (Rltb m (pow10 (snd b))); auto.
Qed.
Lemma binned_loop_nth bins models m z : forall k i b,
  nth_error bins k = Some b -> m < pow10 (snd b) ->
  (forall k' b', (k' < k)%nat -> nth_error bins k' = Some b' -> pow10 (snd b') <= m) ->
  binned_loop bins models i m z = Ok (models (i + k)%nat m z).
Proof.
  induction bins as [|b0 t IH]; intros [|k] i b E Hlt Hpre; try discriminate E; cbn.
  - injection E as ->. rewrite (proj2 (Rltb_true _ _)) by auto. do 2 f_equal; lia.
  - rewrite (proj2 (Rltb_false _ _)) by (apply (Hpre 0%nat b0); [lia|reflexivity]).
    rewrite (IH k (S i) b); auto. f_equal; f_equal; lia. intros k' b' Hk Eb. apply (Hpre (S k') b'); auto; lia.
Qed.
Lemma binned_loop_none bins models m z : forall i, (forall b, In b bins -> pow10 (snd b) <= m) -> binned_loop bins models i m z = Err EValueError.
Proof.
  induction bins as [|b t IH]; intros i H; cbn; auto.
  rewrite (proj2 (Rltb_false _ _)) by (apply H; now left). apply IH. intros; apply H; now right.
Qed.
Lemma first_bin (bins : list (R * R)) m : (exists b, In b bins /\ m < pow10 (snd b)) ->
  exists k b, nth_error bins k = Some b /\ m < pow10 (snd b) /\
    (forall k' b', (k' < k)%nat -> nth_error bins k' = Some b' -> pow10 (snd b') <= m).
Proof.
  induction bins as [|b t IH]; intros (b0 & Hin & Hlt); [destruct Hin|].
  destruct (Rlt_dec m (pow10 (snd b))) as [H|H].
  - exists 0%nat, b. repeat split; auto. intros; lia.
  - destruct Hin as [->|Hin]; [lra|]. destruct IH as (k & b1 & E & L & P). exists b0; auto.
    exists (S k), b1. repeat split; auto. intros [|k'] b' Hk E'. cbn in E'; injection E' as <-. lra.
    apply (P k' b'); auto; lia.
Qed.

(** ** Batch evaluation *)

Lemma floor_if c : (if Rltb c universal_minimum then universal_minimum else c) = Rmax c universal_minimum.
Proof.
  unfold Rmax, Rltb. destruct (Rlt_dec c universal_minimum), (Rle_dec c universal_minimum); auto; try lra.
Qed.

Lemma mapM_Ok_iff {A B} (f g : A -> result B) l vs : (forall a b, In a l -> (f a = Ok b <-> g a = Ok b)) -> (mapM f l = Ok vs <-> mapM g l = Ok vs).
Proof.
  revert vs; induction l as [|a t IH]; intros vs H; [reflexivity|]. cbn.
  assert (IH' : forall vs, mapM f t = Ok vs <-> mapM g t = Ok vs) by (intros; apply IH; intros; apply H; now right).
  pose proof (fun b => H a b (or_introl eq_refl)) as Ha.
  destruct (f a) as [b|e] eqn:Ef; cbn.
  - rewrite (proj1 (Ha b) eq_refl). cbn. destruct (mapM f t) as [bs|e] eqn:E; cbn.
    + rewrite (proj1 (IH' bs) eq_refl). reflexivity.
    + destruct (mapM g t) as [bs|e'] eqn:E'; cbn; [|split; discriminate]. pose proof (proj2 (IH' bs) eq_refl). discriminate.
  - destruct (g a) as [b|e'] eqn:Eg; cbn; [|split; discriminate]. pose proof (proj2 (Ha b) eq_refl); discriminate.
Qed.
(** mapping in two passes *)
Lemma mapM_two {A B C} (f : A -> result B) (g : B -> A -> result C) l vs :
  (do bs <- mapM f l; mapM (fun p => g (fst p) (snd p)) (combine bs l)) = Ok vs <-> mapM (fun a => do b <- f a; g b a) l = Ok vs.
Proof.
  revert vs; induction l as [|a t IH]; intros vs; cbn. reflexivity.
  destruct (f a) as [b|e]; cbn; [|split; discriminate].
  destruct (mapM f t) as [bs|e] eqn:E; cbn.
  - destruct (g b a) as [c|e]; cbn; [|split; discriminate]. cbn in IH.
    destruct (mapM _ (combine bs t)) as [cs|e'] eqn:E1; cbn.
    + rewrite (proj1 (IH cs) eq_refl). reflexivity.
    + destruct (mapM (fun a0 => do b0 <- f a0; g b0 a0) t) as [cs|e''] eqn:E2; cbn; [|split; discriminate].
      pose proof (proj2 (IH cs) eq_refl); discriminate.
  - split; [discriminate|]. destruct (g b a) as [c|e']; cbn; [|discriminate]. cbn in IH.
    destruct (mapM (fun a0 => do b0 <- f a0; g b0 a0) t) as [cs|e''] eqn:E2; cbn; [|discriminate].
    intros. pose proof (proj2 (IH cs) eq_refl); discriminate.
Qed.
Lemma combine_map_r {A B C} (bs : list B) (f : A -> C) (l : list A) : combine bs (map f l) = map (fun p => (fst p, f (snd p))) (combine bs l).
Proof. revert l; induction bs as [|b bs IH]; intros [|a l]; cbn; auto. f_equal; auto. Qed.
Lemma mapM_map {A B C} (f : A -> B) (g : B -> result C) l : mapM g (map f l) = mapM (fun a => g (f a)) l.
Proof. induction l as [|a t IH]; cbn; auto. rewrite IH; auto. Qed.
Lemma mapM_pure_after {A B C} (f : A -> result B) (h : B -> A -> C) l vs :
  (do bs <- mapM f l; Ok (map (fun p => h (fst p) (snd p)) (combine bs l))) = Ok vs <-> mapM (fun a => do b <- f a; Ok (h b a)) l = Ok vs.
Proof.
  rewrite <- (mapM_two f (fun b a => Ok (h b a))).
  assert (P : forall l : list (B * A), mapM (fun p => Ok (h (fst p) (snd p))) l = Ok (map (fun p => h (fst p) (snd p)) l)).
  { induction l0 as [|p t IH]; cbn; auto. rewrite IH; auto. }
  destruct (mapM f l); cbn; [|reflexivity]. rewrite P. reflexivity.
Qed.

Lemma batch_scalar k q z vs :
  batch_concentration k q z = Ok vs <-> mapM (fun p => nfw_concentration k (fst p) z (snd p)) q = Ok vs.
Proof.
  revert vs. induction k as [name med s|cdm IH supp|c|call]; intros vs; cbn [batch_concentration nfw_concentration].
  - destruct (array_safe name); [|reflexivity].
    rewrite <- (mapM_two (fun p => med (fst p) z) (fun c p => scattered s z c false (snd p))).
    destruct (mapM (fun p => med (fst p) z) q) as [cs|e] eqn:E; cbn [bind]; [|reflexivity].
    unfold scattered. destruct (sc_on s).
    + rewrite combine_map_r, mapM_map. cbn [fst snd].
      rewrite <- (mapM_pure_after (fun p => np_lognormal (ln (fst p)) (sc_dex s + sc_zdep s * z) (snd (snd p))) (fun c _ => Rmax c universal_minimum)).
      destruct (mapM _ (combine cs q)) as [ds|e] eqn:E2; cbn [bind]; [|reflexivity].
      apply mapM_length in E2. rewrite <- (map_map fst (fun c => Rmax c universal_minimum)).
      rewrite (map_ext _ (fun c => Rmax c universal_minimum)) by apply floor_if.
      replace (map fst (combine ds (combine cs q))) with ds; [reflexivity|].
      revert E2. generalize (combine cs q). induction ds as [|d ds IHd]; intros [|p l]; cbn; intros; auto; try discriminate.
      f_equal; auto.
    + cbn [bind]. apply mapM_length in E.
      assert (P : forall l : list (R * (R * R)), mapM (fun p => Ok (Rmax (fst p) universal_minimum)) l = Ok (map (fun p => Rmax (fst p) universal_minimum) l)).
      { induction l as [|p t IH]; cbn; auto. rewrite IH; auto. }
      rewrite P, <- (map_map fst (fun c => Rmax c universal_minimum)).
      rewrite (map_ext _ (fun c => Rmax c universal_minimum)) by apply floor_if.
      replace (map fst (combine cs q)) with cs; [reflexivity|].
      revert E. generalize q. induction cs as [|d ds IHd]; intros [|p l]; cbn; intros; auto; try discriminate.
      f_equal; auto.
  - rewrite <- (mapM_pure_after (fun p => nfw_concentration cdm (fst p) z (snd p)) (fun c p => Rmax (c * supp (fst p) z) universal_minimum)).
    assert (X : forall cs, map (fun cm => let c := fst cm * supp (snd cm) z in if Rltb c universal_minimum then universal_minimum else c) (combine cs (map fst q))
              = map (fun p => Rmax (fst p * supp (fst (snd p)) z) universal_minimum) (combine cs q)).
    { intros cs. rewrite combine_map_r, map_map. apply map_ext. intros; cbn. apply floor_if. }
    destruct (batch_concentration cdm q z) as [cs|e] eqn:E; cbn [bind].
    + rewrite (proj1 (IH cs) eq_refl). cbn [bind]. rewrite X. reflexivity.
    + destruct (mapM (fun p => nfw_concentration cdm (fst p) z (snd p)) q) as [cs|e'] eqn:E2; cbn [bind]; [|split; discriminate].
      pose proof (proj2 (IH cs) eq_refl); discriminate.
  - assert (P : mapM (fun _ : R * R => Ok c) q = Ok (map (fun _ => c) q)) by (induction q as [|p t IH]; cbn; auto; rewrite IH; auto).
    rewrite P. reflexivity.
  - reflexivity.
Qed.
