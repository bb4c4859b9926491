(** Core collapse by mass, collapsed and cored halos, galaxies. *)
From Verif Require Import Prelude MassFnModel MassFnSpec ExtModel ExtSpec ExtProofs ExtProofs2.
From Coq Require Import Sorting.Sorted.
Local Open Scope string_scope.
Local Open Scope R_scope.
Local Open Scope list_scope.

(** ** Core collapse by mass *)
Lemma in_mass_bin_true m b : in_mass_bin m b = true <-> mass_in m b.
Proof. unfold in_mass_bin, mass_in. rewrite Bool.andb_true_iff, Rleb_true, Rltb_true. reflexivity. Qed.
Definition tick (n : nat) (s : xstate) : xstate := mkS (xs_h s) (xs_d s) (xs_u s + n) (xs_n s).

Lemma collapse_loop_spec e msub mfield psub pfield : forall hs i s idx s',
  collapse_loop e msub mfield psub pfield i hs s = Ok (idx, s') ->
  s' = tick (List.length hs) s /\ StronglySorted lt idx /\ Forall (fun j => (i <= j)%nat) idx /\
  forall j, In (i + j)%nat idx <-> collapses s hs msub mfield psub pfield j (xe_u e (xs_u s + j)).
Proof.
  induction hs as [|r t IH]; intros i s idx s' H; cbn [collapse_loop] in H.
  - injection H as <- <-. split; [unfold tick; cbn; rewrite Nat.add_0_r; now destruct s|]. split; [constructor|]. split; [constructor|].
    intros j. split; [intros []|]. intros (r & h & k & p & E & _). destruct j; discriminate.
  - apply sbind_Ok in H as (u & s1 & Hu & H). injection Hu as <- <-.
    apply sbind_Ok in H as (h & s2 & Hh & H). apply get_Ok in Hh as (E & ->). cbn [xs_h] in E.
    apply sbind_Ok in H as (hit & s3 & Hh & H). apply sbind_Ok in H as (rest & s4 & Hr & H). injection H as <- <-.
    assert (HIT : s3 = mkS (xs_h s) (xs_d s) (S (xs_u s)) (xs_n s) /\
              (hit = true <-> collapses s (r :: t) msub mfield psub pfield 0 (xe_u e (xs_u s)))).
    { unfold collapses. cbn [nth_error]. destruct (String.eqb (xh_mdef h) "TNFW") eqn:EM; cbn [negb] in Hh.
      - apply String.eqb_eq in EM. 
        assert (G : forall bins ps, (match find_bin (in_mass_bin (xh_mass h)) 0 bins with None => ret false | Some k => go p <- lift (at_index ps k); ret (Rleb (xe_u e (xs_u s)) (eval_prob p r)) end) (mkS (xs_h s) (xs_d s) (S (xs_u s)) (xs_n s)) = Ok (hit, s3) ->
          s3 = mkS (xs_h s) (xs_d s) (S (xs_u s)) (xs_n s) /\ (hit = true <-> exists k p, first_bin (mass_in (xh_mass h)) bins k /\ nth_error ps k = Some p /\ xe_u e (xs_u s) <= chance p r)).
        { clear Hh. intros bins ps Hh. destruct (find_bin (in_mass_bin (xh_mass h)) 0 bins) as [k|] eqn:FB.
          - destruct (find_bin_Some _ _ _ (in_mass_bin_true (xh_mass h)) _ _ FB) as (k' & EK & FI). cbn in EK. subst k'.
            apply sbind_Ok in Hh as (p & s5 & Hp & Hh). apply lift_Ok in Hp as (Hp & ->). apply at_index_Ok in Hp. injection Hh as <- <-.
            split; [reflexivity|]. rewrite Rleb_true. split.
            + intros L. exists k, p. split; [exact FI|]. split; [exact Hp|]. destruct p; exact L.
            + intros (k2 & p2 & FI2 & E2 & L). pose proof (find_bin_first _ _ _ (in_mass_bin_true (xh_mass h)) 0%nat k2 FI2) as FB2.
              rewrite FB in FB2. injection FB2 as <-. replace p2 with p in * by congruence. destruct p; exact L.
          - injection Hh as <- <-. split; [reflexivity|]. split; [discriminate|]. intros (k2 & p2 & FI2 & _).
            pose proof (find_bin_first _ _ _ (in_mass_bin_true (xh_mass h)) 0%nat k2 FI2) as FB2. congruence. }
        destruct (xh_sub h) eqn:SUB; destruct (G _ _ Hh) as (-> & HI); (split; [reflexivity|]); rewrite HI; (split;
          [intros (k & p & A & B & C); exists r, h, k, p; rewrite SUB; auto 10
          |intros (r0 & h0 & k & p & E0 & E1 & E2 & A & B & C); injection E0 as <-; replace h0 with h in * by congruence; rewrite SUB in A, B; exists k, p; auto]).
      - injection Hh as <- <-. split; [reflexivity|]. split; [discriminate|]. intros (r0 & h0 & k & p & E0 & E1 & E2 & _).
        injection E0 as <-. replace h0 with h in * by congruence. rewrite E2 in EM. discriminate. }
    destruct HIT as (-> & HIT). destruct (IH _ _ _ _ Hr) as (-> & SS & FA & MEM).
    split; [unfold tick; cbn; f_equal; lia|].
    assert (FA' : Forall (fun j => (i < j)%nat) rest) by (eapply Forall_impl; [|exact FA]; cbn; lia).
    split; [destruct hit; [constructor; auto|exact SS]|].
    split; [destruct hit; [constructor; [lia|]|]; (eapply Forall_impl; [|exact FA]; cbn; lia)|].
    assert (TL : forall j, In (i + S j)%nat rest <-> collapses s (r :: t) msub mfield psub pfield (S j) (xe_u e (xs_u s + S j))).
    { intros j. replace (i + S j)%nat with (S i + j)%nat by lia. rewrite MEM. cbn [xs_u]. replace (S (xs_u s) + j)%nat with (xs_u s + S j)%nat by lia. reflexivity. }
    assert (NI : ~ In i rest) by (intros I; rewrite Forall_forall in FA'; specialize (FA' _ I); cbn in FA'; lia).
    intros [|j].
    + rewrite !Nat.add_0_r. rewrite <- HIT. destruct hit; [split; [reflexivity|now left]|]. split; [intros I; contradiction|discriminate].
    + rewrite <- TL. destruct hit; [|reflexivity]. split; [intros [I|I]; [lia|exact I]|now right].
Qed.
Lemma collapse_loop_total e msub mfield psub pfield : List.length msub = List.length psub -> List.length mfield = List.length pfield ->
  forall hs i s, valid s hs -> exists idx s', collapse_loop e msub mfield psub pfield i hs s = Ok (idx, s').
Proof.
  intros L1 L2. induction hs as [|r t IH]; intros i s V; cbn [collapse_loop]; [unfold ret; eauto|].
  inversion V as [|? ? LR V']; subst. apply nth_error_Some in LR. destruct (nth_error (xs_h s) r) as [h|] eqn:E; [|congruence].
  set (s1 := mkS (xs_h s) (xs_d s) (S (xs_u s)) (xs_n s)).
  unfold sbind at 1. unfold rand. fold s1. unfold sbind at 1. unfold get. cbn [s1 xs_h]. rewrite E. cbn beta iota.
  assert (HIT : exists hit, (if negb (String.eqb (xh_mdef h) "TNFW") then ret false
                 else let '(bins, ps) := if xh_sub h then (msub, psub) else (mfield, pfield) in
                      match find_bin (in_mass_bin (xh_mass h)) 0 bins with
                      | None => ret false
                      | Some k => go p <- lift (at_index ps k); ret (Rleb (xe_u e (xs_u s)) (eval_prob p r))
                      end) s1 = Ok (hit, s1)).
  { destruct (negb _); [unfold ret; eauto|].
    assert (G : forall bins (ps : list prob), List.length bins = List.length ps ->
      exists hit, (match find_bin (in_mass_bin (xh_mass h)) 0 bins with None => ret false | Some k => go p <- lift (at_index ps k); ret (Rleb (xe_u e (xs_u s)) (eval_prob p r)) end) s1 = Ok (hit, s1)).
    { intros bins ps L. destruct (find_bin _ 0 bins) as [k|] eqn:FB; [|unfold ret; eauto].
      destruct (find_bin_Some _ _ _ (in_mass_bin_true (xh_mass h)) _ _ FB) as (k' & EK & ((b & EB & _) & _)). cbn in EK. subst k'.
      apply nth_error_lt in EB. rewrite L in EB. apply nth_error_Some in EB. destruct (nth_error ps k) as [p|] eqn:EP; [|congruence].
      unfold sbind, lift, at_index. rewrite EP. unfold ret. eauto. }
    destruct (xh_sub h); apply G; assumption. }
  destruct HIT as (hit & EH). unfold sbind at 1. rewrite EH.
  destruct (IH (S i) s1 V') as (rest & s2 & E2). unfold sbind. rewrite E2. unfold ret. eauto.
Qed.

(** ** Loops that only add objects *)
Fixpoint mapSi (f : nat -> nat -> M nat) (i : nat) (hs : list nat) : M (list nat) :=
  match hs with [] => ret [] | r :: t => go r' <- f i r; go t' <- mapSi f (S i) t; ret (r' :: t') end.

Lemma mapSi_loop (Rel : xstate -> xstate -> Prop) (Q : nat -> xstate -> xstate -> nat -> nat -> Prop) f :
  (forall s, Rel s s) -> (forall a b c, Rel a b -> Rel b c -> Rel a c) ->
  (forall a b, Rel a b -> (List.length (xs_h a) <= List.length (xs_h b))%nat) ->
  (forall i r s r' s', (r < List.length (xs_h s))%nat -> f i r s = Ok (r', s') -> Rel s s' /\ Q i s s' r r') ->
  forall s0, (forall i s s' s1 r r', (r < List.length (xs_h s0))%nat -> Q i s s' r r' -> Rel s0 s -> Rel s' s1 -> Q i s0 s1 r r') ->
  forall hs i s hs' s1, valid s0 hs -> Rel s0 s -> mapSi f i hs s = Ok (hs', s1) ->
    Rel s s1 /\ List.length hs' = List.length hs /\
    forall j r, nth_error hs j = Some r -> exists r', nth_error hs' j = Some r' /\ Q (i + j)%nat s0 s1 r r'.
Proof.
  intros RR RT RL HF s0 ST. induction hs as [|r t IH]; intros i s hs' s1 V R0 H; cbn [mapSi] in H.
  - injection H as <- <-. split; [apply RR|]. split; [reflexivity|]. intros [|j] r; discriminate.
  - apply sbind_Ok in H as (r' & s2 & Hr & H). apply sbind_Ok in H as (t' & s3 & Ht & H). injection H as <- <-.
    inversion V as [|? ? L V']; subst. pose proof (RL _ _ R0) as LL. destruct (HF i r s r' s2 ltac:(lia) Hr) as (R1 & Q1).
    destruct (IH _ _ _ _ V' (RT _ _ _ R0 R1) Ht) as (R2 & LE & MEM).
    split; [eapply RT; eauto|]. split; [cbn; now rewrite LE|].
    intros [|j] r0 E; cbn in E.
    + injection E as <-. exists r'. split; [reflexivity|]. rewrite Nat.add_0_r. eapply ST; eauto.
    + destruct (MEM j r0 E) as (r1 & E1 & Q2). exists r1. split; [exact E1|]. replace (i + S j)%nat with (S i + j)%nat by lia. exact Q2.
Qed.

Lemma halos_refl s : halos_grow s s. Proof. exists []. now rewrite app_nil_r. Qed.
Lemma halos_trans a b c : halos_grow a b -> halos_grow b c -> halos_grow a c.
Proof. intros (l & E) (m & F). exists (l ++ m). now rewrite F, E, app_assoc. Qed.
Lemma dicts_refl s : dicts_grow s s. Proof. exists []. now rewrite app_nil_r. Qed.
Lemma dicts_trans a b c : dicts_grow a b -> dicts_grow b c -> dicts_grow a c.
Proof. intros (l & E) (m & F). exists (l ++ m). now rewrite F, E, app_assoc. Qed.
Definition grow (s s' : xstate) : Prop := halos_grow s s' /\ dicts_grow s s'.
Lemma grow_refl s : grow s s. Proof. split; [apply halos_refl|apply dicts_refl]. Qed.
Lemma grow_trans a b c : grow a b -> grow b c -> grow a c.
Proof. intros (A & B) (C & D). split; [eapply halos_trans|eapply dicts_trans]; eauto. Qed.
Lemma halos_nth s s' r h : halos_grow s s' -> nth_error (xs_h s) r = Some h -> nth_error (xs_h s') r = Some h.
Proof. intros (l & ->). apply nth_error_keep. Qed.
Lemma dicts_nth s s' r h : dicts_grow s s' -> nth_error (xs_d s) r = Some h -> nth_error (xs_d s') r = Some h.
Proof. intros (l & ->). apply nth_error_keep. Qed.
Lemma halos_back s s' r h : halos_grow s s' -> (r < List.length (xs_h s))%nat -> nth_error (xs_h s') r = Some h -> nth_error (xs_h s) r = Some h.
Proof. intros (l & ->) L. now rewrite nth_error_app1. Qed.
Lemma halos_length s s' : halos_grow s s' -> (List.length (xs_h s) <= List.length (xs_h s'))%nat.
Proof. intros (l & ->). rewrite app_length. lia. Qed.
Lemma grow_later s0 r s' s1 : grow s' s1 -> later s0 r s' s1.
Proof. intros (A & B). split; [intros; eapply halos_nth; eauto|intros; eapply dicts_nth; eauto]. Qed.
Lemma grow_undisturbed s s' : grow s s' -> undisturbed s s'.
Proof. intros (A & B). split; [intros r h E; exists h; split; [eapply halos_nth; eauto|apply same_object_refl]|intros; eapply dicts_nth; eauto]. Qed.

Lemma alloc_grow h s r s1 : alloc h s = Ok (r, s1) -> grow s s1 /\ xs_d s1 = xs_d s.
Proof. intros E. apply alloc_Ok in E as (-> & -> & _). split; [|reflexivity]. split; [exists [h]; reflexivity|exists []; cbn; now rewrite app_nil_r]. Qed.
Lemma build_grow e r h h' s x s1 : build e r h h' s = Ok (x, s1) -> grow s s1.
Proof.
  unfold build. intros H. destruct (xh_sub h).
  - apply sbind_Ok in H as (b & s2 & Hb & H). apply lift_Ok in Hb as (_ & ->). apply sbind_Ok in H as (r' & s2 & Ha & H). injection H as <- <-. eapply alloc_grow; eauto.
  - apply sbind_Ok in H as (r' & s2 & Ha & H). injection H as <- <-. eapply alloc_grow; eauto.
Qed.
Lemma static_grow e p r s r' s' : sd_tc p = None -> sd_toc p = None -> toSIDM_single_halo e p r s = Ok (r', s') -> grow s s'.
Proof.
  intros T1 T2 H. unfold toSIDM_single_halo in H. rewrite T1, T2 in H. apply sbind_Ok in H as (h & s1 & Hg & H). apply get_Ok in Hg as (_ & ->).
  destruct (negb _) in H; [discriminate|]. apply sbind_Ok in H as (rt & s1 & Hg & H). apply lift_Ok in Hg as (_ & ->).
  apply sbind_Ok in H as (c & s1 & Hg & H). apply lift_Ok in Hg as (_ & ->).
  assert (G : forall d x s s', (go a <- alloc_dict d; go x <- build e r h (x a); ret (fst x)) s = Ok (r', s') -> grow s s').
  { intros d x t t' K. apply sbind_Ok in K as (a & t1 & Ka & K). injection Ka as <- <-. apply sbind_Ok in K as (y & t2 & Kb & K). injection K as _ <-.
    apply build_grow in Kb. eapply grow_trans; [|exact Kb]. split; [exists []; cbn; now rewrite app_nil_r|exists [d]; reflexivity]. }
  destruct (String.eqb _ "CC_COMPOSITE").
  - apply sbind_Ok in H as (nf & s1 & Hg & H). apply lift_Ok in Hg as (_ & ->). destruct nf as [[? ?] ?]. eapply (G _ (fun a => _)). exact H.
  - destruct (String.eqb _ "TNFWC"); [|discriminate]. destruct (sd_xcore p); [|discriminate]. eapply (G _ (fun a => _)). exact H.
Qed.

(** ** Dictionaries *)
Lemma dict_get_set k k' v d : dict_get k (dict_set k' v d) = if String.eqb k' k then Some v else dict_get k d.
Proof.
  induction d as [|[k0 v0] t IH]; cbn [dict_set dict_get].
  - reflexivity.
  - destruct (String.eqb k0 k') eqn:E; cbn [dict_get].
    + apply String.eqb_eq in E. subst k0. destruct (String.eqb k' k); reflexivity.
    + destruct (String.eqb k0 k) eqn:E2; [|exact IH]. destruct (String.eqb k' k) eqn:E3; [|reflexivity].
      apply String.eqb_eq in E2, E3. subst. rewrite String.eqb_refl in E. discriminate.
Qed.
Lemma dict_get_app k a b : dict_get k (a ++ b) = match dict_get k a with Some v => Some v | None => dict_get k b end.
Proof. induction a as [|[k0 v0] t IH]; cbn; [reflexivity|]. destruct (String.eqb k0 k); auto. Qed.
Lemma dict_update_spec d kw : overridden d kw (dict_update d kw).
Proof.
  intros k. revert d. unfold dict_update. induction kw as [|[k0 v0] t IH]; intros d; cbn [fold_left rev fst snd]; [reflexivity|].
  rewrite IH, dict_get_set, dict_get_app. destruct (dict_get k (rev t)); [reflexivity|]. cbn. destruct (String.eqb k0 k); reflexivity.
Qed.
Lemma overridden_again d d' kw : overridden d kw d' -> overridden d kw (dict_update d' kw).
Proof.
  intros H k. rewrite (dict_update_spec d' kw k). rewrite (H k). destruct (dict_get k (rev kw)); reflexivity.
Qed.

(** ** Collapsed halos *)
Lemma is_in_true i idx : is_in i idx = true <-> listed idx i.
Proof.
  unfold is_in, listed. rewrite existsb_exists. split.
  - intros (x & I & E). apply Z.eqb_eq in E. now subst.
  - intros I. exists (Z.of_nat i). split; [exact I|]. apply Z.eqb_refl.
Qed.
Definition collapse_step e profile kw idx (i r : nat) : M nat := if is_in i idx then collapse_one e profile kw r else ret r.
Lemma collapse_list_mapSi e profile kw idx : forall hs i s, collapse_list e profile kw idx i hs s = mapSi (collapse_step e profile kw idx) i hs s.
Proof.
  induction hs as [|r t IH]; intros i s; cbn [collapse_list mapSi]; [reflexivity|]. unfold sbind, collapse_step.
  destruct ((if is_in i idx then collapse_one e profile kw r else ret r) s) as [[r' s1]|]; [|reflexivity]. rewrite IH. reflexivity.
Qed.
Lemma kw_num_Ok kw k x : kw_num kw k = Ok x -> dict_get k kw = Some (VNum x).
Proof. unfold kw_num. destruct (dict_get k kw) as [[]|]; intros E; try discriminate. injection E as ->. reflexivity. Qed.
Lemma kw_opt_Ok kw k x : kw_opt kw k = Ok (Some x) -> dict_get k kw = Some (VNum x).
Proof. unfold kw_opt. destruct (dict_get k kw) as [[]|]; intros E; try discriminate. injection E as ->. reflexivity. Qed.

(** TNFWC and CC_COMPOSITE *)
Lemma collapse_one_sidm e profile kw r s r' s' : profile = "TNFWC" \/ profile = "CC_COMPOSITE" ->
  collapse_one e profile kw r s = Ok (r', s') ->
  grow s s' /\ exists h p, nth_error (xs_h s) r = Some h /\ collapse_request profile kw p /\
    sidm_outcome e p (xs_u s) (xs_u s') s s' r r' h /\ xh_mdef h = "TNFW".
Proof.
  intros P H. unfold collapse_one in H. apply sbind_Ok in H as (h & s1 & Hg & H). apply get_Ok in Hg as (E & ->).
  destruct P as [-> | ->].
  - replace (String.eqb "TNFWC" "TNFWC") with true in H by reflexivity.
    apply sbind_Ok in H as (xc & s1 & Hg & H). apply lift_Ok in Hg as (EX & ->).
    pose proof H as K. apply static_grow in K; [|reflexivity|reflexivity]. split; [exact K|].
    destruct (single_spec _ _ _ _ _ _ _ E H) as (EM & _ & _ & O). exists h, (mkSidm None (Some 1) xc 0.15 false 1 "TNFWC" 2.6 1.6 (-1.9) None 1).
    split; [exact E|]. split; [|split; [exact O|exact EM]]. split; [reflexivity|]. split; [reflexivity|]. split; [reflexivity|]. split; [|discriminate].
    intros _. destruct O as (rt & _ & (_ & [(_ & x & h' & EXC & _)|(X & _)])); [|discriminate]. cbn in EXC. subst xc. exists x. split; [now apply kw_opt_Ok|reflexivity].
  - replace (String.eqb "CC_COMPOSITE" "TNFWC") with false in H by reflexivity. replace (String.eqb "CC_COMPOSITE" "CC_COMPOSITE") with true in H by reflexivity.
    apply sbind_Ok in H as (g & s1 & Hg & H). apply lift_Ok in Hg as (EG & ->).
    apply sbind_Ok in H as (sc & s1 & Hg & H). apply lift_Ok in Hg as (ES & ->).
    apply sbind_Ok in H as (l & s1 & Hg & H). apply lift_Ok in Hg as (EL & ->).
    pose proof H as K. apply static_grow in K; [|reflexivity|reflexivity]. split; [exact K|].
    destruct (single_spec _ _ _ _ _ _ _ E H) as (EM & _ & _ & O). exists h, (mkSidm None (Some 1) None 0.15 false 1 "CC_COMPOSITE" g sc l None 1).
    split; [exact E|]. split; [|split; [exact O|exact EM]]. split; [reflexivity|]. split; [reflexivity|]. split; [reflexivity|]. split; [discriminate|].
    intros _. cbn. split; [now apply kw_num_Ok|]. split; now apply kw_num_Ok.
Qed.
(** GNFW and SPL_CORE *)
Definition updated (s s' : xstate) (i : nat) (kw : xdict) : Prop :=
  exists d, nth_error (xs_d s) i = Some d /\ xs_d s' = replace_at i (dict_update d kw) (xs_d s).
Lemma collapse_one_general e profile kw r s r' s' : profile = "GNFW" \/ profile = "SPL_CORE" ->
  collapse_one e profile kw r s = Ok (r', s') ->
  exists h h', nth_error (xs_h s) r = Some h /\ halos_grow s s' /\ updated s s' (xh_args h) kw /\ general_profile profile s s' r r' h h'.
Proof.
  intros P H. unfold collapse_one in H. apply sbind_Ok in H as (h & s1 & Hg & H). apply get_Ok in Hg as (E & ->).
  exists h. rewrite (proj2 (String.eqb_neq profile "TNFWC")), (proj2 (String.eqb_neq profile "CC_COMPOSITE")) in H by (destruct P as [->| ->]; discriminate).
  destruct (negb (has_classes _)); [discriminate|]. apply sbind_Ok in H as (u & s1 & Hd & H).
  unfold update_dict in Hd. destruct (nth_error (xs_d s) (xh_args h)) as [d|] eqn:ED; [|discriminate]. injection Hd as <- <-.
  apply alloc_Ok in H as (-> & -> & Z). eexists. split; [exact E|]. split; [eexists; reflexivity|]. split; [exists d; split; [exact ED|reflexivity]|].
  split; [cbn; apply Nat.le_refl|]. split; [cbn; apply nth_error_snoc|]. split; [repeat split|].
  destruct P as [-> | ->]; cbn; repeat split; discriminate.
Qed.

(** ** Cored halos *)
Definition cored_step e profile beta args idx (i r : nat) : M nat :=
  go h <- get r; go _ <- lift (xe_c e r);
  if String.eqb profile "CNFW" then
    if is_in i idx then
      let h' := make h "CoreNFWHalo" "CNFW" None args in
      if xh_sub h then go b <- lift (xe_bound e r); alloc (with_bound b (with_zinf (xe_zinf e r) h')) else alloc h'
    else ret r
  else toSIDM_single_halo e (mkSidm None (Some 1) (Some beta) 0.15 false 1 "TNFWC" 2.6 1.6 (-1.9) None 1) r.
Lemma sbind_assoc {A B C} (m : M A) (f : A -> M B) (g : B -> M C) s : sbind (sbind m f) g s = sbind m (fun a => sbind (f a) g) s.
Proof. unfold sbind. destruct (m s) as [[a s1]|]; reflexivity. Qed.
Lemma sbind_ext {A B} (m : M A) (f g : A -> M B) s : (forall a s, f a s = g a s) -> sbind m f s = sbind m g s.
Proof. intros H. unfold sbind. destruct (m s) as [[a s1]|]; [apply H|reflexivity]. Qed.
Lemma cored_list_mapSi e profile beta args idx : forall hs i s, cored_list e profile beta args idx i hs s = mapSi (cored_step e profile beta args idx) i hs s.
Proof.
  induction hs as [|r t IH]; intros i s; cbn [cored_list mapSi]; [reflexivity|]. unfold cored_step at 1.
  rewrite sbind_assoc. apply sbind_ext. intros h s1. rewrite sbind_assoc. apply sbind_ext. intros c s2.
  apply sbind_ext. intros r' s3. unfold sbind at 1 2. rewrite IH. reflexivity.
Qed.
Lemma cored_step_cnfw e beta args idx i r s r' s' :
  cored_step e "CNFW" beta args idx i r s = Ok (r', s') ->
  grow s s' /\ exists h, nth_error (xs_h s) r = Some h /\
    (~ listed idx i -> r' = r) /\
    (listed idx i -> exists h', (List.length (xs_h s) <= r')%nat /\ nth_error (xs_h s') r' = Some h' /\ same_halo h h' /\ xh_cls h' = "CoreNFWHalo" /\ xh_mdef h' = "CNFW" /\
       xh_args h' = args /\ xh_r3d h' = None /\ xh_fixed h' = false /\ xh_norm h' = 1 /\
       (xh_sub h = true -> xh_zinf h' = Some (xe_zinf e r) /\ exists b, xe_bound e r = Ok b /\ xh_bound h' = Some b) /\
       (xh_sub h = false -> xh_zinf h' = None /\ xh_bound h' = None)).
Proof.
  intros H. unfold cored_step in H. apply sbind_Ok in H as (h & s1 & Hg & H). apply get_Ok in Hg as (E & ->).
  apply sbind_Ok in H as (c & s1 & Hg & H). apply lift_Ok in Hg as (_ & ->).
  replace (String.eqb "CNFW" "CNFW") with true in H by reflexivity. destruct (is_in i idx) eqn:IN.
  - apply is_in_true in IN. destruct (xh_sub h) eqn:SUB.
    + apply sbind_Ok in H as (b & s1 & Hg & H). apply lift_Ok in Hg as (EB & ->). pose proof (alloc_grow _ _ _ _ H) as (G & _).
      split; [exact G|]. exists h. split; [exact E|]. split; [contradiction|]. intros _. apply alloc_Ok in H as (-> & -> & _). eexists.
      split; [apply Nat.le_refl|]. split; [cbn; apply nth_error_snoc|]. split; [repeat split|]. cbn. repeat (split; [reflexivity|]).
      split; [intros _; split; [reflexivity|eauto]|rewrite SUB; discriminate].
    + pose proof (alloc_grow _ _ _ _ H) as (G & _).
      split; [exact G|]. exists h. split; [exact E|]. split; [contradiction|]. intros _. apply alloc_Ok in H as (-> & -> & _). eexists.
      split; [apply Nat.le_refl|]. split; [cbn; apply nth_error_snoc|]. split; [repeat split|]. cbn. repeat (split; [reflexivity|]).
      split; [rewrite SUB; discriminate|auto].
  - injection H as <- <-. split; [apply grow_refl|]. exists h. split; [exact E|]. split; [reflexivity|]. intros I. apply is_in_true in I. congruence.
Qed.
Lemma cored_step_other e profile beta args idx i r s r' s' : profile <> "CNFW" ->
  cored_step e profile beta args idx i r s = Ok (r', s') ->
  grow s s' /\ exists h rt h', nth_error (xs_h s) r = Some h /\ xh_mdef h = "TNFW" /\ xe_rt e r = Ok rt /\
    replaced e "TNFWCHaloParametric" "TNFWC" (tnfwc_args e r rt (VNum beta)) s s' r r' h h'.
Proof.
  intros NP H. unfold cored_step in H. apply sbind_Ok in H as (h & s1 & Hg & H). apply get_Ok in Hg as (E & ->).
  apply sbind_Ok in H as (c & s1 & Hg & H). apply lift_Ok in Hg as (_ & ->). rewrite (proj2 (String.eqb_neq _ _) NP) in H.
  split; [eapply static_grow; [| |exact H]; reflexivity|].
  destruct (single_spec _ _ _ _ _ _ _ E H) as (EM & _ & _ & (rt & ERT & (_ & [(_ & x & h' & EX & RP)|(X & _)]))); [|discriminate].
  cbn in EX. injection EX as <-. exists h, rt, h'. auto.
Qed.

(** ** Galaxies *)
Lemma mapS_mapSi (f : nat -> M nat) : forall hs i s, mapS f hs s = mapSi (fun _ => f) i hs s.
Proof.
  induction hs as [|r t IH]; intros i s; cbn [mapS mapSi]; [reflexivity|]. apply sbind_ext. intros r' s1. unfold sbind. rewrite (IH (S i)). reflexivity.
Qed.
Lemma sis_spec model threshold r s r' s' : sis_one model threshold r s = Ok (r', s') ->
  grow s s' /\ exists h, nth_error (xs_h s) r = Some h /\
    (xh_mass h < threshold -> r' = r) /\
    (threshold <= xh_mass h -> (model = "GNFW" \/ model = "SIS") /\ exists h', galaxy model s s' r r' h h').
Proof.
  intros H. unfold sis_one in H. apply sbind_Ok in H as (h & s1 & Hg & H). apply get_Ok in Hg as (E & ->).
  destruct (Rleb threshold (xh_mass h)) eqn:T.
  - apply Rleb_true in T. destruct (String.eqb model "GNFW") eqn:M1.
    + apply String.eqb_eq in M1. subst model. apply sbind_Ok in H as (a & s1 & Hg & H). injection Hg as <- <-.
      pose proof (alloc_grow _ _ _ _ H) as (G & _). split; [eapply grow_trans; [|exact G]; split; [exists []; cbn; now rewrite app_nil_r|eexists; reflexivity]|].
      exists h. split; [exact E|]. split; [intros; lra|]. intros _. split; [auto|]. apply alloc_Ok in H as (-> & -> & _). eexists.
      split; [apply Nat.le_refl|]. split; [cbn; apply nth_error_snoc|]. split; [repeat split|]. cbn. repeat (split; [reflexivity|]).
      split; [intros _; split; [reflexivity|]; split; [reflexivity|apply nth_error_snoc]|discriminate].
    + destruct (String.eqb model "SIS") eqn:M2; [|discriminate]. apply String.eqb_eq in M2. subst model.
      pose proof (alloc_grow _ _ _ _ H) as (G & _). split; [exact G|].
      exists h. split; [exact E|]. split; [intros; lra|]. intros _. split; [auto|]. apply alloc_Ok in H as (-> & -> & _). eexists.
      split; [apply Nat.le_refl|]. split; [cbn; apply nth_error_snoc|]. split; [repeat split|]. cbn. repeat (split; [reflexivity|]).
      split; [discriminate|auto].
  - apply Rleb_false in T. injection H as <- <-. split; [apply grow_refl|]. exists h. split; [exact E|]. split; [reflexivity|intros; lra].
Qed.
