(** C81: the default dictionaries of the presets, which Python allocates once per process and the presets write into, do not carry
    anything from one call to the next. *)
From Verif Require Import Prelude MassFnModel MassFnProofs InfallModel PresetModel PresetProofs PresetProps PresetProps2 PresetProps3.
Local Open Scope string_scope.
Local Open Scope R_scope.
Local Open Scope list_scope.

(** * Specification *)
(** Cells below 51 are the default dictionaries in the signatures; the caller's dictionaries are the other cells. *)
Definition n_defaults : nat := 51.
(** the presets, with their signatures *)
Definition preset := penv -> list val -> dict -> M setup.
Definition preset_list : list (preset * signature) :=
  [(CDM, sig_CDM); (CDMCorrelatedStructure, sig_CDMCorrelatedStructure); (CDMBinned, sig_CDMBinned); (WDM, sig_WDM); (WDM_mixed, sig_WDM_mixed);
   (WDMGeneral, sig_WDMGeneral); (ULDM, sig_ULDM); (SIDM_core_collapse, sig_SIDM_core_collapse); (SIDM_parametric, sig_SIDM_parametric);
   (SIDM_parametric_fixedbins, sig_SIDM_parametric_fixedbins); (CDM_plus_BH, sig_CDM_plus_BH)].
(** the caller passes dictionaries of their own, not the default dictionaries of a preset *)
Definition own_dictionaries (pos : list val) (kw : dict) : Prop := forall l, passed pos kw l -> (n_defaults <= l)%nat.
(** the default dictionaries as they are when the modules are imported *)
Definition fresh (h : heap) : Prop := forall l, (l < n_defaults)%nat -> h_dict h l = [] /\ h_infall h l = [].
Definition same_user (h h' : heap) : Prop := forall l, (n_defaults <= l)%nat -> h_dict h l = h_dict h' l /\ h_infall h l = h_infall h' l.
(** the states of a process: it starts with fresh default dictionaries; the caller changes dictionaries of their own; presets are called,
    and may succeed or raise *)
Inductive process : heap -> Prop :=
| process_start h : fresh h -> process h
| process_user h h' : process h -> (forall l, (l < n_defaults)%nat -> h_dict h' l = h_dict h l /\ h_infall h' l = h_infall h l) -> process h'
| process_call h h' e p sg pos kw r : process h -> In (p, sg) preset_list -> own_dictionaries pos kw -> p e pos kw h = (h', r) -> process h'.
(** the infall model is selected by name, and is not the one whose dictionary the presets leave as it is; or it has a dictionary of the caller *)
Definition infall_independent (sg : signature) (pos : list val) (kw : dict) : Prop :=
  In "infall_redshift_model" (keys sg) ->
  (exists s, value_of sg pos kw "infall_redshift_model" = VStr s /\ s <> "DIRECT_INFALL") \/
  (forall l, value_of sg pos kw "kwargs_infall_model" = VRef l -> (n_defaults <= l)%nat).

(** * Proofs *)
Inductive kind := KC | KW | KT | KM | KE | KI.
Definition kind_of (l : nat) : kind := nth l
  [KC; KC; KT; KT; KI; KC; KT; KT; KT; KI; KE; KE; KW; KW; KT; KI; KT; KE; KM; KM; KW; KW; KT; KT; KE; KT; KT; KI; KE; KE; KE; KW; KW; KT; KT; KE;
   KC; KC; KT; KI; KT; KC; KC; KT; KI; KT; KC; KC; KT; KI; KT] KE.
Definition mixed_full (x : val) : dict := [("a_wdm", VNum 0.5); ("b_wdm", VNum 0.8); ("c_wdm", VNum (- 3)); ("mixed_DM_frac", x)].
Definition mixed_upto (m : nat) (d : dict) : Prop := exists n x, (m <= n <= 4)%nat /\ d = firstn n (mixed_full x).
Definition in_kind (k : kind) (d : dict) : Prop :=
  match k with
  | KC => d = [] \/ exists v, d = [("cosmo", v)]
  | KW => d = [] \/ (exists v, d = [("cosmo", v)]) \/ exists v w, d = [("cosmo", v); ("log_mc", w)]
  | KT => d = [] \/ exists v, d = [("lens_cosmo", v)]
  | KM => mixed_upto 0 d
  | KE | KI => d = []
  end.
Definition infall_ok (d : kwd) : Prop := d = [] \/ exists x, d = [("log_m_host", x)].
Definition good (h : heap) : Prop := forall l, (l < n_defaults)%nat -> in_kind (kind_of l) (h_dict h l) /\ infall_ok (h_infall h l).
Definition sim (h1 h2 : heap) : Prop := good h1 /\ good h2 /\ same_user h1 h2.
Lemma sim_refl h : good h -> sim h h.
Proof. intros G. split; [exact G|split; [exact G|]]. intros l _; auto. Qed.
Lemma fresh_good h : fresh h -> good h.
Proof. intros F l L. destruct (F l L) as (-> & ->). split; [|now left]. destruct (kind_of l); cbn; auto. exists 0%nat, VNone; split; [lia|reflexivity]. Qed.

(** a value whose cell, if it is a default dictionary, is of kind [k] *)
Definition cell (k : kind) (v : val) : Prop := forall l, v = VRef l -> (n_defaults <= l)%nat \/ kind_of l = k.
Definition eq_cell (h1 h2 : heap) (v : val) : Prop := forall l, v = VRef l -> h_dict h1 l = h_dict h2 l.
Definition st (L : list val) (h1 h2 : heap) : Prop := sim h1 h2 /\ forall v, In v L -> eq_cell h1 h2 v.
Definition same {A} (P Q : heap -> heap -> Prop) (m : M A) : Prop := forall h1 h2, P h1 h2 ->
  exists r h1' h2', m h1 = (h1', r) /\ m h2 = (h2', r) /\ match r with Ok _ => Q h1' h2' | Err _ => sim h1' h2' end.
Lemma same_bind A B P Q Q' (m : M A) (f : A -> M B) : same P Q m -> (forall x, same Q Q' (f x)) -> same P Q' (bindM m f).
Proof.
  intros H1 H2 h1 h2 S. destruct (H1 h1 h2 S) as (r & h1' & h2' & E1 & E2 & X). unfold bindM. rewrite E1, E2. destruct r as [x|er].
  - apply H2. exact X.
  - eauto 8.
Qed.
Lemma same_lift A L (m : result A) : same (st L) (st L) (lift m).
Proof. intros h1 h2 S. exists m, h1, h2. split; [reflexivity|split; [reflexivity|]]. destruct m; [exact S|apply S]. Qed.
Lemma same_ret A L (x : A) : same (st L) (st L) (ret x). Proof. apply (same_lift A L (Ok x)). Qed.
Lemma same_raise A L e : same (st L) (st L) (raise e : M A). Proof. apply (same_lift A L (Err e)). Qed.
Lemma same_weaken A (P P' Q : heap -> heap -> Prop) (m : M A) : (forall h1 h2, P' h1 h2 -> P h1 h2) -> same P Q m -> same P' Q m.
Proof. intros I H h1 h2 S. apply H, I, S. Qed.
Lemma same_post A (P Q Q' : heap -> heap -> Prop) (m : M A) : (forall h1 h2, Q h1 h2 -> Q' h1 h2) -> same P Q m -> same P Q' m.
Proof. intros I H h1 h2 S. destruct (H h1 h2 S) as (r & h1' & h2' & E1 & E2 & X). exists r, h1', h2'. repeat split; auto. destruct r; auto. Qed.
Lemma st_sub L L' h1 h2 : (forall v, In v L' -> In v L) -> st L h1 h2 -> st L' h1 h2.
Proof. intros I (S & E). split; auto. Qed.

Ltac fin S := split; [reflexivity|split; [reflexivity|exact S]].
(** writes into one cell *)
Lemma st_put L l d1 d2 h1 h2 : st L h1 h2 -> d1 = d2 -> ((l < n_defaults)%nat -> in_kind (kind_of l) d1) -> st (VRef l :: L) (put l d1 h1) (put l d2 h2).
Proof.
  intros ((G1 & G2 & U) & E) <- K. split; [split; [|split]|].
  - intros l' L'. destruct (G1 l' L') as (A & B). split; [|exact B]. cbn. destruct (Nat.eqb_spec l' l) as [->|]; auto.
  - intros l' L'. destruct (G2 l' L') as (A & B). split; [|exact B]. cbn. destruct (Nat.eqb_spec l' l) as [->|]; auto.
  - intros l' L'. destruct (U l' L') as (A & B). split; [|exact B]. cbn. destruct (Nat.eqb_spec l' l) as [->|]; auto.
  - intros v [<-|I] l' V; cbn.
    + inversion V; subst. rewrite Nat.eqb_refl. reflexivity.
    + destruct (Nat.eqb l' l); [reflexivity|]. now apply (E v I).
Qed.
Lemma same_set_item k key L v x : cell k v -> (k = KC /\ key = "cosmo" \/ k = KT /\ key = "lens_cosmo") -> same (st L) (st (v :: L)) (set_item v key x).
Proof.
  intros C K h1 h2 S. destruct v; try (exists (Err ETypeError), h1, h2; fin (proj1 S)). cbn. eexists (Ok tt), _, _. split; [reflexivity|split; [reflexivity|]].
  destruct (C l eq_refl) as [U|Q].
  - apply st_put; [exact S| |lia]. destruct S as ((_ & _ & S) & _). now rewrite (proj1 (S l U)).
  - destruct (le_lt_dec n_defaults l) as [U|D].
    { apply st_put; [exact S| |lia]. destruct S as ((_ & _ & S) & _). now rewrite (proj1 (S l U)). }
    pose proof S as ((G1 & G2 & _) & _). destruct (G1 l D) as (A1 & _), (G2 l D) as (A2 & _). rewrite Q in A1, A2.
    destruct K as [(-> & ->)|(-> & ->)]; cbn in A1, A2; (apply st_put; [exact S| |]); rewrite ?Q;
      destruct A1 as [Z1|(v1 & Z1)], A2 as [Z2|(v2 & Z2)]; rewrite ?Z1, ?Z2; cbn; eauto.
Qed.
(** the two writes of WDM *)
Lemma same_set_wdm A L v x y (f : M A) Q : cell KW v -> same (st (v :: L)) Q f ->
  same (st L) Q (bindM (set_item v "cosmo" x) (fun _ => bindM (set_item v "log_mc" y) (fun _ => f))).
Proof.
  intros C F h1 h2 S. destruct v; try (exists (Err ETypeError), h1, h2; fin (proj1 S)). unfold bindM, set_item. cbn [put h_dict]. rewrite Nat.eqb_refl.
  apply F.
  destruct (le_lt_dec n_defaults l) as [U|D].
  { assert (E : h_dict h1 l = h_dict h2 l) by (destruct S as ((_ & _ & S) & _); apply (S l U)). rewrite E.
    apply (st_sub (VRef l :: VRef l :: L)); [intros w [W|W]; cbn; auto|]. apply st_put; [|reflexivity|lia]. apply st_put; [exact S|reflexivity|lia]. }
  destruct (C l eq_refl) as [U|Q']; [lia|].
  pose proof S as ((G1 & G2 & _) & _). destruct (G1 l D) as (A1 & _), (G2 l D) as (A2 & _). rewrite Q' in A1, A2. cbn in A1, A2.
  assert (E1 : dset "log_mc" y (dset "cosmo" x (h_dict h1 l)) = [("cosmo", x); ("log_mc", y)]) by (destruct A1 as [->|[(a & ->)|(a & b & ->)]]; reflexivity).
  assert (E2 : dset "log_mc" y (dset "cosmo" x (h_dict h2 l)) = [("cosmo", x); ("log_mc", y)]) by (destruct A2 as [->|[(a & ->)|(a & b & ->)]]; reflexivity).
  rewrite E1, E2.
  (* the first write is overwritten *)
  destruct S as ((_ & _ & U) & E). split; [split; [|split]|].
  - intros l' L'. destruct (G1 l' L') as (X & Y). split; [|exact Y]. cbn [put h_dict]. destruct (Nat.eqb_spec l' l) as [->|]; auto. rewrite Q'. cbn. eauto.
  - intros l' L'. destruct (G2 l' L') as (X & Y). split; [|exact Y]. cbn [put h_dict]. destruct (Nat.eqb_spec l' l) as [->|]; auto. rewrite Q'. cbn. eauto.
  - intros l' L'. destruct (U l' L') as (X & Y). split; [|exact Y]. cbn [put h_dict]. destruct (Nat.eqb_spec l' l) as [->|]; auto.
  - intros w [<-|I] l' V; cbn.
    + inversion V; subst. rewrite Nat.eqb_refl. reflexivity.
    + destruct (Nat.eqb l' l); [reflexivity|]. now apply (E w I).
Qed.
(** reads *)
Lemma eq_KE l h1 h2 : cell KE (VRef l) -> sim h1 h2 -> h_dict h1 l = h_dict h2 l.
Proof.
  intros C (G1 & G2 & U). destruct (le_lt_dec n_defaults l) as [V|D]; [apply (U l V)|].
  destruct (C l eq_refl) as [V|Q]; [lia|]. destruct (G1 l D) as (A1 & _), (G2 l D) as (A2 & _). rewrite Q in A1, A2. cbn in *. congruence.
Qed.
Lemma same_contents L v : (In v L \/ cell KE v) -> same (st L) (st L) (contents v).
Proof.
  intros C h1 h2 S. destruct v; try (exists (Err ETypeError), h1, h2; fin (proj1 S)).
  - assert (E : h_dict h1 l = h_dict h2 l).
    { destruct S as ((G1 & G2 & U) & E). destruct C as [I|C]; [now apply (E _ I)|]. destruct (le_lt_dec n_defaults l) as [V|D]; [apply (U l V)|].
      destruct (C l eq_refl) as [V|Q]; [lia|]. destruct (G1 l D) as (A1 & _), (G2 l D) as (A2 & _). rewrite Q in A1, A2. cbn in *. congruence. }
    cbn. exists (Ok (h_dict h1 l)), h1, h2. rewrite E. auto.
  - exists (Ok d), h1, h2. auto.
Qed.
(** the infall model *)
Definition infall_fine (model kwargs : val) (h1 h2 : heap) : Prop :=
  (exists s, model = VStr s /\ s <> "DIRECT_INFALL") \/ (forall l, kwargs = VRef l -> h_infall h1 l = h_infall h2 l).
Lemma infall_keeps z s m d : infall_ok d -> infall_ok (snd (fst (preset_infall z s m d lc_fresh))).
Proof.
  intros D. destruct s as [n|c].
  - unfold preset_infall, preset_kwargs, setup_infall_model.
    assert (K : infall_ok (kset "log_m_host" m d)) by (destruct D as [->|(x & ->)]; cbn; right; eauto).
    assert (C : forall d, infall_ok d -> infall_ok (with_default (convert_host d))) by (intros d' [->|(x & ->)]; cbn; right; eauto).
    assert (C' : forall d, infall_ok d -> infall_ok (convert_host d)) by (intros d' [->|(x & ->)]; cbn; [now left|right; eauto]).
    destruct (String.eqb n "HYBRID_INFALL"); cbn [orb]; [|destruct (String.eqb n "DIRECT_INFALL") eqn:Q].
    + destruct (kneed _ _); cbn [bind fst snd]; auto.
    + apply String.eqb_eq in Q; subst n. cbn [String.eqb Ascii.eqb Bool.eqb]. destruct (kneed _ _); cbn [bind fst snd]; auto.
    + destruct (String.eqb n "DIRECT_INFALL_CLUSTER") eqn:Q2.
      * apply String.eqb_eq in Q2; subst n. cbn [String.eqb Ascii.eqb Bool.eqb].
        destruct (kneed _ _); cbn [bind fst snd]; auto. unfold cluster_init. destruct (_ || _); cbn; auto.
      * destruct (String.eqb n "GALACTICUS_2024"), (String.eqb n "INFALL_ZLENS"), (String.eqb n "INFALL_0"); exact D.
  - unfold preset_infall, preset_kwargs, setup_infall_model. destruct (c z d); exact D.
Qed.
Lemma infall_same z s m d d' : infall_ok d -> infall_ok d' -> s <> "DIRECT_INFALL" ->
  let r := preset_infall z (SName s) m d lc_fresh in let r' := preset_infall z (SName s) m d' lc_fresh in
  fst (fst r) = fst (fst r') /\ snd r = snd r'.
Proof.
  intros D D' N r r'. assert (Q : String.eqb s "DIRECT_INFALL" = false) by now apply String.eqb_neq. subst r r'.
  unfold preset_infall, preset_kwargs, setup_infall_model. rewrite Q.
  assert (K : kset "log_m_host" m d = [("log_m_host", m)]) by (destruct D as [->|(x & ->)]; reflexivity).
  assert (K' : kset "log_m_host" m d' = [("log_m_host", m)]) by (destruct D' as [->|(x & ->)]; reflexivity).
  destruct (String.eqb s "HYBRID_INFALL"); cbn [orb]; [rewrite K, K'; auto|].
  destruct (String.eqb s "DIRECT_INFALL_CLUSTER"); [rewrite K, K'|]; destruct (String.eqb s "GALACTICUS_2024"), (String.eqb s "INFALL_ZLENS"), (String.eqb s "INFALL_0"); cbn; auto;
    unfold cluster_init; destruct (_ || _); auto.
Qed.
Lemma same_infall e L z model m kwargs (I : heap -> heap -> Prop) : (forall h1 h2, I h1 h2 -> infall_fine model kwargs h1 h2) ->
  same (fun h1 h2 => st L h1 h2 /\ I h1 h2) (st L) (infall_step e z model m kwargs).
Proof.
  intros F h1 h2 (S & HI). apply F in HI. destruct kwargs; try (exists (Err ETypeError), h1, h2; fin (proj1 S)).
  unfold infall_step, bindM, lift. destruct (num z) as [zl|er]; [|exists (Err er), h1, h2; fin (proj1 S)].
  destruct (num m) as [mh|er]; [|exists (Err er), h1, h2; fin (proj1 S)].
  set (sel := match model with VStr s => SName s | v => SClass (pe_infall_class e v) end).
  pose proof S as ((G1 & G2 & U) & EQ).
  assert (R : fst (fst (preset_infall zl sel mh (h_infall h1 l) lc_fresh)) = fst (fst (preset_infall zl sel mh (h_infall h2 l) lc_fresh)) /\
              snd (preset_infall zl sel mh (h_infall h1 l) lc_fresh) = snd (preset_infall zl sel mh (h_infall h2 l) lc_fresh)).
  { destruct (le_lt_dec n_defaults l) as [V|D]; [now rewrite (proj2 (U l V))|]. destruct HI as [(s & -> & N)|E]; [|now rewrite (E l eq_refl)].
    subst sel. apply infall_same; [apply (G1 l D)|apply (G2 l D)|exact N]. }
  assert (S' : st L (put_infall l (snd (fst (preset_infall zl sel mh (h_infall h1 l) lc_fresh))) h1) (put_infall l (snd (fst (preset_infall zl sel mh (h_infall h2 l) lc_fresh))) h2)).
  { split; [split; [|split]|].
    - intros l' L'. destruct (G1 l' L') as (X & Y). split; [exact X|]. cbn. destruct (Nat.eqb_spec l' l) as [->|]; auto. now apply infall_keeps.
    - intros l' L'. destruct (G2 l' L') as (X & Y). split; [exact X|]. cbn. destruct (Nat.eqb_spec l' l) as [->|]; auto. now apply infall_keeps.
    - intros l' L'. destruct (U l' L') as (X & Y). split; [exact X|]. cbn. destruct (Nat.eqb_spec l' l) as [->|]; auto. now rewrite Y.
    - exact EQ. }
  destruct (preset_infall zl sel mh (h_infall h1 l) lc_fresh) as ((s1 & d1) & [e1|]), (preset_infall zl sel mh (h_infall h2 l) lc_fresh) as ((s2 & d2) & [e2|]);
    cbn [fst snd] in *; destruct R as (R1 & R2); try discriminate R2; subst s2.
  - inversion R2; subst. eexists (Err e2), _, _. split; [reflexivity|split; [reflexivity|apply S']].
  - eexists (Ok (ls_model s1)), _, _. split; [reflexivity|split; [reflexivity|exact S']].
Qed.
Lemma same_truncation_subhalos L name v c : (In v L \/ cell KE v) -> same (st L) (st L) (truncation_subhalos name v c).
Proof. intros C. unfold truncation_subhalos. eapply same_bind; [apply same_lift|intros p]. eapply same_bind; [apply same_contents, C|intros d]. apply same_lift. Qed.
Lemma same_truncation_field L name v : (In v L \/ cell KE v) -> same (st L) (st L) (truncation_field name v).
Proof. intros C. unfold truncation_field. eapply same_bind; [apply same_lift|intros p]. eapply same_bind; [apply same_contents, C|intros d]. apply same_lift. Qed.
Lemma same_gc L f v : cell KE v -> same (st L) (st L) (post_gc f v).
Proof. intros C. unfold post_gc. destruct (truthy f); [|apply same_ret]. eapply same_bind; [apply same_contents; now right|intros d]. apply same_ret. Qed.
Lemma same_cusps L f : same (st L) (st L) (post_cusps f).
Proof. unfold post_cusps. destruct (truthy f); [apply same_raise|apply same_ret]. Qed.
Lemma same_end A L (m : M A) : same (st L) (st L) m -> same (st L) (st []) m.
Proof. apply same_post. intros h1 h2. apply st_sub. intros v []. Qed.
Ltac sstep :=
  match goal with
  | |- same _ _ (bindM (lift _) _) => eapply same_bind; [apply same_lift|intros ?]
  | |- same _ _ (bindM (set_item ?v "cosmo" _) (fun _ => bindM (set_item ?v "log_mc" _) _)) => apply same_set_wdm; [assumption|]
  | |- same _ _ (bindM (set_item _ "cosmo" _) _) => eapply same_bind; [apply (same_set_item KC); [assumption|left; split; reflexivity]|intros ?]
  | |- same _ _ (bindM (set_item _ "lens_cosmo" _) _) => eapply same_bind; [apply (same_set_item KT); [assumption|right; split; reflexivity]|intros ?]
  | |- same _ _ (bindM (contents _) _) => eapply same_bind; [apply same_contents; first [assumption|left; cbn [In]; tauto|tauto]|intros ?]
  | |- same _ _ (bindM (truncation_subhalos _ _ _) _) => eapply same_bind; [apply same_truncation_subhalos; left; cbn [In]; tauto|intros ?]
  | |- same _ _ (bindM (truncation_field _ _) _) => eapply same_bind; [apply same_truncation_field; left; cbn [In]; tauto|intros ?]
  | |- same _ _ (bindM (post_gc _ _) _) => eapply same_bind; [apply same_gc; assumption|intros ?]
  | |- same _ _ (bindM (post_cusps _) _) => eapply same_bind; [apply same_cusps|intros ?]
  | |- same _ _ (ret _) => apply same_end, same_ret
  | |- same _ _ (lift _) => apply same_end, same_lift
  | |- same _ _ (raise _) => apply same_end, same_raise
  | |- same _ _ (if ?b then _ else _) => destruct b
  end.
Definition plus (P I : heap -> heap -> Prop) (h1 h2 : heap) : Prop := P h1 h2 /\ I h1 h2.
Definition cdm_cells (a : args) : Prop :=
  cell KC (arg a "kwargs_concentration_model_subhalos") /\ cell KC (arg a "kwargs_concentration_model_fieldhalos") /\
  cell KT (arg a "kwargs_truncation_model_subhalos") /\ cell KT (arg a "kwargs_truncation_model_fieldhalos") /\ cell KE (arg a "kwargs_globular_clusters").
Definition infall_args (a : args) : heap -> heap -> Prop := infall_fine (arg a "infall_redshift_model") (arg a "kwargs_infall_model").
Lemma same_CDM_body e a L : cdm_cells a -> same (plus (st L) (infall_args a)) (st []) (CDM_body e a).
Proof.
  intros (C1 & C2 & C3 & C4 & C5). unfold CDM_body. eapply same_bind; [apply same_infall; intros h1 h2 H; exact H|intros inf].
  repeat sstep.
Qed.
Lemma same_CDMCorr_body e a L : cell KC (arg a "kwargs_concentration_model") -> cell KT (arg a "kwargs_truncation_model") -> same (st L) (st []) (CDMCorrelatedStructure_body e a).
Proof. intros C1 C2. unfold CDMCorrelatedStructure_body. repeat sstep. Qed.
Lemma same_CDMBinned_body e a L : cell KT (arg a "kwargs_truncation_model_subhalos") -> cell KT (arg a "kwargs_truncation_model_fieldhalos") ->
  cell KE (arg a "kwargs_globular_clusters") -> same (plus (st L) (infall_args a)) (st []) (CDMBinned_body e a).
Proof.
  intros C1 C2 C3. unfold CDMBinned_body. eapply same_bind; [apply same_infall; intros h1 h2 H; exact H|intros inf]. repeat sstep.
Qed.
Definition wdm_cells (L : list val) (a : args) : Prop :=
  (In (arg a "kwargs_mass_function_subhalos") L \/ cell KE (arg a "kwargs_mass_function_subhalos")) /\
  (In (arg a "kwargs_mass_function_fieldhalos") L \/ cell KE (arg a "kwargs_mass_function_fieldhalos")) /\
  cell KW (arg a "kwargs_concentration_model_subhalos") /\ cell KW (arg a "kwargs_concentration_model_fieldhalos") /\
  cell KT (arg a "kwargs_truncation_model_subhalos") /\ cell KT (arg a "kwargs_truncation_model_fieldhalos") /\ cell KE (arg a "kwargs_globular_clusters").
Lemma same_WDM_body e a L : wdm_cells L a -> same (plus (st L) (infall_args a)) (st []) (WDM_body e a).
Proof.
  intros (M1 & M2 & C1 & C2 & C3 & C4 & C5). unfold WDM_body. eapply same_bind; [apply same_infall; intros h1 h2 H; exact H|intros inf].
  repeat sstep.
Qed.
Lemma same_WDMGeneral_body e a L : cell KT (arg a "kwargs_truncation_model_subhalos") -> cell KT (arg a "kwargs_truncation_model_fieldhalos") ->
  cell KE (arg a "kwargs_globular_clusters") -> same (plus (st L) (infall_args a)) (st []) (WDMGeneral_body e a).
Proof.
  intros C1 C2 C3. unfold WDMGeneral_body. eapply same_bind; [apply same_infall; intros h1 h2 H; exact H|intros inf]. repeat sstep.
Qed.
(** ** Calls *)
Lemma same_call A (P Q : heap -> heap -> Prop) sg c pos kw (f : args -> M A) : (forall h1 h2, P h1 h2 -> sim h1 h2) ->
  (forall a, call_args sg c pos kw = Ok a -> same P Q (f a)) -> same P Q (bindM (lift (call_args sg c pos kw)) f).
Proof.
  intros S H h1 h2 p. unfold bindM, lift. destruct (call_args sg c pos kw) as [a|er] eqn:E; [now apply H|].
  exists (Err er), h1, h2. fin (S _ _ p).
Qed.
Lemma cell_value sg pos kw K k : own_dictionaries pos kw -> cell K (default_of sg k) -> cell K (value_of sg pos kw k).
Proof.
  intros O C l V. unfold value_of in V. destruct (nth_error pos (index_of k (keys sg))) eqn:N.
  - left. apply O. left. subst v. eapply nth_error_In; exact N.
  - destruct (dget k kw) eqn:D; [|now apply C]. left. apply O. right. exists k. subst v. now apply dget_In.
Qed.
Lemma plus_st L I h1 h2 : plus (st L) I h1 h2 -> sim h1 h2. Proof. intros ((S & _) & _); exact S. Qed.
Lemma st_sim L h1 h2 : st L h1 h2 -> sim h1 h2. Proof. intros (S & _); exact S. Qed.
Lemma same_plus_lift A B (P Q : heap -> heap -> Prop) (m : result A) (f : A -> M B) : (forall h1 h2, P h1 h2 -> sim h1 h2) ->
  (forall x, same P Q (f x)) -> same P Q (bindM (lift m) f).
Proof. intros S H h1 h2 p. unfold bindM, lift. destruct m as [x|er]; [now apply H|]. exists (Err er), h1, h2. fin (S _ _ p). Qed.
Lemma same_plus_raise A (P Q : heap -> heap -> Prop) er : (forall h1 h2, P h1 h2 -> sim h1 h2) -> same P Q (raise er : M A).
Proof. intros S h1 h2 p. exists (Err er), h1, h2. fin (S _ _ p). Qed.
Definition infall_values (sg : signature) (pos : list val) (kw : dict) : heap -> heap -> Prop :=
  infall_fine (value_of sg pos kw "infall_redshift_model") (value_of sg pos kw "kwargs_infall_model").
Lemma same_CDM e pos kw L :
  cell KC (value_of sig_CDM pos kw "kwargs_concentration_model_subhalos") -> cell KC (value_of sig_CDM pos kw "kwargs_concentration_model_fieldhalos") ->
  cell KT (value_of sig_CDM pos kw "kwargs_truncation_model_subhalos") -> cell KT (value_of sig_CDM pos kw "kwargs_truncation_model_fieldhalos") ->
  cell KE (value_of sig_CDM pos kw "kwargs_globular_clusters") ->
  same (plus (st L) (infall_values sig_CDM pos kw)) (st []) (CDM e pos kw).
Proof.
  intros C1 C2 C3 C4 C5. apply same_call; [apply plus_st|]. intros a A.
  eapply same_weaken; [|apply same_CDM_body]; [|repeat split]; rewrite ?(call_args_value _ _ _ _ _ _ A nd_CDM) by in_sig; try assumption.
  intros h1 h2 (S & I). split; [exact S|]. unfold infall_args. now rewrite !(call_args_value _ _ _ _ _ _ A nd_CDM) by in_sig.
Qed.
Lemma same_WDM e pos kw L :
  (In (value_of sig_WDM pos kw "kwargs_mass_function_subhalos") L \/ cell KE (value_of sig_WDM pos kw "kwargs_mass_function_subhalos")) ->
  (In (value_of sig_WDM pos kw "kwargs_mass_function_fieldhalos") L \/ cell KE (value_of sig_WDM pos kw "kwargs_mass_function_fieldhalos")) ->
  cell KW (value_of sig_WDM pos kw "kwargs_concentration_model_subhalos") -> cell KW (value_of sig_WDM pos kw "kwargs_concentration_model_fieldhalos") ->
  cell KT (value_of sig_WDM pos kw "kwargs_truncation_model_subhalos") -> cell KT (value_of sig_WDM pos kw "kwargs_truncation_model_fieldhalos") ->
  cell KE (value_of sig_WDM pos kw "kwargs_globular_clusters") ->
  same (plus (st L) (infall_values sig_WDM pos kw)) (st []) (WDM e pos kw).
Proof.
  intros M1 M2 C1 C2 C3 C4 C5. apply same_call; [apply plus_st|]. intros a A.
  eapply same_weaken; [|apply (same_WDM_body e a L)]; [|repeat split]; rewrite ?(call_args_value _ _ _ _ _ _ A nd_WDM) by in_sig; try assumption.
  intros h1 h2 (S & I). split; [exact S|]. unfold infall_args. now rewrite !(call_args_value _ _ _ _ _ _ A nd_WDM) by in_sig.
Qed.
Ltac plain := intros ? ?; discriminate.
Ltac dflt := apply cell_value; [assumption|intros l [= <-]; right; reflexivity] || (apply cell_value; [assumption|plain]).
Ltac inner_args A nd := repeat match goal with |- context [arg ?a ?k] => rewrite (call_args_value _ _ _ _ _ k A nd) by in_sig end.
Lemma same_core e pos kw L : own_dictionaries pos kw -> same (plus (st L) (infall_values sig_SIDM_core_collapse pos kw)) (st []) (SIDM_core_collapse e pos kw).
Proof.
  intros O. apply same_call; [apply plus_st|]. intros a A. eapply same_bind; [|intros s; sstep].
  eapply same_weaken; [|apply (same_CDM _ _ _ L)].
  - intros h1 h2 (S & I). split; [exact S|]. unfold infall_values. 
    change (infall_fine (arg a "infall_redshift_model") (arg a "kwargs_infall_model") h1 h2). inner_args A nd_core. exact I.
  - change (cell KC (arg a "kwargs_concentration_model_subhalos")). inner_args A nd_core. dflt.
  - change (cell KC (arg a "kwargs_concentration_model_fieldhalos")). inner_args A nd_core. dflt.
  - change (cell KT (arg a "kwargs_truncation_model_subhalos")). inner_args A nd_core. dflt.
  - change (cell KT (arg a "kwargs_truncation_model_fieldhalos")). inner_args A nd_core. dflt.
  - change (cell KE (arg a "kwargs_globular_clusters")). inner_args A nd_core. dflt.
Qed.
Lemma same_parametric e pos kw L :
  cell KC (value_of sig_SIDM_parametric pos kw "kwargs_concentration_model_subhalos") -> cell KC (value_of sig_SIDM_parametric pos kw "kwargs_concentration_model_fieldhalos") ->
  cell KT (value_of sig_SIDM_parametric pos kw "kwargs_truncation_model_subhalos") -> cell KT (value_of sig_SIDM_parametric pos kw "kwargs_truncation_model_fieldhalos") ->
  cell KE (value_of sig_SIDM_parametric pos kw "kwargs_globular_clusters") ->
  same (plus (st L) (infall_values sig_SIDM_parametric pos kw)) (st []) (SIDM_parametric e pos kw).
Proof.
  intros C1 C2 C3 C4 C5. apply same_call; [apply plus_st|]. intros a A.
  assert (C5' : cell KE (arg a "kwargs_globular_clusters")) by (inner_args A nd_par; exact C5).
  eapply same_bind; [|intros s; repeat sstep].
  eapply same_weaken; [|apply (same_CDM _ _ _ L)].
  - intros h1 h2 (S & I). split; [exact S|]. unfold infall_values.
    change (infall_fine (arg a "infall_redshift_model") (arg a "kwargs_infall_model") h1 h2). inner_args A nd_par. exact I.
  - change (cell KC (arg a "kwargs_concentration_model_subhalos")). inner_args A nd_par. assumption.
  - change (cell KC (arg a "kwargs_concentration_model_fieldhalos")). inner_args A nd_par. assumption.
  - change (cell KT (arg a "kwargs_truncation_model_subhalos")). inner_args A nd_par. assumption.
  - change (cell KT (arg a "kwargs_truncation_model_fieldhalos")). inner_args A nd_par. assumption.
  - plain.
Qed.
Lemma same_fixed e pos kw L : own_dictionaries pos kw -> same (plus (st L) (infall_values sig_SIDM_parametric_fixedbins pos kw)) (st []) (SIDM_parametric_fixedbins e pos kw).
Proof.
  intros O. apply same_call; [apply plus_st|]. intros a A. unfold SIDM_parametric_fixedbins_body.
  apply same_plus_lift; [apply plus_st|]. intros lo. destruct (Rltb 8 lo); [apply same_plus_raise, plus_st|].
  eapply same_weaken; [|apply (same_parametric _ _ _ L)].
  - intros h1 h2 (S & I). split; [exact S|]. unfold infall_values.
    change (infall_fine (arg a "infall_redshift_model") (arg a "kwargs_infall_model") h1 h2). inner_args A nd_fixed. exact I.
  - change (cell KC (arg a "kwargs_concentration_model_subhalos")). inner_args A nd_fixed. dflt.
  - change (cell KC (arg a "kwargs_concentration_model_fieldhalos")). inner_args A nd_fixed. dflt.
  - change (cell KT (arg a "kwargs_truncation_model_subhalos")). inner_args A nd_fixed. dflt.
  - change (cell KT (arg a "kwargs_truncation_model_fieldhalos")). inner_args A nd_fixed. dflt.
  - change (cell KE (arg a "kwargs_globular_clusters")). inner_args A nd_fixed. dflt.
Qed.
Lemma hybrid_fine h1 h2 v : infall_fine (VStr "HYBRID_INFALL") v h1 h2. Proof. left. exists "HYBRID_INFALL". split; [reflexivity|discriminate]. Qed.
Ltac dcell := intros l [= <-]; right; reflexivity.
Lemma same_BH e pos kw L : own_dictionaries pos kw -> same (st L) (st []) (CDM_plus_BH e pos kw).
Proof.
  intros O. apply same_call; [apply st_sim|]. intros a A.
  assert (C5' : cell KE (arg a "kwargs_globular_clusters")) by (inner_args A nd_BH; dflt).
  eapply same_bind; [|intros s; repeat sstep].
  eapply same_weaken; [|apply (same_CDM _ _ _ L)]; [|dcell..|plain].
  intros h1 h2 S. split; [exact S|]. apply hybrid_fine.
Qed.
Lemma same_ULDM e pos kw L : own_dictionaries pos kw -> same (st L) (st []) (ULDM e pos kw).
Proof.
  intros O. apply same_call; [apply st_sim|]. intros a A. unfold ULDM_body. repeat sstep.
  eapply same_bind with (Q := st []).
  - eapply same_weaken; [|apply (same_WDM _ _ _ L)].
    + intros h1 h2 S. split; [exact S|]. apply hybrid_fine.
    + right. change (cell KE (arg a "kwargs_mass_function_subhalos")). inner_args A nd_ULDM. dflt.
    + right. change (cell KE (arg a "kwargs_mass_function_fieldhalos")). inner_args A nd_ULDM. dflt.
    + change (cell KW (arg a "kwargs_concentration_model_subhalos")). inner_args A nd_ULDM. dflt.
    + change (cell KW (arg a "kwargs_concentration_model_fieldhalos")). inner_args A nd_ULDM. dflt.
    + change (cell KT (arg a "kwargs_truncation_model_subhalos")). inner_args A nd_ULDM. dflt.
    + change (cell KT (arg a "kwargs_truncation_model_fieldhalos")). inner_args A nd_ULDM. dflt.
    + plain.
  - intros s. destruct (truthy (arg a "flucs")); [|apply same_ret].
    assert (C : cell KE (arg a "flucs_args")) by (inner_args A nd_ULDM; dflt).
    eapply same_bind with (Q := st []); [|intros []; [apply same_raise|apply same_ret]].
    intros h1 h2 S. destruct (arg a "flucs_args"); try (exists (Ok false), h1, h2; fin S).
    + pose proof (eq_KE l h1 h2 C (proj1 S)) as E. cbn. rewrite E. eexists (Ok _), h1, h2. fin S.
    + eexists (Ok _), h1, h2. fin S.
Qed.

(** the writes of WDM_mixed: [mix m] says that a dictionary is the caller's, or in both runs filled by earlier calls at least up to key [m] *)
Definition mix (m : nat) (v : val) (h1 h2 : heap) : Prop :=
  forall l, v = VRef l -> (n_defaults <= l)%nat \/ kind_of l = KM /\ mixed_upto m (h_dict h1 l) /\ mixed_upto m (h_dict h2 l).
Definition mixed_key (m : nat) : string * val := nth m [("a_wdm", VNum 0.5); ("b_wdm", VNum 0.8); ("c_wdm", VNum (- 3))] ("", VNone).
Definition put_default (k : string) (x : val) (d : dict) : dict := if has k d then d else dset k x d.
Lemma mixed_step m d : (m < 3)%nat -> mixed_upto m d -> mixed_upto (S m) (put_default (fst (mixed_key m)) (snd (mixed_key m)) d).
Proof.
  intros M (n & x & N & ->). exists (if Nat.eqb n m then S m else n), x. split; [destruct (Nat.eqb_spec n m); lia|].
  destruct m as [|[|[|m]]]; [| | |lia]; destruct n as [|[|[|[|[|n]]]]]; try lia; reflexivity.
Qed.
Lemma mixed_le m j d : (m <= j)%nat -> mixed_upto j d -> mixed_upto m d.
Proof. intros L (n & x & N & ->). exists n, x. split; [lia|reflexivity]. Qed.
Lemma mixed_later m j d : (m < 3)%nat -> (m <= j)%nat -> mixed_upto j d -> mixed_upto j (put_default (fst (mixed_key m)) (snd (mixed_key m)) d).
Proof.
  intros M J H. destruct (Nat.eq_dec m j) as [->|N]; [eapply mixed_le; [|apply mixed_step; [exact M|exact H]]; lia|].
  destruct H as (n & x & Hn & ->). exists n, x. split; [exact Hn|].
  destruct m as [|[|[|m]]]; [| | |lia]; destruct n as [|[|[|[|[|n]]]]]; try lia; reflexivity.
Qed.
Lemma mixed_frac x d : mixed_upto 3 d -> dset "mixed_DM_frac" x d = mixed_full x.
Proof. intros (n & y & N & ->). destruct n as [|[|[|[|[|n]]]]]; try lia; reflexivity. Qed.
Definition stm (i j : nat) (s f : val) (h1 h2 : heap) : Prop := sim h1 h2 /\ mix i s h1 h2 /\ mix j f h1 h2.
(** a write that maps the contents of cell l by g *)
Lemma stm_write i j i' j' s f l (g : dict -> dict) h1 h2 h1' h2' :
  stm i j s f h1 h2 ->
  (forall h h' : heap, (h, h') = (h1, h1') \/ (h, h') = (h2, h2') ->
     (forall l', h_dict h' l' = if Nat.eqb l' l then g (h_dict h l') else h_dict h l') /\ (forall l', h_infall h' l' = h_infall h l')) ->
  ((l < n_defaults)%nat -> forall d, (d = h_dict h1 l \/ d = h_dict h2 l) -> mixed_upto 0 (g d)) ->
  (VRef l = s \/ VRef l = f) ->
  (forall d, VRef l = s -> mixed_upto i d -> mixed_upto i' (g d)) -> (forall d, VRef l = f -> mixed_upto j d -> mixed_upto j' (g d)) ->
  (VRef l <> s -> i' = i) -> (VRef l <> f -> j' = j) ->
  stm i' j' s f h1' h2'.
Proof.
  intros ((G1 & G2 & U) & MS & MF) W K O RS RF NS NF.
  destruct (W h1 h1' (or_introl eq_refl)) as (D1 & I1), (W h2 h2' (or_intror eq_refl)) as (D2 & I2).
  assert (KL : (l < n_defaults)%nat -> kind_of l = KM) by (intros D; destruct O as [E|E]; [destruct (MS l (eq_sym E)) as [V|(Q & _)]|destruct (MF l (eq_sym E)) as [V|(Q & _)]]; [lia|exact Q|lia|exact Q]).
  split; [split; [|split]|split].
  - intros l' L'. destruct (G1 l' L') as (X & Y). rewrite D1, I1. split; [|exact Y]. destruct (Nat.eqb_spec l' l) as [->|]; [|exact X].
    rewrite (KL L'). apply (K L'). now left.
  - intros l' L'. destruct (G2 l' L') as (X & Y). rewrite D2, I2. split; [|exact Y]. destruct (Nat.eqb_spec l' l) as [->|]; [|exact X].
    rewrite (KL L'). apply (K L'). now right.
  - intros l' L'. destruct (U l' L') as (X & Y). rewrite D1, D2, I1, I2. split; [|exact Y]. rewrite X. reflexivity.
  - intros l' E. destruct (MS l' E) as [V|(Q & X1 & X2)]; [now left|right]. split; [exact Q|]. rewrite D1, D2.
    destruct (Nat.eqb_spec l' l) as [->|N]; [split; apply RS; auto|]. rewrite NS; [auto|]. rewrite E. congruence.
  - intros l' E. destruct (MF l' E) as [V|(Q & X1 & X2)]; [now left|right]. split; [exact Q|]. rewrite D1, D2.
    destruct (Nat.eqb_spec l' l) as [->|N]; [split; apply RF; auto|]. rewrite NF; [auto|]. rewrite E. congruence.
Qed.
Lemma val_dec_ref (l : nat) (v : val) : VRef l = v \/ VRef l <> v.
Proof. destruct v; try (right; discriminate). destruct (Nat.eq_dec l l0) as [->|]; [now left|right; congruence]. Qed.
Lemma same_default_s m s f j : (m < 3)%nat -> (m <= j)%nat -> same (stm m j s f) (stm (S m) j s f) (set_default s (fst (mixed_key m)) (snd (mixed_key m))).
Proof.
  intros M J h1 h2 S. destruct s; try (exists (Err EAttributeError), h1, h2; fin (proj1 S)). eexists (Ok tt), _, _. split; [reflexivity|split; [reflexivity|]].
  eapply (stm_write m j _ _ _ _ l (put_default (fst (mixed_key m)) (snd (mixed_key m)))); [exact S| | |now left| | | |].
  - intros h h' [[= -> ->]|[= -> ->]]; split; intros l'; unfold put_default; destruct (has _ (h_dict _ l)) eqn:Q; cbn [put h_dict h_infall]; auto; destruct (Nat.eqb_spec l' l) as [->|]; auto; now rewrite Q.
  - intros D d E. destruct S as (_ & MS & _). destruct (MS l eq_refl) as [V|(_ & X1 & X2)]; [lia|]. eapply mixed_le; [|apply mixed_step; [exact M|destruct E; subst; eassumption]]. lia.
  - intros d _ X. now apply mixed_step.
  - intros d _ X. apply mixed_later; [exact M|exact J|exact X].
  - congruence.
  - reflexivity.
Qed.
Lemma same_default_f m s f i : (m < 3)%nat -> (m <= i)%nat -> same (stm i m s f) (stm i (S m) s f) (set_default f (fst (mixed_key m)) (snd (mixed_key m))).
Proof.
  intros M J h1 h2 S. destruct f; try (exists (Err EAttributeError), h1, h2; fin (proj1 S)). eexists (Ok tt), _, _. split; [reflexivity|split; [reflexivity|]].
  eapply (stm_write i m _ _ _ _ l (put_default (fst (mixed_key m)) (snd (mixed_key m)))); [exact S| | |now right| | | |].
  - intros h h' [[= -> ->]|[= -> ->]]; split; intros l'; unfold put_default; destruct (has _ (h_dict _ l)) eqn:Q; cbn [put h_dict h_infall]; auto; destruct (Nat.eqb_spec l' l) as [->|]; auto; now rewrite Q.
  - intros D d E. destruct S as (_ & _ & MS). destruct (MS l eq_refl) as [V|(_ & X1 & X2)]; [lia|]. eapply mixed_le; [|apply mixed_step; [exact M|destruct E; subst; eassumption]]. lia.
  - intros d _ X. apply mixed_later; [exact M|exact J|exact X].
  - intros d _ X. now apply mixed_step.
  - reflexivity.
  - congruence.
Qed.
Lemma same_frac A s f x (k : M A) Q : same (st [s; f]) Q k ->
  same (stm 3 3 s f) Q (bindM (set_item s "mixed_DM_frac" x) (fun _ => bindM (set_item f "mixed_DM_frac" x) (fun _ => k))).
Proof.
  intros F h1 h2 S. pose proof S as (SM & MS & MF). destruct s; try (exists (Err ETypeError), h1, h2; fin SM). rename l into ls.
  unfold bindM at 1 3. cbn [set_item].
  set (k1 := put ls (dset "mixed_DM_frac" x (h_dict h1 ls)) h1). set (k2 := put ls (dset "mixed_DM_frac" x (h_dict h2 ls)) h2).
  assert (S' : st [VRef ls] k1 k2).
  { assert (E : dset "mixed_DM_frac" x (h_dict h1 ls) = dset "mixed_DM_frac" x (h_dict h2 ls)).
    { destruct (MS ls eq_refl) as [V|(_ & X1 & X2)]; [destruct SM as (_ & _ & U); now rewrite (proj1 (U ls V))|]. now rewrite !mixed_frac. }
    apply st_put; [split; [exact SM|intros v []]|exact E|]. intros D. destruct (MS ls eq_refl) as [V|(Q' & X1 & X2)]; [lia|]. rewrite Q', mixed_frac by exact X1.
    exists 4%nat, x. split; [lia|reflexivity]. }
  destruct f; try (exists (Err ETypeError), k1, k2; fin (proj1 S')). rename l into lf. unfold bindM. cbn [set_item].
  apply F. apply (st_sub [VRef lf; VRef ls]); [cbn; tauto|].
  assert (X : (n_defaults <= lf)%nat \/ kind_of lf = KM /\ mixed_upto 3 (h_dict k1 lf) /\ mixed_upto 3 (h_dict k2 lf)).
  { destruct (MF lf eq_refl) as [V|(Q' & X1 & X2)]; [now left|right]. split; [exact Q'|]. subst k1 k2. cbn [put h_dict]. destruct (Nat.eqb_spec lf ls) as [->|]; [|auto].
    rewrite !mixed_frac by assumption. split; exists 4%nat, x; (split; [lia|reflexivity]). }
  apply st_put; [exact S'| |].
  - destruct X as [V|(_ & X1 & X2)]; [destruct S' as ((_ & _ & U) & _); now rewrite (proj1 (U lf V))|]. now rewrite !mixed_frac.
  - intros D. destruct X as [V|(Q' & X1 & X2)]; [lia|]. rewrite Q', mixed_frac by exact X1. exists 4%nat, x. split; [lia|reflexivity].
Qed.
Lemma same_mixed e pos kw L : own_dictionaries pos kw -> same (st L) (st []) (WDM_mixed e pos kw).
Proof.
  intros O. apply same_call; [apply st_sim|]. intros a A. unfold WDM_mixed_body.
  assert (C1 : cell KM (arg a "kwargs_mass_function_subhalos")) by (inner_args A nd_mixed; dflt).
  assert (C2 : cell KM (arg a "kwargs_mass_function_fieldhalos")) by (inner_args A nd_mixed; dflt).
  set (s := arg a "kwargs_mass_function_subhalos") in *. set (f := arg a "kwargs_mass_function_fieldhalos") in *.
  apply (same_weaken _ (stm 0 0 s f)).
  { intros h1 h2 ((G1 & G2 & U) & _). split; [split; auto|].
    split; intros l E; [destruct (C1 l E) as [V|Q]|destruct (C2 l E) as [V|Q]]; try (now left); (destruct (le_lt_dec n_defaults l) as [V|D]; [now left|right]; split; [exact Q|]);
      destruct (G1 l D) as (X1 & _), (G2 l D) as (X2 & _); rewrite Q in X1, X2; auto. }
  eapply same_bind; [apply (same_default_s 0); lia|intros _]. eapply same_bind; [apply (same_default_f 0); lia|intros _].
  eapply same_bind; [apply (same_default_s 1); lia|intros _]. eapply same_bind; [apply (same_default_f 1); lia|intros _].
  eapply same_bind; [apply (same_default_s 2); lia|intros _]. eapply same_bind; [apply (same_default_f 2); lia|intros _].
  apply same_frac. eapply same_weaken; [|apply (same_WDM _ _ _ [s; f])].
  - intros h1 h2 S. split; [exact S|]. apply hybrid_fine.
  - left. left. reflexivity.
  - left. right. left. reflexivity.
  - change (cell KW (arg a "kwargs_concentration_model_subhalos")). inner_args A nd_mixed. dflt.
  - change (cell KW (arg a "kwargs_concentration_model_fieldhalos")). inner_args A nd_mixed. dflt.
  - change (cell KT (arg a "kwargs_truncation_model_subhalos")). inner_args A nd_mixed. dflt.
  - change (cell KT (arg a "kwargs_truncation_model_fieldhalos")). inner_args A nd_mixed. dflt.
  - plain.
Qed.

(** ** The theorems *)
Definition infall_pre (sg : signature) (pos : list val) (kw : dict) (h1 h2 : heap) : Prop :=
  In "infall_redshift_model" (keys sg) -> infall_values sg pos kw h1 h2.
Lemma nd_Corr : NoDup (keys sig_CDMCorrelatedStructure). Proof. apply nodupb_NoDup; reflexivity. Qed.
Lemma nd_Binned : NoDup (keys sig_CDMBinned). Proof. apply nodupb_NoDup; reflexivity. Qed.
Lemma same_preset e p sg pos kw : In (p, sg) preset_list -> own_dictionaries pos kw -> same (plus (st []) (infall_pre sg pos kw)) (st []) (p e pos kw).
Proof.
  intros I O. cbn in I.
  assert (W : forall sg L (h1 h2 : heap), In "infall_redshift_model" (keys sg) -> plus (st L) (infall_pre sg pos kw) h1 h2 -> plus (st L) (infall_values sg pos kw) h1 h2).
  { intros sg' L h1 h2 K (S & X). split; [exact S|now apply X]. }
  repeat (destruct I as [I|I]; [inversion I; subst p sg; clear I|]); [..|destruct I].
  - eapply same_weaken; [intros h1 h2; apply W; in_sig|]. apply same_CDM; dflt.
  - eapply same_weaken; [intros h1 h2 (S & _); exact S|]. apply same_call; [apply st_sim|]. intros a A. apply same_CDMCorr_body; inner_args A nd_Corr; dflt.
  - eapply same_weaken; [intros h1 h2; apply W; in_sig|]. apply same_call; [apply plus_st|]. intros a A.
    eapply same_weaken; [|apply (same_CDMBinned_body e a [])]; [|inner_args A nd_Binned; dflt..].
    intros h1 h2 (S & X). split; [exact S|]. unfold infall_args. inner_args A nd_Binned. exact X.
  - eapply same_weaken; [intros h1 h2; apply W; in_sig|]. apply same_WDM; try (right; dflt); dflt.
  - eapply same_weaken; [intros h1 h2 (S & _); exact S|]. now apply same_mixed.
  - eapply same_weaken; [intros h1 h2; apply W; in_sig|]. apply same_call; [apply plus_st|]. intros a A.
    eapply same_weaken; [|apply (same_WDMGeneral_body e a [])]; [|inner_args A nd_WDMGeneral; dflt..].
    intros h1 h2 (S & X). split; [exact S|]. unfold infall_args. inner_args A nd_WDMGeneral. exact X.
  - eapply same_weaken; [intros h1 h2 (S & _); exact S|]. now apply same_ULDM.
  - eapply same_weaken; [intros h1 h2; apply W; in_sig|]. now apply same_core.
  - eapply same_weaken; [intros h1 h2; apply W; in_sig|]. apply same_parametric; dflt.
  - eapply same_weaken; [intros h1 h2; apply W; in_sig|]. now apply same_fixed.
  - eapply same_weaken; [intros h1 h2 (S & _); exact S|]. now apply same_BH.
Qed.
Lemma process_good h : process h -> good h.
Proof.
  induction 1 as [h F|h h' P IH E|h h' e p sg pos kw r P IH I O H].
  - now apply fresh_good.
  - intros l L. destruct (E l L) as (-> & ->). now apply IH.
  - destruct (same_preset e p sg pos kw I O h h) as (r' & h1 & h2 & E1 & E2 & X).
    + split; [split; [now apply sim_refl|intros v []]|]. intros _. right. reflexivity.
    + rewrite H in E1. inversion E1; subst. destruct r'; [destruct X as ((G & _) & _)|destruct X as (G & _)]; exact G.
Qed.
(** Whatever presets were called before, with whatever success: a preset sets up the same realization as in a fresh process in which the
    caller's own dictionaries have the same contents, or fails with the same error, and does the same to these dictionaries. *)
Theorem C81_history_independent : forall e p sg pos kw h h0, In (p, sg) preset_list -> own_dictionaries pos kw -> infall_independent sg pos kw ->
  process h -> fresh h0 -> same_user h h0 ->
  snd (p e pos kw h) = snd (p e pos kw h0) /\ same_user (fst (p e pos kw h)) (fst (p e pos kw h0)).
Proof.
  intros e p sg pos kw h h0 I O J P F U.
  destruct (same_preset e p sg pos kw I O h h0) as (r & h1 & h2 & E1 & E2 & X).
  - split; [split; [|intros v []]|].
    + split; [now apply process_good|split; [now apply fresh_good|exact U]].
    + intros K. destruct (J K) as [N|N]; [now left|right]. intros l V. now apply U, N.
  - rewrite E1, E2. split; [reflexivity|]. destruct r; [destruct X as ((_ & _ & G) & _)|destruct X as (_ & _ & G)]; exact G.
Qed.
(** The exception: with DIRECT_INFALL the host mass of an earlier call is used for the infall redshifts of a later one. *)
Theorem C81_direct_infall_refuted : exists h pos kw, process h /\ own_dictionaries pos kw /\
  match snd (CDM env0 pos kw h), snd (CDM env0 pos kw heap0) with
  | Ok s, Ok s0 => su_infall s <> su_infall s0
  | _, _ => False
  end.
Proof.
  destruct (CDM env0 [VNum 0.5; VNum 2] [("log_m_host", VNum 14)] heap0) as (h & r) eqn:E.
  exists h, [VNum 0.5; VNum 2], [("infall_redshift_model", VStr "DIRECT_INFALL")]. split; [|split].
  - eapply process_call; [apply (process_start heap0); intros l _; split; reflexivity|cbn; left; reflexivity| |exact E].
    intros l [V|(k & V)]; cbn in V; repeat (destruct V as [V|V]; [discriminate V|]); destruct V.
  - intros l [V|(k & V)]; cbn in V; repeat (destruct V as [V|V]; [discriminate V|]); destruct V.
  - revert E. run. intros E. inversion E; subst; clear E. run. cbn [snd su_infall]. intros Q.
    unfold direct_init in Q. inversion Q as [Z]. pose proof (pow10_lt 13 14). lra.
Qed.
Example C81_nonvacuous : exists h, process h /\ h_dict h 0%nat <> [] /\ h_dict h 18%nat <> [] /\ h_infall h 4%nat <> [] /\
  exists h' su, CDM env0 [VNum 0.5; VNum 2] [("log_m_host", VNum 13.5)] h = (h', Ok su).
Proof.
  destruct (CDM env0 [VNum 0.5; VNum 2] [("log_m_host", VNum 14)] heap0) as (h & r) eqn:E.
  destruct (WDM_mixed env0 [VNum 0.5; VNum 2; VNum 8; VNum 0.3] [] h) as (h1 & r1) eqn:E1.
  exists h1. split.
  - eapply process_call; [|cbn; do 4 right; left; reflexivity| |exact E1].
    + eapply process_call; [apply (process_start heap0); intros l _; split; reflexivity|cbn; left; reflexivity| |exact E].
      intros l [V|(k & V)]; cbn in V; repeat (destruct V as [V|V]; [discriminate V|]); destruct V.
    + intros l [V|(k & V)]; cbn in V; repeat (destruct V as [V|V]; [discriminate V|]); destruct V.
  - revert E. run. intros E. inversion E; subst; clear E. revert E1. run. intros E1. inversion E1; subst; clear E1.
    split; [discriminate|split; [discriminate|split; [discriminate|]]]. runs.
Qed.

Print Assumptions C81_history_independent.
Print Assumptions C81_direct_infall_refuted.
