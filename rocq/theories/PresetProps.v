(** C66, C67, C80, C82, C83, C84: what the preset functions set up. *)
From Verif Require Import Prelude MassFnModel InfallModel PresetModel PresetProofs.
Local Open Scope string_scope.
Local Open Scope R_scope.
Local Open Scope list_scope.

(** * Specification *)

(** The value that the caller's positional and keyword arguments give to parameter [k] of a function: the argument in that position,
    else the keyword argument, else the default. *)
Definition default_of (sg : signature) (k : string) : val :=
  match find (fun p => String.eqb (fst p) k) sg with Some (_, Some v) => v | _ => VNone end.
Definition value_of (sg : signature) (pos : list val) (kw : dict) (k : string) : val :=
  match nth_error pos (index_of k (keys sg)) with
  | Some x => x
  | None => match dget k kw with Some x => x | None => default_of sg k end
  end.

(** the value of a key, and the absence of a key *)
Definition key_is (k : string) (v : val) (d : dict) : Prop := dget k d = Some v.
Definition no_key (k : string) (d : dict) : Prop := dget k d = None.

(** * Binding *)
Lemma default_find sg k :
  dget k (map (fun p : string * option val => (fst p, match snd p with Some v => v | None => VNone end)) sg) =
  match find (fun p => String.eqb (fst p) k) sg with Some (_, Some v) => Some v | Some (_, None) => Some VNone | None => None end.
Proof.
  induction sg as [|[k0 [v|]] t IH]; cbn; [reflexivity| |]; destruct (String.eqb k0 k); auto.
Qed.
Lemma call_args_value sg c pos kw a k :
  call_args sg c pos kw = Ok a -> NoDup (keys sg) -> In k (keys sg) -> arg a k = value_of sg pos kw k.
Proof.
  unfold call_args. destruct (c || forallb _ _); [|discriminate]. intros H ND I.
  destruct (bind_args_get sg pos kw a k ND H I) as (G & _). unfold arg, value_of, default_of. rewrite G, default_find.
  destruct (nth_error pos _); [reflexivity|]. destruct (dget k kw); [reflexivity|].
  destruct (find _ sg) as [[? [v|]]|]; reflexivity.
Qed.
Fixpoint nodupb (l : list string) : bool := match l with [] => true | k :: t => negb (mem k t) && nodupb t end.
Lemma nodupb_NoDup l : nodupb l = true -> NoDup l.
Proof.
  induction l as [|k t IH]; cbn; intros H; [constructor|]. apply andb_prop in H as [H1 H2]. constructor; [|now apply IH].
  intros I. apply mem_In in I. rewrite I in H1; discriminate.
Qed.
Lemma nd_CDM : NoDup (keys sig_CDM). Proof. apply nodupb_NoDup; reflexivity. Qed.
Lemma nd_WDM : NoDup (keys sig_WDM). Proof. apply nodupb_NoDup; reflexivity. Qed.
Lemma nd_WDMGeneral : NoDup (keys sig_WDMGeneral). Proof. apply nodupb_NoDup; reflexivity. Qed.
Lemma nd_CDMBinned : NoDup (keys sig_CDMBinned). Proof. apply nodupb_NoDup; reflexivity. Qed.
Ltac in_sig := apply mem_In; reflexivity.
(** replace the bound arguments by what the caller gave *)
Ltac args_of H nd :=
  match type of H with
  | call_args ?sg _ _ _ = Ok ?a =>
      repeat match goal with
      | |- context [arg a ?k] => rewrite (call_args_value _ _ _ _ _ k H nd) by in_sig
      | X : context [arg a ?k] |- _ => rewrite (call_args_value _ _ _ _ _ k H nd) in X by in_sig
      end
  end.

Lemma call_args_Ok_CDM e pos kw h h' s :
  CDM e pos kw h = (h', Ok s) -> exists a, call_args sig_CDM false pos kw = Ok a /\ CDM_body e a h = (h', Ok s).
Proof. unfold CDM; intros H. inv_step. inv_step. eauto. Qed.
Lemma call_args_Ok_WDM e pos kw h h' s :
  WDM e pos kw h = (h', Ok s) -> exists a, call_args sig_WDM false pos kw = Ok a /\ WDM_body e a h = (h', Ok s).
Proof. unfold WDM; intros H. inv_step. inv_step. eauto. Qed.

(** * C67: the amplitude of the subhalo mass function *)
(** The documented precedence: log10_dNdA, else log10_sigma_sub, else sigma_sub; the dictionary of the subhalo mass function carries
    exactly one amplitude. *)
Definition amplitude_chosen (log10_dNdA log10_sigma_sub sigma_sub : val) (d : dict) : Prop :=
  (log10_dNdA <> VNone -> exists x, num log10_dNdA = Ok x /\ key_is "dndA" (VNum (Rpower 10 x)) d /\ no_key "sigma_sub" d) /\
  (log10_dNdA = VNone -> log10_sigma_sub <> VNone ->
     exists x, num log10_sigma_sub = Ok x /\ key_is "sigma_sub" (VNum (Rpower 10 x)) d /\ no_key "dndA" d) /\
  (log10_dNdA = VNone -> log10_sigma_sub = VNone -> key_is "sigma_sub" sigma_sub d /\ no_key "dndA" d).
Lemma is_none_true v : is_none v = true <-> v = VNone.
Proof. destruct v; cbn; split; intros; try discriminate; auto. Qed.
Lemma amplitude_spec dn ls ss d d' :
  amplitude dn ls ss d = Ok d' -> no_key "sigma_sub" d -> no_key "dndA" d -> amplitude_chosen dn ls ss d'.
Proof.
  unfold amplitude, amplitude_chosen, key_is, no_key, pow10v. intros H N1 N2.
  destruct (is_none dn) eqn:E1; cbn [negb] in H.
  - apply is_none_true in E1; subst dn. split; [congruence|]. destruct (is_none ls) eqn:E2; cbn [negb] in H.
    + apply is_none_true in E2; subst ls. split; [congruence|]. intros _ _. inversion H.
      rewrite dget_dset_same, dget_dset_other by discriminate. auto.
    + assert (ls <> VNone) by (intros ->; discriminate). split; [|congruence]. intros _ _.
      apply bind_ok in H as (v & H1 & H). apply bind_ok in H1 as (x & Hx & H1). inversion H1; subst. inversion H; subst.
      exists x. rewrite dget_dset_same, dget_dset_other by discriminate. auto.
  - assert (dn <> VNone) by (intros ->; discriminate). split; [|split; congruence]. intros _.
    apply bind_ok in H as (v & H1 & H). apply bind_ok in H1 as (x & Hx & H1). inversion H1; subst. inversion H; subst.
    exists x. rewrite dget_dset_same, dget_dset_other by discriminate. auto.
Qed.
(** the keys an amplitude dictionary can have *)
Lemma amplitude_keys dn ls ss d d' : amplitude dn ls ss d = Ok d' -> forall k, dget k d <> None -> k <> "dndA" -> k <> "sigma_sub" -> dget k d' = dget k d.
Proof.
  unfold amplitude; intros H k _ N1 N2. destruct (is_none dn); cbn in H; [destruct (is_none ls); cbn in H|].
  - inversion H. now apply dget_dset_other.
  - apply bind_ok in H as (v & _ & H). inversion H. now apply dget_dset_other.
  - apply bind_ok in H as (v & _ & H). inversion H. now apply dget_dset_other.
Qed.

Theorem C67_amplitude_CDM : forall e pos kw h h' s,
  CDM e pos kw h = (h', Ok s) ->
  exists d rest, su_mass_kwargs s = d :: rest /\
    amplitude_chosen (value_of sig_CDM pos kw "log10_dNdA") (value_of sig_CDM pos kw "log10_sigma_sub") (value_of sig_CDM pos kw "sigma_sub") d.
Proof.
  intros e pos kw h h' s H. apply call_args_Ok_CDM in H as (a & A & H). unfold CDM_body in H. repeat inv_step. subst s. cbn [su_mass_kwargs app].
  eexists _, _; split; [reflexivity|]. args_of A nd_CDM. eapply amplitude_spec; [eassumption|reflexivity|reflexivity].
Qed.

Lemma infall_step_dict e z m l k h h' r : infall_step e z m l k h = (h', r) -> h_dict h' = h_dict h.
Proof.
  unfold infall_step. destruct k; try (intros [= <- <-]; reflexivity). unfold bindM, lift.
  destruct (num z); [|intros [= <- <-]; reflexivity]. destruct (num l); [|intros [= <- <-]; reflexivity].
  destruct (preset_infall _ _ _ _ _) as [[st d] [er|]]; intros [= <- <-]; reflexivity.
Qed.
(** the contents of a dictionary argument *)
Definition dict_at (h : heap) (v : val) (d : dict) : Prop :=
  match v with VRef l => h_dict h l = d | VLit d' => d' = d | _ => False end.
Lemma contents_at h h' v d : contents v h = (h', Ok d) -> h = h' /\ dict_at h v d.
Proof. destruct v; cbn; intros E; inversion E; subst; auto. Qed.
Lemma dict_at_fun h v d d' : dict_at h v d -> dict_at h v d' -> d = d'.
Proof. destruct v; cbn; intros; congruence || contradiction. Qed.
Lemma dict_at_heap h h' v d : h_dict h' = h_dict h -> dict_at h' v d -> dict_at h v d.
Proof. destruct v; cbn; intros; auto. congruence. Qed.

Lemma dget_ddel_other k k' d : k <> k' -> dget k (ddel k' d) = dget k d.
Proof.
  intros N; induction d as [|[k2 v2] t IH]; cbn; [reflexivity|]. destruct (String.eqb k2 k') eqn:E; cbn.
  - apply String.eqb_eq in E; subst k2. destruct (String.eqb k' k) eqn:E2; [apply String.eqb_eq in E2; congruence|exact IH].
  - destruct (String.eqb k2 k); [reflexivity|exact IH].
Qed.
Lemma dget_turnover k a b c d : k <> "a_wdm" -> k <> "b_wdm" -> k <> "c_wdm" -> dget k (turnover a b c d) = dget k d.
Proof. intros. unfold turnover. now rewrite !dget_dset_other. Qed.
Lemma mass_function_get e name d c d' k :
  preset_mass_function_models e name d = Ok (c, d') -> k <> "a_wdm" -> k <> "b_wdm" -> k <> "c_wdm" -> k <> "dlogT_dlogk" -> dget k d' = dget k d.
Proof.
  unfold preset_mass_function_models. intros H N1 N2 N3 N4.
  repeat match type of H with
  | (if ?b then _ else _) = Ok _ => destruct b
  end; try discriminate H; try (inversion H; subst; now rewrite ?dget_turnover).
  destruct (dget "dlogT_dlogk" d); [|discriminate]. destruct (_ || _); [discriminate|]. apply bind_ok in H as (x & _ & H).
  destruct (pe_stucker e x) as [[? ?] ?]. inversion H; subst. now rewrite dget_ddel_other, dget_turnover.
Qed.
Lemma amplitude_form dn ls ss d d' :
  amplitude dn ls ss d = Ok d' -> exists k v, (k = "dndA" \/ k = "sigma_sub") /\ d' = dset k v d.
Proof.
  unfold amplitude; intros H. destruct (is_none dn); cbn in H; [destruct (is_none ls); cbn in H|].
  - inversion H; eauto.
  - apply bind_ok in H as (v & _ & H). inversion H; eauto.
  - apply bind_ok in H as (v & _ & H). inversion H; eauto.
Qed.
Lemma NoDup_dset k v d : NoDup (keys d) -> NoDup (keys (dset k v d)).
Proof.
  intros N. destruct (in_dec String.string_dec k (keys d)) as [I|I]; [now rewrite keys_dset|].
  rewrite keys_dset_new by exact I. unfold keys in *. rewrite map_app. cbn. apply NoDup_Add with (a := k) (l := map fst d).
  - replace (map fst d) with (map fst d ++ []) at 1 by apply app_nil_r. apply Add_app.
  - now split.
Qed.
Lemma chosen_update dn ls ss base mf d :
  amplitude dn ls ss base = Ok mf -> NoDup (keys base) -> no_key "sigma_sub" base -> no_key "dndA" base ->
  no_key "sigma_sub" d -> no_key "dndA" d -> amplitude_chosen dn ls ss (dupdate d mf).
Proof.
  intros H ND B1 B2 N1 N2. pose proof (amplitude_spec _ _ _ _ _ H B1 B2) as (S1 & S2 & S3).
  assert (NDm : NoDup (keys mf)). { apply amplitude_form in H as (k & v & _ & ->). now apply NoDup_dset. }
  assert (G : forall k v, key_is k v mf -> key_is k v (dupdate d mf)) by (intros; now apply dget_dupdate_in).
  assert (G2 : forall k, no_key k mf -> no_key k d -> no_key k (dupdate d mf)).
  { intros k Nk Nd. unfold no_key. rewrite dget_dupdate_notin; [exact Nd|]. now apply dget_none. }
  split; [|split].
  - intros X. destruct (S1 X) as (x & ? & ? & ?). exists x; auto.
  - intros X Y. destruct (S2 X Y) as (x & ? & ? & ?). exists x; auto.
  - intros X Y. destruct (S3 X Y) as (? & ?). auto.
Qed.

Theorem C67_amplitude_WDM : forall e pos kw h h' s d0,
  WDM e pos kw h = (h', Ok s) ->
  dict_at h (value_of sig_WDM pos kw "kwargs_mass_function_subhalos") d0 -> no_key "sigma_sub" d0 -> no_key "dndA" d0 ->
  exists d rest, su_mass_kwargs s = d :: rest /\
    amplitude_chosen (value_of sig_WDM pos kw "log10_dNdA") (value_of sig_WDM pos kw "log10_sigma_sub") (value_of sig_WDM pos kw "sigma_sub") d.
Proof.
  intros e pos kw h h' s d0 H D0 N1 N2. apply call_args_Ok_WDM in H as (a & A & H). unfold WDM_body in H. repeat inv_step. subst s. cbn [su_mass_kwargs app].
  eexists _, _; split; [reflexivity|]. args_of A nd_WDM.
  apply infall_step_dict in E. apply contents_at in E0 as [<- C]. apply (dict_at_heap _ _ _ _ E) in C.
  pose proof (dict_at_fun _ _ _ _ D0 C) as <-. destruct x1 as [c1 d1]; cbn [fst snd].
  assert (G : forall k, k = "sigma_sub" \/ k = "dndA" -> dget k (dset "log_mc" (value_of sig_WDM pos kw "log_mc") d1) = dget k d0).
  { intros k K. rewrite dget_dset_other by (destruct K; subst; discriminate). eapply mass_function_get; [exact E1|..]; destruct K; subst; discriminate. }
  eapply chosen_update; [eassumption|apply nodupb_NoDup; reflexivity|reflexivity|reflexivity|unfold no_key; rewrite G; auto..].
Qed.
Theorem C67_amplitude_WDMGeneral : forall e pos kw h h' s,
  WDMGeneral e pos kw h = (h', Ok s) ->
  exists d rest, su_mass_kwargs s = d :: rest /\
    amplitude_chosen (value_of sig_WDMGeneral pos kw "log10_dNdA") (value_of sig_WDMGeneral pos kw "log10_sigma_sub")
      (value_of sig_WDMGeneral pos kw "sigma_sub") d.
Proof.
  intros e pos kw h h' s H. unfold WDMGeneral in H. inv_step. inv_step. rename E into A, x into a. unfold WDMGeneral_body in H. repeat inv_step. subst s. cbn [su_mass_kwargs].
  eexists _, _; split; [reflexivity|]. args_of A nd_WDMGeneral.
  match goal with X : preset_mass_function_models _ (VStr "STUCKER_SHMF") _ = Ok ?p |- _ => destruct p as [c1 d1]; pose proof X as Q end.
  cbn [fst snd]. eapply chosen_update; [eassumption|destruct (is_none _); apply nodupb_NoDup; reflexivity|
    destruct (is_none _); reflexivity|destruct (is_none _); reflexivity|..]; unfold no_key;
    (rewrite (mass_function_get _ _ _ _ _ _ Q) by discriminate; reflexivity).
Qed.

(** A call of the presets with z_lens = 0.5 and z_source = 2, for the examples. *)
Definition env0 : penv :=
  {| pe_concentration := fun _ _ _ => 5; pe_infall_class := fun _ _ _ => Err ETypeError; pe_stucker := fun _ => (1, 1, - 1);
     pe_min_halo_mass := fun _ _ lo => lo |}.
Ltac run := lazy -[IZR Rpower Rdiv Rmult Rplus Ropp Rminus Rinv pow hybrid_init direct_init cluster_init Rltb Rleb Reqb log10 ln Rabs].
Ltac runs := eexists _, _; run; reflexivity.

Example C67_amplitude_CDM_nonvacuous : exists h' s,
  CDM env0 [VNum 0.5; VNum 2; VNum 0.1] [("log10_sigma_sub", VNum (- 1.5))] heap0 = (h', Ok s) /\
  exists d rest, su_mass_kwargs s = d :: rest /\ key_is "sigma_sub" (VNum (Rpower 10 (- 1.5))) d.
Proof.
  assert (X : exists h' s, CDM env0 [VNum 0.5; VNum 2; VNum 0.1] [("log10_sigma_sub", VNum (- 1.5))] heap0 = (h', Ok s)) by runs.
  destruct X as (h' & s & X). exists h', s; split; [exact X|].
  destruct (C67_amplitude_CDM _ _ _ _ _ _ X) as (d & rest & E & _ & A & _). exists d, rest; split; [exact E|].
  destruct A as (x & Nx & Kx & _); [reflexivity|discriminate|]. cbn in Nx. inversion Nx; subst. exact Kx.
Qed.
Example C67_amplitude_WDM_nonvacuous : exists h' s,
  WDM env0 [VNum 0.5; VNum 2; VNum 8] [("log10_dNdA", VNum (- 1)); ("log10_sigma_sub", VNum (- 1.5))] heap0 = (h', Ok s) /\
  exists d rest, su_mass_kwargs s = d :: rest /\ key_is "dndA" (VNum (Rpower 10 (- 1))) d /\ no_key "sigma_sub" d.
Proof.
  assert (X : exists h' s, WDM env0 [VNum 0.5; VNum 2; VNum 8] [("log10_dNdA", VNum (- 1)); ("log10_sigma_sub", VNum (- 1.5))] heap0 = (h', Ok s)) by runs.
  destruct X as (h' & s & X). exists h', s; split; [exact X|].
  destruct (C67_amplitude_WDM _ _ _ _ _ _ [] X) as (d & rest & E & A & _); [reflexivity..|]. exists d, rest; split; [exact E|].
  destruct A as (x & Nx & Kx & Dx); [discriminate|]. cbn in Nx. inversion Nx; subst. auto.
Qed.
Example C67_amplitude_WDMGeneral_nonvacuous : exists h' s,
  WDMGeneral env0 [VNum 0.5; VNum 2; VNum 8; VNum 2] [] heap0 = (h', Ok s) /\
  exists d rest, su_mass_kwargs s = d :: rest /\ key_is "sigma_sub" (VNum 0.025) d.
Proof.
  assert (X : exists h' s, WDMGeneral env0 [VNum 0.5; VNum 2; VNum 8; VNum 2] [] heap0 = (h', Ok s)) by runs.
  destruct X as (h' & s & X). exists h', s; split; [exact X|].
  destruct (C67_amplitude_WDMGeneral _ _ _ _ _ _ X) as (d & rest & E & _ & _ & A). exists d, rest; split; [exact E|].
  apply A; reflexivity.
Qed.

(** delta_power_law_index of the CDM preset: documented to tilt the subhalo and the field halo mass functions; it tilts only the
    latter. *)
Theorem C67_tilt : forall e pos kw h h' s,
  CDM e pos kw h = (h', Ok s) ->
  exists sub field, su_mass_kwargs s = sub :: field /\ key_is "delta_power_law_index" (VNum 0) sub /\ field <> [] /\
    Forall (key_is "delta_power_law_index" (value_of sig_CDM pos kw "delta_power_law_index")) field.
Proof.
  intros e pos kw h h' s H. apply call_args_Ok_CDM in H as (a & A & H). unfold CDM_body in H. repeat inv_step. subst s. cbn [su_mass_kwargs app].
  eexists _, _; split; [reflexivity|]. args_of A nd_CDM. split; [|split; [discriminate|]].
  - match goal with X : amplitude _ _ _ _ = Ok _ |- _ => apply amplitude_form in X as (k & v & K & ->) end. unfold key_is. rewrite dget_dset_other by (destruct K; subst; discriminate). reflexivity.
  - destruct (truthy _); repeat constructor.
Qed.
Example C67_tilt_nonvacuous : exists h' s,
  CDM env0 [VNum 0.5; VNum 2] [("delta_power_law_index", VNum 0.1)] heap0 = (h', Ok s) /\ List.length (su_mass_kwargs s) = 3%nat.
Proof. eexists _, _; split; [run; reflexivity|reflexivity]. Qed.
Theorem C67_tilt_refuted : ~ (forall e pos kw h h' s,
  CDM e pos kw h = (h', Ok s) ->
  Forall (key_is "delta_power_law_index" (value_of sig_CDM pos kw "delta_power_law_index")) (su_mass_kwargs s)).
Proof.
  intros H. assert (X : exists h' s, CDM env0 [VNum 0.5; VNum 2] [("delta_power_law_index", VNum 0.1)] heap0 = (h', Ok s)) by runs.
  destruct X as (h' & s & X). pose proof (H _ _ _ _ _ _ X) as F. destruct (C67_tilt _ _ _ _ _ _ X) as (d & r & E & K & _).
  rewrite E in F. inversion F; subst. unfold key_is in *. cbn in H2. rewrite K in H2. inversion H2. lra.
Qed.

(** * C67: what a preset writes into dictionaries *)
(** the default dictionaries of the preset functions *)
Definition preset_signatures : list signature :=
  [sig_CDM; sig_WDM; sig_SIDM_core_collapse; sig_SIDM_parametric; sig_SIDM_parametric_fixedbins; sig_ULDM; sig_WDM_mixed;
   sig_WDMGeneral; sig_CDM_plus_BH].
Definition is_default (l : nat) : Prop := exists sg k, In sg preset_signatures /\ In (k, Some (VRef l)) sg.
(** dictionary [l] is one of the caller's arguments *)
Definition passed (pos : list val) (kw : dict) (l : nat) : Prop := In (VRef l) pos \/ exists k, In (k, VRef l) kw.
(** the keys the presets write *)
Definition written := ["cosmo"; "log_mc"; "lens_cosmo"; "a_wdm"; "b_wdm"; "c_wdm"; "mixed_DM_frac"].
Definition written_infall := ["log_m_host"; "m_host"].
(** from [h] to [h'] only dictionaries in [P] changed, and only at the keys above *)
Definition only_writes (P : nat -> Prop) (h h' : heap) : Prop :=
  forall l,
    (~ P l -> h_dict h' l = h_dict h l /\ h_infall h' l = h_infall h l) /\
    (forall k, ~ In k written -> dget k (h_dict h' l) = dget k (h_dict h l)) /\
    (forall k, ~ In k written_infall -> kget k (h_infall h' l) = kget k (h_infall h l)).

Definition frames (P : nat -> Prop) {A} (m : M A) : Prop := forall h, only_writes P h (fst (m h)).
Lemma ow_refl P h : only_writes P h h. Proof. intros l; auto. Qed.
Lemma ow_trans P h1 h2 h3 : only_writes P h1 h2 -> only_writes P h2 h3 -> only_writes P h1 h3.
Proof.
  intros A B l. destruct (A l) as (A1 & A2 & A3), (B l) as (B1 & B2 & B3). split; [|split].
  - intros N. destruct (A1 N), (B1 N). split; congruence.
  - intros k N. now rewrite B2, A2.
  - intros k N. now rewrite B3, A3.
Qed.
Lemma frames_ret P A (x : A) : frames P (ret x). Proof. intros h; apply ow_refl. Qed.
Lemma frames_raise P A er : frames P (@raise A er). Proof. intros h; apply ow_refl. Qed.
Lemma frames_lift P A (m : result A) : frames P (lift m). Proof. intros h; apply ow_refl. Qed.
Lemma frames_bind P A B (m : M A) (f : A -> M B) : frames P m -> (forall x, frames P (f x)) -> frames P (bindM m f).
Proof.
  intros Hm Hf h. unfold bindM. pose proof (Hm h) as X. destruct (m h) as [h1 [x|er]]; cbn in *; [|exact X].
  eapply ow_trans; [exact X|apply Hf].
Qed.
Lemma frames_put (P : nat -> Prop) l k v h : P l -> In k written -> only_writes P h (put l (dset k v (h_dict h l)) h).
Proof.
  intros Pl I l'. cbn. split; [|split; [|reflexivity]].
  - intros N. destruct (Nat.eqb l' l) eqn:E; [apply Nat.eqb_eq in E; subst; contradiction|auto].
  - intros k' N. destruct (Nat.eqb l' l) eqn:E; [|reflexivity]. apply Nat.eqb_eq in E; subst l'.
    apply dget_dset_other. intros ->; contradiction.
Qed.
Lemma frames_set_item (P : nat -> Prop) v k x : (forall l, v = VRef l -> P l) -> In k written -> frames P (set_item v k x).
Proof. intros H I h. destruct v; cbn; try apply ow_refl. apply frames_put; auto. Qed.
Lemma frames_set_default (P : nat -> Prop) v k x : (forall l, v = VRef l -> P l) -> In k written -> frames P (set_default v k x).
Proof. intros H I h. destruct v; cbn; try apply ow_refl. destruct (has _ _); [apply ow_refl|]. apply frames_put; auto. Qed.
Lemma frames_contents P v : frames P (contents v).
Proof. intros h. destruct v; cbn; apply ow_refl. Qed.
Lemma frames_empty P v : frames P (is_empty_dict v).
Proof. intros h. destruct v; cbn; apply ow_refl. Qed.
Lemma kget_kset_other k k' v d : k <> k' -> kget k (kset k' v d) = kget k d.
Proof.
  intros N; induction d as [|[k2 v2] t IH]; cbn.
  - destruct (String.eqb k' k) eqn:E; [apply String.eqb_eq in E; congruence|reflexivity].
  - destruct (String.eqb k2 k') eqn:E; cbn.
    + apply String.eqb_eq in E; subst k2. destruct (String.eqb k' k) eqn:E2; [apply String.eqb_eq in E2; congruence|reflexivity].
    + destruct (String.eqb k2 k); [reflexivity|exact IH].
Qed.
Lemma kget_kdel_other k k' d : k <> k' -> kget k (kdel k' d) = kget k d.
Proof.
  intros N; induction d as [|[k2 v2] t IH]; cbn; [reflexivity|]. destruct (String.eqb k2 k') eqn:E; cbn.
  - apply String.eqb_eq in E; subst k2. destruct (String.eqb k' k) eqn:E2; [apply String.eqb_eq in E2; congruence|exact IH].
  - destruct (String.eqb k2 k); [reflexivity|exact IH].
Qed.
Lemma kget_convert k d : ~ In k written_infall -> kget k (convert_host d) = kget k d.
Proof.
  intros N. unfold convert_host. destruct (kget "m_host" d); [|reflexivity].
  rewrite kget_kdel_other, kget_kset_other; [reflexivity|..]; intros ->; apply N; cbn; auto.
Qed.
Lemma kget_default k d : ~ In k written_infall -> kget k (with_default d) = kget k d.
Proof.
  intros N. unfold with_default. destruct (kget "log_m_host" d); [reflexivity|]. apply kget_kset_other. intros ->; apply N; cbn; auto.
Qed.
Lemma kget_infall z s m d st k : ~ In k written_infall -> kget k (snd (fst (preset_infall z s m d st))) = kget k d.
Proof.
  intros N. unfold preset_infall. transitivity (kget k (preset_kwargs s m d)).
  - generalize (preset_kwargs s m d); clear d; intros d. unfold setup_infall_model. destruct s as [n|ctor].
    + repeat match goal with |- context [if String.eqb n ?x then _ else _] => destruct (String.eqb n x) end;
      repeat match goal with |- context [match ?x with Ok _ => _ | Err _ => _ end] => destruct x end; cbn;
      rewrite ?kget_default, ?kget_convert by exact N; reflexivity.
    + repeat match goal with |- context [match ?x with Ok _ => _ | Err _ => _ end] => destruct x end; reflexivity.
  - destruct s; cbn; [|reflexivity]. destruct (_ || _); [|reflexivity]. apply kget_kset_other. intros ->; apply N; cbn; auto.
Qed.
Lemma frames_infall (P : nat -> Prop) e z m l k : (forall l, k = VRef l -> P l) -> frames P (infall_step e z m l k).
Proof.
  intros H. unfold infall_step. destruct k; try apply frames_raise.
  apply frames_bind; [apply frames_lift|intros zv]. apply frames_bind; [apply frames_lift|intros mv]. intros h.
  set (sel := match m with VStr s => SName s | v => SClass (pe_infall_class e v) end).
  pose proof (kget_infall zv sel mv (h_infall h l0) lc_fresh) as G.
  destruct (preset_infall zv sel mv (h_infall h l0) lc_fresh) as [[st d] [er|]]; cbn in *; intros l'; cbn;
    (split; [|split; [reflexivity|]]).
  all: try (intros N; split; [reflexivity|]; destruct (Nat.eqb l' l0) eqn:E; [apply Nat.eqb_eq in E; subst; exfalso; eauto|reflexivity]).
  all: intros k N; destruct (Nat.eqb l' l0) eqn:E; [apply Nat.eqb_eq in E; subst; now apply G|reflexivity].
Qed.
Lemma frames_gc P f k : frames P (post_gc f k).
Proof. unfold post_gc. destruct (truthy f); [|apply frames_ret]. apply frames_bind; [apply frames_contents|intros; apply frames_ret]. Qed.
Lemma frames_cusps P f : frames P (post_cusps f).
Proof. unfold post_cusps. destruct (truthy f); [apply frames_raise|apply frames_ret]. Qed.
Lemma frames_trunc_sub P n k c : frames P (truncation_subhalos n k c).
Proof. unfold truncation_subhalos. apply frames_bind; [apply frames_lift|intros]. apply frames_bind; [apply frames_contents|intros; apply frames_lift]. Qed.
Lemma frames_trunc_field P n k : frames P (truncation_field n k).
Proof. unfold truncation_field. apply frames_bind; [apply frames_lift|intros]. apply frames_bind; [apply frames_contents|intros; apply frames_lift]. Qed.
Lemma frames_weaken (P Q : nat -> Prop) A (m : M A) : (forall l, P l -> Q l) -> frames P m -> frames Q m.
Proof. intros I F h l. destruct (F h l) as (F1 & F2 & F3). split; [|split; auto]. intros N; apply F1; auto. Qed.
Ltac framed :=
  cbv zeta;
  repeat first
  [ apply frames_ret | apply frames_raise | apply frames_lift | apply frames_contents | apply frames_gc | apply frames_cusps
  | apply frames_trunc_sub | apply frames_trunc_field | apply frames_empty
  | apply frames_set_item; [solve [eauto] | cbn; tauto]
  | apply frames_set_default; [solve [eauto] | cbn; tauto]
  | apply frames_infall; solve [eauto]
  | apply frames_bind; [|intros]
  | match goal with |- frames _ (if ?b then _ else _) => destruct b end ].

(** where the arguments of a function come from *)
Lemma bind_args_origin sg : forall pos kw a k v,
  bind_args sg pos kw = Ok a -> In (k, v) a -> In v pos \/ In (k, v) kw \/ In (k, Some v) sg.
Proof.
  induction sg as [|[k0 dflt] sg IH]; intros pos kw a k v H I; cbn in H.
  - destruct pos; inversion H; subst; destruct I.
  - apply bind_ok in H as (w & Hw & H). apply bind_ok in H as (rest & Hr & H). inversion H; subst; clear H. destruct I as [I|I].
    + inversion I; subst. destruct pos as [|x pos'].
      * destruct (dget k kw) eqn:G.
        -- inversion Hw; subst. right; left. clear -G. induction kw as [|[k1 v1] t IH]; cbn in *; [discriminate|].
           destruct (String.eqb k1 k) eqn:E; [apply String.eqb_eq in E; inversion G; subst; now left|right; auto].
        -- destruct dflt; inversion Hw; subst. right; right; now left.
      * destruct (has k kw); inversion Hw; subst. left; now left.
    + destruct (IH _ _ _ _ _ Hr I) as [X|[X|X]]; [left; destruct pos; [destruct X|now right]|right; now left|right; right; now right].
Qed.
Lemma dget_In k v (a : dict) : dget k a = Some v -> In (k, v) a.
Proof.
  induction a as [|[k1 v1] t IH]; cbn; [discriminate|]. destruct (String.eqb k1 k) eqn:E; intros H; [|right; auto].
  apply String.eqb_eq in E; inversion H; subst; now left.
Qed.
Definition owned (pos : list val) (kw : dict) (l : nat) : Prop := passed pos kw l \/ is_default l.
Lemma arg_owned sg c pos kw a : In sg preset_signatures -> call_args sg c pos kw = Ok a ->
  forall k l, arg a k = VRef l -> owned pos kw l.
Proof.
  intros S H k l E. unfold call_args in H. destruct (c || _); [|discriminate]. unfold arg in E.
  destruct (dget k a) eqn:G; [|discriminate]. subst v. apply dget_In in G.
  destruct (bind_args_origin _ _ _ _ _ _ H G) as [X|[X|X]]; [left; now left|left; right; eauto|right; exists sg, k; auto].
Qed.
Lemma frames_CDM_body (P : nat -> Prop) e a : (forall k l, arg a k = VRef l -> P l) -> frames P (CDM_body e a).
Proof. intros H. unfold CDM_body. framed. Qed.
Lemma frames_WDM_body (P : nat -> Prop) e a : (forall k l, arg a k = VRef l -> P l) -> frames P (WDM_body e a).
Proof. intros H. unfold WDM_body. framed. Qed.
Lemma frames_WDMGeneral_body (P : nat -> Prop) e a : (forall k l, arg a k = VRef l -> P l) -> frames P (WDMGeneral_body e a).
Proof. intros H. unfold WDMGeneral_body. framed. Qed.
Lemma frames_call (P : nat -> Prop) sg c pos kw A (body : args -> M A) :
  In sg preset_signatures -> (forall l, owned pos kw l -> P l) ->
  (forall a, (forall k l, arg a k = VRef l -> P l) -> frames P (body a)) -> frames P (let! a := lift (call_args sg c pos kw) in body a).
Proof.
  intros S H B h. unfold bindM, lift. destruct (call_args sg c pos kw) as [a|er] eqn:E; [|apply ow_refl].
  apply B. intros k l K. apply H. eapply arg_owned; eassumption.
Qed.
Ltac in_sigs := cbn; tauto.
Lemma frames_CDM (P : nat -> Prop) e pos kw : (forall l, owned pos kw l -> P l) -> frames P (CDM e pos kw).
Proof. intros H. apply frames_call; [in_sigs|exact H|intros; now apply frames_CDM_body]. Qed.
Lemma frames_WDM (P : nat -> Prop) e pos kw : (forall l, owned pos kw l -> P l) -> frames P (WDM e pos kw).
Proof. intros H. apply frames_call; [in_sigs|exact H|intros; now apply frames_WDM_body]. Qed.
(** the arguments of an inner call are arguments of the outer one *)
Ltac inner H D :=
  let l := fresh "l" in let k := fresh "k" in let X := fresh "X" in
  intros l [[X|[k X]]|X]; [cbn in X; repeat (destruct X as [X|X]; [try discriminate X; eapply H; eassumption|]); destruct X
                          |cbn in X; repeat (destruct X as [X|X]; [inversion X; try discriminate; eapply H; eassumption|]); destruct X
                          |apply D; exact X].
Lemma frames_SIDM_core (P : nat -> Prop) e a x : (forall l, is_default l -> P l) -> (forall k l, arg a k = VRef l -> P l) -> frames P (SIDM_core_collapse_body e a x).
Proof. intros D H. unfold SIDM_core_collapse_body. apply frames_bind; [|intros; framed]. apply frames_CDM. inner H D. Qed.
Lemma frames_SIDM_par (P : nat -> Prop) e a : (forall l, is_default l -> P l) -> (forall k l, arg a k = VRef l -> P l) -> frames P (SIDM_parametric_body e a).
Proof. intros D H. unfold SIDM_parametric_body. apply frames_bind; [|intros; framed]. apply frames_CDM. inner H D. Qed.
Lemma frames_SIDM_fixed (P : nat -> Prop) e a : (forall l, is_default l -> P l) -> (forall k l, arg a k = VRef l -> P l) -> frames P (SIDM_parametric_fixedbins_body e a).
Proof.
  intros D H. unfold SIDM_parametric_fixedbins_body. apply frames_bind; [apply frames_lift|intros]. destruct (Rltb _ _); [apply frames_raise|].
  apply frames_call; [in_sigs| |intros; now apply frames_SIDM_par]. inner H D.
Qed.
Lemma frames_BH (P : nat -> Prop) e a : (forall l, is_default l -> P l) -> (forall k l, arg a k = VRef l -> P l) -> frames P (CDM_plus_BH_body e a).
Proof. intros D H. unfold CDM_plus_BH_body. apply frames_bind; [|intros; framed]. apply frames_CDM. inner H D. Qed.
Lemma frames_mixed (P : nat -> Prop) e a : (forall l, is_default l -> P l) -> (forall k l, arg a k = VRef l -> P l) -> frames P (WDM_mixed_body e a).
Proof.
  intros D H. unfold WDM_mixed_body. cbv zeta. do 8 (apply frames_bind; [framed|intros]). apply frames_WDM. inner H D.
Qed.
Lemma frames_ULDM (P : nat -> Prop) e a : (forall l, is_default l -> P l) -> (forall k l, arg a k = VRef l -> P l) -> frames P (ULDM_body e a).
Proof.
  intros D H. unfold ULDM_body. apply frames_bind; [framed|intros]. cbv zeta. apply frames_bind; [framed|intros].
  apply frames_bind; [|intros; framed]. apply frames_WDM. inner H D.
Qed.

(** Whatever a preset does, and whether or not it raises, it only changes dictionaries that the caller passed to it (or the shared
    default ones), and only the keys listed above. *)
Theorem C67_writes : forall e f pos kw h h' r,
  call_preset e f pos kw h = (h', r) -> only_writes (fun l => passed pos kw l \/ is_default l) h h'.
Proof.
  intros e f pos kw h h' r H. assert (F : frames (owned pos kw) (call_preset e f pos kw)).
  { assert (D : forall l, is_default l -> owned pos kw l) by (intros; now right).
    destruct f; cbn [call_preset]; try apply frames_raise; (apply frames_CDM || apply frames_WDM || (apply frames_call; [in_sigs| |])); auto; intros.
    - now apply frames_SIDM_core.
    - now apply frames_SIDM_par.
    - now apply frames_SIDM_fixed.
    - now apply frames_ULDM.
    - now apply frames_mixed.
    - now apply frames_WDMGeneral_body.
    - now apply frames_BH. }
  specialize (F h). rewrite H in F. exact F.
Qed.
Example C67_writes_nonvacuous : exists h' s,
  let h := put 100 [("scatter", VBool false)] heap0 in
  call_preset env0 FWDM [VNum 0.5; VNum 2; VNum 8] [("kwargs_concentration_model_subhalos", VRef 100)] h = (h', Ok s) /\
  h_dict h' 100%nat = [("scatter", VBool false); ("cosmo", VAstropy VNone); ("log_mc", VNum 8)].
Proof. eexists _, _; cbv zeta; split; [run; reflexivity|reflexivity]. Qed.
(** A user dictionary is therefore not returned as it was given (no isolation): after a WDM call it has keys that make a CDM call with
    the same dictionary fail. *)
Theorem C67_isolation_refuted :
  ~ (forall e f pos kw h h' r, call_preset e f pos kw h = (h', r) -> forall l, passed pos kw l -> h_dict h' l = h_dict h l).
Proof.
  intros H. destruct C67_writes_nonvacuous as (h' & s & X & Y). assert (P : passed [VNum 0.5; VNum 2; VNum 8] [("kwargs_concentration_model_subhalos", VRef 100)] 100).
  { right; eexists; now left. }
  pose proof (H _ _ _ _ _ _ _ X _ P) as Z. rewrite Y in Z. discriminate Z.
Qed.
Theorem C67_reuse_refuted :
  let d := [("c0", VNum 17); ("zeta", VNum (- 0.2)); ("beta", VNum 0.8)] in
  let h := put 100 d heap0 in
  let kw := [("concentration_model_fieldhalos", VStr "PEAK_HEIGHT_POWERLAW"); ("kwargs_concentration_model_fieldhalos", VRef 100)] in
  let after := fst (WDM env0 [VNum 0.5; VNum 2; VNum 8] kw h) in
  (exists h' s, CDM env0 [VNum 0.5; VNum 2] kw h = (h', Ok s)) /\ exists h', CDM env0 [VNum 0.5; VNum 2] kw after = (h', Err ETypeError).
Proof.
  cbv zeta. split; [runs|]. eexists. run. reflexivity.
Qed.

Print Assumptions C67_amplitude_CDM.
Print Assumptions C67_amplitude_WDM.
Print Assumptions C67_amplitude_WDMGeneral.
Print Assumptions C67_tilt.
Print Assumptions C67_tilt_refuted.
Print Assumptions C67_writes.
Print Assumptions C67_isolation_refuted.
Print Assumptions C67_reuse_refuted.
