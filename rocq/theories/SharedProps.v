(** C104, C105. Cosmological parameters, and several cosmologies in one program.

    Specification: [parameter kw key v] says that [v] is the value of [key] a user asked for: the keyword if it was given and the
    documented default (Planck 2018) otherwise.  [created o] is the keyword dictionary of the cosmology that an operation creates. *)
From Coq Require Import String.
From Verif Require Import Prelude MassFnModel MassFnProofs ConcModel ConcSpec ConcProofs SharedModel.
Import ListNotations.
Local Open Scope R_scope.

Definition planck : list (string * cval) :=
  [("H0", CNum 67.5); ("Om0", CNum 0.309); ("Ob0", CNum 0.049); ("ns", CNum 0.965); ("sigma8", CNum 0.81); ("power_law", CFlag false)]%string.
Definition parameter (kw : kwargs) (key : string) (v : cval) : Prop :=
  dget key kw = Some v \/ (dget key kw = None /\ In (key, v) planck).
Definition created (o : op) : option kwargs :=
  match o with
  | NewCosmology _ kw => Some kw
  | NewPyHalo None => Some cosmo_param_dictionary
  | NewPyHalo (Some k) => match dget "H0" k, dget "Ob0" k, dget "Om0" k with Some _, Some _, Some _ => Some k | _, _, _ => None end
  | _ => None
  end.
(** the keywords of the last cosmology created in a history *)
Fixpoint last_created (h : list op) : option kwargs :=
  match h with [] => None | o :: t => match last_created t with Some k => Some k | None => created o end end.
(** [p] has exactly the parameters asked for with [kw] *)
Definition asked (kw p : kwargs) : Prop :=
  map fst p = colossus_keys /\ forall key, In key colossus_keys -> exists v, dget key p = Some v /\ parameter kw key v.

(** ** Parameters *)
Lemma dget_default k : In k colossus_keys -> exists v, dget k cosmo_param_dictionary = Some v /\ In (k, v) planck.
Proof.
  assert (E : 0.049 + 0.26 = 0.309) by lra. unfold cosmo_param_dictionary. rewrite E.
  intros [<-|[<-|[<-|[<-|[<-|[<-|[]]]]]]]; cbn; eexists; split; try reflexivity; tauto.
Qed.
Lemma fill_ok keys kw : (forall k, In k keys -> In k colossus_keys) -> NoDup keys ->
  exists p, fill keys kw = Ok p /\ map fst p = keys /\
    forall k, In k keys -> exists v, dget k p = Some v /\ parameter kw k v.
Proof.
  unfold fill. induction keys as [|a t IH]; intros H N.
  - exists []. cbn. repeat split; auto. intros k [].
  - inversion N as [|? ? Na Nt]; subst. destruct (IH (fun k Hk => H k (or_intror Hk)) Nt) as (p & Ep & Mp & Pp).
    assert (X : exists v, match dget a kw with Some v => Ok (a, v) | None => match cosmo_defaults a with Ok v => Ok (a, v) | Err e => Err e end end = Ok (a, v) /\ parameter kw a v).
    { destruct (dget a kw) as [v|] eqn:G; [exists v; split; [reflexivity|left; exact G]|].
      destruct (dget_default a (H a (or_introl eq_refl))) as (v & D & Iv). exists v. unfold cosmo_defaults. rewrite D.
      split; [reflexivity|right; auto]. }
    destruct X as (v & Ev & Pv). exists ((a, v) :: p). split; [|split].
    + cbn [mapM]. rewrite Ev. cbn [bind]. rewrite Ep. reflexivity.
    + cbn. now rewrite Mp.
    + intros k [<-|Hk].
      * exists v. cbn. rewrite String.eqb_refl. auto.
      * cbn. destruct (String.eqb k a) eqn:Q; [apply String.eqb_eq in Q; subst; contradiction|]. apply Pp, Hk.
Qed.
Lemma nodup_c : NoDup colossus_keys.
Proof. repeat constructor; cbn; intuition discriminate. Qed.
Lemma nodup_a : NoDup astropy_keys.
Proof. repeat constructor; cbn; intuition discriminate. Qed.
Lemma sub_a k : In k astropy_keys -> In k colossus_keys.
Proof. cbn. tauto. Qed.
Lemma colossus_ok kw : exists p, setup_colossus kw = Ok p /\ asked kw p.
Proof. destruct (fill_ok colossus_keys kw (fun k H => H) nodup_c) as (p & A & B & C). exists p. split; [exact A|split; assumption]. Qed.
Lemma parameter_fun kw k v v' : parameter kw k v -> parameter kw k v' -> v = v'.
Proof.
  intros [A|[A Ia]] [B|[B Ib]]; try congruence. revert Ia Ib. cbn.
  intros [Q|[Q|[Q|[Q|[Q|[Q|[]]]]]]] [P|[P|[P|[P|[P|[P|[]]]]]]]; inversion Q; inversion P; subst; try discriminate; reflexivity.
Qed.

(** Creating a cosmology always succeeds, and gives astropy and colossus the parameters asked for; they share all parameters
    unless an astropy cosmology is supplied. *)
Theorem C104_parameters : forall E w inst kw, exists a c,
  step E w (NewCosmology inst kw) = (mkWorld (Some c) (w_cosmos w ++ [mkCosmo a c]) (w_models w), Ok 0) /\ asked kw c /\
  match inst with
  | Some i => a = i
  | None => forall key, In key ["H0"; "Om0"; "Ob0"]%string -> exists v, dget key a = Some v /\ dget key c = Some v /\ parameter kw key v
  end.
Proof.
  intros E w inst kw. destruct (colossus_ok kw) as (c & Ec & Ac).
  destruct inst as [i|].
  - exists i, c. split; [|auto]. cbn [step]. unfold new_cosmology. cbn [setup_astropy]. rewrite Ec. reflexivity.
  - destruct (fill_ok astropy_keys kw sub_a nodup_a) as (a & Ea & _ & Pa).
    exists a, c. split; [|split; [exact Ac|]].
    + cbn [step]. unfold new_cosmology. cbn [setup_astropy]. rewrite Ea, Ec. reflexivity.
    + intros key H. destruct (Pa key H) as (v & G & P). destruct (proj2 Ac key (sub_a key H)) as (v' & G' & P').
      rewrite (parameter_fun kw key v' v P' P) in G'. exists v. auto.
Qed.
(** Other keywords have no effect. *)
Theorem C104_other_keywords : forall E w inst kw kw', (forall key, In key colossus_keys -> dget key kw = dget key kw') ->
  step E w (NewCosmology inst kw) = step E w (NewCosmology inst kw').
Proof.
  intros E w inst kw kw' H. cbn [step]. unfold new_cosmology.
  assert (F : forall keys, (forall k, In k keys -> In k colossus_keys) -> fill keys kw = fill keys kw').
  { unfold fill. induction keys as [|a t IH]; intros S; [reflexivity|]. cbn [mapM].
    rewrite (H a (S a (or_introl eq_refl))), (IH (fun k K => S k (or_intror K))). reflexivity. }
  unfold setup_astropy, setup_colossus. rewrite (F colossus_keys (fun k K => K)).
  destruct inst; [reflexivity|]. now rewrite (F astropy_keys sub_a).
Qed.
(** The top-level class needs H0, Ob0 and Om0 as soon as any keyword is given. *)
Theorem C104_top_level : forall E w k,
  (forall key, In key ["H0"; "Ob0"; "Om0"]%string -> dget key k <> None) ->
  exists a c, step E w (NewPyHalo (Some k)) = (mkWorld (Some c) (w_cosmos w ++ [mkCosmo a c]) (w_models w), Ok 0) /\ asked k c /\
    forall key, In key ["H0"; "Ob0"; "Om0"]%string -> dget key a = dget key k /\ dget key c = dget key k.
Proof.
  intros E w k H. destruct (colossus_ok k) as (c & Ec & Ac).
  pose proof (H "H0"%string ltac:(cbn; tauto)) as H1. pose proof (H "Ob0"%string ltac:(cbn; tauto)) as H2. pose proof (H "Om0"%string ltac:(cbn; tauto)) as H3.
  destruct (dget "H0" k) as [h|] eqn:G1; [|congruence]. destruct (dget "Ob0" k) as [b|] eqn:G2; [|congruence].
  destruct (dget "Om0" k) as [o|] eqn:G3; [|congruence].
  exists [("H0", h); ("Ob0", b); ("Om0", o)]%string, c. split; [|split; [exact Ac|]].
  - cbn [step]. unfold new_pyhalo. rewrite G1, G2, G3. unfold new_cosmology. cbn [setup_astropy]. rewrite Ec. reflexivity.
  - assert (K : forall key v, In key colossus_keys -> dget key k = Some v -> dget key c = Some v).
    { intros key v Hk G. destruct (proj2 Ac key Hk) as (v' & G' & P). rewrite G'. f_equal. apply (parameter_fun k key); [exact P|left; exact G]. }
    intros key [<-|[<-|[<-|[]]]]; rewrite ?G1, ?G2, ?G3; (split; [reflexivity|]); apply K; auto; cbn; tauto.
Qed.
Theorem C104_missing_keyword : forall E w k key, In key ["H0"; "Ob0"; "Om0"]%string -> dget key k = None ->
  step E w (NewPyHalo (Some k)) = (w, Err EKeyError).
Proof.
  intros E w k key H G. cbn [step]. unfold new_pyhalo.
  destruct H as [<-|[<-|[<-|[]]]]; rewrite G; destruct (dget "H0" k); try reflexivity; destruct (dget "Ob0" k); reflexivity.
Qed.
(** A supplied astropy cosmology is not passed on: colossus keeps the default parameters. *)
Theorem C104_instance_refuted : exists E inst w', run E start (single_halo_ops (Some inst)) = w' /\
  exists c, w_cosmos w' = [c] /\ dget "H0" (co_astropy c) = Some (CNum 50) /\ dget "H0" (co_colossus c) = Some (CNum 67.5).
Proof.
  exists (mkExt (fun _ => 1) (fun _ _ => 1) (fun _ _ _ => 1) (fun _ _ _ => 1) (fun _ _ _ _ => 1) (fun _ _ => 1)).
  exists [("H0", CNum 50)]%string. eexists. split; [reflexivity|]. eexists. cbn. repeat split; reflexivity.
Qed.
Example C104_nonvacuous : exists a c, forall E,
  step E start (NewPyHalo (Some [("H0", CNum 70); ("Ob0", CNum 0.05); ("Om0", CNum 0.3); ("sigma8", CNum 0.9)]%string))
  = (mkWorld (Some c) [mkCosmo a c] [], Ok 0) /\ dget "sigma8" c = Some (CNum 0.9) /\ dget "ns" c = Some (CNum 0.965).
Proof. eexists. eexists. intros E. cbn. repeat split; reflexivity. Qed.

(** ** Several cosmologies *)
Lemma created_step E w o kw : created o = Some kw -> exists a c,
  step E w o = (mkWorld (Some c) (w_cosmos w ++ [mkCosmo a c]) (w_models w), Ok 0) /\ asked kw c /\ setup_colossus kw = Ok c.
Proof.
  destruct o as [inst k|[k|]| | | | |]; cbn [created]; try discriminate.
  - intros H. inversion H; subst. destruct (C104_parameters E w inst kw) as (a & c & S & A & _). exists a, c. split; [exact S|]. split; [exact A|].
    cbn [step] in S. unfold new_cosmology in S. destruct (setup_astropy inst kw); [|inversion S]. destruct (setup_colossus kw); [|inversion S].
    inversion S; subst; reflexivity.
  - intros H. destruct (dget "H0" k) as [v0|] eqn:G1; [|discriminate]. destruct (dget "Ob0" k) as [v1|] eqn:G2; [|discriminate].
    destruct (dget "Om0" k) as [v2|] eqn:G3; [|discriminate]. inversion H; subst. destruct (colossus_ok kw) as (c & Ec & Ac).
    exists [("H0", v0); ("Ob0", v1); ("Om0", v2)]%string, c. cbn [step]. unfold new_pyhalo. rewrite G1, G2, G3. unfold new_cosmology. cbn [setup_astropy].
    rewrite Ec. auto.
  - intros H. inversion H; subst. destruct (C104_parameters E w None cosmo_param_dictionary) as (a & c & S & A & _). exists a, c.
    split; [exact S|]. split; [exact A|]. cbn [step] in S. unfold new_cosmology in S.
    destruct (setup_astropy None cosmo_param_dictionary); [|inversion S]. destruct (setup_colossus cosmo_param_dictionary); [|inversion S].
    inversion S; subst; reflexivity.
Qed.
Lemma not_created_step E w o : created o = None -> w_current (fst (step E w o)) = w_current w /\ w_cosmos (fst (step E w o)) = w_cosmos w.
Proof.
  destruct o as [inst k|[k|]|i u|i z|i m z|i r m z|j m z]; cbn [created]; try discriminate; intros H; cbn [step].
  - unfold new_pyhalo. destruct (dget "H0" k); [|auto]. destruct (dget "Ob0" k); [|auto]. destruct (dget "Om0" k); [discriminate|auto].
  - destruct (nth_error (w_cosmos w) i); cbn; auto.
  - destruct (nth_error (w_cosmos w) i); cbn; auto.
  - destruct (nth_error (w_cosmos w) i); [|cbn; auto]. destruct (w_current w) eqn:C; cbn; rewrite ?C; auto.
  - destruct (nth_error (w_cosmos w) i); [|cbn; auto]. destruct (w_current w) eqn:C; cbn; rewrite ?C; auto.
  - destruct (nth_error (w_models w) j); [|cbn; auto]. destruct (w_current w) eqn:C; cbn; rewrite ?C; auto.
Qed.
Lemma run_app E w h k : run E w (h ++ k) = run E (run E w h) k.
Proof. revert w. induction h as [|o t IH]; intros w; [reflexivity|]. cbn. apply IH. Qed.
Lemma last_app h k : last_created (h ++ k) = match last_created k with Some p => Some p | None => last_created h end.
Proof. induction h as [|o t IH]; cbn; [destruct (last_created k); reflexivity|]. rewrite IH. destruct (last_created k); reflexivity. Qed.
Lemma run_current E h : forall w, match last_created h with
  | Some kw => exists c, w_current (run E w h) = Some c /\ asked kw c /\ setup_colossus kw = Ok c
  | None => w_current (run E w h) = w_current w end.
Proof.
  induction h as [|o t IH]; intros w; cbn [last_created run]; [reflexivity|].
  specialize (IH (fst (step E w o))). destruct (last_created t) as [kw|]; [exact IH|].
  destruct (created o) as [kw|] eqn:C.
  - destruct (created_step E w o kw C) as (a & c & S & A & Sc). rewrite S in IH. cbn in IH. exists c. rewrite S. cbn. auto.
  - rewrite IH. apply not_created_step, C.
Qed.
Lemma step_cosmos E w o i c : nth_error (w_cosmos w) i = Some c -> nth_error (w_cosmos (fst (step E w o))) i = Some c.
Proof.
  intros H. destruct (created o) as [kw|] eqn:C.
  - destruct (created_step E w o kw C) as (a & k & S & _). rewrite S. cbn. rewrite nth_error_app1; [exact H|].
    apply nth_error_Some. rewrite H. discriminate.
  - rewrite (proj2 (not_created_step E w o C)). exact H.
Qed.
Lemma run_cosmos E h : forall w i c, nth_error (w_cosmos w) i = Some c -> nth_error (w_cosmos (run E w h)) i = Some c.
Proof. induction h as [|o t IH]; intros w i c H; [exact H|]. cbn. apply IH, step_cosmos, H. Qed.

(** Distances (and everything else computed with astropy) never depend on other cosmologies created later. *)
Theorem C105_own_distances : forall E h later i z v, answer E h (AskDistance i z) = Ok v -> answer E (h ++ later) (AskDistance i z) = Ok v.
Proof.
  intros E h later i z v. unfold answer. rewrite run_app. cbn [step].
  destruct (nth_error (w_cosmos (run E start h)) i) as [c|] eqn:N; [|discriminate]. rewrite (run_cosmos E later _ i c N). auto.
Qed.
(** Everything computed with colossus uses the parameters of the last cosmology created anywhere in the program, and the Hubble
    parameter (and mean density) of the object that was asked. *)
Theorem C105_last_created : forall E h kw i c, last_created h = Some kw -> nth_error (w_cosmos (run E start h)) i = Some c ->
  exists p, asked kw p /\ forall r m z,
    answer E h (AskMassFunction i m z) = Ok (x_mf E p (m * x_h E (co_astropy c)) z / m * x_h E (co_astropy c) ^ 3) /\
    answer E h (AskTwoHalo i r m z) = Ok (x_2h E p (r * x_h E (co_astropy c)) (m * x_h E (co_astropy c)) z / x_rho_m E (co_colossus c) z).
Proof.
  intros E h kw i c L N. pose proof (run_current E h start) as R. rewrite L in R. destruct R as (p & Cp & A & _).
  exists p. split; [exact A|]. intros r m z. unfold answer. cbn [step]. rewrite N, Cp. split; reflexivity.
Qed.
(** Cosmologies with the same parameters do not disturb each other. *)
Theorem C105_same_parameters : forall E h later kw i, last_created h = Some kw ->
  (exists c, nth_error (w_cosmos (run E start h)) i = Some c) ->
  (forall o k, In o later -> created o = Some k -> forall key, In key colossus_keys -> dget key k = dget key kw) ->
  forall r m z, answer E (h ++ later) (AskMassFunction i m z) = answer E h (AskMassFunction i m z) /\
    answer E (h ++ later) (AskTwoHalo i r m z) = answer E h (AskTwoHalo i r m z).
Proof.
  intros E h later kw i L (c & N) S r m z. pose proof (run_current E h start) as R. rewrite L in R. destruct R as (p & Cp & _ & Sp).
  assert (C' : w_current (run E start (h ++ later)) = Some p).
  { rewrite run_app. pose proof (run_current E later (run E start h)) as Q. destruct (last_created later) as [k|] eqn:K; [|congruence].
    destruct Q as (p' & Cp' & _ & Sp'). rewrite Cp'. f_equal.
    assert (X : exists o, In o later /\ created o = Some k).
    { revert K. clear. induction later as [|o t IH]; cbn; [discriminate|]. destruct (last_created t) as [q|].
      - intros H. destruct (IH H) as (o' & I' & C'). exists o'. auto.
      - intros H. exists o. auto. }
    destruct X as (o & Io & Co). specialize (S o k Io Co).
    assert (setup_colossus k = setup_colossus kw).
    { unfold setup_colossus, fill. revert S. generalize colossus_keys. induction l as [|a t IH]; intros S; [reflexivity|]. cbn [mapM].
      rewrite (S a (or_introl eq_refl)), (IH (fun b B => S b (or_intror B))). reflexivity. }
    congruence. }
  unfold answer. cbn [step]. rewrite C', Cp, N. rewrite run_app, (run_cosmos E later _ i c N). split; reflexivity.
Qed.
(** witnesses: a colossus whose answers depend on sigma8 *)
Definition sigma8_of (p : kwargs) : R := match dget "sigma8" p with Some (CNum x) => x | _ => 0 end.
Definition demo : ext :=
  mkExt (fun _ => 1) (fun p z => z) (fun p m z => sigma8_of p) (fun p m z => sigma8_of p) (fun p r m z => sigma8_of p) (fun _ _ => 1).
Definition custom : kwargs := [("H0", CNum 70); ("Ob0", CNum 0.05); ("Om0", CNum 0.3); ("sigma8", CNum 0.9)]%string.
(** With a custom cosmology the answers change as soon as another cosmology is created; the package itself does this in the
    ray-path functions, in the amplitude of wave dark matter fluctuations and for single halos. *)
Theorem C105_isolation_refuted : forall later, In later [ray_path_ops; delta_kappa_ops; single_halo_ops None; [NewPyHalo None]] ->
  answer demo [NewPyHalo (Some custom)] (AskMassFunction 0 1 0) = Ok 0.9 /\
  answer demo ([NewPyHalo (Some custom)] ++ later) (AskMassFunction 0 1 0) = Ok 0.81.
Proof.
  intros later H. split.
  - cbn. unfold mass_function. cbn. f_equal. field.
  - destruct H as [<-|[<-|[<-|[<-|[]]]]]; cbn; unfold mass_function; cbn; f_equal; field.
Qed.
Example C105_nonvacuous : last_created [NewPyHalo (Some custom); NewModel 0 true; AskDistance 0 1] = Some custom /\
  answer demo [NewPyHalo (Some custom); NewModel 0 true] (AskDistance 0 1) = Ok 1 /\
  answer demo [NewPyHalo (Some custom); NewPyHalo (Some (custom ++ [("flat", CFlag true)]%string))] (AskMassFunction 0 1 0)
  = answer demo [NewPyHalo (Some custom)] (AskMassFunction 0 1 0).
Proof. repeat split. Qed.

(** ** Concentrations *)
Lemma nth_replace {A} (j i : nat) (a : A) l : (j < List.length l)%nat ->
  nth_error (replace_nth j a l) i = if (i =? j)%nat then Some a else nth_error l i.
Proof.
  unfold replace_nth. revert i l. induction j as [|j IH]; intros i [|b t] H; cbn in H; try lia.
  - destruct i; reflexivity.
  - destruct i; [reflexivity|]. cbn. rewrite <- IH by lia. reflexivity.
Qed.
(** A model without a table follows the last cosmology created ... *)
Theorem C105_concentration_direct : forall E h kw j M, last_created h = Some kw ->
  nth_error (w_models (run E start h)) j = Some M -> cm_use M = false ->
  exists p, asked kw p /\ forall m z, answer E h (AskConcentration j m z) = Ok (x_c E p (m * x_h E (cm_astropy M)) z).
Proof.
  intros E h kw j M L N U. pose proof (run_current E h start) as R. rewrite L in R. destruct R as (p & Cp & A & _).
  exists p. split; [exact A|]. intros m z. unfold answer. cbn [step]. rewrite N, Cp. unfold ask_concentration. rewrite U. reflexivity.
Qed.
(** ... and a table keeps the parameters it was computed with: whatever happens, as long as this model is only asked about halos
    inside the table, its answers stay the same. *)
Definition inside (j : nat) (t : table) (o : op) : Prop :=
  match o with AskConcentration j' m z => j' = j -> in_table t (log10 m) (log10 (1 + z)) = true | _ => True end.
Lemma step_model E w o j M p t : nth_error (w_models w) j = Some M -> cm_use M = true -> cm_table M = Some (p, t) -> inside j t o ->
  nth_error (w_models (fst (step E w o))) j = Some M.
Proof.
  intros N U T I. assert (B : (j < List.length (w_models w))%nat) by (apply nth_error_Some; rewrite N; discriminate).
  destruct (created o) as [kw|] eqn:C.
  { destruct (created_step E w o kw C) as (a & c & S & _). rewrite S. exact N. }
  destruct o as [inst k|[k|]|i u|i z|i m z|i r m z|j' m z]; try discriminate; cbn [step].
  - unfold new_pyhalo. cbn [created] in C. destruct (dget "H0" k); [|exact N]. destruct (dget "Ob0" k); [|exact N]. destruct (dget "Om0" k); [discriminate|exact N].
  - destruct (nth_error (w_cosmos w) i); [|exact N]. cbn. rewrite nth_error_app1; assumption.
  - destruct (nth_error (w_cosmos w) i); exact N.
  - destruct (nth_error (w_cosmos w) i); [|exact N]. destruct (w_current w); exact N.
  - destruct (nth_error (w_cosmos w) i); [|exact N]. destruct (w_current w); exact N.
  - destruct (nth_error (w_models w) j') as [M'|] eqn:N'; [|exact N]. destruct (w_current w) as [q|]; [|exact N]. cbn.
    rewrite nth_replace by (apply nth_error_Some; rewrite N'; discriminate). destruct (j =? j')%nat eqn:Q; [|exact N].
    apply Nat.eqb_eq in Q. subst j'. rewrite N in N'. inversion N'; subst M'. unfold ask_concentration. rewrite U, T.
    rewrite (I eq_refl). reflexivity.
Qed.
Theorem C105_table_kept : forall E h later j M p t, nth_error (w_models (run E start h)) j = Some M -> cm_use M = true ->
  cm_table M = Some (p, t) -> Forall (inside j t) later ->
  forall m z, in_table t (log10 m) (log10 (1 + z)) = true -> w_current (run E start h) <> None ->
  answer E (h ++ later) (AskConcentration j m z) =
    Ok (look_scalar (fun m z => x_c E p (m * x_h E (cm_astropy M)) z) t (log10 m) (log10 (1 + z))).
Proof.
  intros E h later j M p t N U T I m z Im Cur. unfold answer. rewrite run_app.
  assert (G : forall k w, nth_error (w_models w) j = Some M -> w_current w <> None -> Forall (inside j t) k ->
    nth_error (w_models (run E w k)) j = Some M /\ w_current (run E w k) <> None).
  { induction k as [|o k IH]; intros w Nw Cw Fk; [auto|]. inversion Fk; subst. cbn. apply IH; auto.
    - eapply step_model; eassumption.
    - destruct (created o) as [kw|] eqn:C.
      + destruct (created_step E w o kw C) as (a & c & S & _). rewrite S. discriminate.
      + rewrite (proj1 (not_created_step E w o C)). exact Cw. }
  destruct (G later _ N Cur I) as [N' C']. cbn [step]. rewrite N'. destruct (w_current (run E (run E start h) later)) as [q|]; [|congruence].
  cbn. unfold ask_concentration. rewrite U, T, Im. reflexivity.
Qed.
(** One halo outside the table makes the model compute all of it again, with the last cosmology created. *)
Theorem C105_table_rebuilt : forall E h kw j M m z, last_created h = Some kw -> nth_error (w_models (run E start h)) j = Some M ->
  cm_use M = true ->
  match cm_table M with None => True | Some (_, t) => in_table t (log10 m) (log10 (1 + z)) = false end ->
  exists p t', asked kw p /\
    nth_error (w_models (run E start (h ++ [AskConcentration j m z]))) j = Some (mkCModel (cm_astropy M) true (Some (p, t'))) /\
    t' = ensure_table (option_map snd (cm_table M)) [log10 m] [log10 (1 + z)].
Proof.
  intros E h kw j M m z L N U Out. pose proof (run_current E h start) as R. rewrite L in R. destruct R as (p & Cp & A & _).
  exists p, (ensure_table (option_map snd (cm_table M)) [log10 m] [log10 (1 + z)]). split; [exact A|]. split; [|reflexivity].
  rewrite run_app. cbn [run step]. rewrite N, Cp. cbn [fst w_models].
  rewrite nth_replace by (apply nth_error_Some; rewrite N; discriminate). rewrite Nat.eqb_refl. f_equal.
  unfold ask_concentration. rewrite U. destruct (cm_table M) as [[q t]|] eqn:T; [rewrite Out|]; reflexivity.
Qed.
(** The same question can therefore get two answers from the same object. *)
Lemma blend_const k i j tm tu : blend (fun _ _ => k) i j tm tu = k.
Proof. unfold blend. ring. Qed.
Lemma look_const k t x y : 0 < k -> look_scalar (fun _ _ => k) t x y = k /\ look_array (fun _ _ => k) t x y = k.
Proof.
  intros P. unfold look_scalar, look_array, entry. cbv zeta.
  split; (replace (blend _ _ _ _ _) with (log10 k) by (symmetry; apply (blend_const (log10 k)))); apply pow10_log10; exact P.
Qed.
Definition two_halos (m' : R) : list op :=
  [NewPyHalo (Some custom); NewModel 0 true; AskConcentration 0 (pow10 8) 0; NewPyHalo None; AskConcentration 0 m' 0].
Lemma log10_2 : log10 (1 + 0) = 0.
Proof. replace (1 + 0) with 1 by ring. apply log10_1. Qed.
Lemma ask_demo cur M m z : 0 < sigma8_of cur -> (forall p t, cm_table M = Some (p, t) -> 0 < sigma8_of p) -> cm_use M = true ->
  snd (ask_concentration demo cur M m z) =
    match cm_table M with Some (p, t) => if in_table t (log10 m) (log10 (1 + z)) then sigma8_of p else sigma8_of cur | None => sigma8_of cur end.
Proof.
  intros P Q U. unfold ask_concentration. rewrite U. destruct (cm_table M) as [[p t]|] eqn:T.
  - destruct (in_table t (log10 m) (log10 (1 + z))).
    + apply (proj1 (look_const (sigma8_of p) t (log10 m) (log10 (1 + z)) (Q p t eq_refl))).
    + cbn. apply (proj2 (look_const (sigma8_of cur) _ _ _ P)).
  - cbn. apply (proj2 (look_const (sigma8_of cur) _ _ _ P)).
Qed.
Definition t0 : table := ensure_table None [8] [0].
Lemma t0_range : tb_mlo t0 = 5 /\ tb_mhi t0 = 11.5 /\ tb_ulo t0 = 0 /\ tb_uhi t0 = 1.05.
Proof.
  unfold t0, ensure_table. cbn [build_table tb_mlo tb_mhi tb_ulo tb_uhi amin amax fold_left].
  rewrite Rmin_right, Rmax_right, ulo_zero, Rmax_right by lra. auto.
Qed.
Lemma in_t0 x : in_table t0 x 0 = (Rleb 5 x && Rleb x 11.5)%bool.
Proof.
  unfold in_table. destruct t0_range as (-> & -> & -> & ->). rewrite (proj2 (Rleb_true 0 0)), (proj2 (Rleb_true 0 1.05)) by lra.
  now rewrite !andb_true_r.
Qed.
Definition params0 : kwargs := [("H0", CNum 70); ("Om0", CNum 0.3); ("Ob0", CNum 0.05); ("ns", CNum 0.965); ("sigma8", CNum 0.9); ("power_law", CFlag false)]%string.
Definition astro0 : kwargs := [("H0", CNum 70); ("Ob0", CNum 0.05); ("Om0", CNum 0.3)]%string.
Lemma run3 : exists w, run demo start [NewPyHalo (Some custom); NewModel 0 true; AskConcentration 0 (pow10 8) 0; NewPyHalo None] = w /\
  w_models w = [mkCModel astro0 true (Some (params0, t0))] /\ exists p, w_current w = Some p /\ sigma8_of p = 0.81.
Proof.
  eexists. split; [reflexivity|]. cbn [run]. split.
  - cbn - [ask_concentration]. unfold replace_nth. cbn - [ask_concentration]. f_equal.
    unfold ask_concentration. cbn [cm_use cm_table]. cbn [fst]. unfold eval_array. cbn [map fst snd]. rewrite log10_pow10, log10_2. reflexivity.
  - eexists. split; [reflexivity|]. cbn. reflexivity.
Qed.
Theorem C105_concentration_refuted :
  answer demo [NewPyHalo (Some custom); NewModel 0 true; AskConcentration 0 (pow10 8) 0; NewPyHalo None] (AskConcentration 0 (pow10 8) 0) = Ok 0.9 /\
  answer demo (two_halos (pow10 12)) (AskConcentration 0 (pow10 8) 0) = Ok 0.81.
Proof.
  destruct run3 as (w & Ew & Mw & p & Cp & Sp).
  assert (I8 : in_table t0 (log10 (pow10 8)) (log10 (1 + 0)) = true).
  { rewrite log10_pow10, log10_2, in_t0, (proj2 (Rleb_true 5 8)), (proj2 (Rleb_true 8 11.5)) by lra. reflexivity. }
  assert (I12 : in_table t0 (log10 (pow10 12)) (log10 (1 + 0)) = false).
  { rewrite log10_pow10, log10_2, in_t0, (proj2 (Rleb_false 12 11.5)) by lra. apply andb_false_r. }
  assert (S0 : sigma8_of params0 = 0.9) by reflexivity.
  split.
  - unfold answer. rewrite Ew. cbn [step]. rewrite Mw, Cp. cbn [nth_error snd]. rewrite ask_demo; cbn [cm_use cm_table]; [|lra| |reflexivity].
    + rewrite I8. f_equal.
    + intros q t H. inversion H; subst. lra.
  - unfold answer, two_halos. change [NewPyHalo (Some custom); NewModel 0 true; AskConcentration 0 (pow10 8) 0; NewPyHalo None; AskConcentration 0 (pow10 12) 0]
      with ([NewPyHalo (Some custom); NewModel 0 true; AskConcentration 0 (pow10 8) 0; NewPyHalo None] ++ [AskConcentration 0 (pow10 12) 0]).
    rewrite run_app, Ew. cbn [run step]. rewrite Mw, Cp. cbn [nth_error fst w_models w_current]. unfold replace_nth. cbn [firstn skipn app nth_error].
    cbn [snd].
    set (M := fst (ask_concentration demo p _ (pow10 12) 0)).
    assert (EM : exists t, M = mkCModel astro0 true (Some (p, t))).
    { unfold M, ask_concentration. cbn [cm_use cm_table]. rewrite I12. cbn [fst]. eexists. reflexivity. }
    destruct EM as (t & ->). rewrite ask_demo; cbn [cm_use cm_table]; [|lra| |reflexivity].
    + rewrite Sp. f_equal. destruct (in_table t _ _); reflexivity.
    + intros q t' H. inversion H; subst. lra.
Qed.

(** the table theorems: a model with a table, asked inside and outside it *)
Example C105_table_nonvacuous :
  let h := [NewPyHalo (Some custom); NewModel 0 true; AskConcentration 0 (pow10 8) 0; NewPyHalo None] in
  exists M, nth_error (w_models (run demo start h)) 0 = Some M /\ cm_use M = true /\ cm_table M = Some (params0, t0) /\
    w_current (run demo start h) <> None /\ last_created h <> None /\
    Forall (inside 0 t0) [NewPyHalo (Some custom); AskConcentration 0 (pow10 9) 0; AskConcentration 1 (pow10 15) 0] /\
    in_table t0 (log10 (pow10 8)) (log10 (1 + 0)) = true /\ in_table t0 (log10 (pow10 12)) (log10 (1 + 0)) = false.
Proof.
  cbv zeta. destruct run3 as (w & Ew & Mw & p & Cp & Sp). rewrite Ew, Mw. exists (mkCModel astro0 true (Some (params0, t0))).
  repeat split; try (rewrite Cp; discriminate); try discriminate.
  - repeat constructor; cbn [inside]; [|discriminate]. intros _.
    rewrite log10_pow10, log10_2, in_t0, (proj2 (Rleb_true 5 9)), (proj2 (Rleb_true 9 11.5)) by lra. reflexivity.
  - rewrite log10_pow10, log10_2, in_t0, (proj2 (Rleb_true 5 8)), (proj2 (Rleb_true 8 11.5)) by lra. reflexivity.
  - rewrite log10_pow10, log10_2, in_t0, (proj2 (Rleb_false 12 11.5)) by lra. apply andb_false_r.
Qed.
Example C105_direct_nonvacuous : exists M,
  nth_error (w_models (run demo start [NewPyHalo (Some custom); NewModel 0 false; NewPyHalo None])) 0 = Some M /\ cm_use M = false.
Proof. eexists. split; reflexivity. Qed.

Print Assumptions C104_parameters.
Print Assumptions C104_other_keywords.
Print Assumptions C104_top_level.
Print Assumptions C104_missing_keyword.
Print Assumptions C104_instance_refuted.
Print Assumptions C105_own_distances.
Print Assumptions C105_last_created.
Print Assumptions C105_same_parameters.
Print Assumptions C105_isolation_refuted.
Print Assumptions C105_concentration_direct.
Print Assumptions C105_table_kept.
Print Assumptions C105_table_rebuilt.
Print Assumptions C105_concentration_refuted.
