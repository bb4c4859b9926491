(** Lemmas about dictionaries, argument binding and the computations of PresetModel. *)
From Verif Require Import Prelude MassFnModel InfallModel PresetModel.
Local Open Scope string_scope.
Local Open Scope R_scope.
Local Open Scope list_scope.

(** ** Dictionaries *)
Lemma dget_dset_same k v d : dget k (dset k v d) = Some v.
Proof.
  induction d as [|[k' v'] t IH]; cbn; [now rewrite String.eqb_refl|].
  destruct (String.eqb k' k) eqn:E; cbn; [now rewrite String.eqb_refl|]. now rewrite E.
Qed.
Lemma dget_dset_other k k' v d : k <> k' -> dget k (dset k' v d) = dget k d.
Proof.
  intros N; induction d as [|[k2 v2] t IH]; cbn.
  - destruct (String.eqb k' k) eqn:E; [apply String.eqb_eq in E; congruence|reflexivity].
  - destruct (String.eqb k2 k') eqn:E; cbn.
    + apply String.eqb_eq in E; subst k2. destruct (String.eqb k' k) eqn:E2; [apply String.eqb_eq in E2; congruence|reflexivity].
    + destruct (String.eqb k2 k); [reflexivity|exact IH].
Qed.
Lemma dset_same k v d : dget k d = Some v -> dset k v d = d.
Proof.
  induction d as [|[k' v'] t IH]; cbn; [discriminate|]. destruct (String.eqb k' k) eqn:E; intros H.
  - apply String.eqb_eq in E; congruence.
  - now rewrite IH.
Qed.
Lemma dset_dset k v w d : dset k v (dset k w d) = dset k v d.
Proof.
  induction d as [|[k' v'] t IH]; cbn; [now rewrite String.eqb_refl|].
  destruct (String.eqb k' k) eqn:E; cbn; [now rewrite String.eqb_refl|]. now rewrite E, IH.
Qed.
Lemma dupdate_cons d k v t : dupdate d ((k, v) :: t) = dupdate (dset k v d) t.
Proof. reflexivity. Qed.
Lemma dget_dupdate_notin k d t : ~ In k (keys t) -> dget k (dupdate d t) = dget k d.
Proof.
  revert d; induction t as [|[k' v'] t IH]; intros d N; [reflexivity|]. rewrite dupdate_cons, IH.
  - apply dget_dset_other. intros ->; apply N; now left.
  - intros I; apply N; now right.
Qed.
Lemma dget_keys k d : dget k d <> None <-> In k (keys d).
Proof.
  induction d as [|[k' v'] t IH]; cbn; [intuition congruence|]. destruct (String.eqb k' k) eqn:E.
  - apply String.eqb_eq in E; subst; split; [now left|congruence].
  - rewrite IH. split; [now right|]. intros [->|H]; [rewrite String.eqb_refl in E; discriminate|exact H].
Qed.
Lemma dget_none k d : dget k d = None <-> ~ In k (keys d).
Proof. rewrite <- dget_keys. destruct (dget k d); split; intros; try congruence; exfalso; apply H; discriminate. Qed.
(** a key of the second dictionary, when its keys are distinct *)
Lemma dget_dupdate_in k v d t : NoDup (keys t) -> dget k t = Some v -> dget k (dupdate d t) = Some v.
Proof.
  revert d; induction t as [|[k' v'] t IH]; intros d N H; [discriminate|]. rewrite dupdate_cons.
  cbn in N; apply NoDup_cons_iff in N as [N1 N2]. cbn in H. destruct (String.eqb k' k) eqn:E.
  - apply String.eqb_eq in E; subst k'. rewrite dget_dupdate_notin by exact N1. rewrite dget_dset_same; exact H.
  - now apply IH.
Qed.
Lemma keys_dset k v d : In k (keys d) -> keys (dset k v d) = keys d.
Proof.
  induction d as [|[k' v'] t IH]; cbn; [intros []|]. destruct (String.eqb k' k) eqn:E; cbn.
  - apply String.eqb_eq in E; subst; auto.
  - intros [->|H]; [rewrite String.eqb_refl in E; discriminate|]. unfold keys in *. now rewrite IH.
Qed.
Lemma keys_dset_new k v d : ~ In k (keys d) -> dset k v d = d ++ [(k, v)].
Proof.
  induction d as [|[k' v'] t IH]; cbn; intros N; [reflexivity|]. destruct (String.eqb k' k) eqn:E.
  - apply String.eqb_eq in E; subst; exfalso; apply N; now left.
  - rewrite IH; [reflexivity|]. intros H; apply N; now right.
Qed.
Lemma has_dget k d : has k d = true <-> exists v, dget k d = Some v.
Proof. unfold has; destruct (dget k d); split; intros; try discriminate; eauto. destruct H; discriminate. Qed.
Lemma mem_In k ks : mem k ks = true <-> In k ks.
Proof.
  unfold mem; rewrite existsb_exists; split.
  - intros (x & I & E). apply String.eqb_eq in E; now subst.
  - intros I; exists k; split; [exact I|apply String.eqb_refl].
Qed.

(** ** Computations *)
Lemma bindM_Ok {A B} (m : M A) (f : A -> M B) h h' y :
  bindM m f h = (h', Ok y) -> exists x h1, m h = (h1, Ok x) /\ f x h1 = (h', Ok y).
Proof. unfold bindM; destruct (m h) as [h1 [x|er]]; intros H; [eauto|inversion H]. Qed.
Lemma lift_Ok {A} (m : result A) h h' y : lift m h = (h', Ok y) -> h = h' /\ m = Ok y.
Proof. unfold lift; intros [= -> ->]; auto. Qed.
Lemma ret_Ok {A} (x y : A) h h' : ret x h = (h', Ok y) -> h = h' /\ x = y.
Proof. unfold ret; intros [= -> ->]; auto. Qed.
Lemma bind_ok {A B} (m : result A) (f : A -> result B) y : bind m f = Ok y -> exists x, m = Ok x /\ f x = Ok y.
Proof. destruct m; cbn; intros H; [eauto|discriminate]. Qed.

(** Take a successful computation apart, step by step. *)
Ltac inv_step :=
  match goal with
  | H : bindM _ _ _ = (_, Ok _) |- _ =>
      let x := fresh "x" in let h := fresh "h" in let E := fresh "E" in
      apply bindM_Ok in H; destruct H as (x & h & E & H); cbv beta zeta in H
  | H : lift _ _ = (_, Ok _) |- _ => apply lift_Ok in H; destruct H as [<- H]
  | H : ret _ _ = (_, Ok _) |- _ => apply ret_Ok in H; destruct H as [<- H]
  | H : raise _ _ = (_, Ok _) |- _ => discriminate H
  | H : (if ?b then raise _ else _) _ = (_, Ok _) |- _ => let E := fresh "B" in destruct b eqn:E; [discriminate H|]
  end.

(** ** Argument binding *)
(** the position of a parameter *)
Fixpoint index_of (k : string) (ks : list string) : nat :=
  match ks with [] => 0%nat | k' :: t => if String.eqb k' k then 0%nat else S (index_of k t) end.
Lemma bind_args_keys sg : forall pos kw a, bind_args sg pos kw = Ok a -> keys a = keys sg.
Proof.
  induction sg as [|[k dflt] sg IH]; intros pos kw a H; cbn in H.
  - destruct pos; inversion H; reflexivity.
  - apply bind_ok in H as (v & _ & H). apply bind_ok in H as (rest & Hr & H). inversion H; subst. cbn. f_equal. eapply IH; eassumption.
Qed.
Lemma bind_args_get sg : forall pos kw a k,
  NoDup (keys sg) -> bind_args sg pos kw = Ok a -> In k (keys sg) ->
  dget k a = match nth_error pos (index_of k (keys sg)) with
             | Some x => Some x
             | None => match dget k kw with Some x => Some x | None => match dget k (map (fun p => (fst p, match snd p with Some v => v | None => VNone end)) sg) with
                                                                        | Some v => Some v | None => None end end
             end /\ (dget k kw = None -> nth_error pos (index_of k (keys sg)) = None -> exists v, In (k, Some v) sg).
Proof.
  induction sg as [|[k0 dflt] sg IH]; intros pos kw a k ND H I; [destruct I|].
  cbn in ND; apply NoDup_cons_iff in ND as [N0 ND]. cbn [bind_args] in H.
  apply bind_ok in H as (v & Hv & H). apply bind_ok in H as (rest & Hr & H). inversion H; subst; clear H.
  cbn. destruct (String.eqb k0 k) eqn:E.
  - apply String.eqb_eq in E; subst k0. destruct pos as [|x pos']; cbn.
    + destruct (dget k kw) eqn:G; [inversion Hv; subst; split; [reflexivity|congruence]|].
      destruct dflt as [w|]; [|discriminate]. inversion Hv; subst. split; [reflexivity|intros; exists v; now left].
    + unfold has in Hv. destruct (dget k kw); [discriminate|]. inversion Hv; subst. split; [reflexivity|discriminate].
  - cbn in I. destruct I as [->|I]; [rewrite String.eqb_refl in E; discriminate|].
    destruct (IH (List.tl pos) kw rest k ND Hr I) as (G & D).
    assert (X : nth_error pos (S (index_of k (keys sg))) = nth_error (List.tl pos) (index_of k (keys sg))).
    { destruct pos; cbn; [now destruct (index_of k (keys sg))|reflexivity]. }
    unfold keys in *. cbn in X |- *. rewrite X. split; [exact G|].
    intros G1 G2. destruct (D G1 G2) as (w & Iw). exists w; now right.
Qed.
