(** Common vocabulary: Python exceptions as values, boolean comparisons of
    reals, and a few list facts that the standard library lacks.
    Nothing here models a particular pyHalo function. *)
From Coq Require Export Reals List Bool ZArith Lia Lra Permutation Sorted.
From Coq Require Export String.
Export ListNotations.
Open Scope R_scope.
Open Scope list_scope.

(** Python exceptions that the modelled code can raise. *)
Inductive err :=
| EException | EValueError | EIndexError | EKeyError | ENameError | ETypeError
| EAttributeError | EAssertionError | EZeroDivision | EImportError | EUnboundLocal.

Inductive result (A : Type) := Ok (a : A) | Err (e : err).
Arguments Ok {A} a.
Arguments Err {A} e.

Definition bind {A B} (m : result A) (f : A -> result B) : result B :=
  match m with Ok a => f a | Err e => Err e end.
Notation "'do' x <- m ; k" := (bind m (fun x => k))
  (at level 200, x pattern, m at level 100, k at level 200, right associativity).

Definition is_err {A} (m : result A) : Prop := exists e, m = Err e.

(** A left-to-right loop whose body can raise. *)
Fixpoint mapM {A B} (f : A -> result B) (l : list A) : result (list B) :=
  match l with
  | [] => Ok []
  | a :: t => do b <- f a; do bs <- mapM f t; Ok (b :: bs)
  end.

(** Boolean comparisons of reals. *)
Definition Rleb (x y : R) : bool := if Rle_dec x y then true else false.
Definition Rltb (x y : R) : bool := if Rlt_dec x y then true else false.
Definition Reqb (x y : R) : bool := if Req_EM_T x y then true else false.

Lemma Rleb_true x y : Rleb x y = true <-> x <= y.
Proof. unfold Rleb; destruct (Rle_dec x y); split; intros; try lra; try discriminate; auto. Qed.
Lemma Rleb_false x y : Rleb x y = false <-> y < x.
Proof. unfold Rleb; destruct (Rle_dec x y); split; intros; try lra; try discriminate; auto. Qed.
Lemma Rltb_true x y : Rltb x y = true <-> x < y.
Proof. unfold Rltb; destruct (Rlt_dec x y); split; intros; try lra; try discriminate; auto. Qed.
Lemma Rltb_false x y : Rltb x y = false <-> y <= x.
Proof. unfold Rltb; destruct (Rlt_dec x y); split; intros; try lra; try discriminate; auto. Qed.
Lemma Reqb_true x y : Reqb x y = true <-> x = y.
Proof. unfold Reqb; destruct (Req_EM_T x y); split; intros; try lra; try discriminate; auto. Qed.
Lemma Reqb_false x y : Reqb x y = false <-> x <> y.
Proof. unfold Reqb; destruct (Req_EM_T x y); split; intros; try lra; try discriminate; auto; contradiction. Qed.
Lemma Reqb_refl x : Reqb x x = true.
Proof. apply Reqb_true; reflexivity. Qed.
Lemma Reqb_sym x y : Reqb x y = Reqb y x.
Proof. unfold Reqb; destruct (Req_EM_T x y), (Req_EM_T y x); auto; subst; exfalso; auto. Qed.

(** Decide every boolean real comparison in the goal by linear arithmetic. *)
Ltac rdec1 :=
  match goal with
  | |- context [Rle_dec ?a ?b] => destruct (Rle_dec a b); try (exfalso; lra)
  | |- context [Rlt_dec ?a ?b] => destruct (Rlt_dec a b); try (exfalso; lra)
  | |- context [Req_EM_T ?a ?b] => destruct (Req_EM_T a b); try (exfalso; lra)
  end.
Ltac rdec := unfold Rleb, Rltb, Reqb; repeat rdec1.

(** Sum of a list of reals. *)
Fixpoint rsum (l : list R) : R := match l with [] => 0 | a :: t => a + rsum t end.

Lemma rsum_app l1 l2 : rsum (l1 ++ l2) = rsum l1 + rsum l2.
Proof. induction l1 as [|a l1 IH]; simpl; [lra|rewrite IH; lra]. Qed.
Lemma rsum_perm l1 l2 : Permutation l1 l2 -> rsum l1 = rsum l2.
Proof. induction 1; simpl; lra. Qed.
Lemma rsum_nonneg l : (forall a, In a l -> 0 <= a) -> 0 <= rsum l.
Proof.
  induction l as [|a l IH]; simpl; intros H; [lra|].
  pose proof (H a (or_introl eq_refl)). assert (0 <= rsum l) by (apply IH; intros; apply H; auto). lra.
Qed.

(** Indices [k, k+1, ...] paired with the elements of a list (Python's enumerate). *)
Fixpoint enum_from {A} (k : nat) (l : list A) : list (nat * A) :=
  match l with [] => [] | a :: t => (k, a) :: enum_from (S k) t end.
Definition enumerate {A} (l : list A) := enum_from 0 l.

Lemma enum_from_length {A} k (l : list A) : List.length (enum_from k l) = List.length l.
Proof. revert k; induction l; simpl; intros; auto. Qed.
Lemma enum_from_in {A} (l : list A) : forall k i a,
  In (i, a) (enum_from k l) <-> (k <= i)%nat /\ nth_error l (i - k) = Some a.
Proof.
  induction l as [|b l IH]; simpl; intros k i a.
  - split; [tauto|]. intros [_ H]. destruct (i - k)%nat; discriminate.
  - split.
    + intros [H|H].
      * inversion H; subst. split; [lia|]. replace (i - i)%nat with 0%nat by lia. reflexivity.
      * apply IH in H. destruct H as [H1 H2]. split; [lia|].
        replace (i - k)%nat with (S (i - S k))%nat by lia. exact H2.
    + intros [H1 H2]. destruct (Nat.eq_dec i k) as [->|n].
      * left. replace (k - k)%nat with 0%nat in H2 by lia. simpl in H2. congruence.
      * right. apply IH. split; [lia|].
        replace (i - k)%nat with (S (i - S k))%nat in H2 by lia. exact H2.
Qed.
Lemma enumerate_in {A} (l : list A) i a : In (i, a) (enumerate l) <-> nth_error l i = Some a.
Proof. unfold enumerate; rewrite enum_from_in. rewrite Nat.sub_0_r. split; [tauto|]. intros; split; [lia|auto]. Qed.
Lemma map_snd_enum_from {A} (l : list A) : forall k, map snd (enum_from k l) = l.
Proof. induction l; simpl; intros; f_equal; auto. Qed.
Lemma map_fst_enum_from {A} (l : list A) : forall k, map fst (enum_from k l) = seq k (List.length l).
Proof. induction l; simpl; intros; f_equal; auto. Qed.

Lemma filter_ext_In {A} (f g : A -> bool) l :
  (forall a, In a l -> f a = g a) -> filter f l = filter g l.
Proof.
  induction l as [|a l IH]; simpl; intros H; auto.
  rewrite (H a (or_introl eq_refl)), IH; auto.
Qed.

Lemma filter_map_comm {A B} (f : A -> B) (p : B -> bool) l :
  filter p (map f l) = map f (filter (fun a => p (f a)) l).
Proof. induction l as [|a l IH]; simpl; auto. destruct (p (f a)); simpl; rewrite IH; auto. Qed.

Lemma filter_negb_length {A} (p : A -> bool) l :
  (List.length (filter p l) + List.length (filter (fun a => negb (p a)) l) = List.length l)%nat.
Proof. induction l as [|a l IH]; simpl; auto. destruct (p a); simpl; lia. Qed.

Lemma filter_negb_perm {A} (p : A -> bool) l :
  Permutation l (filter p l ++ filter (fun a => negb (p a)) l).
Proof.
  induction l as [|a l IH]; simpl; auto. destruct (p a); simpl.
  - constructor; auto.
  - etransitivity; [constructor; exact IH|]. apply Permutation_middle.
Qed.

Lemma mapM_length {A B} (f : A -> result B) l bs : mapM f l = Ok bs -> List.length bs = List.length l.
Proof.
  revert bs; induction l as [|a l IH]; simpl; intros bs H; [inversion H; auto|].
  destruct (f a); simpl in H; [|discriminate]. destruct (mapM f l) eqn:E; simpl in H; [|discriminate].
  inversion H; subst; simpl; f_equal; auto.
Qed.
Lemma mapM_Forall2 {A B} (f : A -> result B) l bs :
  mapM f l = Ok bs <-> Forall2 (fun a b => f a = Ok b) l bs.
Proof.
  revert bs; induction l as [|a l IH]; simpl; intros bs; split; intros H.
  - inversion H; constructor.
  - inversion H; auto.
  - destruct (f a) eqn:E; simpl in H; [|discriminate]. destruct (mapM f l) eqn:E2; simpl in H; [|discriminate].
    inversion H; subst. constructor; auto. apply IH; auto.
  - inversion H; subst. rewrite H2; simpl. apply IH in H4. rewrite H4; auto.
Qed.
Lemma mapM_err {A B} (f : A -> result B) l :
  is_err (mapM f l) <-> exists a, In a l /\ is_err (f a).
Proof.
  induction l as [|a l IH]; simpl.
  - split; [intros [e H]; discriminate|intros [a [[] _]]].
  - split.
    + intros [e H]. destruct (f a) eqn:E; simpl in H.
      * destruct (mapM f l) eqn:E2; simpl in H; [discriminate|].
        destruct IH as [IH _]. destruct IH as [b [Hb1 Hb2]]; [exists e0; auto|]. exists b; auto.
      * exists a; split; auto. exists e0; auto.
    + intros [b [[->|Hb] He]].
      * destruct He as [e He]. rewrite He. exists e; auto.
      * destruct (f a); simpl; [|exists e; auto].
        destruct IH as [_ IH]. destruct IH as [e IHe]; [exists b; auto|]. rewrite IHe. exists e; auto.
Qed.
