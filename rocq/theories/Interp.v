(** scipy.interpolate.interp1d (linear), used by several modules, and its properties.
    The abscissae are assumed to be given in increasing order (scipy would sort them). *)
From Verif Require Import Prelude.

(** piece of the table that contains [x]: first node at or above [x] and its predecessor *)
Fixpoint interp_from (x0 y0 : R) (t : list (R * R)) (x : R) : R :=
  match t with
  | [] => y0
  | (x1, y1) :: t' => if Rleb x x1 then y0 + (y1 - y0) / (x1 - x0) * (x - x0) else interp_from x1 y1 t' x
  end.

(** scipy.interpolate.interp1d(x, y)(x): raises ValueError outside the table (bounds_error default) *)
Definition interp1d (tbl : list (R * R)) (x : R) : result R :=
  match tbl with
  | [] => Err EValueError
  | (x0, y0) :: t =>
      if Rltb x x0 then Err EValueError
      else if Rltb (fst (last t (x0, y0))) x then Err EValueError
      else Ok (interp_from x0 y0 t x)
  end.

(** strictly increasing abscissae, starting above [x0] *)
Fixpoint incr_from (x0 : R) (t : list (R * R)) : Prop :=
  match t with [] => True | (x1, _) :: t' => x0 < x1 /\ incr_from x1 t' end.
Definition increasing_table (tbl : list (R * R)) : Prop :=
  match tbl with [] => False | (x0, _) :: t => incr_from x0 t end.

Fixpoint mono_from (y0 : R) (t : list (R * R)) : Prop :=
  match t with [] => True | (_, y1) :: t' => y0 <= y1 /\ mono_from y1 t' end.

Lemma incr_from_In x0 t a b : incr_from x0 t -> In (a, b) t -> x0 < a.
Proof.
  revert x0; induction t as [|[x1 y1] t IH]; simpl; intros x0 H Hin; [tauto|].
  destruct H as [H1 H2]. destruct Hin as [E|Hin]. inversion E; subst; auto.
  pose proof (IH x1 H2 Hin). lra.
Qed.

Lemma last_cons_irrel {A} (l : list A) (a d : A) : last (a :: l) d = last l a.
Proof.
  revert a; induction l as [|b t IH]; intros a; [reflexivity|].
  change (last (b :: t) d = last (b :: t) a). rewrite (IH b).
  clear IH. revert b; induction t as [|c t IHt]; intros b; [reflexivity|].
  change (last (c :: t) b = last (c :: t) a).
  destruct t as [|e t]; [reflexivity|]. exact (IHt b).
Qed.

Lemma incr_from_last x0 t y0 : incr_from x0 t -> x0 <= fst (last t (x0, y0)).
Proof.
  revert x0 y0; induction t as [|[x1 y1] t IH]; intros x0 y0 H. simpl; lra.
  destruct H as [H1 H2]. specialize (IH x1 y1 H2).
  rewrite last_cons_irrel. lra.
Qed.

(** exact at the nodes *)
Lemma interp_from_node x0 y0 t a b : incr_from x0 t -> In (a, b) t -> interp_from x0 y0 t a = b.
Proof.
  revert x0 y0; induction t as [|[x1 y1] t IH]; simpl; intros x0 y0 H Hin; [tauto|].
  destruct H as [H1 H2]. destruct Hin as [E|Hin].
  - inversion E; subst. unfold Rleb; destruct (Rle_dec a a); [|lra]. field. lra.
  - pose proof (incr_from_In _ _ _ _ H2 Hin). unfold Rleb; destruct (Rle_dec a x1); [lra|]. apply IH; auto.
Qed.
Lemma interp_from_start x0 y0 t : incr_from x0 t -> interp_from x0 y0 t x0 = y0.
Proof.
  destruct t as [|[x1 y1] t]; simpl; auto. intros [H _]. unfold Rleb; destruct (Rle_dec x0 x1); [|lra]. field; lra.
Qed.

Lemma In_le_last x0 y0 t a b : incr_from x0 t -> In (a, b) t -> a <= fst (last t (x0, y0)).
Proof.
  revert x0 y0; induction t as [|[x1 y1] t IH]; intros x0 y0 H Hin; [destruct Hin|].
  destruct H as [H1 H2]. rewrite last_cons_irrel. destruct Hin as [E|Hin].
  - inversion E; subst. apply incr_from_last; auto.
  - apply IH; auto.
Qed.

Lemma interp1d_node tbl a b : increasing_table tbl -> In (a, b) tbl -> interp1d tbl a = Ok b.
Proof.
  destruct tbl as [|[x0 y0] t]; simpl; [tauto|]. intros H [E|Hin].
  - inversion E; subst. rewrite (proj2 (Rltb_false a a)) by lra.
    pose proof (incr_from_last a t b H). rewrite (proj2 (Rltb_false _ _)) by auto.
    rewrite interp_from_start; auto.
  - pose proof (incr_from_In _ _ _ _ H Hin). pose proof (In_le_last x0 y0 t a b H Hin).
    rewrite (proj2 (Rltb_false a x0)) by lra. rewrite (proj2 (Rltb_false _ a)) by auto.
    rewrite (interp_from_node _ _ _ a b); auto.
Qed.

(** values stay between bounds on the ordinates *)
Lemma interp_from_bounds x0 y0 t x lo hi :
  incr_from x0 t -> x0 <= x -> x <= fst (last t (x0, y0)) ->
  lo <= y0 <= hi -> (forall a b, In (a, b) t -> lo <= b <= hi) -> lo <= interp_from x0 y0 t x <= hi.
Proof.
  revert x0 y0; induction t as [|[x1 y1] t IH]; intros x0 y0 H Hx Hl Hy Ht. simpl; auto.
  simpl. destruct H as [H1 H2]. rewrite last_cons_irrel in Hl.
  assert (Hy1 : lo <= y1 <= hi) by (apply (Ht x1 y1); left; reflexivity).
  unfold Rleb; destruct (Rle_dec x x1).
  - set (w := (x - x0) / (x1 - x0)).
    assert (0 <= w) by (apply Rmult_le_pos; [lra|left; apply Rinv_0_lt_compat; lra]).
    assert (w <= 1). { apply Rmult_le_reg_r with (x1 - x0); [lra|]. unfold w, Rdiv. rewrite Rmult_assoc, Rinv_l by lra. lra. }
    replace (y0 + (y1 - y0) / (x1 - x0) * (x - x0)) with ((1 - w) * y0 + w * y1) by (unfold w; field; lra).
    split; nra.
  - apply IH; auto. lra. intros; apply (Ht a b); right; auto.
Qed.

Lemma interp1d_bounds tbl x v lo hi : increasing_table tbl ->
  (forall a b, In (a, b) tbl -> lo <= b <= hi) -> interp1d tbl x = Ok v -> lo <= v <= hi.
Proof.
  destruct tbl as [|[x0 y0] t]; simpl; [tauto|]. intros H Hb.
  destruct (Rltb x x0) eqn:E1; [discriminate|]. destruct (Rltb _ x) eqn:E2; [discriminate|].
  intros E; injection E as <-. apply Rltb_false in E1. apply Rltb_false in E2.
  apply interp_from_bounds; auto. apply (Hb x0 y0); auto. intros; apply (Hb a b); auto.
Qed.

(** defined exactly on the range of the table *)
Lemma interp1d_domain x0 y0 t x :
  (exists v, interp1d ((x0, y0) :: t) x = Ok v) <-> x0 <= x <= fst (last t (x0, y0)).
Proof.
  simpl. unfold Rltb. destruct (Rlt_dec x x0). split; [intros [v E]; discriminate|lra].
  destruct (Rlt_dec (fst (last t (x0, y0))) x). split; [intros [v E]; discriminate|lra].
  split; intros; [lra|eauto].
Qed.
Lemma interp1d_err tbl x e : interp1d tbl x = Err e -> e = EValueError.
Proof.
  destruct tbl as [|[x0 y0] t]; simpl. intros E; injection E; auto.
  destruct (Rltb x x0). intros E; injection E; auto.
  destruct (Rltb _ x). intros E; injection E; auto. discriminate.
Qed.

(** between two consecutive nodes the value lies between their ordinates *)
Lemma interp_from_between x0 y0 t pre a b a' b' post x :
  incr_from x0 t -> (x0, y0) :: t = pre ++ (a, b) :: (a', b') :: post -> a <= x <= a' ->
  Rmin b b' <= interp_from x0 y0 t x <= Rmax b b'.
Proof.
  revert x0 y0 pre; induction t as [|[x1 y1] t IH]; intros x0 y0 pre H E Hx.
  - destruct pre as [|p pre]; [discriminate|]. destruct pre; discriminate.
  - destruct H as [H1 H2].
    destruct pre as [|p pre].
    + simpl in E. inversion E; subst. simpl. unfold Rleb; destruct (Rle_dec x a'); [|lra].
      set (w := (x - a) / (a' - a)).
      assert (0 <= w) by (apply Rmult_le_pos; [lra|left; apply Rinv_0_lt_compat; lra]).
      assert (w <= 1). { apply Rmult_le_reg_r with (a' - a); [lra|]. unfold w, Rdiv. rewrite Rmult_assoc, Rinv_l by lra. lra. }
      replace (b + (b' - b) / (a' - a) * (x - a)) with ((1 - w) * b + w * b') by (unfold w; field; lra).
      unfold Rmin, Rmax; destruct (Rle_dec b b'); split; nra.
    + simpl in E. inversion E as [[E1 E2]]. specialize (IH x1 y1 pre H2 E2 Hx).
      assert (x1 <= a).
      { destruct pre as [|q pre]; simpl in E2; inversion E2; subst. lra.
        left. apply (incr_from_In x1 (pre ++ (a, b) :: (a', b') :: post) a b); auto. apply in_or_app; right; left; auto. }
      simpl. unfold Rleb; destruct (Rle_dec x x1); auto.
      assert (x = x1) by lra. subst x. rewrite interp_from_start in IH by auto.
      replace (y0 + (y1 - y0) / (x1 - x0) * (x1 - x0)) with y1 by (field; lra). auto.
Qed.

(** monotone tables interpolate monotonically *)
Lemma interp_from_ge_start x0 y0 t x : incr_from x0 t -> mono_from y0 t -> x0 <= x -> y0 <= interp_from x0 y0 t x.
Proof.
  revert x0 y0; induction t as [|[x1 y1] t IH]; simpl; intros x0 y0 H M Hx. lra.
  destruct H as [H1 H2], M as [M1 M2]. unfold Rleb; destruct (Rle_dec x x1).
  - assert (0 <= (y1 - y0) / (x1 - x0)) by (apply Rmult_le_pos; [lra|left; apply Rinv_0_lt_compat; lra]). nra.
  - pose proof (IH x1 y1 H2 M2 ltac:(lra)). lra.
Qed.
Lemma interp_from_mono x0 y0 t x x' : incr_from x0 t -> mono_from y0 t -> x0 <= x -> x <= x' ->
  interp_from x0 y0 t x <= interp_from x0 y0 t x'.
Proof.
  revert x0 y0; induction t as [|[x1 y1] t IH]; simpl; intros x0 y0 H M Hx Hxx. lra.
  destruct H as [H1 H2], M as [M1 M2].
  assert (S : 0 <= (y1 - y0) / (x1 - x0)) by (apply Rmult_le_pos; [lra|left; apply Rinv_0_lt_compat; lra]).
  unfold Rleb; destruct (Rle_dec x x1), (Rle_dec x' x1); try lra.
  - nra.
  - pose proof (interp_from_ge_start x1 y1 t x' H2 M2 ltac:(lra)).
    assert (y0 + (y1 - y0) / (x1 - x0) * (x - x0) <= y1).
    { replace y1 with (y0 + (y1 - y0) / (x1 - x0) * (x1 - x0)) at 2 by (field; lra).
      apply Rplus_le_compat_l, Rmult_le_compat_l; lra. }
    lra.
  - apply IH; auto; lra.
Qed.
