(** C33: arrays of redshifts.  Model: SpaceModel.v *)
From Verif Require Import Prelude Interp MassFnModel SpaceModel SpaceSpec SpaceProofs SpaceProofs3.
From Verif Require Import SpaceProps.

Lemma table_inside a z : 0.02 <= z <= 4 <-> exists v, interp1d (DA_table a) z = Ok v.
Proof.
  rewrite DA_table_eq, (grid_domain 0.02 0.02 199 (as_DA a 0) z ltac:(lra)).
  replace (INR 199) with 199 by (rewrite INR_IZR_INZ; reflexivity). split; lra.
Qed.
Lemma one_inside a z v : interp1d (DA_table a) z = Ok v -> forall qs, reply a qs (QDAz z) = Ok v.
Proof. intros E qs. rewrite reply_answer. cbn [answer]. unfold v_DAz. rewrite E. reflexivity. Qed.

(** If all redshifts lie in the table's range, the distances to an array of redshifts are those of the redshifts one by one; if one does
    not, all of them, also those inside, are those of the underlying cosmology.  Nothing is lost or reordered either way. *)
Theorem C33_array_query : forall a zs,
  (Forall (fun z => 0.02 <= z <= 4) zs -> Forall2 (fun z v => forall qs, reply a qs (QDAz z) = Ok v) zs (DAz_array a zs)) /\
  (Exists (fun z => z < 0.02 \/ 4 < z) zs -> Forall2 (fun z v => v = as_DA a 0 z) zs (DAz_array a zs)).
Proof.
  intros a zs. split.
  - intros F. unfold DAz_array.
    assert (X : exists vs, mapM (interp1d (DA_table a)) zs = Ok vs /\ Forall2 (fun z v => forall qs, reply a qs (QDAz z) = Ok v) zs vs).
    { induction F as [|z t Z _ (vs & E & IH)]; [exists []; split; [reflexivity|constructor]|].
      apply (table_inside a) in Z. destruct Z as [v V]. exists (v :: vs). cbn [mapM]. rewrite V. cbn [bind]. rewrite E. cbn [bind].
      split; [reflexivity|]. constructor; [exact (one_inside a z v V)|exact IH]. }
    destruct X as (vs & -> & X). exact X.
  - intros X. unfold DAz_array.
    assert (N : exists e, mapM (interp1d (DA_table a)) zs = Err e).
    { induction X as [z t Z|z t _ [e IH]]; cbn [mapM].
      - destruct (interp1d (DA_table a) z) as [v|e] eqn:E; cbn [bind]; [|eauto].
        assert (0.02 <= z <= 4) by (apply (table_inside a); eauto). lra.
      - destruct (interp1d (DA_table a) z) as [v|e'] eqn:E; cbn [bind]; [|eauto]. rewrite IH. cbn [bind]. eauto. }
    destruct N as [e ->]. clear X. induction zs as [|z t IH]; cbn; constructor; auto.
Qed.
Example C33_array_query_nonvacuous : Forall (fun z => 0.02 <= z <= 4) [0.5; 4; 0.02] /\ Exists (fun z => z < 0.02 \/ 4 < z) [0.5; 10; 1].
Proof. split; [repeat constructor; lra|]. apply Exists_cons_tl, Exists_cons_hd. lra. Qed.

Print Assumptions C33_array_query.
