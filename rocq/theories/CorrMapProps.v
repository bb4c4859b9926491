(** C37: the convergence map from which the mass of correlated structure is taken.  Model: RenderModel.v *)
From Verif Require Import Prelude MassFnModel SpaceModel RenderModel.
From Coq Require Import Lra.

(** ** Specification: [x, y] lies in the disc of radius [r] around the ray *)
Definition in_disc (cx cy r x y : R) : Prop := sqrt ((x - cx) ^ 2 + (y - cy) ^ 2) <= r.

(** Only the convergence inside the disc around the ray counts: two populations of halos with the same convergence there give the same map
    and the same mass. *)
Theorem C37_local : forall kappa kappa' sigma cx cy r n,
  (forall x y, in_disc cx cy r x y -> kappa x y = kappa' x y) ->
  kappa_pdf kappa cx cy r n = kappa_pdf kappa' cx cy r n /\ mass_in_area kappa sigma cx cy r n = mass_in_area kappa' sigma cx cy r n.
Proof.
  intros k k' sg cx cy r n A.
  assert (E : kappa_pdf k cx cy r n = kappa_pdf k' cx cy r n).
  { unfold kappa_pdf. apply map_ext. intros [x y]. cbn [fst snd]. unfold outside. cbn [fst snd].
    destruct (Rltb r (sqrt (x ^ 2 + y ^ 2))) eqn:O; [reflexivity|]. apply Rltb_false in O. apply A. unfold in_disc.
    replace (x + cx - cx) with x by ring. replace (y + cy - cy) with y by ring. lra. }
  split; [exact E|]. unfold mass_in_area. rewrite E. reflexivity.
Qed.

(** The map moves with the ray. *)
Theorem C37_centred : forall kappa sigma cx cy dx dy r n,
  mass_in_area (fun x y => kappa (x - dx) (y - dy)) sigma (cx + dx) (cy + dy) r n = mass_in_area kappa sigma cx cy r n.
Proof.
  intros k sg cx cy dx dy r n. unfold mass_in_area.
  assert (E : kappa_pdf (fun x y => k (x - dx) (y - dy)) (cx + dx) (cy + dy) r n = kappa_pdf k cx cy r n).
  { unfold kappa_pdf. apply map_ext. intros [x y]. cbn [fst snd]. destruct (outside r (x, y)); [reflexivity|]. f_equal; ring. }
  rewrite E. reflexivity.
Qed.

(** The value at a pixel of the disc is the convergence there, at any offset from the ray. *)
Theorem C37_pixels : forall kappa cx cy r n i x y, nth_error (pixels r n) i = Some (x, y) ->
  (sqrt (x ^ 2 + y ^ 2) <= r -> nth_error (kappa_pdf kappa cx cy r n) i = Some (kappa (cx + x) (cy + y))) /\
  (r < sqrt (x ^ 2 + y ^ 2) -> nth_error (kappa_pdf kappa cx cy r n) i = Some 0).
Proof.
  intros k cx cy r n i x y N. unfold kappa_pdf. rewrite (map_nth_error _ _ _ N). cbn [fst snd]. unfold outside. cbn [fst snd]. split; intros L.
  - rewrite (proj2 (Rltb_false _ _)) by lra. rewrite (Rplus_comm x), (Rplus_comm y). reflexivity.
  - rewrite (proj2 (Rltb_true _ _)) by lra. reflexivity.
Qed.

Example C37_map_nonvacuous :
  (forall x y, in_disc 3 4 1 x y -> (fun x _ => Rmin x 5) x y = (fun x _ : R => x) x y) /\
  (exists x y, (fun x _ => Rmin x 5) x y <> (fun x _ : R => x) x y) /\
  nth_error (pixels 1 2) 0 = Some (-1, -1) /\ 1 < sqrt ((-1) ^ 2 + (-1) ^ 2).
Proof.
  split; [|split; [|split]].
  - intros x y D. cbn. unfold in_disc in D. apply Rmin_left. destruct (Rle_dec x 5); [assumption|exfalso].
    assert (H : 0 <= (x - 3) ^ 2 + (y - 4) ^ 2) by (apply Rplus_le_le_0_compat; apply pow2_ge_0). pose proof (sqrt_sqrt _ H). pose proof (sqrt_pos ((x - 3) ^ 2 + (y - 4) ^ 2)).
    pose proof (pow2_ge_0 (y - 4)). assert (4 <= (x - 3) ^ 2) by nra. nra.
  - exists 6, 0. cbn. rewrite Rmin_right; lra.
  - cbn. do 3 f_equal; lra.
  - rewrite <- sqrt_1 at 1. apply sqrt_lt_1; lra.
Qed.

Print Assumptions C37_local.
Print Assumptions C37_centred.
Print Assumptions C37_pixels.
