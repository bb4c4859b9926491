(** Proofs about added populations: ULDM fluctuations. *)
From Verif Require Import Prelude MassFnModel MassFnSpec MassFnProofs SpaceModel.
From Verif Require Import RealizationModel RealizationSpec RealizationProofs RenderModel RenderProofs PopModel PopSpec PopProofs.
Local Open Scope string_scope.
Local Open Scope R_scope.
Local Open Scope list_scope.

Lemma np_poisson_number lam k n : np_poisson lam k = Ok n -> poisson_number lam k n.
Proof.
  unfold np_poisson. destruct (Rltb lam 0) eqn:E; [discriminate|]. apply Rltb_false in E. intros [= <-].
  destruct (Reqb lam 0) eqn:E0; [left; apply Reqb_true in E0; auto|right; apply Reqb_false in E0; split; [lra|auto]].
Qed.
Lemma fresh_tags_distinct hp rz tag objs : fresh_tags hp rz tag ->
  map h_tag objs = map tag (seq 0 (List.length objs)) -> tags_all_distinct hp rz objs.
Proof.
  intros (D & I & F) E. unfold tags_all_distinct. rewrite E. clear E.
  assert (N2 : NoDup (map tag (seq 0 (List.length objs)))).
  { generalize (seq_NoDup (List.length objs) 0). induction (seq 0 (List.length objs)) as [|a l IH]; intros N; [constructor|].
    inversion N; subst. cbn. constructor; [|auto]. intros H. apply in_map_iff in H as (b & E & Hb). apply I in E. now subst. }
  unfold tags_distinct in D. induction (rz_halos rz) as [|r t IH]; [exact N2|]. cbn. inversion D; subst. constructor.
  - intros H. apply in_app_or in H as [H|H]; [auto|]. apply in_map_iff in H as (j & E & _). apply (F r j); [now left|auto].
  - apply IH; [assumption|]. intros; apply F; now right.
Qed.
Lemma rsum_fold l : rsum l = fold_right Rplus 0 l.
Proof. induction l; cbn; congruence. Qed.
Lemma mean_average l : mean_count l = average l.
Proof. unfold mean_count, average. now rewrite rsum_fold. Qed.

Lemma amp_rescaled a n : 0 < ua_n_cut a -> 0 < n -> rescaled_amp a n = ua_amplitude a * sqrt (ua_n_cut a / n).
Proof.
  intros. unfold rescaled_amp. unfold Rdiv at 1. f_equal.
  replace (n / ua_n_cut a) with (/ (ua_n_cut a / n)) by (field; lra).
  rewrite <- sqrt_inv. f_equal. field. lra.
Qed.
Lemma cut_amp a n : 0 < ua_n_cut a -> 0 < n ->
  (if (ua_rescale a && Rltb (ua_n_cut a) n)%bool then rescaled_amp a n else ua_amplitude a)
  = strength (ua_rescale a) (ua_n_cut a) (ua_amplitude a) n.
Proof.
  intros. unfold strength, Rltb. destruct (ua_rescale a); [|reflexivity]. destruct (Rlt_dec _ _); [|reflexivity]. now apply amp_rescaled.
Qed.
Lemma cut_count_int n : 0 <= n -> cut_count n = Z.to_nat (Int_part n).
Proof. intros. unfold cut_count, py_int. apply Rleb_true in H. now rewrite H. Qed.
Lemma cut_shown a (m : R) n : 0 < ua_n_cut a ->
  (if (ua_rescale a && Rltb (ua_n_cut a) m)%bool then cut_count (ua_n_cut a) else n) = shown (ua_rescale a) (ua_n_cut a) m n.
Proof.
  intros. unfold shown, Rltb. destruct (ua_rescale a); [|reflexivity]. destruct (Rlt_dec _ _); [|reflexivity].
  cbn. apply cut_count_int. lra.
Qed.

(** what the [j]-th fluctuation of image [i] is *)
Definition fluc_at (e : uenv) (a : ul_args) (g : ul_rng) (amp : R) (i j : nat) (b : Halo) : Prop :=
  is_fluctuation (ue_zlens e) (amp * ur_kappa g i j) (Rabs (ua_size a / ue_kpc e + ua_size_var a / ue_kpc e * ur_width g i j)) b.
Lemma fluctuation_is e a g amp i j x y tag :
  fluc_at e a g amp i j (fluctuation e (amplitude e a g amp i j) (width e a g i j) x y tag).
Proof.
  unfold fluc_at, is_fluctuation, fluctuation. cbn [h_mdef h_sub h_fixed h_bound h_z h_mass h_ids h_kwargs h_x h_y].
  assert (E : amplitude e a g amp i j = 2 * PI * Rabs (ua_size a / ue_kpc e + ua_size_var a / ue_kpc e * ur_width g i j) ^ 2 * (amp * ur_kappa g i j)).
  { unfold amplitude, width. ring. }
  rewrite E. repeat split. apply Rabs_pos.
Qed.
Lemma seq_map_nth_error {A} (f : nat -> A) : forall n s j b, nth_error (map f (seq s n)) j = Some b -> b = f (s + j)%nat /\ (j < n)%nat.
Proof.
  induction n as [|n IH]; intros s [|j] b H; try discriminate.
  - injection H as <-. rewrite Nat.add_0_r. split; [reflexivity|lia].
  - apply IH in H as [-> L]. split; [f_equal; lia|lia].
Qed.

(** *** ring and ellipse *)
Lemma plain_flucs_spec e a g amp point n hs : plain_flucs e a g amp point n = Ok hs ->
  List.length hs = n /\ map h_tag hs = map (ur_tag g) (seq 0 (List.length hs)) /\
  forall j b, nth_error hs j = Some b -> fluc_at e a g amp 0 j b /\ (h_x b, h_y b) = point j.
Proof.
  unfold plain_flucs. intros H. binds. injection H as <-. rewrite map_length, seq_length. split; [reflexivity|].
  split; [now rewrite map_map|]. intros j b N. apply seq_map_nth_error in N as [-> _]. cbn [Nat.add].
  split; [apply fluctuation_is|]. cbn. destruct (point j); reflexivity.
Qed.
Lemma ring_in rmin rmax ua ur : 0 <= rmin <= rmax -> 0 <= ur <= 1 ->
  let p := ring_point rmin rmax ua ur in rmin <= dist2 (fst p) (snd p) 0 0 <= rmax.
Proof.
  intros H U. cbn zeta. unfold ring_point. cbn [fst snd].
  assert (S : 0 <= sqrt ur <= 1). { split; [apply sqrt_pos|]. rewrite <- sqrt_1. apply sqrt_le_1; lra. }
  set (rr := rmin + sqrt ur * (rmax - rmin)). assert (RR : rmin <= rr <= rmax) by (unfold rr; nra).
  pose proof (circle_dist 0 0 rr (2 * PI * ua) ltac:(lra)) as D. rewrite !Rplus_0_l in D. rewrite D. exact RR.
Qed.
(** radii are not uniform in area: the fraction of deviates with radius below r is the square of the fraction of the RADIAL range *)
Lemma ring_radius rmin rmax ua ur r : 0 <= rmin < rmax -> 0 <= ur <= 1 -> rmin <= r <= rmax ->
  let p := ring_point rmin rmax ua ur in dist2 (fst p) (snd p) 0 0 <= r <-> ur <= ((r - rmin) / (rmax - rmin)) ^ 2.
Proof.
  intros H U Hr. cbn zeta. unfold ring_point. cbn [fst snd].
  assert (S : 0 <= sqrt ur) by apply sqrt_pos. pose proof (pow2_sqrt ur ltac:(lra)) as S2.
  set (rr := rmin + sqrt ur * (rmax - rmin)). 
  pose proof (circle_dist 0 0 rr (2 * PI * ua) ltac:(unfold rr; nra)) as D. rewrite !Rplus_0_l in D. rewrite D.
  assert (Q : 0 <= (r - rmin) / (rmax - rmin)) by (apply Rcomplements.Rdiv_le_0_compat; lra).
  assert (QQ : rr <= r <-> sqrt ur <= (r - rmin) / (rmax - rmin)).
  { unfold rr. rewrite <- Rcomplements.Rle_div_r by lra. split; intros; lra. }
  rewrite QQ. rewrite <- S2 at 2. split; intros L.
  - apply pow_incr. lra.
  - destruct (Rle_lt_dec (sqrt ur) ((r - rmin) / (rmax - rmin))) as [|G]; [assumption|exfalso].
    assert (((r - rmin) / (rmax - rmin)) ^ 2 < sqrt ur ^ 2); [|lra]. nra.
Qed.
Lemma ellipse_axes amin amax bmin bmax angle ua ur ur2 :
  let p := ellipse_point amin amax bmin bmax angle ua ur ur2 in
  along angle (fst p) (snd p) = (sqrt ur * (amax - amin) + amin) * cos (2 * PI * ua) /\
  across angle (fst p) (snd p) = (sqrt ur2 * (bmax - bmin) + bmin) * sin (2 * PI * ua).
Proof.
  cbn zeta. unfold ellipse_point, along, across. cbn [fst snd]. set (t := 2 * PI * ua).
  pose proof (sin2_cos2 angle) as SC. unfold Rsqr in SC.
  set (A := sqrt ur * (amax - amin) + amin). set (B := sqrt ur2 * (bmax - bmin) + bmin).
  split.
  - replace ((A * cos t * cos angle - B * sin t * sin angle) * cos angle + (A * cos t * sin angle + B * sin t * cos angle) * sin angle)
      with (A * cos t * (sin angle * sin angle + cos angle * cos angle)) by ring. rewrite SC. ring.
  - replace (- (A * cos t * cos angle - B * sin t * sin angle) * sin angle + (A * cos t * sin angle + B * sin t * cos angle) * cos angle)
      with (B * sin t * (sin angle * sin angle + cos angle * cos angle)) by ring. rewrite SC. ring.
Qed.
Lemma sq_div_le x A M : 0 < M -> 0 <= A <= M -> (A * x / M) ^ 2 <= x ^ 2.
Proof.
  intros. replace ((A * x / M) ^ 2) with ((A / M) ^ 2 * x ^ 2) by (field; lra).
  assert (0 <= A / M <= 1). { split; [apply Rcomplements.Rdiv_le_0_compat; lra|]. apply Rcomplements.Rle_div_l; lra. }
  pose proof (pow2_ge_0 x). assert ((A / M) ^ 2 <= 1) by nra. nra.
Qed.
Lemma sq_div_ge x A M : 0 < M <= A -> x ^ 2 <= (A * x / M) ^ 2.
Proof.
  intros. replace ((A * x / M) ^ 2) with ((A / M) ^ 2 * x ^ 2) by (field; lra).
  assert (1 <= A / M). { apply Rcomplements.Rle_div_r; lra. }
  pose proof (pow2_ge_0 x). assert (1 <= (A / M) ^ 2) by nra. nra.
Qed.
Lemma ellipse_in amin amax bmin bmax angle ua ur ur2 : 0 < amin <= amax -> 0 < bmin <= bmax -> 0 <= ur <= 1 -> 0 <= ur2 <= 1 ->
  let p := ellipse_point amin amax bmin bmax angle ua ur ur2 in
  (along angle (fst p) (snd p) / amax) ^ 2 + (across angle (fst p) (snd p) / bmax) ^ 2 <= 1 /\
  1 <= (along angle (fst p) (snd p) / amin) ^ 2 + (across angle (fst p) (snd p) / bmin) ^ 2.
Proof.
  intros HA HB U1 U2. cbn zeta. destruct (ellipse_axes amin amax bmin bmax angle ua ur ur2) as [-> ->].
  assert (S : forall u, 0 <= u <= 1 -> 0 <= sqrt u <= 1).
  { intros u Hu. split; [apply sqrt_pos|]. rewrite <- sqrt_1. apply sqrt_le_1; lra. }
  pose proof (S _ U1). pose proof (S _ U2).
  set (A := sqrt ur * (amax - amin) + amin). set (B := sqrt ur2 * (bmax - bmin) + bmin).
  assert (amin <= A <= amax) by (unfold A; nra). assert (bmin <= B <= bmax) by (unfold B; nra).
  pose proof (sin2_cos2 (2 * PI * ua)) as SC. unfold Rsqr in SC. set (c := cos (2 * PI * ua)) in *. set (s := sin (2 * PI * ua)) in *.
  split.
  - pose proof (sq_div_le c A amax ltac:(lra) ltac:(lra)). pose proof (sq_div_le s B bmax ltac:(lra) ltac:(lra)). nra.
  - pose proof (sq_div_ge c A amin ltac:(lra)). pose proof (sq_div_ge s B bmin ltac:(lra)). nra.
Qed.

(** *** apertures *)
Lemma aperture_dist radius cx cy ua ur : 0 <= radius -> 0 <= ur <= 1 ->
  let p := aperture_point radius cx cy ua ur in dist2 (fst p) (snd p) cx cy <= radius.
Proof.
  intros HR U. cbn zeta. unfold aperture_point, dist2. cbn [fst snd]. set (t := 2 * PI * ua).
  replace ((sqrt (radius ^ 2 * ur) * sin t + cx - cx) ^ 2 + (sqrt (radius ^ 2 * ur) * cos t + cy - cy) ^ 2)
    with (sqrt (radius ^ 2 * ur) ^ 2 * (Rsqr (sin t) + Rsqr (cos t))) by (unfold Rsqr; ring).
  rewrite sin2_cos2, Rmult_1_r, sqrt_pow2 by apply sqrt_pos. now apply sqrt_scaled.
Qed.
(** the fluctuations made for position [k] of the count list surround image [k] *)
Definition around (e : uenv) (a : ul_args) (g : ul_rng) (amp : R) (xs ys : list R) (radius : R) (kn : nat * nat) (part : list Halo) : Prop :=
  List.length part = snd kn /\ exists cx cy, nth_error xs (fst kn) = Some cx /\ nth_error ys (fst kn) = Some cy /\
  forall j b, nth_error part j = Some b -> fluc_at e a g amp (fst kn) j b /\ dist2 (h_x b) (h_y b) cx cy <= radius.
Lemma map_shift {A} (f : nat -> A) t : forall n s, map (fun x => f (t + x)%nat) (seq s n) = map f (seq (t + s) n).
Proof. induction n as [|n IH]; intros s; [reflexivity|]. cbn. f_equal. rewrite IH. f_equal. f_equal. lia. Qed.
Lemma aperture_loop_spec e a g amp xs ys radius : 0 <= radius -> (forall i j, 0 <= ur_r g i j <= 1) ->
  forall counts i t hs, aperture_loop e a g amp xs ys radius i t counts = Ok hs ->
  (exists parts, hs = List.concat parts /\ Forall2 (around e a g amp xs ys radius) (enum_from i counts) parts) /\
  map h_tag hs = map (ur_tag g) (seq t (List.length hs)).
Proof.
  intros HR U. induction counts as [|n rest IH]; intros i t hs H.
  - injection H as <-. split; [exists []; split; constructor|reflexivity].
  - cbn [aperture_loop] in H. binds. destruct (nth_error xs i) as [cx|] eqn:EX; [|discriminate].
    destruct (nth_error ys i) as [cy|] eqn:EY; [|discriminate]. binds. injection H as <-.
    destruct (IH _ _ _ H1) as ((parts & -> & F) & T). clear IH H1 H0. split.
    + eexists (_ :: parts). split; [cbn [List.concat]; reflexivity|]. cbn [enum_from]. constructor; [|exact F].
      split; [cbn; now rewrite map_length, seq_length|]. exists cx, cy. cbn [fst]. split; [exact EX|]. split; [exact EY|].
      intros j b N. apply seq_map_nth_error in N as [-> _]. cbn [Nat.add]. split; [apply fluctuation_is|].
      cbn [h_x h_y fluctuation]. apply aperture_dist; auto.
    + rewrite map_app, map_map, app_length, map_length, seq_length, seq_app, map_app, T. f_equal. cbn [h_tag fluctuation].
      rewrite map_shift. do 2 f_equal. lia.
Qed.
Lemma filter_kept {A} (p : A -> bool) l : kept (fun a => p a = true) l (filter p l).
Proof.
  induction l as [|a t IH]; [constructor|]. cbn. destruct (p a) eqn:E; [now apply kept_take|].
  apply kept_drop; [now rewrite E|exact IH].
Qed.
Lemma kept_ext {A} (P Q : A -> Prop) l l' : (forall a, P a <-> Q a) -> kept P l l' -> kept Q l l'.
Proof. intros H K. induction K; [constructor|apply kept_take; [now apply H|auto]|apply kept_drop; [now rewrite <- H|auto]]. Qed.
Lemma expected_ring e a rmin rmax : ua_lambda a <> 0 -> ua_size a <> 0 ->
  expected_flucs e a (Ring rmin rmax)
  = ua_n_scale a * (PI * (rmax ^ 2 - rmin ^ 2) * (ue_DA e * ue_arcsec e * 1000) ^ 2) / (PI * ua_size a ^ 2).
Proof. intros. pose proof PI_RGT_0. unfold expected_flucs. replace (ua_lambda a * (ua_size a / ua_lambda a)) with (ua_size a) by (field; auto). field. split; lra. Qed.
Lemma expected_ellipse e a amin amax bmin bmax angle : ua_lambda a <> 0 -> ua_size a <> 0 ->
  expected_flucs e a (Ellipse amin amax bmin bmax angle)
  = ua_n_scale a * (PI * (amax * bmax - amin * bmin) * (ue_DA e * ue_arcsec e * 1000) ^ 2) / (PI * ua_size a ^ 2).
Proof. intros. pose proof PI_RGT_0. unfold expected_flucs. replace (ua_lambda a * (ua_size a / ua_lambda a)) with (ua_size a) by (field; auto). field. split; lra. Qed.
Lemma expected_aperture e a xs ys r : ua_lambda a <> 0 -> ua_size a <> 0 ->
  expected_flucs e a (Aperture xs ys r)
  = ua_n_scale a * (PI * r ^ 2 * (ue_DA e * ue_arcsec e * 1000) ^ 2) / (PI * ua_size a ^ 2).
Proof. intros. pose proof PI_RGT_0. unfold expected_flucs. replace (ua_lambda a * (ua_size a / ua_lambda a)) with (ua_size a) by (field; auto). field. split; lra. Qed.
