(** C32: the rendering geometry. *)
From Coquelicot Require Import Coquelicot.
From Verif Require Import Prelude Interp MassFnModel MassFnSpec MassFnProofs SpaceModel SpaceSpec SpaceProofs SpaceProofs2.

(** a concrete flat universe used in the examples: comoving distance equal to the redshift *)
Definition DA0 (z1 z2 : R) : R := (z2 - z1) / (1 + z2).
Definition DAz0 (z : R) : R := z / (1 + z).
Lemma flat0 : flat_universe (fun z => z) DA0 DAz0 (fun z => z).
Proof. constructor; auto. Qed.

(** Double cone: full opening up to the lens, 1 - padding at the source, strictly decreasing in between. *)
Theorem C32_double_cone_scale : forall chi DA DAz DCt zl zs pad,
  flat_universe chi DA DAz DCt -> 0 < zl < zs -> 0 < pad <= 1 ->
  let scale := rendering_scale DA DAz DCt DOUBLE_CONE zl zs pad in
  (forall z, z <= zl -> scale z = 1) /\
  scale zs = 1 - pad /\
  (forall z z', zl <= z -> z < z' -> z' <= zs -> scale z' < scale z) /\
  (forall z, z <= zs -> 1 - pad <= scale z <= 1).
Proof.
  intros chi DA DAz DCt zl zs pad F Hl Hp scale.
  pose proof (chi_ls chi DA DAz DCt zl zs F Hl) as C.
  assert (A : forall z, z <= zl -> scale z = 1) by (intros; apply dc_front; auto).
  assert (B : forall z, zl < z -> scale z = 1 - pad * (chi zs / (chi zs - chi zl)) * ((chi z - chi zl) / chi z)).
  { intros; apply (dc_behind chi); auto. }
  assert (S : scale zs = 1 - pad) by (rewrite B by lra; field; lra).
  assert (K : 0 < pad * (chi zs / (chi zs - chi zl))).
  { apply Rmult_lt_0_compat; [lra|]. apply Rdiv_lt_0_compat; lra. }
  assert (D : forall z z', zl <= z -> z < z' -> z' <= zs -> scale z' < scale z).
  { intros z z' H1 H2 H3. rewrite (B z') by lra.
    pose proof (fu_incr _ _ _ _ F z z' ltac:(lra) H2).
    destruct (Req_dec z zl) as [->|N].
    - rewrite A by lra. assert (0 < (chi z' - chi zl) / chi z') by (apply Rdiv_lt_0_compat; lra). nra.
    - rewrite B by lra. pose proof (fu_incr _ _ _ _ F zl z ltac:(lra) ltac:(lra)).
      assert ((chi z - chi zl) / chi z < (chi z' - chi zl) / chi z').
      { replace ((chi z - chi zl) / chi z) with (1 - chi zl * / chi z) by (field; lra).
        replace ((chi z' - chi zl) / chi z') with (1 - chi zl * / chi z') by (field; lra).
        assert (/ chi z' < / chi z) by (apply Rinv_lt_contravar; [apply Rmult_lt_0_compat; lra|lra]). nra. }
      nra. }
  split; auto. split; auto. split; auto.
  intros z Hz. destruct (Rle_dec z zl). rewrite A by auto; lra.
  pose proof (D zl z ltac:(lra) ltac:(lra) Hz). rewrite (A zl) in H by lra.
  destruct (Req_dec z zs). subst; rewrite S; lra.
  pose proof (D z zs ltac:(lra) ltac:(lra) ltac:(lra)). lra.
Qed.
Example C32_double_cone_scale_nonvacuous : flat_universe (fun z => z) DA0 DAz0 (fun z => z) /\ 0 < 0.5 < 1.5 /\ 0 < 0.95 <= 1.
Proof. split. exact flat0. lra. Qed.

(** The opening is continuous at the lens. *)
Theorem C32_continuous_at_lens : forall chi DA DAz DCt zl zs pad,
  flat_universe chi DA DAz DCt -> 0 < zl < zs -> continuous chi zl ->
  continuous (rendering_scale DA DAz DCt DOUBLE_CONE zl zs pad) zl.
Proof.
  intros chi DA DAz DCt zl zs pad F Hl Hc.
  pose proof (chi_ls chi DA DAz DCt zl zs F Hl) as C.
  set (g := fun z => 1 - pad * (chi zs / (chi zs - chi zl)) * ((chi z - chi zl) / chi z)).
  assert (G : continuous g zl).
  { apply (continuous_minus (fun _ => 1) (fun z => pad * (chi zs / (chi zs - chi zl)) * ((chi z - chi zl) / chi z))).
    apply continuous_const.
    apply (continuous_mult (fun _ => pad * (chi zs / (chi zs - chi zl)))). apply continuous_const.
    apply (continuous_mult (fun z => chi z - chi zl) (fun z => / chi z)).
    apply (continuous_minus chi (fun _ => chi zl)); auto. apply continuous_const.
    apply (continuous_comp chi Rinv); auto. apply continuous_Rinv. lra. }
  assert (G1 : g zl = 1) by (unfold g; field; lra).
  assert (S1 : rendering_scale DA DAz DCt DOUBLE_CONE zl zs pad zl = 1) by (apply dc_front; lra).
  intros P [eps HP]. unfold filtermap. rewrite S1 in HP.
  assert (L : locally zl (fun z => ball (g zl) eps (g z))) by (apply G; exists eps; auto).
  destruct L as [d Hd]. exists d. intros z Hz. apply HP.
  destruct (Rle_dec z zl) as [h|h].
  - rewrite dc_front by auto. apply ball_center.
  - assert (Hd1 := Hd z Hz). cbv beta in Hd1. rewrite G1 in Hd1. rewrite (dc_behind chi) by (auto; lra). exact Hd1.
Qed.
Example C32_continuous_at_lens_nonvacuous : continuous (fun z : R => z) 0.5.
Proof. apply continuous_id. Qed.

(** Comoving radius of the double cone: proportional to the comoving distance up to the lens, then linear in it from
    the radius at the lens to (1 - padding) times the unscaled radius at the source. *)
Theorem C32_double_cone_linear : forall chi DA DAz DCt arcsec zl zs pad r z,
  flat_universe chi DA DAz DCt -> 0 < zl < zs -> 0 <= z ->
  let radius := angle_to_comovingradius DA DAz DCt arcsec DOUBLE_CONE zl zs pad r in
  (z <= zl -> radius z = r * arcsec * chi z) /\
  (zl <= z -> radius z = radius zl + (r * arcsec * (1 - pad) * chi zs - radius zl) * ((chi z - chi zl) / (chi zs - chi zl))).
Proof.
  intros chi DA DAz DCt arcsec zl zs pad r z F Hl Hz radius. unfold radius.
  rewrite !(dc_comoving chi) by (auto; lra). pose proof (chi_ls chi DA DAz DCt zl zs F Hl).
  rewrite (proj2 (Rleb_true zl zl)) by lra.
  split; intros H1.
  - rewrite (proj2 (Rleb_true z zl)) by auto. reflexivity.
  - destruct (Rleb z zl) eqn:E.
    + apply Rleb_true in E. assert (z = zl) by lra. subst z. field. lra.
    + field. lra.
Qed.
Example C32_double_cone_linear_nonvacuous :
  angle_to_comovingradius DA0 DAz0 (fun z => z) 1 DOUBLE_CONE 0.5 1.5 0.95 2 1.5 = 2 * (1 - 0.95) * 1.5.
Proof.
  rewrite (dc_comoving (fun z => z)); try apply flat0; try lra.
  rewrite (proj2 (Rleb_false _ _)) by lra. lra.
Qed.

(** Cylinder: comoving radius equal to the radius at the lens, everywhere.  Cone: full opening everywhere. *)
Theorem C32_cylinder_and_cone : forall chi DA DAz DCt arcsec zl zs pad r z,
  flat_universe chi DA DAz DCt -> 0 < zl -> 0 < z ->
  angle_to_comovingradius DA DAz DCt arcsec CYLINDER zl zs pad r z = r * arcsec * chi zl /\
  angle_to_comovingradius DA DAz DCt arcsec CONE zl zs pad r z = r * arcsec * chi z /\
  rendering_scale DA DAz DCt CONE zl zs pad z = 1.
Proof.
  intros chi DA DAz DCt arcsec zl zs pad r z F Hl Hz.
  assert (P : forall z, 0 < z -> 0 < chi z) by (intros; eapply chi_pos; eauto).
  split; [|split].
  - unfold angle_to_comovingradius, angle_to_physicalradius. simpl.
    rewrite (fu_DAz _ _ _ _ F), !(fu_DC _ _ _ _ F) by lra. pose proof (P z Hz). field. lra.
  - unfold angle_to_comovingradius, angle_to_physicalradius. simpl.
    rewrite (fu_DAz _ _ _ _ F) by lra. field. lra.
  - reflexivity.
Qed.
Example C32_cylinder_and_cone_nonvacuous : flat_universe (fun z => z) DA0 DAz0 (fun z => z) /\ 0 < 0.5 /\ 0 < 2.
Proof. split. exact flat0. lra. Qed.

(** Areas are those of the discs with the comoving and physical radii, for every geometry and cosmology. *)
Theorem C32_areas : forall DA DAz DCt arcsec g zl zs pad r z, 0 <= z ->
  angle_to_comoving_area DA DAz DCt arcsec g zl zs pad r z =
    PI * (angle_to_comovingradius DA DAz DCt arcsec g zl zs pad r z) ^ 2 /\
  angle_to_physical_area DA DAz DCt arcsec g zl zs pad r z =
    PI * (angle_to_physicalradius DA DAz DCt arcsec g zl zs pad r z) ^ 2 /\
  angle_to_comovingradius DA DAz DCt arcsec g zl zs pad r z =
    (1 + z) * angle_to_physicalradius DA DAz DCt arcsec g zl zs pad r z.
Proof.
  intros. split; [reflexivity|]. split.
  - unfold angle_to_physical_area, angle_to_comoving_area, angle_to_comovingradius. field. lra.
  - unfold angle_to_comovingradius. field. lra.
Qed.
Example C32_areas_nonvacuous :
  angle_to_physicalradius DA0 DAz0 (fun z => z) 1 CONE 0.5 1.5 0.95 2 1 = 1.
Proof. unfold angle_to_physicalradius, DAz0. simpl. lra. Qed.

(** Exactly three geometry names are accepted. *)
Theorem C32_names : forall s,
  (s = "DOUBLE_CONE"%string \/ s = "CYLINDER"%string \/ s = "CONE"%string -> exists g, geometry_of_name s = Ok g) /\
  (s <> "DOUBLE_CONE"%string -> s <> "CYLINDER"%string -> s <> "CONE"%string -> geometry_of_name s = Err EException).
Proof.
  intros s. split.
  - intros [->|[->| ->]]; eexists; reflexivity.
  - intros H1 H2 H3. unfold geometry_of_name.
    rewrite (proj2 (String.eqb_neq _ _) H1), (proj2 (String.eqb_neq _ _) H2), (proj2 (String.eqb_neq _ _) H3). reflexivity.
Qed.
Example C32_names_nonvacuous : geometry_of_name "CYLINDER" = Ok CYLINDER /\ geometry_of_name "cylinder" = Err EException.
Proof. split; reflexivity. Qed.

(** The attribute volume_type exists for two of the three geometries only. *)
Theorem C32_volume_type_refuted : exists s g, geometry_of_name s = Ok g /\ volume_type g = Err EAttributeError.
Proof. exists "CONE"%string, CONE. split; reflexivity. Qed.

(** Comoving volume of the double cone: front cone plus frustum.  The stored total volume is that number for full
    padding, and too small by the frustum's remaining opening otherwise. *)
Theorem C32_double_cone_volume : forall chi DA DAz DCt dRdz arcsec zl zs oa pad,
  flat_universe chi DA DAz DCt -> 0 < zl < zs ->
  (forall z, 0 <= z <= zs -> is_derive chi z (dRdz z)) -> (forall z, 0 <= z <= zs -> continuous dRdz z) ->
  let area z := angle_to_comoving_area DA DAz DCt arcsec DOUBLE_CONE zl zs pad (0.5 * oa) z in
  RInt (fun z => area z * dRdz z) 0 zs =
    total_volume DCt arcsec DOUBLE_CONE zl zs oa +
    PI * (oa / 2 * arcsec) ^ 2 * (chi zs - chi zl) * (chi zl * ((1 - pad) * chi zs) + ((1 - pad) * chi zs) ^ 2) / 3.
Proof.
  intros chi DA DAz DCt dRdz arcsec zl zs oa pad F Hl Hd Hc area.
  pose proof (dc_total chi DA DAz DCt dRdz arcsec zl zs pad F Hl Hd Hc (0.5 * oa)) as T.
  etransitivity; [exact (is_RInt_unique (V := R_CompleteNormedModule) _ _ _ _ T)|].
  unfold total_volume. rewrite !(fu_DC _ _ _ _ F) by lra.
  match goal with |- ?a = ?b => change (@eq R a b) end. replace (0.5 * oa) with (oa / 2) by lra. field.
Qed.
Example C32_double_cone_volume_nonvacuous :
  (forall z, 0 <= z <= 1.5 -> is_derive (fun z : R => z) z ((fun _ => 1) z)) /\
  (forall z, 0 <= z <= 1.5 -> continuous (fun _ : R => 1) z).
Proof. split; intros. apply (is_derive_id (K := R_AbsRing)). apply continuous_const. Qed.

Theorem C32_cylinder_volume : forall chi DA DAz DCt dRdz arcsec zl zs oa pad,
  flat_universe chi DA DAz DCt -> 0 < zl < zs ->
  (forall z, 0 <= z <= zs -> is_derive chi z (dRdz z)) -> (forall z, 0 <= z <= zs -> continuous dRdz z) ->
  RInt (fun z => angle_to_comoving_area DA DAz DCt arcsec CYLINDER zl zs pad (0.5 * oa) z * dRdz z) 0 zs =
    total_volume DCt arcsec CYLINDER zl zs oa.
Proof.
  intros chi DA DAz DCt dRdz arcsec zl zs oa pad F Hl Hd Hc.
  pose proof (cyl_total chi DA DAz DCt dRdz arcsec zl zs pad F Hl Hd Hc (0.5 * oa)) as T.
  etransitivity; [exact (is_RInt_unique (V := R_CompleteNormedModule) _ _ _ _ T)|].
  unfold total_volume. rewrite !(fu_DC _ _ _ _ F) by lra.
  match goal with |- ?a = ?b => change (@eq R a b) end. ring.
Qed.
Example C32_cylinder_volume_nonvacuous : total_volume (fun z => z) 1 CYLINDER 0.5 1.5 2 = PI * 0.5 ^ 2 * 1.5.
Proof. simpl. replace (0.5 * (2 * 1)) with 1 by lra. ring. Qed.

(** The "total" volume summed over slices stops at the last grid redshift: the final slice before the source is left out. *)
Lemma slices_sum (f : R -> R) s l : (forall a b, 0 <= a <= b -> b <= last l 0 -> ex_RInt f a b) -> 0 < s ->
  steps s l -> (forall z, In z l -> 0 <= z) -> l <> nil ->
  sumR (map (fun z => RInt f z (z + s)) (firstn (List.length l - 1) l)) = RInt f (nth 0 l 0) (last l 0).
Proof.
  intros Hex Hs. induction l as [|a [|b t] IH]; intros St Hp N; [congruence| |].
  - simpl. rewrite MassFnProofs.RInt_same. reflexivity.
  - destruct St as [E St]. cbn [List.length nth].
    replace (S (S (List.length t)) - 1)%nat with (S (List.length (b :: t) - 1)) by (simpl; lia).
    cbn [firstn map]. cbn [sumR]. unfold sumR in *. cbn [fold_right].
    change (last (a :: b :: t) 0) with (last (b :: t) 0) in *.
    rewrite IH; auto; try discriminate. 2:{ intros; apply Hp; right; auto. }
    cbn [nth]. rewrite <- E.
    assert (Hb : b <= last (b :: t) 0).
    { rewrite last_cons_irrel. clear - St Hs. revert b St. induction t as [|c t IH]; intros b St. simpl; lra.
      destruct St as [E St]. rewrite last_cons_irrel. specialize (IH c St). lra. }
    pose proof (Hp a (or_introl eq_refl)).
    apply (RInt_Chasles (V := R_CompleteNormedModule)); apply Hex; lra.
Qed.

Theorem C32_volume_sum_drops_last_slice_refuted : forall chi DA DAz DCt dRdz arcsec zl zs oa pad quad,
  flat_universe chi DA DAz DCt -> 0 < zl < zs - 0.01 -> 0 < pad < 1 -> 0 < arcsec -> 0 < oa ->
  (forall z, 0 <= z <= zs -> is_derive chi z (dRdz z)) -> (forall z, 0 <= z <= zs -> continuous dRdz z) ->
  (forall z, 0 <= z <= zs -> 0 < dRdz z) -> exact_quad quad ->
  volume_MPC3 DA DAz DCt dRdz arcsec DOUBLE_CONE zl zs oa pad quad <
    RInt (fun z => angle_to_comoving_area DA DAz DCt arcsec DOUBLE_CONE zl zs pad (0.5 * oa) z * dRdz z) 0 zs.
Proof.
  intros chi DA DAz DCt dRdz arcsec zl zs oa pad quad F Hl Hp Ha Ho Hd Hc Hpos Q.
  assert (Hl' : 0 < zl < zs) by lra.
  set (f := volume_integrand DA DAz DCt dRdz arcsec DOUBLE_CONE zl zs pad (0.5 * oa)).
  change (volume_MPC3 DA DAz DCt dRdz arcsec DOUBLE_CONE zl zs oa pad quad < RInt f 0 zs).
  set (l := np_arange 0 zs 0.01).
  destruct (arange_head 0 zs 0.01 ltac:(lra) ltac:(lra)) as [t Et]. fold l in Et.
  assert (Nl : l <> nil) by (rewrite Et; discriminate).
  assert (Hlast : zs - 0.01 <= last l 0 < zs).
  { split. apply arange_last; lra.
    destruct (arange_In 0 zs 0.01 (last l 0) ltac:(lra)) as (i & _ & ?); [apply last_In; auto|lra]. }
  assert (EX : forall a b, 0 <= a <= b -> b <= zs -> ex_RInt f a b).
  { intros a b H1 H2. apply (dc_ex chi DA DAz DCt dRdz arcsec zl zs pad F Hl' Hd Hc); auto. }
  assert (V : volume_MPC3 DA DAz DCt dRdz arcsec DOUBLE_CONE zl zs oa pad quad = RInt f 0 (last l 0)).
  { unfold volume_MPC3. fold l.
    replace 0 with (nth 0 l 0) at 1 by (rewrite Et; reflexivity).
    rewrite <- (slices_sum f 0.01 l); auto.
    - f_equal. apply map_ext_in. intros z Hz. unfold volume_element. fold f.
      rewrite (proj2 (Rltb_true _ _)) by lra. apply Q. apply EX.
      + assert (In z l). { rewrite <- (firstn_skipn (List.length l - 1) l). apply in_or_app; auto. }
        apply arange_In in H; [|lra]. destruct H as (i & _ & ?). lra.
      + (* z is not the last grid point, so z + 0.01 is a grid point *)
        assert (G : forall l, steps 0.01 l -> forall z, In z (firstn (List.length l - 1) l) -> In (z + 0.01) l).
        { clear. induction l as [|a [|b t] IH]; intros St z Hz; [destruct Hz|destruct Hz|].
          destruct St as [E St]. replace (List.length (a :: b :: t) - 1)%nat with (S (List.length (b :: t) - 1)) in Hz by (simpl; lia).
          destruct Hz as [<-|Hz]. right; left; auto. right. apply IH; auto. }
        assert (In (z + 0.01) l) by (apply G; auto; apply arange_steps).
        apply arange_In in H; [|lra]. destruct H as (i & _ & ?). lra.
    - intros; apply EX; lra.
    - lra.
    - apply arange_steps.
    - intros z Hz. apply arange_In in Hz; [|lra]. destruct Hz as (i & _ & ?). lra. }
  rewrite V.
  pose proof (RInt_Chasles (V := R_CompleteNormedModule) f 0 (last l 0) zs (EX 0 (last l 0) ltac:(lra) ltac:(lra)) (EX (last l 0) zs ltac:(lra) ltac:(lra))) as CH.
  change (RInt f 0 (last l 0) + RInt f (last l 0) zs = RInt f 0 zs) in CH.
  assert (0 < RInt f (last l 0) zs); [|lra].
  pose proof (chi_ls chi DA DAz DCt zl zs F Hl') as C.
  set (A := pad * chi zs * chi zl / (chi zs - chi zl)). set (B := 1 - pad * chi zs / (chi zs - chi zl)).
  set (c := PI * (0.5 * oa * arcsec) ^ 2).
  rewrite (RInt_ext f (fun z => c * (A + B * chi z) ^ 2 * dRdz z)).
  - apply RInt_gt_0; [lra| |].
    + intros z Hz. apply Rmult_lt_0_compat; [|apply Hpos; lra]. apply Rmult_lt_0_compat.
      * unfold c. apply Rmult_lt_0_compat. apply PI_RGT_0. apply pow_lt. nra.
      * apply pow_lt. unfold A, B.
        pose proof (fu_incr _ _ _ _ F z zs ltac:(lra) ltac:(lra)). pose proof (fu_incr _ _ _ _ F zl z ltac:(lra) ltac:(lra)).
        replace (pad * chi zs * chi zl / (chi zs - chi zl) + (1 - pad * chi zs / (chi zs - chi zl)) * chi z)
          with ((1 - pad) * chi z + pad * (chi zl * (chi zs - chi z) / (chi zs - chi zl))) by (field; lra).
        assert (0 < chi zl * (chi zs - chi z) / (chi zs - chi zl)) by (apply Rdiv_lt_0_compat; [apply Rmult_lt_0_compat; lra|lra]).
        assert (0 < (1 - pad) * chi z) by (apply Rmult_lt_0_compat; lra).
        assert (0 < pad * (chi zl * (chi zs - chi z) / (chi zs - chi zl))) by (apply Rmult_lt_0_compat; lra).
        lra.
    + intros z Hz. apply (continuous_mult (fun z => c * (A + B * chi z) ^ 2) dRdz); [|apply Hc; lra].
      apply (continuous_mult (fun _ => c)). apply continuous_const.
      assert (CA : continuous (fun z => A + B * chi z) z).
      { apply (continuous_plus (fun _ => A)). apply continuous_const.
        apply (continuous_mult (fun _ => B)). apply continuous_const.
        apply (chi_cont chi dRdz zs Hd); lra. }
      apply (continuous_ext (fun z => (A + B * chi z) * (A + B * chi z))). intros; simpl; ring.
      apply (continuous_mult (fun z => A + B * chi z) (fun z => A + B * chi z)); auto.
  - intros z Hz. rewrite Rmin_left, Rmax_right in Hz by lra.
    unfold f, volume_integrand, angle_to_comoving_area. rewrite (dc_comoving chi) by (auto; lra).
    rewrite (proj2 (Rleb_false _ _)) by lra. unfold c, A, B.
    match goal with |- ?a = ?b => change (@eq R a b) end. field. lra.
Qed.

Print Assumptions C32_double_cone_scale.
Print Assumptions C32_continuous_at_lens.
Print Assumptions C32_double_cone_linear.
Print Assumptions C32_cylinder_and_cone.
Print Assumptions C32_areas.
Print Assumptions C32_names.
Print Assumptions C32_volume_type_refuted.
Print Assumptions C32_double_cone_volume.
Print Assumptions C32_cylinder_volume.
Print Assumptions C32_volume_sum_drops_last_slice_refuted.
