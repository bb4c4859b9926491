From Coquelicot Require Import Coquelicot.
From Verif Require Import Prelude Interp MassFnModel MassFnSpec MassFnProofs SpaceModel SpaceSpec SpaceProofs.

(** *** geometry in a flat universe *)
Section Flat.
  Variables (chi : R -> R) (DA : R -> R -> R) (DAz DCt dRdz : R -> R) (arcsec zl zs oa pad : R).
  Hypothesis F : flat_universe chi DA DAz DCt.
  Hypothesis Hl : 0 < zl < zs.

  Lemma chi_pos z : 0 < z -> 0 < chi z.
  Proof. intros. rewrite <- (fu_zero _ _ _ _ F). apply (fu_incr _ _ _ _ F); lra. Qed.
  Lemma chi_ls : 0 < chi zl < chi zs.
  Proof. split. apply chi_pos; lra. apply (fu_incr _ _ _ _ F); lra. Qed.
  Lemma chi_mono z z' : 0 <= z <= z' -> chi z <= chi z'.
  Proof. intros. destruct (Req_dec z z'). subst; lra. left; apply (fu_incr _ _ _ _ F); lra. Qed.

  Lemma dc_front z : z <= zl -> rendering_scale DA DAz DCt DOUBLE_CONE zl zs pad z = 1.
  Proof. intros. simpl. rewrite (proj2 (Rleb_true _ _)); auto. Qed.
  Lemma dc_behind z : zl < z -> rendering_scale DA DAz DCt DOUBLE_CONE zl zs pad z =
    1 - pad * (chi zs / (chi zs - chi zl)) * ((chi z - chi zl) / chi z).
  Proof.
    intros. simpl. rewrite (proj2 (Rleb_false _ _)) by lra. unfold reduced_to_phys.
    rewrite !(fu_DA _ _ _ _ F), (fu_DAz _ _ _ _ F), (fu_zero _ _ _ _ F) by lra.
    pose proof chi_ls. pose proof (chi_pos z ltac:(lra)). field. repeat split; lra.
  Qed.
  Lemma dc_comoving r z : 0 <= z -> angle_to_comovingradius DA DAz DCt arcsec DOUBLE_CONE zl zs pad r z =
    r * arcsec * (if Rleb z zl then chi z else chi z - pad * chi zs * ((chi z - chi zl) / (chi zs - chi zl))).
  Proof.
    intros. unfold angle_to_comovingradius, angle_to_physicalradius.
    destruct (Rleb z zl) eqn:E.
    - apply Rleb_true in E. rewrite dc_front by auto. rewrite (fu_DAz _ _ _ _ F) by auto. field. lra.
    - apply Rleb_false in E. rewrite dc_behind by lra. rewrite (fu_DAz _ _ _ _ F) by auto.
      pose proof chi_ls. pose proof (chi_pos z ltac:(lra)). field. lra.
  Qed.
  Lemma cyl_comoving r z : 0 < z -> angle_to_comovingradius DA DAz DCt arcsec CYLINDER zl zs pad r z = r * arcsec * chi zl.
  Proof.
    intros. unfold angle_to_comovingradius, angle_to_physicalradius. simpl.
    rewrite (fu_DAz _ _ _ _ F), !(fu_DC _ _ _ _ F) by lra. pose proof (chi_pos z H). field. lra.
  Qed.

  (** volumes *)
  Hypothesis Hd : forall z, 0 <= z <= zs -> is_derive chi z (dRdz z).
  Hypothesis Hc : forall z, 0 <= z <= zs -> continuous dRdz z.

  Lemma chi_cont z : 0 <= z <= zs -> continuous chi z.
  Proof. intros. apply (ex_derive_continuous chi z). exists (dRdz z). apply Hd; auto. Qed.

  (** primitive of (A + B chi)^2 chi' *)
  Lemma is_RInt_sq c A B a b : 0 <= a -> a <= b -> b <= zs ->
    is_RInt (fun z => c * (A + B * chi z) ^ 2 * dRdz z) a b
      (c * ((A ^ 2 * chi b + A * B * chi b ^ 2 + B ^ 2 * chi b ^ 3 / 3) - (A ^ 2 * chi a + A * B * chi a ^ 2 + B ^ 2 * chi a ^ 3 / 3))).
  Proof.
    intros Ha Hab Hb.
    set (P := fun z => c * (A ^ 2 * chi z + A * B * chi z ^ 2 + B ^ 2 * chi z ^ 3 / 3)).
    assert (H : is_RInt (fun z => c * (A + B * chi z) ^ 2 * dRdz z) a b (minus (P b) (P a))).
    - apply (is_RInt_derive (V := R_CompleteNormedModule) P).
      + intros z Hz. rewrite Rmin_left, Rmax_right in Hz by auto. unfold P.
        auto_derive. repeat split; exists (dRdz z); apply Hd; lra.
        replace (Derive (fun x : R => chi x) z) with (dRdz z) by (symmetry; apply is_derive_unique, Hd; lra).
        field.
      + intros z Hz. rewrite Rmin_left, Rmax_right in Hz by auto.
        apply (continuous_mult (fun z => c * (A + B * chi z) ^ 2) dRdz); [|apply Hc; lra].
        apply (continuous_mult (fun _ => c)). apply continuous_const.
        assert (CA : continuous (fun z => A + B * chi z) z).
        { apply (continuous_plus (fun _ => A)). apply continuous_const.
          apply (continuous_mult (fun _ => B)). apply continuous_const. apply chi_cont; lra. }
        apply (continuous_ext (fun z => (A + B * chi z) * (A + B * chi z))). intros; simpl; ring.
        apply (continuous_mult (fun z => A + B * chi z) (fun z => A + B * chi z)); auto.
    - replace (c * _) with (minus (P b) (P a)); auto. unfold P, minus, plus, opp; simpl. ring.
  Qed.

  Definition dc_integrand := volume_integrand DA DAz DCt dRdz arcsec DOUBLE_CONE zl zs pad.
  Lemma dc_front_int r a b : 0 <= a <= b -> b <= zl ->
    is_RInt (dc_integrand r) a b (PI * (r * arcsec) ^ 2 * (chi b ^ 3 - chi a ^ 3) / 3).
  Proof.
    intros Hab Hb. pose proof (is_RInt_sq (PI * (r * arcsec) ^ 2) 0 1 a b ltac:(lra) ltac:(lra) ltac:(lra)) as I.
    replace (PI * (r * arcsec) ^ 2 * (chi b ^ 3 - chi a ^ 3) / 3) with
      (PI * (r * arcsec) ^ 2 * (0 ^ 2 * chi b + 0 * 1 * chi b ^ 2 + 1 ^ 2 * chi b ^ 3 / 3 -
        (0 ^ 2 * chi a + 0 * 1 * chi a ^ 2 + 1 ^ 2 * chi a ^ 3 / 3))) by field.
    eapply is_RInt_ext; [|exact I]. intros z Hz. rewrite Rmin_left, Rmax_right in Hz by lra.
    unfold dc_integrand, volume_integrand, angle_to_comoving_area. rewrite dc_comoving by lra.
    rewrite (proj2 (Rleb_true _ _)) by lra. match goal with |- ?a = ?b => change (@eq R a b) end. ring.
  Qed.
  Lemma dc_back_int r a b : zl <= a <= b -> b <= zs ->
    exists v, is_RInt (dc_integrand r) a b v.
  Proof.
    intros Hab Hb. pose proof chi_ls.
    pose proof (is_RInt_sq (PI * (r * arcsec) ^ 2) (pad * chi zs * chi zl / (chi zs - chi zl))
                  (1 - pad * chi zs / (chi zs - chi zl)) a b ltac:(lra) ltac:(lra) ltac:(lra)) as I.
    eexists. eapply is_RInt_ext; [|exact I]. intros z Hz. rewrite Rmin_left, Rmax_right in Hz by lra.
    unfold dc_integrand, volume_integrand, angle_to_comoving_area. rewrite dc_comoving by lra.
    rewrite (proj2 (Rleb_false _ _)) by lra. match goal with |- ?a = ?b => change (@eq R a b) end. field. lra.
  Qed.
  Lemma dc_back_total r :
    is_RInt (dc_integrand r) zl zs (PI * (r * arcsec) ^ 2 * (chi zs - chi zl) *
      (chi zl ^ 2 + chi zl * ((1 - pad) * chi zs) + ((1 - pad) * chi zs) ^ 2) / 3).
  Proof.
    pose proof chi_ls.
    pose proof (is_RInt_sq (PI * (r * arcsec) ^ 2) (pad * chi zs * chi zl / (chi zs - chi zl))
                  (1 - pad * chi zs / (chi zs - chi zl)) zl zs ltac:(lra) ltac:(lra) ltac:(lra)) as I.
    match type of I with is_RInt _ _ _ ?v => replace (PI * (r * arcsec) ^ 2 * (chi zs - chi zl) *
      (chi zl ^ 2 + chi zl * ((1 - pad) * chi zs) + ((1 - pad) * chi zs) ^ 2) / 3) with v by (field; lra) end.
    eapply is_RInt_ext; [|exact I]. intros z Hz. rewrite Rmin_left, Rmax_right in Hz by lra.
    unfold dc_integrand, volume_integrand, angle_to_comoving_area. rewrite dc_comoving by lra.
    rewrite (proj2 (Rleb_false _ _)) by lra. match goal with |- ?a = ?b => change (@eq R a b) end. field. lra.
  Qed.
  Lemma dc_total r : is_RInt (dc_integrand r) 0 zs
    (PI * (r * arcsec) ^ 2 * chi zl ^ 3 / 3 + PI * (r * arcsec) ^ 2 * (chi zs - chi zl) *
      (chi zl ^ 2 + chi zl * ((1 - pad) * chi zs) + ((1 - pad) * chi zs) ^ 2) / 3).
  Proof.
    pose proof (dc_front_int r 0 zl ltac:(lra) ltac:(lra)) as I1. rewrite (fu_zero _ _ _ _ F) in I1.
    replace (chi zl ^ 3 - 0 ^ 3) with (chi zl ^ 3) in I1 by ring.
    exact (is_RInt_Chasles _ 0 zl zs _ _ I1 (dc_back_total r)).
  Qed.
  Lemma dc_ex r a b : 0 <= a <= b -> b <= zs -> ex_RInt (dc_integrand r) a b.
  Proof.
    intros. destruct (Rle_dec b zl). eexists; apply dc_front_int; lra.
    destruct (Rle_dec zl a). destruct (dc_back_int r a b); try lra. eexists; eauto.
    destruct (dc_back_int r zl b) as [v ?]; try lra.
    eexists. eapply is_RInt_Chasles; [apply (dc_front_int r a zl); lra|eauto].
  Qed.
  Lemma cyl_total r : is_RInt (volume_integrand DA DAz DCt dRdz arcsec CYLINDER zl zs pad r) 0 zs
    (PI * (r * arcsec * chi zl) ^ 2 * chi zs).
  Proof.
    pose proof (is_RInt_sq (PI * (r * arcsec * chi zl) ^ 2) 1 0 0 zs ltac:(lra) ltac:(lra) ltac:(lra)) as I.
    match type of I with is_RInt _ _ _ ?v => replace (PI * (r * arcsec * chi zl) ^ 2 * chi zs) with v
      by (rewrite (fu_zero _ _ _ _ F); field) end.
    eapply is_RInt_ext; [|exact I]. intros z Hz. rewrite Rmin_left, Rmax_right in Hz by lra.
    unfold volume_integrand, angle_to_comoving_area. rewrite cyl_comoving by lra.
    match goal with |- ?a = ?b => change (@eq R a b) end. ring.
  Qed.
End Flat.
