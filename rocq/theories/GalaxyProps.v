(** C98: galaxies that replace massive halos (classes SIS and MassiveGalaxy). *)
From Coquelicot Require Import Coquelicot.
From Verif Require Import Prelude MassFnModel MassFnSpec MassFnProofs NfwModel GalaxyModel.
From Verif Require NfwProps.

(** ** Specification *)

(** What lenstronomy documents about its profile: the enclosed mass is the volume integral of the density and is proportional
    to the deflection at the scale radius. *)
Record is_profile (p : dpl) : Prop := {
  ip_mass : forall R0 rs a gi go, 0 < R0 -> 0 < rs -> is_RInt (fun x => 4 * PI * x ^ 2 * d_rho p x rs a gi go) 0 R0 (d_m3d p R0 rs a gi go);
  ip_linear : forall R0 rs a gi go, 0 < R0 -> 0 < rs -> d_m3d p R0 rs a gi go = a * d_m3d p R0 rs 1 gi go;
  ip_pos : forall R0 rs gi go, 0 < R0 -> 0 < rs -> 0 < d_m3d p R0 rs 1 gi go }.

(** Solar masses per unit of the dimensionless lensing mass in arcsec^2 at the redshift of the galaxy *)
Definition mass_unit (e : genv) : R :=
  get_sigma_crit_lensing (ge_C e) (b_z (ge_base e)) (ge_zs e) * 1e-6 * co_kpc (ge_C e) (b_z (ge_base e)) ^ 2.

(** Histories of the documented interface *)
Definition public (o : op) : Prop := o <> OAlpha.
Definition no_lensing (o : op) : Prop := match o with OLens _ | ODensity _ _ => False | _ => True end.
Definition no_set_infall (o : op) : Prop := match o with OSetZinf _ => False | _ => True end.
Definition is_rescale (o : op) : bool := match o with ORescale _ _ _ => true | _ => false end.
(** the factor of the replaced halo after a history *)
Definition factor_after (n : R) (h : list op) : R := fold_left (fun n o => match o with OBaseRescale m => m | _ => n end) h n.
Definition after (e : genv) (cls : gclass) (s : gal) (h : list op) : gal := snd (run e cls s h).
Definition answer (e : genv) (cls : gclass) (s : gal) (o : op) : out := fst (step e cls s o).

(** ** Lemmas *)
Lemma after_cons e cls s o h : after e cls s (o :: h) = after e cls (snd (step e cls s o)) h.
Proof. unfold after. simpl. destruct (step e cls s o). simpl. destruct (run e cls g h). reflexivity. Qed.

Lemma factor_kept e cls s h : g_bnorm (after e cls s h) = factor_after (g_bnorm s) h.
Proof.
  revert s. induction h as [|o h IH]; intros s; [reflexivity|].
  rewrite after_cons, IH. unfold factor_after. simpl. f_equal.
  destruct o; simpl; auto.
  - destruct cls; simpl; unfold sis_lens, massive_lens, sis_sigma, call_alphaRs, read_zinf.
    + destruct (g_kw s); auto. destruct (g_sigma s); auto.
    + destruct (g_kw s); auto. destruct (b_sub _); [destruct (g_zinf s)|]; destruct (g_alpha s) eqn:E; simpl; try rewrite E; simpl; auto.
  - destruct cls; simpl; auto. unfold massive_lens, call_alphaRs, read_zinf.
    destruct (g_kw s) as [[]|]; auto. destruct (b_sub _); [destruct (g_zinf s)|]; destruct (g_alpha s) eqn:E; simpl; try rewrite E; simpl; auto.
  - unfold read_zinf. destruct (g_zinf s); auto.
  - destruct (b_sub _); auto.
  - destruct cls, rmax; auto. destruct (b_sub _); auto. unfold read_zinf. destruct (g_zinf s); auto.
  - unfold rescale. destruct (_ || _); auto.
  - destruct cls; auto. unfold call_alphaRs. destruct (g_alpha s); auto.
Qed.

(** The reachable states under the public interface: the shadowing attribute exists only together with the keyword cache, and the
    cache has the shape of the class *)
Definition shape (cls : gclass) (k : gkw) : Prop := match cls, k with CSIS, KwSIS _ _ _ => True | CMassive, KwDPL _ _ _ _ _ _ => True | _, _ => False end.
Definition sane (cls : gclass) (s : gal) : Prop :=
  (g_alpha s = None \/ cls = CMassive /\ g_kw s <> None) /\ forall k, g_kw s = Some k -> shape cls k.

Lemma sane_new cls x y n : sane cls (new_galaxy x y n).
Proof. split; simpl; auto. discriminate. Qed.

Lemma sane_step e cls s o : public o -> sane cls s -> sane cls (snd (step e cls s o)).
Proof.
  intros P [A B]. destruct o; simpl; try (split; simpl; auto; fail).
  - destruct cls; simpl.
    + assert (A' : g_alpha s = None) by (destruct A as [A|[A _]]; [auto | discriminate]).
      unfold sis_lens, sis_sigma. destruct (g_kw s) eqn:K; simpl; [split; [auto | rewrite K; auto]|].
      destruct (g_sigma s); simpl; split; simpl; auto; intros k [= <-]; exact I.
    + unfold massive_lens. destruct (g_kw s) eqn:K; simpl; [split; [right; split; [auto | congruence] | rewrite K; auto]|].
      destruct A as [A|[_ A]]; [|congruence]. unfold call_alphaRs, read_zinf.
      destruct (b_sub _); [destruct (g_zinf s)|]; simpl; rewrite ?A; simpl; split; simpl; try (right; split; [auto | discriminate]); intros k [= <-]; exact I.
  - destruct cls; simpl; [split; auto|].
    unfold massive_lens. destruct (g_kw s) eqn:K; simpl.
    + specialize (B g eq_refl). destruct g; simpl in B; try contradiction. simpl. split; [right; split; [auto | congruence] | rewrite K; intros k [= <-]; exact I].
    + destruct A as [A|[_ A]]; [|congruence]. unfold call_alphaRs, read_zinf.
      destruct (b_sub _); [destruct (g_zinf s)|]; simpl; rewrite ?A; simpl; split; simpl; try (right; split; [auto | discriminate]); intros k [= <-]; exact I.
  - unfold read_zinf. destruct (g_zinf s); split; simpl; auto.
  - destruct (b_sub _); split; simpl; auto.
  - destruct cls, rmax; try (split; auto; fail). destruct (b_sub _); [|split; auto]. unfold read_zinf. destruct (g_zinf s); split; simpl; auto.
  - unfold rescale. destruct (_ || _) eqn:E; [|split; auto]. destruct cls; split; simpl; auto; try discriminate.
    destruct A as [A|[A _]]; [auto | discriminate].
  - destruct P. reflexivity.
Qed.

Lemma sane_after e cls s h : List.Forall public h -> sane cls s -> sane cls (after e cls s h).
Proof.
  revert s. induction h as [|o h IH]; intros s P S0; [exact S0|].
  apply Forall_cons_iff in P. destruct P as [P1 P2]. rewrite after_cons. apply IH; auto. apply sane_step; auto.
Qed.

Lemma uncached_step e s o : no_lensing o -> g_kw s = None -> g_kw (snd (step e CMassive s o)) = None.
Proof.
  intros N K. destruct o; simpl in *; try contradiction; auto.
  - unfold read_zinf. destruct (g_zinf s); auto.
  - destruct (b_sub _); auto.
  - destruct rmax; auto. destruct (b_sub _); auto. unfold read_zinf. destruct (g_zinf s); auto.
  - unfold rescale. destruct (_ || _); auto.
  - unfold call_alphaRs. destruct (g_alpha s); auto.
Qed.
Lemma uncached_after e s h : List.Forall no_lensing h -> g_kw s = None -> g_kw (after e CMassive s h) = None.
Proof.
  revert s. induction h as [|o h IH]; intros s P K; [exact K|].
  apply Forall_cons_iff in P. destruct P as [P1 P2]. rewrite after_cons. apply IH; auto. apply uncached_step; auto.
Qed.

Lemma lens_first e u s : g_kw s = None -> g_alpha s = None ->
  massive_lens e u s = (fst (massive_lens e u s), snd (massive_lens e u s)) /\
  fst (massive_lens e u s) = Ok (KwDPL (np_round_to 10 (alphaRs_value e s)) (np_round_to 10 (gal_rs (ge_base e) / co_kpc (ge_C e) (b_z (ge_base e)))) 2 5
                                   (np_round_to 4 (g_x s)) (np_round_to 4 (g_y s))).
Proof.
  intros K A. split; [apply surjective_pairing|]. unfold massive_lens. rewrite K. unfold call_alphaRs, read_zinf, alphaRs_value.
  destruct (b_sub _); [destruct (g_zinf s)|]; simpl; rewrite ?A; simpl; reflexivity.
Qed.

Lemma round_to_err d x : Rabs (np_round_to d x - x) <= / 2 / 10 ^ d.
Proof.
  unfold np_round_to. assert (T : 0 < 10 ^ d) by (apply pow_lt; lra).
  replace (IZR (np_round (x * 10 ^ d)) / 10 ^ d - x) with (- (x * 10 ^ d - IZR (np_round (x * 10 ^ d))) / 10 ^ d) by (field; lra).
  unfold Rdiv at 1. rewrite Rabs_mult, Rabs_Ropp, (Rabs_right (/ 10 ^ d)) by (left; apply Rinv_0_lt_compat; auto).
  apply Rmult_le_compat_r. left; apply Rinv_0_lt_compat; auto.
  destruct (np_round_spec (x * 10 ^ d)) as [H _]. lra.
Qed.

Lemma scaled_mass (f : R -> R) (k c R0 I : R) : 0 < k -> is_RInt (fun x => 4 * PI * x ^ 2 * f x) 0 (R0 / k) I ->
  is_RInt (fun r => 4 * PI * r ^ 2 * (c / k * f (r / k))) 0 R0 (c * k ^ 2 * I).
Proof.
  intros Hk H.
  assert (E : is_RInt (fun y => scal (/ k) ((fun x => 4 * PI * x ^ 2 * f x) (/ k * y + 0))) 0 R0 I).
  { apply (is_RInt_comp_lin (V:=R_NormedModule) (fun x => 4 * PI * x ^ 2 * f x) (/ k) 0 0 R0 I). replace (/ k * 0 + 0) with 0 by ring.
    replace (/ k * R0 + 0) with (R0 / k) by (unfold Rdiv; ring). exact H. }
  apply (is_RInt_scal (V:=R_NormedModule)) with (k := c * k ^ 2) in E.
  eapply is_RInt_ext; [|exact E].
  intros r _. unfold scal. simpl. unfold mult. simpl. rewrite Rplus_0_r. replace (/ k * r) with (r / k) by (unfold Rdiv; ring).
  generalize (f (r / k)). intros v. match goal with |- ?a = ?b => change (@eq R a b) end. field. lra.
Qed.

(** ** C98 *)

(** The density that a galaxy reports integrates, over the virial sphere of the halo it replaces, to the mass that lenstronomy
    assigns to the keywords handed to it.  So the physical density and the lensing keywords describe the same object. *)
Theorem C98_mass e x y n h u : is_profile (ge_prof e) -> 0 < co_kpc (ge_C e) (b_z (ge_base e)) -> 0 < b_r200 (ge_base e) ->
  List.Forall public h -> List.Forall no_lensing h ->
  let s := after e CMassive (new_galaxy x y n) h in
  let kpc := co_kpc (ge_C e) (b_z (ge_base e)) in
  exists a rs x' y' rho, answer e CMassive s (OLens u) = OutKw (KwDPL a rs 2 5 x' y') /\
    (forall r, answer e CMassive s (ODensity u r) = OutNum (rho r)) /\
    (0 < rs -> is_RInt (fun r => 4 * PI * r ^ 2 * rho r) 0 (b_r200 (ge_base e)) (mass_unit e * d_m3d (ge_prof e) (b_r200 (ge_base e) / kpc) rs a 2 5)).
Proof.
  intros IP Hk Hr P N s kpc.
  assert (K : g_kw s = None) by (apply uncached_after; auto).
  assert (A : g_alpha s = None).
  { destruct (sane_after e CMassive (new_galaxy x y n) h P (sane_new _ _ _ _)) as [[A|[_ A]] _]; auto. fold s in A. congruence. }
  destruct (lens_first e u s K A) as [E1 E2].
  do 4 eexists. exists (fun r => get_sigma_crit_lensing (ge_C e) (b_z (ge_base e)) (ge_zs e) * 1e-6 / kpc *
    d_rho (ge_prof e) (r / kpc) (np_round_to 10 (gal_rs (ge_base e) / kpc)) (np_round_to 10 (alphaRs_value e s)) 2 5).
  split; [|split].
  - unfold answer. simpl. rewrite E1, E2. simpl. reflexivity.
  - intros r. unfold answer. simpl. rewrite E1, E2. simpl. reflexivity.
  - intros Hrs. cbv beta. unfold mass_unit. fold kpc.
    apply (scaled_mass (fun v => d_rho (ge_prof e) v _ _ 2 5)); auto. apply (ip_mass _ IP); auto. apply Rdiv_lt_0_compat; auto.
Qed.

(** Mass conservation: that mass is the mass of the replaced halo inside its virial radius, to half a unit in the tenth decimal of
    the deflection angle (the scale radius being a multiple of 1e-10 arcsec, so that its rounding is exact). *)
Theorem C98_conserved e x y n h u : is_profile (ge_prof e) -> 0 < co_kpc (ge_C e) (b_z (ge_base e)) -> 0 < b_r200 (ge_base e) ->
  0 < gal_rs (ge_base e) -> 0 < mass_unit e -> List.Forall public h -> List.Forall no_lensing h ->
  let s := after e CMassive (new_galaxy x y n) h in
  let kpc := co_kpc (ge_C e) (b_z (ge_base e)) in
  np_round_to 10 (gal_rs (ge_base e) / kpc) = gal_rs (ge_base e) / kpc ->
  exists rho M, (forall r, answer e CMassive s (ODensity u r) = OutNum (rho r)) /\
    is_RInt (fun r => 4 * PI * r ^ 2 * rho r) 0 (b_r200 (ge_base e)) M /\
    Rabs (M - b_m200 (ge_base e) (factor_after n h)) <= / 2 / 10 ^ 10 * mass_unit e * d_m3d (ge_prof e) (b_r200 (ge_base e) / kpc) (gal_rs (ge_base e) / kpc) 1 2 5.
Proof.
  intros IP Hk Hr Hg Hm P N s kpc Hrnd. fold kpc in Hk.
  assert (K : g_kw s = None) by (apply uncached_after; auto).
  assert (A : g_alpha s = None).
  { destruct (sane_after e CMassive (new_galaxy x y n) h P (sane_new _ _ _ _)) as [[A|[_ A]] _]; auto. fold s in A. congruence. }
  destruct (lens_first e u s K A) as [E1 E2].
  assert (Hrk : 0 < gal_rs (ge_base e) / kpc) by (apply Rdiv_lt_0_compat; auto).
  assert (HRk : 0 < b_r200 (ge_base e) / kpc) by (apply Rdiv_lt_0_compat; auto).
  pose proof (ip_pos _ IP _ _ 2 5 HRk Hrk) as HP.
  exists (fun r => get_sigma_crit_lensing (ge_C e) (b_z (ge_base e)) (ge_zs e) * 1e-6 / kpc *
    d_rho (ge_prof e) (r / kpc) (gal_rs (ge_base e) / kpc) (np_round_to 10 (alphaRs_value e s)) 2 5).
  exists (mass_unit e * d_m3d (ge_prof e) (b_r200 (ge_base e) / kpc) (gal_rs (ge_base e) / kpc) (np_round_to 10 (alphaRs_value e s)) 2 5).
  split; [|split].
  - intros r. unfold answer. simpl. rewrite E1, E2. fold kpc. rewrite Hrnd. simpl. reflexivity.
  - unfold mass_unit. fold kpc. apply (scaled_mass (fun v => d_rho (ge_prof e) v _ _ 2 5)); auto. apply (ip_mass _ IP); auto.
  - rewrite (ip_linear _ IP) by auto. set (Q := d_m3d _ _ _ 1 2 5) in *.
    assert (EA : b_m200 (ge_base e) (factor_after n h) = mass_unit e * (alphaRs_value e s * Q)).
    { assert (F : g_bnorm s = factor_after n h) by (unfold s; rewrite factor_kept; reflexivity).
      unfold alphaRs_value. rewrite F. fold kpc. fold Q. unfold mass_unit in *. fold kpc. fold kpc in Hm.
      set (S0 := get_sigma_crit_lensing _ _ _) in *. clearbody S0 kpc Q.
      assert (S0 <> 0). { intros ->. rewrite !Rmult_0_l in Hm. lra. }
      replace (0.001 * kpc) with (kpc / 1000) by (unfold Rdiv; lra). replace (1e-6) with (/ 1000000) by lra. field. repeat split; auto; lra. }
    rewrite EA. replace (mass_unit e * (np_round_to 10 (alphaRs_value e s) * Q) - mass_unit e * (alphaRs_value e s * Q))
      with ((np_round_to 10 (alphaRs_value e s) - alphaRs_value e s) * (mass_unit e * Q)) by ring.
    rewrite Rabs_mult, (Rabs_right (mass_unit e * Q)) by (left; apply Rmult_lt_0_compat; auto).
    rewrite Rmult_assoc. apply Rmult_le_compat_r; [left; apply Rmult_lt_0_compat; auto | apply round_to_err].
Qed.

(** Once the keywords have been read they never change, whatever is done to the galaxy afterwards: neither moving it nor rescaling
    it nor rescaling the halo it replaced is seen. *)
Lemma kw_step e s o k : g_kw s = Some k -> g_kw (snd (step e CMassive s o)) = Some k.
Proof.
  intros K. destruct o; simpl; auto.
  - unfold massive_lens. rewrite K. auto.
  - unfold massive_lens. rewrite K. destruct k; auto.
  - unfold read_zinf. destruct (g_zinf s); auto.
  - destruct (b_sub _); auto.
  - destruct rmax; auto. destruct (b_sub _); auto. unfold read_zinf. destruct (g_zinf s); auto.
  - unfold rescale. destruct (_ || _); auto.
  - unfold call_alphaRs. destruct (g_alpha s); auto.
Qed.
Lemma kw_after e s h k : g_kw s = Some k -> g_kw (after e CMassive s h) = Some k.
Proof. revert s. induction h as [|o h IH]; intros s K; [exact K|]. rewrite after_cons. apply IH, kw_step, K. Qed.

Theorem C98_frozen e s u k h u' : answer e CMassive s (OLens u) = OutKw k ->
  answer e CMassive (after e CMassive s (OLens u :: h)) (OLens u') = OutKw k.
Proof.
  intros H. rewrite after_cons. unfold answer in *. simpl in *.
  assert (K : g_kw (snd (massive_lens e u s)) = Some k).
  { unfold massive_lens in *. destruct (g_kw s) eqn:K; simpl in *; [congruence|].
    destruct (call_alphaRs e _) as [[a|?] s2]; simpl in *; congruence. }
  replace (snd (let (r, s') := massive_lens e u s in (out_of_kw r, s'))) with (snd (massive_lens e u s)) by (destruct (massive_lens e u s); reflexivity).
  apply (kw_after e _ h) in K. set (t := after _ _ _ _) in *. unfold massive_lens. rewrite K. reflexivity.
Qed.

Lemma sigma_step e s o v : g_sigma s = Some v -> g_sigma (snd (step e CSIS s o)) = Some v.
Proof.
  intros K. destruct o; simpl; auto.
  - unfold sis_lens, sis_sigma. destruct (g_kw s); auto. rewrite K. auto.
  - unfold read_zinf. destruct (g_zinf s); auto.
  - destruct (b_sub _); auto.
  - unfold rescale. destruct (_ || _); auto.
Qed.

(** The isothermal galaxy keeps its Einstein radius for ever; only its position may be refreshed. *)
Definition sis_inv (e : genv) (th : R) (s : gal) : Prop :=
  exists v, g_sigma s = Some v /\ th = thetaE_from_sigma (ge_C e) (ge_zs e) (b_z (ge_base e)) v /\
    forall k, g_kw s = Some k -> exists x y, k = KwSIS th x y.
Lemma sis_inv_step e th s o : sis_inv e th s -> sis_inv e th (snd (step e CSIS s o)).
Proof.
  intros (v & V & T & F). exists v. split; [apply sigma_step; auto|]. split; auto.
  intros k. destruct o; simpl; auto.
  - unfold sis_lens, sis_sigma. destruct (g_kw s) eqn:K; simpl; [rewrite K; auto|]. rewrite V. simpl. intros [= <-]. rewrite T. eauto.
  - unfold read_zinf. destruct (g_zinf s); auto.
  - destruct (b_sub _); auto.
  - unfold rescale. destruct (_ || _); auto. simpl. discriminate.
Qed.
Lemma sis_inv_after e th s h : sis_inv e th s -> sis_inv e th (after e CSIS s h).
Proof. revert s. induction h as [|o h IH]; intros s K; [exact K|]. rewrite after_cons. apply IH, sis_inv_step, K. Qed.

Theorem C98_einstein e x y n h u u' h' : let th := thetaE_from_sigma (ge_C e) (ge_zs e) (b_z (ge_base e)) (0.646 * b_vmax (ge_base e) (factor_after n h)) in
  (forall o, In o h -> no_lensing o) ->
  let s := after e CSIS (new_galaxy x y n) h in
  (exists x1 y1, answer e CSIS s (OLens u) = OutKw (KwSIS th x1 y1)) /\
  exists x2 y2, answer e CSIS (after e CSIS s (OLens u :: h')) (OLens u') = OutKw (KwSIS th x2 y2).
Proof.
  intros th N s.
  assert (U : g_kw s = None /\ g_sigma s = None).
  { assert (G : forall h s, (forall o, In o h -> no_lensing o) -> g_kw s = None /\ g_sigma s = None -> g_kw (after e CSIS s h) = None /\ g_sigma (after e CSIS s h) = None).
    { clear. induction h as [|o h IH]; intros s N [A B]; [auto|]. rewrite after_cons. apply IH; [intros; apply N; right; auto|].
      specialize (N o (or_introl eq_refl)). destruct o; simpl in *; try contradiction; auto.
      - unfold read_zinf. destruct (g_zinf s); auto.
      - destruct (b_sub _); auto.
      - unfold rescale. destruct (_ || _); auto. }
    apply G; auto. }
  destruct U as [K Sg].
  assert (F : g_bnorm s = factor_after n h) by (unfold s; rewrite factor_kept; reflexivity).
  assert (E : sis_lens e s = (Ok (KwSIS th (np_round_to 4 (g_x s)) (np_round_to 4 (g_y s))), snd (sis_lens e s))).
  { unfold sis_lens, sis_sigma. rewrite K, Sg. simpl. rewrite F. reflexivity. }
  split.
  - unfold answer. simpl. rewrite E. simpl. eauto.
  - rewrite after_cons. simpl. rewrite E. simpl.
    assert (I0 : sis_inv e th (snd (sis_lens e s))).
    { unfold sis_lens, sis_sigma. rewrite K, Sg. simpl. exists (0.646 * b_vmax (ge_base e) (g_bnorm s)). rewrite F. simpl.
      split; auto. split; auto. intros k [= <-]. eauto. }
    apply (sis_inv_after e th _ h') in I0. destruct I0 as (v & V & T & I0). set (t := after _ _ _ h') in *.
    unfold answer. simpl. unfold sis_lens, sis_sigma. destruct (g_kw t) eqn:Kt.
    + destruct (I0 _ eq_refl) as (x2 & y2 & ->). simpl. eauto.
    + rewrite V. simpl. rewrite T. eauto.
Qed.

(** The Einstein radius grows as the square of the peak velocity. *)
Theorem C98_velocity C zs z v k : thetaE_from_sigma C zs z (0.646 * (k * v)) = k ^ 2 * thetaE_from_sigma C zs z (0.646 * v).
Proof. unfold thetaE_from_sigma, Rdiv. ring. Qed.

(** rescale_normalization does nothing that can be observed on a galaxy of class MassiveGalaxy: deleting all its calls from any
    history leaves every other answer unchanged. *)
Definition answers (e : genv) (cls : gclass) (s : gal) (h : list op) : list (op * out) := combine h (fst (run e cls s h)).
Definition same_but_norm (s t : gal) : Prop :=
  g_x s = g_x t /\ g_y s = g_y t /\ g_kw s = g_kw t /\ g_sigma s = g_sigma t /\ g_alpha s = g_alpha t /\ g_zinf s = g_zinf t /\
  g_setbound s = g_setbound t /\ g_bnorm s = g_bnorm t.
Lemma same_step e s t o : same_but_norm s t -> fst (step e CMassive s o) = fst (step e CMassive t o) /\ same_but_norm (snd (step e CMassive s o)) (snd (step e CMassive t o)).
Proof.
  intros S0. pose proof S0 as (A & B & C & D & E & F & G & H).
  assert (AV : alphaRs_value e s = alphaRs_value e t) by (unfold alphaRs_value; rewrite H; reflexivity).
  destruct o; simpl; auto.
  - unfold massive_lens, call_alphaRs, read_zinf. rewrite C. destruct (g_kw t) eqn:K; simpl; auto.
    rewrite F. destruct (b_sub _); [destruct (g_zinf t) eqn:Z|]; simpl; rewrite ?E, ?AV; destruct (g_alpha t) eqn:Q; simpl;
      unfold alphaRs_value; simpl; rewrite ?H, ?A, ?B; simpl; repeat split; simpl; try congruence; auto.
  - unfold massive_lens, call_alphaRs, read_zinf. rewrite C. destruct (g_kw t) as [k0|] eqn:K9; [destruct k0|]; simpl; auto.
    rewrite F. destruct (b_sub _); [destruct (g_zinf t) eqn:Z|]; simpl; rewrite ?E, ?AV; destruct (g_alpha t) eqn:Q; simpl;
      unfold alphaRs_value; simpl; rewrite ?H, ?A, ?B; simpl; repeat split; simpl; try congruence; auto.
  - rewrite H. auto.
  - unfold read_zinf. rewrite F. destruct (g_zinf t) eqn:Z; simpl; auto. repeat split; simpl; try congruence; auto.
  - destruct (b_sub _); simpl; auto. repeat split; simpl; try congruence; auto.
  - repeat split; simpl; try congruence; auto.
  - destruct rmax; auto. destruct (b_sub _); auto. split; auto. unfold read_zinf. rewrite F. destruct (g_zinf t); simpl; auto. repeat split; simpl; try congruence; auto.
  - split; auto. unfold rescale. destruct (force || negb (g_once s)), (force || negb (g_once t)); simpl; repeat split; simpl; try congruence; auto.
  - repeat split; simpl; try congruence; auto.
  - repeat split; simpl; try congruence; auto.
  - unfold call_alphaRs. rewrite E. destruct (g_alpha t) eqn:Q; simpl; auto. rewrite AV. repeat split; simpl; try congruence; auto.
Qed.
Lemma same_rescale e s f fo lo : same_but_norm (snd (step e CMassive s (ORescale f fo lo))) s.
Proof. simpl. unfold rescale. destruct (_ || _); repeat split; auto. Qed.
Lemma same_trans r s t : same_but_norm r s -> same_but_norm s t -> same_but_norm r t.
Proof. unfold same_but_norm. intuition congruence. Qed.

Theorem C98_rescale e s h : filter (fun p => negb (is_rescale (fst p))) (answers e CMassive s h) = answers e CMassive s (filter (fun o => negb (is_rescale o)) h).
Proof.
  assert (G : forall h s t, same_but_norm s t -> filter (fun p => negb (is_rescale (fst p))) (answers e CMassive s h) = answers e CMassive t (filter (fun o => negb (is_rescale o)) h)).
  { clear. induction h as [|o h IH]; intros s t S0; [reflexivity|].
    unfold answers in *. simpl run. simpl filter at 2.
    destruct (is_rescale o) eqn:R0.
    - destruct o; try discriminate. destruct (step e CMassive s (ORescale factor force log)) as [a s1] eqn:E1.
      specialize (IH s1 t). destruct (run e CMassive s1 h) as [l s2] eqn:E2. simpl. apply IH.
      apply same_trans with s; auto. pose proof (same_rescale e s factor force log) as Q. rewrite E1 in Q. exact Q.
    - destruct (same_step e s t o S0) as [Q1 Q2].
      destruct (step e CMassive s o) as [a s1] eqn:E1. simpl in Q1, Q2. specialize (IH s1 (snd (step e CMassive t o)) Q2).
      destruct (run e CMassive s1 h) as [l s2] eqn:E2. simpl. rewrite R0. simpl.
      destruct (step e CMassive t o) as [a' t1]. simpl in *. destruct (run e CMassive t1 _) as [l' t2]. simpl in *. subst a'. f_equal. exact IH. }
  apply G. repeat split.
Qed.

(** The infall redshift of a galaxy is sampled afresh by its first reader (its lensing keywords count as a reader) and is then
    stable as long as nobody sets it. *)
Lemma zinf_step e cls s o z : no_set_infall o -> g_zinf s = Some z -> g_zinf (snd (step e cls s o)) = Some z.
Proof.
  intros N Z. destruct o; simpl in *; auto.
  - destruct cls; simpl; unfold sis_lens, massive_lens, sis_sigma, call_alphaRs, read_zinf.
    + destruct (g_kw s); auto. destruct (g_sigma s); auto.
    + destruct (g_kw s); auto. destruct (b_sub _); rewrite ?Z; simpl; destruct (g_alpha s); simpl; rewrite ?Z; auto.
  - destruct cls; simpl; auto. unfold massive_lens, call_alphaRs, read_zinf.
    destruct (g_kw s) as [[]|]; auto. destruct (b_sub _); rewrite ?Z; simpl; destruct (g_alpha s); simpl; rewrite ?Z; auto.
  - unfold read_zinf. rewrite Z. auto.
  - contradiction.
  - destruct cls, rmax; auto. destruct (b_sub _); auto. unfold read_zinf. rewrite Z. auto.
  - unfold rescale. destruct (_ || _); auto.
  - destruct cls; auto. unfold call_alphaRs. destruct (g_alpha s); auto.
Qed.
Theorem C98_infall e cls s u z h u' : answer e cls s (OZinf u) = OutNum z -> List.Forall no_set_infall h ->
  answer e cls (after e cls s (OZinf u :: h)) (OZinf u') = OutNum z.
Proof.
  intros H N. rewrite after_cons. unfold answer in *. simpl in *.
  assert (Z : g_zinf (snd (step e cls s (OZinf u))) = Some z).
  { simpl. unfold read_zinf in *. destruct (g_zinf s) eqn:E; simpl in *; [rewrite E|]; congruence. }
  assert (G : forall h s, List.Forall no_set_infall h -> g_zinf s = Some z -> g_zinf (after e cls s h) = Some z).
  { clear. induction h as [|o h IH]; intros s N Z; [exact Z|]. apply Forall_cons_iff in N. destruct N. rewrite after_cons. apply IH; auto. apply zinf_step; auto. }
  apply (G h) in Z; auto. simpl in Z. set (t := after _ _ _ h) in *. unfold read_zinf. rewrite Z. reflexivity.
Qed.

(** Bound mass: that of the replaced halo for subhalos, whatever was given to set_bound_mass; an exception for field halos. *)
Theorem C98_bound e cls x y n h : answer e cls (after e cls (new_galaxy x y n) h) OBound =
  if b_sub (ge_base e) then OutNum (b_bound (ge_base e) (factor_after n h)) else OutErr EException.
Proof. unfold answer. simpl. rewrite factor_kept. reflexivity. Qed.

(** Which questions fail, in every state the documented interface can reach: enclosed masses and slopes always, the concentration
    and the density of an isothermal galaxy always, bound mass and setting the infall redshift exactly for field halos.  Everything
    else is always answered. *)
Definition fails (cls : gclass) (sub : bool) (o : op) : bool :=
  match o with
  | OMass3d _ _ | OSlope _ => true
  | OConc | ODensity _ _ => match cls with CSIS => true | CMassive => false end
  | OBound | OSetZinf _ => negb sub
  | _ => false
  end.
Theorem C98_answered e cls x y n h o : List.Forall public h -> public o ->
  ((exists err, answer e cls (after e cls (new_galaxy x y n) h) o = OutErr err) <-> fails cls (b_sub (ge_base e)) o = true).
Proof.
  intros P Po. pose proof (sane_after e cls _ h P (sane_new cls x y n)) as [A B].
  set (s := after _ _ _ h) in *. clearbody s. unfold answer.
  assert (ok : forall v, (exists err : Prelude.err, OutNum v = OutErr err) <-> false = true) by (split; [intros [? ?]; discriminate | discriminate]).
  assert (okk : forall v, (exists err : Prelude.err, OutKw v = OutErr err) <-> false = true) by (split; [intros [? ?]; discriminate | discriminate]).
  assert (oku : (exists err : Prelude.err, OutUnit = OutErr err) <-> false = true) by (split; [intros [? ?]; discriminate | discriminate]).
  assert (bad : forall x0, (exists err : Prelude.err, OutErr x0 = OutErr err) <-> true = true) by (split; eauto).
  destruct o; simpl; auto.
  - destruct cls; simpl.
    + unfold sis_lens, sis_sigma. destruct (g_kw s); simpl; auto. destruct (g_sigma s); simpl; auto.
    + unfold massive_lens. destruct (g_kw s) eqn:K; simpl; auto. destruct A as [A|[_ A]]; [|congruence].
      unfold call_alphaRs, read_zinf. destruct (b_sub _); [destruct (g_zinf s)|]; simpl; rewrite ?A; simpl; auto.
  - destruct cls; simpl; auto. unfold massive_lens. destruct (g_kw s) as [k|] eqn:K; simpl; auto.
    + specialize (B k eq_refl). destruct k; simpl in *; [contradiction | auto].
    + destruct A as [A|[_ A]]; [|congruence].
      unfold call_alphaRs, read_zinf. destruct (b_sub _); [destruct (g_zinf s)|]; simpl; rewrite ?A; simpl; auto.
  - destruct (b_sub _); simpl; auto.
  - unfold read_zinf. destruct (g_zinf s); simpl; auto.
  - destruct (b_sub _); simpl; auto.
  - destruct cls; simpl; auto.
  - destruct Po. reflexivity.
Qed.

(** ** Deviations *)

(** The profile used in the examples: a singular isothermal sphere of unit mass per arcsec *)
Definition demo_prof : dpl := mkDpl (fun x _ a _ _ => a / (4 * PI * x ^ 2)) (fun R0 _ a _ _ => a * R0).
Lemma demo_profile : is_profile demo_prof.
Proof.
  split; simpl.
  - intros R0 rs a _ _ H _.
    apply is_RInt_ext with (f := fun _ => a).
    + intros x. rewrite Rmin_left, Rmax_right by lra. intros Hx. match goal with |- ?p = ?q => change (@eq R p q) end.
      field. split; [lra | apply PI_neq0].
    + pose proof (is_RInt_const (V:=R_NormedModule) 0 R0 a) as Q. unfold scal in Q. simpl in Q. unfold mult in Q. simpl in Q.
      replace (a * R0) with ((R0 - 0) * a) by ring. exact Q.
  - intros. ring.
  - intros. lra.
Qed.

(** lengths in Mpc; one arcsec is five kpc *)
Definition demo_cosmo : cosmo := {| co_h := 0.7; co_rhoc := 2.77 * 10 ^ 11; co_E := fun z => 1 + z; co_DA := fun a b => 1000 * (b - a);
  co_DAz := fun z => 1000 * z; co_age := fun z => 13 / (1 + z); co_kpc := fun _ => 5; co_Om0 := 0.3; co_rhoc_astropy := 1.3 * 10 ^ 11 |}.
Definition demo_base : base := mkBase true 0.5 8 10 25 200 3 (fun n => n * 10 ^ 11) (fun n => n * 4 * 10 ^ 10) (fun n => sqrt n * 150).
Definition demo_env : genv := mkGenv demo_cosmo 2 demo_prof demo_base.

Lemma sigma_crit_pos C z zs : 0 < co_DA C z zs -> 0 < co_DAz C z -> 0 < co_DAz C zs -> 0 < get_sigma_crit_lensing C z zs.
Proof.
  intros A B D. unfold get_sigma_crit_lensing.
  destruct NfwProps.constants_pos as (Hc & Hg & _).
  assert (Hp := PI_RGT_0).
  assert (0 < 4 * PI * Grav) by (apply Rmult_lt_0_compat; [lra | auto]).
  apply Rmult_lt_0_compat.
  - apply Rmult_lt_0_compat; [apply pow_lt; auto | apply Rinv_0_lt_compat; auto].
  - apply Rmult_lt_0_compat; [apply Rmult_lt_0_compat; auto; apply Rinv_0_lt_compat; auto | apply Rinv_0_lt_compat; auto].
Qed.
Lemma demo_unit : 0 < mass_unit demo_env.
Proof.
  unfold mass_unit. simpl. apply Rmult_lt_0_compat; [apply Rmult_lt_0_compat; [apply sigma_crit_pos; simpl; lra | lra] | lra].
Qed.
Lemma round_int d n : np_round_to d (IZR n) = IZR n.
Proof.
  unfold np_round_to. rewrite pow_IZR, <- mult_IZR.
  replace (np_round (IZR (n * 10 ^ Z.of_nat d))) with (n * 10 ^ Z.of_nat d)%Z.
  - rewrite mult_IZR. field. apply not_0_IZR. apply Z.pow_nonzero; lia.
  - apply (nearest_even_unique (IZR (n * 10 ^ Z.of_nat d))); [|apply np_round_spec].
    split; rewrite Rminus_diag_eq, Rabs_R0; auto; lra.
Qed.

Example C98_mass_nonvacuous : is_profile (ge_prof demo_env) /\ 0 < co_kpc (ge_C demo_env) (b_z (ge_base demo_env)) /\ 0 < b_r200 (ge_base demo_env) /\
  List.Forall public [OZinf 2; OMove 1 1; OBaseRescale 2] /\ List.Forall no_lensing [OZinf 2; OMove 1 1; OBaseRescale 2].
Proof. repeat split; simpl; try lra; try apply demo_profile; repeat constructor; discriminate. Qed.
Example C98_conserved_nonvacuous : 0 < gal_rs (ge_base demo_env) /\ 0 < mass_unit demo_env /\
  np_round_to 10 (gal_rs (ge_base demo_env) / co_kpc (ge_C demo_env) (b_z (ge_base demo_env))) = gal_rs (ge_base demo_env) / co_kpc (ge_C demo_env) (b_z (ge_base demo_env)).
Proof. split; [simpl; unfold gal_rs; simpl; lra|]. split; [apply demo_unit|]. unfold gal_rs. simpl. replace (10 / 5) with (IZR 2) by lra. apply round_int. Qed.
Example C98_frozen_nonvacuous : exists k, answer demo_env CMassive (new_galaxy 0.5 0.25 1) (OLens 2) = OutKw k.
Proof. eexists. unfold answer. simpl. unfold massive_lens. simpl. reflexivity. Qed.
Example C98_einstein_nonvacuous : (forall o, In o [OMove 1 2; ORescale 2 false true] -> no_lensing o) /\ 0 < b_vmax demo_base 1.
Proof. split. intros o [<-|[<-|[]]]; exact I. simpl. rewrite sqrt_1. lra. Qed.
Example C98_infall_nonvacuous : answer demo_env CMassive (after demo_env CMassive (new_galaxy 0 0 1) [OLens 2]) (OZinf 7) = OutNum 2 /\
  List.Forall no_set_infall [OLens 1; OMove 3 4].
Proof. split; [unfold answer, after; simpl; reflexivity | repeat constructor]. Qed.
Example C98_answered_nonvacuous : List.Forall public [OLens 2; ORescale 3 true true; ODensity 1 10] /\ public (OLens 1) /\ fails CMassive true (OLens 1) = false /\ fails CSIS true (OMass3d 1 None) = true.
Proof. repeat split; repeat constructor; discriminate. Qed.

(** The infall redshift of the replaced subhalo is lost: the galaxy reports another one. *)
Theorem C98_infall_refuted : ~ forall e cls x y n u, b_sub (ge_base e) = true -> answer e cls (new_galaxy x y n) (OZinf u) = OutNum (b_zinf (ge_base e)).
Proof. intros H. specialize (H demo_env CMassive 0 0 1 2 eq_refl). unfold answer in H. simpl in H. injection H. lra. Qed.

(** A galaxy does not follow a move made after its keywords have been read. *)
Theorem C98_move_refuted : ~ forall e s u x y, match answer e CMassive (after e CMassive s [OLens u; OMove x y]) (OLens u) with
  | OutKw (KwDPL _ _ _ _ x' y') => x' = np_round_to 4 x /\ y' = np_round_to 4 y | _ => False end.
Proof.
  intros H. specialize (H demo_env (new_galaxy 0 0 1) 2 1 1).
  assert (E : answer demo_env CMassive (after demo_env CMassive (new_galaxy 0 0 1) [OLens 2; OMove 1 1]) (OLens 2) =
    OutKw (KwDPL (np_round_to 10 (alphaRs_value demo_env (new_galaxy 0 0 1))) (np_round_to 10 (10 / 5)) 2 5 (np_round_to 4 0) (np_round_to 4 0))) by reflexivity.
  rewrite E in H. destruct H as [H _]. rewrite !(round_int 4) in H. lra.
Qed.

(** rescale_normalization is documented to rescale the normalization; a galaxy ignores it. *)
Theorem C98_rescale_refuted : ~ forall e s u f, answer e CMassive s (OLens u) <> OutErr ETypeError -> f <> 1 ->
  answer e CMassive (after e CMassive s [ORescale f true true]) (OLens u) <> answer e CMassive s (OLens u).
Proof.
  intros H. apply (H demo_env (new_galaxy 0 0 1) 2 3); [unfold answer; simpl; unfold massive_lens; simpl; discriminate | lra | reflexivity].
Qed.

(** Calling the normalisation helper once before the keywords are read makes every later read of the keywords fail. *)
Theorem C98_helper_refuted : ~ forall e s u, (exists v, answer e CMassive s OAlpha = OutNum v) -> exists k, answer e CMassive (after e CMassive s [OAlpha]) (OLens u) = OutKw k.
Proof.
  intros H. destruct (H demo_env (new_galaxy 0 0 1) 2) as [k E].
  - eexists. unfold answer. simpl. reflexivity.
  - unfold answer, after in E. simpl in E. discriminate.
Qed.

Print Assumptions C98_mass.
Print Assumptions C98_conserved.
Print Assumptions C98_frozen.
Print Assumptions C98_einstein.
Print Assumptions C98_velocity.
Print Assumptions C98_rescale.
Print Assumptions C98_infall.
Print Assumptions C98_bound.
Print Assumptions C98_answered.
Print Assumptions C98_infall_refuted.
Print Assumptions C98_move_refuted.
Print Assumptions C98_rescale_refuted.
Print Assumptions C98_helper_refuted.
