(** C31, C33, C34: spatial distributions, cosmology caches, lens planes. *)
From Verif Require Import Prelude Interp MassFnModel SpaceModel SpaceSpec SpaceProofs SpaceProofs3.

(** ** C31: positions *)

(** a uniform distribution drawn at redshift [z] and expressed in arcsec again *)
Definition rendered_uniform rmax2d kpc z rescale cx cy devs : result (list (R * R)) :=
  do p <- uniform_draw rmax2d kpc z rescale cx cy devs; render_positions kpc z p.
Definition rendered_cone angle scale kpc z cx cy devs : result (list (R * R)) :=
  do p <- lens_cone_draw angle scale kpc z cx cy devs; render_positions kpc z p.

Lemma rendered_uniform_eq rmax2d kpc z rescale cx cy devs k : kpc z = Ok k ->
  rendered_uniform rmax2d kpc z rescale cx cy devs =
  Ok (map (fun d => let p := uniform_point (rmax2d * rescale) cx cy k (fst d) (snd d) in (fst p * / k, snd p * / k)) devs).
Proof.
  intros E. unfold rendered_uniform, uniform_draw, render_positions. destruct devs as [|d t]; [reflexivity|].
  rewrite E. cbn [bind map]. rewrite map_map. reflexivity.
Qed.

(** One position per pair of deviates, all inside the disc of radius |rmax2d * rescale| around the centre. *)
Theorem C31_uniform_in_disc : forall rmax2d kpc z rescale cx cy devs k,
  kpc z = Ok k -> 0 < k -> (forall ua ur, In (ua, ur) devs -> 0 <= ur <= 1) ->
  exists pts, rendered_uniform rmax2d kpc z rescale cx cy devs = Ok pts /\
    List.length pts = List.length devs /\
    (forall x y, In (x, y) pts -> dist2 x y cx cy <= Rabs (rmax2d * rescale)).
Proof.
  intros rmax2d kpc z rescale cx cy devs k E Hk Hu. eexists. split; [eapply rendered_uniform_eq; eauto|].
  split. apply map_length. intros x y Hin. apply in_map_iff in Hin. destruct Hin as ([ua ur] & Ep & Hin).
  cbn [fst snd] in Ep. specialize (Hu _ _ Hin).
  pose proof (uniform_dist (rmax2d * rescale) cx cy k ua ur Hk ltac:(lra)) as D. cbn zeta in Ep, D.
  pose proof (f_equal fst Ep) as Ex. pose proof (f_equal snd Ep) as Ey. cbn [fst snd] in Ex, Ey. rewrite <- Ex, <- Ey, D.
  assert (sqrt ur <= 1) by (rewrite <- sqrt_1; apply sqrt_le_1; lra).
  pose proof (Rabs_pos (rmax2d * rescale)). pose proof (sqrt_pos ur). nra.
Qed.
Example C31_uniform_in_disc_nonvacuous :
  (forall ua ur, In (ua, ur) [(0.25, 0.5); (0.75, 1)] -> 0 <= ur <= 1) /\
  exists pts, rendered_uniform 3 (fun _ => Ok 6.5) 0.5 0.8 1 (-1) [(0.25, 0.5); (0.75, 1)] = Ok pts.
Proof.
  split. intros ua ur [E|[E|[]]]; inversion E; subst; lra.
  eexists. eapply rendered_uniform_eq; reflexivity.
Qed.

(** The lens cone: radius half the opening angle, scaled by the geometry. *)
Theorem C31_lens_cone_in_disc : forall angle scale kpc z cx cy devs k,
  kpc z = Ok k -> 0 < k -> (forall ua ur, In (ua, ur) devs -> 0 <= ur <= 1) ->
  exists pts, rendered_cone angle scale kpc z cx cy devs = Ok pts /\
    List.length pts = List.length devs /\
    (forall x y, In (x, y) pts -> dist2 x y cx cy <= Rabs (angle / 2 * scale z)).
Proof.
  intros angle scale kpc z cx cy devs k E Hk Hu.
  replace (rendered_cone angle scale kpc z cx cy devs) with (rendered_uniform (0.5 * angle) kpc z (scale z) cx cy devs).
  - replace (angle / 2) with (0.5 * angle) by lra. eapply C31_uniform_in_disc; eauto.
  - unfold rendered_uniform, rendered_cone, lens_cone_draw. destruct devs; reflexivity.
Qed.
Example C31_lens_cone_in_disc_nonvacuous :
  exists pts, rendered_cone 6 (fun _ => 0.5) (fun _ => Ok 6.5) 0.5 0 0 [(0.1, 0.3); (0.9, 0)] = Ok pts /\ List.length pts = 2%nat.
Proof. eexists. split. reflexivity. reflexivity. Qed.

(** A uniform radial deviate gives a uniform density: the i-th object is within radius rho iff its deviate is at most
    the fraction of the disc's area enclosed by rho. *)
Theorem C31_uniform_density : forall rmax2d kpc z rescale cx cy devs k rho i,
  kpc z = Ok k -> 0 < k -> (forall ua ur, In (ua, ur) devs -> 0 <= ur <= 1) ->
  0 < rmax2d * rescale -> 0 <= rho -> (i < List.length devs)%nat ->
  exists pts, rendered_uniform rmax2d kpc z rescale cx cy devs = Ok pts /\
    (dist2 (fst (nth i pts (0, 0))) (snd (nth i pts (0, 0))) cx cy <= rho <->
     snd (nth i devs (0, 0)) <= PI * rho ^ 2 / (PI * (rmax2d * rescale) ^ 2)).
Proof.
  intros rmax2d kpc z rescale cx cy devs k rho i E Hk Hu Hr Hrho Hi.
  eexists. split; [eapply rendered_uniform_eq; eauto|].
  set (f := fun d => let p := uniform_point (rmax2d * rescale) cx cy k (fst d) (snd d) in (fst p * / k, snd p * / k)).
  rewrite (nth_indep _ (0, 0) (f (0, 0))) by (rewrite map_length; auto). rewrite map_nth.
  assert (Hin : In (nth i devs (0, 0)) devs) by (apply nth_In; auto).
  destruct (nth i devs (0, 0)) as [ua ur]. specialize (Hu _ _ Hin). unfold f. cbn [fst snd].
  pose proof (uniform_dist (rmax2d * rescale) cx cy k ua ur Hk ltac:(lra)) as D. cbn zeta in D. rewrite D.
  set (r := rmax2d * rescale) in *. rewrite Rabs_pos_eq by lra.
  replace (PI * rho ^ 2 / (PI * r ^ 2)) with ((rho / r) ^ 2) by (field; pose proof PI_RGT_0; lra).
  assert (Q : 0 <= rho / r) by (apply Rmult_le_pos; [auto|left; apply Rinv_0_lt_compat; auto]).
  pose proof (sqrt_pos ur). pose proof (pow2_sqrt ur ltac:(lra)).
  split; intros H1.
  - assert (sqrt ur <= rho / r).
    { apply Rmult_le_reg_l with r; auto. replace (r * (rho / r)) with rho by (field; lra). auto. }
    nra.
  - assert (sqrt ur <= rho / r). { rewrite <- (sqrt_pow2 (rho / r)) by auto. apply sqrt_le_1; lra || apply pow2_ge_0. }
    replace rho with (r * (rho / r)) by (field; lra). nra.
Qed.
Example C31_uniform_density_nonvacuous : 0 < 3 * 0.8 /\ lt 1 (List.length [(0.25, 0.5); (0.75, 1)]) /\
  snd (nth 0 [(0.25, 0.5); (0.75, 1)] (0, 0)) = 0.5.
Proof. repeat split; simpl; try lra; lia. Qed.

(** Projected NFW: radii stay inside the rendering disc and the 3d radius inside r200, for every deviate. *)
Theorem C31_nfw_bounds : forall rmax2d r200 kpc rho2d rho3d u2 ut u3,
  0 < rmax2d -> 1e-3 * rmax2d < r200 -> 0 < kpc ->
  (forall r, 0 < r -> 0 < rho2d r) -> (forall r, 0 < r -> 0 < rho3d r) ->
  0 <= u2 <= 1 -> 0 <= u3 <= 1 ->
  exists x y r3d, nfw_point rmax2d r200 kpc rho2d rho3d u2 ut u3 = Ok (x, y, r3d) /\
    1e-3 * rmax2d * kpc <= dist2 x y 0 0 <= rmax2d * kpc /\
    1e-3 * rmax2d * kpc <= r3d <= r200 * kpc.
Proof.
  intros rmax2d r200 kpc rho2d rho3d u2 ut u3 Hr H3 Hk P2 P3 U2 U3.
  destruct (nfw_radius_spec 2 rho2d (1e-3 * rmax2d) rmax2d ltac:(lia) ltac:(lra) P2) as (A & _).
  destruct (nfw_radius_spec 3 rho3d (1e-3 * rmax2d) r200 ltac:(lia) ltac:(lra) P3) as (B & _).
  destruct (A u2 U2) as (r2 & E2 & B2). destruct (B u3 U3) as (r3 & E3 & B3).
  unfold nfw_point. rewrite E2. cbn [bind]. rewrite E3. cbn [bind].
  exists (r2 * kpc * cos (2 * PI * ut)), (r2 * kpc * sin (2 * PI * ut)), (r3 * kpc). split; auto.
  assert (D : dist2 (r2 * kpc * cos (2 * PI * ut)) (r2 * kpc * sin (2 * PI * ut)) 0 0 = r2 * kpc).
  { unfold dist2. rewrite !Rminus_0_r, !(Rpow_mult_distr _ _ 2), <- Rmult_plus_distr_l.
    replace (cos (2 * PI * ut) ^ 2 + sin (2 * PI * ut) ^ 2) with 1.
    2:{ pose proof (sin2_cos2 (2 * PI * ut)). unfold Rsqr in H. simpl. lra. }
    rewrite Rmult_1_r, <- Rpow_mult_distr. apply sqrt_pow2. nra. }
  rewrite D. split; split; apply Rmult_le_compat_r; lra.
Qed.
Example C31_nfw_bounds_nonvacuous : 0 < 3 /\ 1e-3 * 3 < 50 /\ (forall r, 0 < r -> 0 < 1 / (1 + r)).
Proof. split; [lra|split; [lra|]]. intros. apply Rdiv_lt_0_compat; lra. Qed.

(** The 3d radius is drawn independently of the projected one, so it does not bound it: whatever the densities, some
    deviates give a 3d radius below the projected distance from the host centre. *)
Theorem C31_nfw_3d_radius_below_projected_refuted : forall rmax2d r200 kpc rho2d rho3d,
  0 < rmax2d -> 1e-3 * rmax2d < r200 -> 0 < kpc ->
  (forall r, 0 < r -> 0 < rho2d r) -> (forall r, 0 < r -> 0 < rho3d r) ->
  exists u2 ut u3 x y r3d, 0 <= u2 <= 1 /\ 0 <= ut <= 1 /\ 0 <= u3 <= 1 /\
    nfw_point rmax2d r200 kpc rho2d rho3d u2 ut u3 = Ok (x, y, r3d) /\ r3d < dist2 x y 0 0.
Proof.
  intros rmax2d r200 kpc rho2d rho3d Hr H3 Hk P2 P3.
  destruct (nfw_radius_spec 2 rho2d (1e-3 * rmax2d) rmax2d ltac:(lia) ltac:(lra) P2) as (_ & _ & E2).
  destruct (nfw_radius_spec 3 rho3d (1e-3 * rmax2d) r200 ltac:(lia) ltac:(lra) P3) as (_ & E3 & _).
  exists 1, 0, 0. unfold nfw_point. rewrite E2. cbn [bind]. rewrite E3. cbn [bind].
  do 3 eexists. split; [lra|]. split; [lra|]. split; [lra|]. split; [reflexivity|].
  rewrite Rmult_0_r, cos_0, sin_0, Rmult_1_r, Rmult_0_r. unfold dist2. rewrite !Rminus_0_r.
  replace (_ ^ 2 + 0 ^ 2) with (((rmax2d - (rmax2d - 1e-3 * rmax2d) / 19999) * kpc) ^ 2) by ring.
  rewrite sqrt_pow2; nra.
Qed.

(** ** C33: the cosmology object *)

(** the reply to [q] after the queries [qs] on a fresh object *)
Definition reply (a : astro) (qs : list query) (q : query) : result R := snd (ask a (fst (ask_all a (cosmo_init a) qs)) q).

Lemma reply_answer a qs q : reply a qs q = answer a q.
Proof. unfold reply. apply ask_good. apply (proj1 (ask_all_good a _ qs (init_good a))). Qed.

(** The reply depends on the arguments only, never on what was asked before. *)
Theorem C33_history_independent : forall a qs qs' q, reply a qs q = reply a qs' q.
Proof. intros. rewrite !reply_answer. reflexivity. Qed.
Example C33_history_independent_nonvacuous : [QDAz 0.31; QAge 0.2 5; QDA 0 0.31] <> [] /\ QDAz 0.31 <> QDAz 0.3.
Proof. split. discriminate. intros E; injection E; lra. Qed.

(** Distances between two redshifts are the underlying cosmology's. *)
Theorem C33_pair_distance : forall a qs z1 z2, reply a qs (QDA z1 z2) = Ok (as_DA a z1 z2).
Proof. intros. rewrite reply_answer. reflexivity. Qed.

(** D_A(z): exact at the table's redshifts 0.02, 0.04, ..., 4; between the two neighbouring exact values in between;
    the underlying cosmology outside. *)
Theorem C33_angular_diameter_distance : forall a qs z,
  (forall i, (i < 200)%nat -> z = 0.02 + INR i * 0.02 -> reply a qs (QDAz z) = Ok (as_DA a 0 z)) /\
  (0.02 <= z <= 4 -> exists i v, reply a qs (QDAz z) = Ok v /\ 0.02 + INR i * 0.02 <= z <= 0.02 + INR (S i) * 0.02 /\
     Rmin (as_DA a 0 (0.02 + INR i * 0.02)) (as_DA a 0 (0.02 + INR (S i) * 0.02)) <= v <=
     Rmax (as_DA a 0 (0.02 + INR i * 0.02)) (as_DA a 0 (0.02 + INR (S i) * 0.02))) /\
  (z < 0.02 \/ 4 < z -> reply a qs (QDAz z) = Ok (as_DA a 0 z)).
Proof.
  intros a qs z. rewrite reply_answer. cbn [answer]. unfold v_DAz. rewrite DA_table_eq.
  assert (N : INR 199 = 199) by (rewrite INR_IZR_INZ; reflexivity).
  split; [|split].
  - intros i Hi ->. rewrite grid_node; auto; try lra.
  - intros Hz. assert (D : 0.02 <= z <= 0.02 + INR 199 * 0.02) by (rewrite N; lra).
    apply (grid_domain 0.02 0.02 199 (as_DA a 0) z ltac:(lra)) in D. destruct D as [v E].
    destruct (grid_between 0.02 0.02 199 (as_DA a 0) z v ltac:(lra) ltac:(lia) E) as (i & _ & B & V).
    exists i, v. rewrite E. auto.
  - intros Hz. destruct (interp1d _ z) as [v|e] eqn:E; auto.
    assert (D : 0.02 <= z <= 0.02 + INR 199 * 0.02) by (apply (grid_domain 0.02 0.02 199 (as_DA a 0) z ltac:(lra)); eauto).
    rewrite N in D. lra.
Qed.
Example C33_angular_diameter_distance_nonvacuous : (199 < 200)%nat /\ 4 = 0.02 + INR 199 * 0.02 /\ 0.02 <= 0.5 <= 4.
Proof. rewrite INR_IZR_INZ. repeat split; simpl; lra || lia. Qed.

(** D_C(z), likewise; outside the table it is (1+z) times the angular diameter distance (z = -1 raises). *)
Theorem C33_comoving_distance : forall a qs z,
  (forall i, (i < 200)%nat -> z = 0.02 + INR i * 0.02 -> reply a qs (QDCz z) = Ok (as_DC a z)) /\
  (0.02 <= z <= 4 -> exists i v, reply a qs (QDCz z) = Ok v /\ 0.02 + INR i * 0.02 <= z <= 0.02 + INR (S i) * 0.02 /\
     Rmin (as_DC a (0.02 + INR i * 0.02)) (as_DC a (0.02 + INR (S i) * 0.02)) <= v <=
     Rmax (as_DC a (0.02 + INR i * 0.02)) (as_DC a (0.02 + INR (S i) * 0.02))) /\
  (z < 0.02 \/ 4 < z -> reply a qs (QDCz z) = if Reqb (1 + z) 0 then Err EZeroDivision else Ok ((1 + z) * as_DA a 0 z)).
Proof.
  intros a qs z. rewrite reply_answer. cbn [answer]. unfold v_DCz, v_DAz. rewrite DC_table_eq, DA_table_eq.
  assert (N : INR 199 = 199) by (rewrite INR_IZR_INZ; reflexivity).
  split; [|split].
  - intros i Hi ->. rewrite grid_node; auto; try lra.
  - intros Hz. assert (D : 0.02 <= z <= 0.02 + INR 199 * 0.02) by (rewrite N; lra).
    apply (grid_domain 0.02 0.02 199 (as_DC a) z ltac:(lra)) in D. destruct D as [v E].
    destruct (grid_between 0.02 0.02 199 (as_DC a) z v ltac:(lra) ltac:(lia) E) as (i & _ & B & V).
    exists i, v. rewrite E. auto.
  - intros Hz.
    assert (G : forall f, exists e, interp1d (map (fun z => (z, f z)) (grid 0.02 0.02 (S 199))) z = Err e).
    { intros f. destruct (interp1d _ z) as [v|e] eqn:E; eauto.
      assert (D : 0.02 <= z <= 0.02 + INR 199 * 0.02) by (apply (grid_domain 0.02 0.02 199 f z ltac:(lra)); eauto).
      rewrite N in D. lra. }
    destruct (G (as_DC a)) as [e ->]. destruct (G (as_DA a 0)) as [e' ->]. unfold scale_factor.
    destruct (Reqb (1 + z) 0) eqn:E0; [reflexivity|]. cbn [bind]. f_equal.
    assert (1 + z <> 0) by (intros X; apply Reqb_true in X; congruence). field. auto.
Qed.
Example C33_comoving_distance_nonvacuous : (0 < 0.02 \/ 4 < 0) /\ Reqb (1 + 0) 0 = false.
Proof. split. left; lra. destruct (Reqb (1 + 0) 0) eqn:E; auto. apply Reqb_true in E. lra. Qed.

(** kpc per arcsec: exact at the table's redshifts, bracketed in between, ValueError exactly outside [0.001, 4.001]. *)
Theorem C33_kpc_per_arcsec : forall a qs z,
  (forall i, (i < 161)%nat -> z = 0.001 + INR i * 0.025 -> reply a qs (QKpc z) = Ok (/ as_asec_per_kpc a z)) /\
  (0.001 <= z <= 4.001 -> exists i v, reply a qs (QKpc z) = Ok v /\ 0.001 + INR i * 0.025 <= z <= 0.001 + INR (S i) * 0.025 /\
     Rmin (/ as_asec_per_kpc a (0.001 + INR i * 0.025)) (/ as_asec_per_kpc a (0.001 + INR (S i) * 0.025)) <= v <=
     Rmax (/ as_asec_per_kpc a (0.001 + INR i * 0.025)) (/ as_asec_per_kpc a (0.001 + INR (S i) * 0.025))) /\
  (reply a qs (QKpc z) = Err EValueError <-> z < 0.001 \/ 4.001 < z).
Proof.
  intros a qs z. rewrite reply_answer. cbn [answer]. rewrite kpc_table_eq.
  set (f := fun z => / as_asec_per_kpc a z).
  change (map (fun z0 => (z0, / as_asec_per_kpc a z0)) (grid 0.001 0.025 161)) with (map (fun z0 => (z0, f z0)) (grid 0.001 0.025 161)).
  assert (N : INR 160 = 160) by (rewrite INR_IZR_INZ; reflexivity).
  pose proof (grid_domain 0.001 0.025 160 f z ltac:(lra)) as D. rewrite N in D.
  split; [|split].
  - intros i Hi ->. apply (grid_node 0.001 0.025 161 f); auto; lra.
  - intros Hz. assert (D' := proj2 D ltac:(lra)). destruct D' as [v E].
    destruct (grid_between 0.001 0.025 160 f z v ltac:(lra) ltac:(lia) E) as (i & _ & B & V).
    exists i, v. rewrite E. auto.
  - destruct (interp1d _ z) as [v|e] eqn:E.
    + split; [discriminate|]. assert (0.001 <= z <= 0.001 + 160 * 0.025) by (apply D; eauto). lra.
    + apply interp1d_err in E as E'. subst e. split; auto. intros _.
      destruct (Rlt_dec z 0.001); auto. destruct (Rlt_dec 4.001 z); auto. exfalso.
      destruct (proj2 D ltac:(lra)) as [v Ev]. congruence.
Qed.
Example C33_kpc_per_arcsec_nonvacuous : 0.001 <= 0.5 <= 4.001 /\ 4.001 < 4.5.
Proof. lra. Qed.

(** halo_age: zero when the halo forms after [z]; the difference of the two ages at the table's redshifts; never
    negative when the age decreases with redshift; ValueError outside [0, 20]. *)
Theorem C33_halo_age : forall a qs z zform,
  (0 <= zform <= 20 -> zform < z -> reply a qs (QAge z zform) = Ok 0) /\
  (forall i j, (i <= j < 250)%nat -> z = INR i * (20 / 249) -> zform = INR j * (20 / 249) ->
     reply a qs (QAge z zform) = Ok (as_age a z - as_age a zform)) /\
  (forall v, (forall u w, 0 <= u -> u < w -> as_age a w <= as_age a u) -> reply a qs (QAge z zform) = Ok v -> 0 <= v) /\
  (zform < 0 \/ 20 < zform -> reply a qs (QAge z zform) = Err EValueError).
Proof.
  intros a qs z zf. rewrite reply_answer. cbn [answer]. unfold v_age. rewrite age_table_eq.
  assert (N : INR 249 = 249) by (rewrite INR_IZR_INZ; reflexivity).
  pose proof (fun w => grid_domain 0 (20 / 249) 249 (as_age a) w ltac:(lra)) as D.
  split; [|split; [|split]].
  - intros H1 H2. destruct (proj2 (D zf)) as [v ->]. rewrite N; lra. cbn [bind].
    rewrite (proj2 (Rltb_true _ _)); auto.
  - intros i j Hij -> ->.
    pose proof (grid_node 0 (20 / 249) (S 249) (as_age a) i ltac:(lra) ltac:(lia)) as Ei.
    pose proof (grid_node 0 (20 / 249) (S 249) (as_age a) j ltac:(lra) ltac:(lia)) as Ej.
    rewrite !Rplus_0_l in *. rewrite Ej. cbn [bind].
    assert (INR i <= INR j) by (apply le_INR; lia).
    rewrite (proj2 (Rltb_false _ _)) by nra. rewrite Ei. reflexivity.
  - intros v Hage E.
    destruct (interp1d _ zf) as [t0|] eqn:E0; cbn [bind] in E; [|discriminate].
    destruct (Rltb zf z) eqn:El. injection E as <-; lra.
    destruct (interp1d _ z) as [t|] eqn:E1; cbn [bind] in E; [|discriminate]. injection E as <-.
    apply Rltb_false in El.
    assert (t0 <= t); [|lra].
    eapply (interp1d_anti (as_age a) (grid 0 (20 / 249) (S 249)) z zf t t0); eauto.
    + intros x Hx. unfold grid in Hx. apply in_map_iff in Hx. destruct Hx as (i & <- & _). pose proof (pos_INR i). lra.
    + apply grid_sortedR. lra.
  - intros H. destruct (interp1d _ zf) as [t0|e] eqn:E0; cbn [bind].
    + assert (0 <= zf <= 0 + INR 249 * (20 / 249)) by (apply D; eauto). rewrite N in H0. lra.
    + f_equal. eapply interp1d_err; eauto.
Qed.
Example C33_halo_age_nonvacuous :
  (forall u w, 0 <= u -> u < w -> (fun z => 14 / (1 + z)) w <= (fun z => 14 / (1 + z)) u) /\ (6 <= 60 < 250)%nat.
Proof.
  split; [|lia]. intros u w Hu Hw. cbn. apply Rmult_le_compat_l; [lra|]. apply Rinv_le_contravar; lra.
Qed.

(** An array of redshifts is not treated elementwise: one entry outside the table sends all of them to astropy, so an
    entry inside the table gets a different value than when it is asked for alone. *)
Theorem C33_array_query_refuted : exists a z z',
  reply a [] (QDAz z) <> Ok (nth 0 (DAz_array a [z; z']) 0) /\
  DAz_array a [z] = match reply a [] (QDAz z) with Ok v => [v] | Err _ => [] end.
Proof.
  set (a := {| as_DA := fun _ z => z ^ 2; as_DC := fun z => z; as_asec_per_kpc := fun _ => 1; as_age := fun _ => 0 |}).
  exists a, 0.03, 10. rewrite reply_answer. cbn [answer]. unfold v_DAz, DAz_array. rewrite DA_table_eq.
  assert (E1 : interp1d (map (fun z => (z, as_DA a 0 z)) (grid 0.02 0.02 (S 199))) 0.03 = Ok 0.001).
  { change 199%nat with (S 198). rewrite grid_first_segment by lra. f_equal. unfold a. simpl. lra. }
  assert (E2 : exists e, interp1d (map (fun z => (z, as_DA a 0 z)) (grid 0.02 0.02 (S 199))) 10 = Err e).
  { destruct (interp1d _ 10) as [v|e] eqn:E; eauto. exfalso.
    assert (0.02 <= 10 <= 0.02 + INR 199 * 0.02) by (apply (grid_domain 0.02 0.02 199 (as_DA a 0) 10 ltac:(lra)); eauto).
    replace (INR 199) with 199 in H by (rewrite INR_IZR_INZ; reflexivity). lra. }
  destruct E2 as [e E2]. cbn [mapM bind]. rewrite E1, E2. cbn [bind]. split; auto.
  cbn. intros X; injection X. lra.
Qed.

(** ** C34: lens planes *)

Definition step_of (spacing : option R) : R := match spacing with Some s => s | None => 0.02 end.
Definition first_of (zlens : option R) : R := match zlens with Some l => Rmin 0.01 l | None => 0.01 end.
Definition lens_before (zlens : option R) (zsource : R) : Prop :=
  match zlens with Some l => l < zsource | None => 0.01 < zsource end.
Definition lens_two_decimals (zlens : option R) : Prop := match zlens with Some l => two_decimals l | None => True end.

Lemma grid_first zl zs step : 0 < step -> lens_before zl zs -> exists t, plane_grid zl zs step = first_of zl :: t.
Proof.
  intros Hs Hl. destruct zl as [l|]; cbn in *.
  - destruct (Rlt_dec 0.01 l).
    + destruct (arange_head 0.01 l step Hs r) as [t ->]. rewrite Rmin_left by lra. eexists; reflexivity.
    + rewrite (arange_nil 0.01 l) by lra. destruct (arange_head l zs step Hs Hl) as [t ->].
      rewrite Rmin_right by lra. eexists; reflexivity.
  - apply arange_head; auto.
Qed.

(** Redshifts and spacing given to two decimals: the planes are strictly increasing, start at 0.01 (or at a lens in
    front of it), contain the lens, lie below the source; plane plus spacing is the next plane up to the source; every
    spacing is positive and at most the requested one. *)
Theorem C34_planes_tile : forall zlens zsource spacing,
  0 < step_of spacing -> lens_before zlens zsource ->
  lens_two_decimals zlens -> two_decimals zsource -> two_decimals (step_of spacing) ->
  exists planes dz, generate_lens_plane_redshifts zlens zsource spacing = Ok (planes, dz) /\
    StronglySorted Rlt planes /\ nth 0 planes 0 = first_of zlens /\
    (forall l, zlens = Some l -> In l planes) /\
    (forall z, In z planes -> first_of zlens <= z < zsource) /\
    tiles zsource planes dz /\ total dz = zsource - first_of zlens /\
    (forall d, In d dz -> 0 < d <= step_of spacing).
Proof.
  intros zl zs sp Hs Hl T1 T2 T3. unfold generate_lens_plane_redshifts. fold (step_of sp).
  set (s := step_of sp) in *.
  destruct (Reqb s 0) eqn:E0. { apply Reqb_true in E0. lra. }
  destruct (grid_first zl zs s Hs Hl) as [t Eg]. rewrite Eg.
  assert (G2 : forall z, In z (plane_grid zl zs s) -> two_decimals z).
  { intros z Hz. eapply grid_two; eauto. }
  assert (Hl' : match zl with Some l => l < zs | None => True end) by (destruct zl; auto).
  exists (plane_grid zl zs s), (gaps (plane_grid zl zs s) zs).
  rewrite <- Eg. rewrite map_round2_id by auto. rewrite map_round2_id by (apply gaps_two; auto).
  split; auto. split. apply grid_sorted; auto. split. rewrite Eg; reflexivity.
  split.
  { intros l ->. simpl. apply in_or_app. right. destruct (arange_head l zs s Hs Hl) as [u ->]. left; auto. }
  split. { intros z Hz. unfold first_of. eapply grid_below; eauto. }
  assert (Ti : tiles zs (plane_grid zl zs s) (gaps (plane_grid zl zs s) zs)) by (apply gaps_tiles; rewrite Eg; discriminate).
  split; auto. split. rewrite (tiles_total _ _ _ Ti). rewrite Eg. reflexivity.
  intros d Hd. eapply grid_gaps; eauto.
Qed.
Example C34_planes_tile_nonvacuous : 0 < step_of None /\ lens_before (Some 0.5) 1.5 /\ lens_two_decimals (Some 0.5) /\
  two_decimals 1.5 /\ two_decimals (step_of None) /\ two_decimals (step_of (Some 0.07)) /\ first_of (Some 0.5) = 0.01.
Proof.
  unfold step_of, lens_before, lens_two_decimals, two_decimals, first_of. rewrite Rmin_left by lra.
  split; [lra|]. split; [lra|]. split; [exists 50%Z; lra|]. split; [exists 150%Z; lra|].
  split; [exists 2%Z; lra|]. split; [exists 7%Z; lra|]. reflexivity.
Qed.

(** For arbitrary redshifts and spacings: as many spacings as planes, planes in non-decreasing order, every plane within
    half a percent in redshift of the interval, every spacing within the same distance of a positive gap no longer than
    the requested spacing. *)
Theorem C34_planes_general : forall zlens zsource spacing,
  0 < step_of spacing -> lens_before zlens zsource ->
  exists planes dz, generate_lens_plane_redshifts zlens zsource spacing = Ok (planes, dz) /\
    List.length dz = List.length planes /\ planes <> [] /\
    StronglySorted Rle planes /\
    (forall z, In z planes -> first_of zlens - 5e-3 <= z <= zsource + 5e-3) /\
    (forall d, In d dz -> - 5e-3 <= d <= step_of spacing + 5e-3) /\
    (forall l, zlens = Some l -> exists z, In z planes /\ Rabs (z - l) <= 5e-3).
Proof.
  intros zl zs sp Hs Hl. unfold generate_lens_plane_redshifts. fold (step_of sp).
  set (s := step_of sp) in *.
  destruct (Reqb s 0) eqn:E0. { apply Reqb_true in E0. lra. }
  destruct (grid_first zl zs s Hs Hl) as [t Eg]. rewrite Eg.
  assert (Hl' : match zl with Some l => l < zs | None => True end) by (destruct zl; auto).
  exists (map round2 (plane_grid zl zs s)), (map round2 (gaps (plane_grid zl zs s) zs)).
  rewrite <- Eg. split; auto.
  split. { rewrite !map_length. apply gaps_length. }
  split. { rewrite Eg; discriminate. }
  split.
  { pose proof (grid_sorted zl zs s Hs) as G. clear Eg. induction G; simpl; constructor; auto.
    apply Forall_forall. intros y Hy. apply in_map_iff in Hy. destruct Hy as (x & <- & Hx). apply round2_mono.
    eapply Forall_forall in H; eauto. lra. }
  assert (RC : forall z, z - 5e-3 <= round2 z <= z + 5e-3).
  { intros z. pose proof (round2_close z). apply Rcomplements.Rabs_le_between in H. lra. }
  split.
  { intros z Hz. apply in_map_iff in Hz. destruct Hz as (x & <- & Hx). specialize (RC x).
    assert (first_of zl <= x < zs) by (unfold first_of; eapply grid_below; eauto). lra. }
  split.
  { intros d Hd. apply in_map_iff in Hd. destruct Hd as (x & <- & Hx). specialize (RC x).
    assert (0 < x <= s) by (eapply grid_gaps; eauto). lra. }
  intros l ->. exists (round2 l). split; [|apply round2_close].
  apply in_map. simpl. apply in_or_app. right. destruct (arange_head l zs s Hs Hl) as [u ->]. left; auto.
Qed.
Example C34_planes_general_nonvacuous : 0 < step_of (Some 0.013) /\ lens_before (Some 0.5137) 2.2219.
Proof. unfold step_of, lens_before. lra. Qed.

(** Errors: no plane in front of the source raises IndexError, a zero spacing ZeroDivisionError. *)
Theorem C34_errors : forall zlens zsource spacing,
  (step_of spacing = 0 -> generate_lens_plane_redshifts zlens zsource spacing = Err EZeroDivision) /\
  (0 < step_of spacing -> (zlens = None /\ zsource <= 0.01 \/ exists l, zlens = Some l /\ l <= 0.01 /\ zsource <= l) ->
   generate_lens_plane_redshifts zlens zsource spacing = Err EIndexError).
Proof.
  intros zl zs sp. unfold generate_lens_plane_redshifts. fold (step_of sp). split.
  - intros ->. rewrite (proj2 (Reqb_true 0 0)); auto.
  - intros Hs H. destruct (Reqb (step_of sp) 0) eqn:E0. { apply Reqb_true in E0. lra. }
    destruct H as [(-> & H)|(l & -> & H1 & H2)]; simpl.
    + rewrite arange_nil by auto. reflexivity.
    + rewrite !arange_nil by auto. reflexivity.
Qed.
Example C34_errors_nonvacuous : step_of (Some 0) = 0 /\ 0 < step_of None /\ 0.005 <= 0.01.
Proof. unfold step_of. lra. Qed.

Lemma round2_val x n : Rabs (100 * x - IZR n) < 1 / 2 -> round2 x = IZR n / 100.
Proof.
  intros H. unfold round2. f_equal. f_equal. apply (MassFnProofs.nearest_even_unique (100 * x)).
  apply MassFnProofs.np_round_spec. split; lra.
Qed.

(** A lens redshift with three decimals is not among the planes: they are rounded to two. *)
Theorem C34_lens_plane_missing_refuted : exists zlens zsource planes dz, 0.01 < zlens < zsource /\
  generate_lens_plane_redshifts (Some zlens) zsource None = Ok (planes, dz) /\ ~ In zlens planes.
Proof.
  assert (Hs : 0 < step_of None) by (simpl; lra).
  destruct (C34_planes_general (Some 0.5049) 1 None Hs) as (planes & dz & E & _); [simpl; lra|].
  exists 0.5049, 1, planes, dz. split; [lra|]. split; auto.
  intros Hin. unfold generate_lens_plane_redshifts in E.
  destruct (Reqb 0.02 0); [discriminate|]. destruct (plane_grid _ _ _) eqn:Eg; [discriminate|]. injection E as E _.
  assert (exists x, 0.5049 = round2 x) as [x Ex].
  { rewrite <- E in Hin. destruct Hin as [H|H]. eexists; symmetry; exact H.
    apply in_map_iff in H. destruct H as (y & Hy & _). eauto. }
  unfold round2 in Ex.
  assert (IZR (np_round (100 * x)) = 50.49) by lra.
  assert (50 < np_round (100 * x) < 51)%Z by (split; apply lt_IZR; lra). lia.
Qed.

(** A spacing finer than the rounding repeats planes and gives zero spacings. *)
Theorem C34_repeated_planes_refuted : exists zsource planes dz, 
  generate_lens_plane_redshifts None zsource (Some 0.004) = Ok (planes, dz) /\
  nth 0 planes 0 = nth 1 planes 1 /\ nth 0 dz 1 = 0.
Proof.
  exists 0.016. unfold generate_lens_plane_redshifts.
  destruct (Reqb 0.004 0) eqn:E0. { apply Reqb_true in E0. lra. }
  assert (Eg : plane_grid None 0.016 0.004 = [0.01; 0.014]).
  { simpl. rewrite (arange_grid _ _ _ 2) by lra. unfold grid. simpl. f_equal. lra. f_equal. lra. }
  rewrite Eg. do 2 eexists. split; [reflexivity|]. simpl.
  rewrite (round2_val 0.01 1), (round2_val 0.014 1), (round2_val (0.014 - 0.01) 0).
  split; lra.
  all: apply Rabs_def1; lra.
Qed.

Print Assumptions C31_uniform_in_disc.
Print Assumptions C31_lens_cone_in_disc.
Print Assumptions C31_uniform_density.
Print Assumptions C31_nfw_bounds.
Print Assumptions C31_nfw_3d_radius_below_projected_refuted.
Print Assumptions C33_history_independent.
Print Assumptions C33_pair_distance.
Print Assumptions C33_angular_diameter_distance.
Print Assumptions C33_comoving_distance.
Print Assumptions C33_kpc_per_arcsec.
Print Assumptions C33_halo_age.
Print Assumptions C33_array_query_refuted.
Print Assumptions C34_planes_tile.
Print Assumptions C34_planes_general.
Print Assumptions C34_errors.
Print Assumptions C34_lens_plane_missing_refuted.
Print Assumptions C34_repeated_planes_refuted.
