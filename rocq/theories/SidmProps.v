(** C56: SIDM-evolved profiles. *)
From Verif Require Import Prelude MassFnModel MassFnProofs NfwModel NfwSpec NfwProofs3 NfwProps SidmModel SidmProofs SidmProofs2.
Local Open Scope string_scope.
Local Open Scope R_scope.
Local Open Scope list_scope.

(** For every time and scale radius the evolved core radius is positive and smaller than the evolved scale radius, which
    is never more than 14 per cent above the initial one. *)
Theorem C56_radii : forall t rs_0 rs rc, 0 <= t -> 0 < rs_0 -> evolve_profile t rs_0 = (rs, rc) ->
  0 < rs <= 1.14 * rs_0 /\ / 10 ^ 7 * rs <= rc /\ 0 < rc < rs.
Proof.
  intros t r0 rs rc Ht Hr E. unfold evolve_profile in E. injection E as <- <-.
  assert (Hu : 0 <= Rmin 1.6 t <= 1.6) by (split; [apply Rmin_glb; lra|apply Rmin_l]).
  destruct (evolution_bounds _ Hu) as [[B1 B2] B3]. set (u := Rmin 1.6 t) in *. clearbody u. clear Hu.
  assert (P : 0 < r0 * rs_evolution u) by (apply Rmult_lt_0_compat; assumption).
  assert (Q : r0 * rc_evolution u < r0 * rs_evolution u) by (apply Rmult_lt_compat_l; assumption).
  split; [split; [exact P|nra]|]. set (a := r0 * rs_evolution u) in *. set (b := r0 * rc_evolution u) in *. clearbody a b.
  split; [apply Rmax_l|]. split.
  - eapply Rlt_le_trans; [|apply Rmax_l]. lra.
  - apply Rmax_lub_lt; lra.
Qed.
Example C56_radii_nonvacuous : exists rs rc, evolve_profile 0.7 2 = (rs, rc) /\ 0 < rc < rs.
Proof.
  destruct (evolve_profile 0.7 2) as [rs rc] eqn:E. exists rs, rc. split; [reflexivity|]. apply (C56_radii 0.7 2 rs rc); [lra|lra|exact E].
Qed.

(** At time zero the halo is the NFW halo, with a core of one ten-millionth of the scale radius; past 1.6 collapse times
    nothing changes any more; the evolution is self-similar. *)
Theorem C56_limits : forall rs_0, 0 < rs_0 ->
  evolve_profile 0 rs_0 = (rs_0, / 10 ^ 7 * rs_0) /\
  (forall t, 1.6 <= t -> evolve_profile t rs_0 = evolve_profile 1.6 rs_0) /\
  (forall t k, 0 < k -> evolve_profile t (k * rs_0) = (k * fst (evolve_profile t rs_0), k * snd (evolve_profile t rs_0))).
Proof.
  intros r0 Hr. split; [|split].
  - unfold evolve_profile. rewrite Rmin_right by lra. unfold rs_evolution, rc_evolution.
    replace (Rleb 0 1) with true by (symmetry; apply Rleb_true; lra). rewrite rs_poly_0, rc_poly_0, Rmult_1_r, Rmult_0_r.
    rewrite Rmax_left by lra. reflexivity.
  - intros t Ht. unfold evolve_profile. rewrite (Rmin_left 1.6 t) by lra. rewrite (Rmin_left 1.6 1.6) by lra. reflexivity.
  - intros t k Hk. unfold evolve_profile. cbn [fst snd]. rewrite !Rmult_assoc. apply f_equal2; [reflexivity|].
    rewrite <- RmaxRmult by lra. f_equal; ring.
Qed.
Example C56_limits_nonvacuous : evolve_profile 3 5 = evolve_profile 1.6 5 /\ evolve_profile 0 5 = (5, / 10 ^ 7 * 5).
Proof. destruct (C56_limits 5) as (A & B & _); [lra|]. split; [apply B; lra|exact A]. Qed.

(** The density normalisation is positive at all times and one at time zero. *)
Theorem C56_density : (forall t, 0 <= t -> 0 < rho_s_evolution t) /\ rho_s_evolution 0 = 1.
Proof.
  split; [exact rho_s_pos|]. unfold rho_s_evolution. pose proof ln001. replace (0.001 + 0) with 0.001 by lra.
  replace ((1 - 0.692896) / ln 0.001 * ln 0.001) with (1 - 0.692896) by (field; lra). lra.
Qed.

(** The array version agrees with the scalar one at every position. *)
Theorem C56_vectorised : forall l : list (R * R),
  let (rs, rc) := evolve_profile_vectorized (map fst l) (map snd l) in
  map (fun p => evolve_profile (fst p) (snd p)) l = combine rs rc.
Proof.
  intros l. rewrite evolve_vectorized_spec. induction l as [|p l IH]; cbn [map combine]; [reflexivity|]. rewrite IH.
  destruct (evolve_profile (fst p) (snd p)); reflexivity.
Qed.
Example C56_vectorised_nonvacuous : let l := (0.3, 1) :: (1.2, 2) :: (4, 3) :: nil in
  let (rs, rc) := evolve_profile_vectorized (map fst l) (map snd l) in
  map (fun p => evolve_profile (fst p) (snd p)) l = combine rs rc.
Proof. apply C56_vectorised. Qed.

(** What lenstronomy guarantees about its TNFWC profile: amplitude and density are proportional to the normalisation, and
    the density of a profile with unit deflection is positive. *)
Definition proportional (P : tnfwc) : Prop :=
  (forall a Rs rc rt, tc_alpha2rho0 P a Rs rc rt = a * tc_alpha2rho0 P 1 Rs rc rt) /\
  (forall r Rs rho0 rc rt, tc_density P r Rs rho0 rc rt = rho0 * tc_density P r Rs 1 rc rt) /\
  (forall r Rs rc rt, 0 < r -> 0 < Rs -> 0 < rc -> 0 < rt -> 0 < density_lens P r Rs 1 rc rt).

(** The radii at which the mass is summed: 250 of them, increasing, from 10^-4 scale radii to [c] scale radii. *)
Definition radii (rs_0 c : R) : list R := map (fun x => x * rs_0) (logspace (- 4) (log10 c) 250).
Theorem C56_radii_grid : forall rs_0 c, 0 < rs_0 -> / 10 ^ 4 < c ->
  List.length (radii rs_0 c) = 250%nat /\ nth 0 (radii rs_0 c) 0 = / 10 ^ 4 * rs_0 /\ nth 249 (radii rs_0 c) 0 = c * rs_0 /\
  forall i, (i < 249)%nat -> nth i (radii rs_0 c) 0 < nth (S i) (radii rs_0 c) 0.
Proof.
  intros r0 c Hr Hc. unfold radii. rewrite grid_list.
  split; [rewrite map_length, seq_length; reflexivity|].
  split; [rewrite nth_map_seq by lia; rewrite grid_0; reflexivity|].
  split; [rewrite nth_map_seq by lia; rewrite grid_249 by lra; reflexivity|].
  intros i Hi. rewrite !nth_map_seq by lia. apply Rmult_lt_compat_r; [exact Hr|]. apply grid_lt; [exact Hc|lia].
Qed.
Example C56_radii_grid_nonvacuous : nth 249 (radii 2 10) 0 = 10 * 2.
Proof. apply C56_radii_grid; lra. Qed.

(** The universe ages with decreasing redshift. *)
Definition ageing (C : cosmo) : Prop := forall z z', 0 <= z -> z <= z' -> co_age C z' <= co_age C z.

Lemma eff_nonneg C o : ageing C -> 0 <= sh_z o -> 0 <= sh_zinf o -> (sh_sub o = true -> 0 <= argd "lambda_t" o) -> 0 <= eff C o.
Proof.
  intros A Z I L. unfold eff. destruct (sh_sub o).
  - specialize (L eq_refl). pose proof (Rmin_r (sh_zinf o) 10) as H. assert (H0 : 0 <= Rmin (sh_zinf o) 10) by (apply Rmin_glb; lra).
    replace (Rltb 10 (Rmin (sh_zinf o) 10)) with false by (symmetry; apply Rltb_false; lra).
    pose proof (A _ _ H0 H). set (w := Rmin (sh_zinf o) 10) in *.
    assert (H2 : 0 <= if Rltb w (sh_z o) then 0 else co_age C (sh_z o) - co_age C w).
    { destruct (Rltb w (sh_z o)) eqn:B; [lra|]. apply Rltb_false in B. pose proof (A (sh_z o) w). lra. }
    pose proof (Rmult_le_pos _ _ L H2). lra.
  - destruct (Rltb 10 (sh_z o)) eqn:B; [lra|]. apply Rltb_false in B. pose proof (A (sh_z o) 10). lra.
Qed.

Lemma density_scale C P zs z r Rs a rc rt : proportional P ->
  density_profile C P zs z r Rs a rc rt = a * density_profile C P zs z r Rs 1 rc rt.
Proof.
  intros (L1 & L2 & _). unfold density_profile, density_lens. cbv zeta. rewrite L1, L2. rewrite (L2 _ _ (tc_alpha2rho0 P 1 Rs rc rt)). ring.
Qed.
Lemma sigma_pos C z zs : distances_ok C z zs -> 0 < get_sigma_crit_lensing C z zs.
Proof.
  intros (A & B & D & _). unfold get_sigma_crit_lensing. destruct constants_pos as (P1 & P2 & _). pose proof PI_RGT_0. cbv zeta.
  set (G := Grav) in *. clearbody G. set (c := c_light) in *. clearbody c.
  apply Rmult_lt_0_compat; [apply Rmult_lt_0_compat; [apply pow_lt; exact P1|apply Rinv_0_lt_compat; apply Rmult_lt_0_compat; lra]|].
  apply Rmult_lt_0_compat; [apply Rmult_lt_0_compat; [exact B|]|]; apply Rinv_0_lt_compat; assumption.
Qed.
Lemma unit_mass_pos C P zs z r0 Rs rc rt c : proportional P -> distances_ok C z zs -> 0 < co_kpc C z -> 0 < r0 -> 0 < Rs -> 0 < rc -> 0 < rt ->
  / 10 ^ 4 < c -> 0 < unit_mass C P zs z r0 Rs rc rt (logspace (- 4) (log10 c) 250).
Proof.
  intros (_ & _ & L) D K P0 P1 P2 P3 Hc. unfold unit_mass. rewrite grid_list, map_map.
  apply (trapezoid_pos (fun i => (grid c i * r0, _))); [| |lia].
  - intros i. cbn [fst]. apply Rmult_lt_compat_r; [exact P0|]. apply grid_lt; [exact Hc|lia].
  - intros i. cbn [snd]. pose proof (grid_pos c i) as Pg. assert (Pr : 0 < grid c i * r0) by (apply Rmult_lt_0_compat; assumption).
    apply Rmult_lt_0_compat; [apply Rmult_lt_0_compat; [pose proof PI_RGT_0; lra|apply pow_lt; exact Pr]|].
    unfold density_profile. cbv zeta. apply Rmult_lt_0_compat.
    + apply Rdiv_lt_0_compat; [|exact K]. apply Rmult_lt_0_compat; [apply sigma_pos; exact D|lra].
    + apply L; try assumption. apply Rdiv_lt_0_compat; assumption.
Qed.
Lemma conserved C P zs z r0 Rs rc rt c m : proportional P -> distances_ok C z zs -> 0 < co_kpc C z -> 0 < r0 -> 0 < Rs -> 0 < rc -> 0 < rt ->
  / 10 ^ 4 < c -> 0 < m ->
  let alpha := m / unit_mass C P zs z r0 Rs rc rt (logspace (- 4) (log10 c) 250) in
  0 < alpha /\ trapezoid (map (fun r => (r, 4 * PI * r ^ 2 * density_profile C P zs z r Rs alpha rc rt)) (radii r0 c)) = m.
Proof.
  intros L D K P0 P1 P2 P3 Hc Hm alpha. pose proof (unit_mass_pos C P zs z r0 Rs rc rt c L D K P0 P1 P2 P3 Hc) as U.
  split; [apply Rdiv_lt_0_compat; assumption|].
  transitivity (alpha * unit_mass C P zs z r0 Rs rc rt (logspace (- 4) (log10 c) 250)); [|unfold alpha; field; lra].
  unfold unit_mass. fold (radii r0 c). rewrite <- trapezoid_scale. apply trapezoid_ext.
  intros r _. rewrite (density_scale C P zs z r Rs alpha rc rt L). ring.
Qed.

(** Mass conservation: the density the halo reports (with the lens-model parameters it returns) has, summed with the
    trapezoidal rule over those radii, exactly the mass to be conserved; the deflection is positive, the core smaller
    than the scale radius and r_200 is that of the (pseudo-) NFW halo the evolution started from. *)
Theorem C56_mass_conserved_evolving : forall C P zs o m rt tc,
  proportional P -> expanding C -> ageing C -> distances_ok C (sh_z o) zs -> 0 < co_kpc C (sh_z o) ->
  0 <= sh_z o -> 0 <= sh_zinf o -> 0 < sh_mass o -> / 10 ^ 4 < sh_c o ->
  arg "mass_conservation" (sh_args o) = Ok m -> arg "rt_kpc" (sh_args o) = Ok rt -> arg "sidm_timescale" (sh_args o) = Ok tc ->
  (sh_sub o = true -> exists lam, arg "lambda_t" (sh_args o) = Ok lam /\ 0 <= lam) -> 0 < m -> 0 < rt -> 0 < tc ->
  exists alpha rs rc r200 rhos_0 rs_0,
    profile_args_evolving C P zs o = Ok (alpha, rs, rc, rt, r200) /\
    describes_halo true (sh_mass o) (sh_c o) (critical_kpc C (sh_zeval o)) rhos_0 rs_0 r200 /\
    0 < alpha /\ 0 < rc < rs /\ rs <= 1.14 * rs_0 /\
    let '(alpha_Rs, Rs, r_core, r_trunc) := lenstronomy_params_tnfwc C (sh_z o) (alpha, rs, rc, rt, r200) in
    trapezoid (map (fun r => (r, 4 * PI * r ^ 2 * density_profile C P zs (sh_z o) r Rs alpha_Rs r_core r_trunc)) (radii rs_0 (sh_c o))) = m.
Proof.
  intros C P zs o m rt tc L K A D Hk Z I Hm Hc A1 A2 A3 A4 Pm Pt Pc.
  assert (Hc0 : 0 < sh_c o) by lra. assert (Hz : 0 <= sh_zeval o) by (unfold sh_zeval; destruct (sh_sub o); assumption).
  destruct (C55_nfw_parameters C (sh_mass o) (sh_c o) (sh_zeval o) true K Hz Hm Hc0) as (rhos & rs0 & r2 & E & Pr & H).
  pose proof (dh_rs _ _ _ _ _ _ _ H) as P0. pose proof (dh_conc _ _ _ _ _ _ _ H) as E2.
  assert (HA : sh_sub o = true -> has "lambda_t" o) by (intros S; destruct (A4 S) as (lam & Q & _); exists lam; exact Q).
  assert (HE : 0 <= eff C o).
  { apply eff_nonneg; try assumption. intros S. destruct (A4 S) as (lam & Q & Hl). unfold argd. rewrite Q. exact Hl. }
  unfold profile_args_evolving, t_over_tc. rewrite A2, E, (eff_scalar C o HA), A3, A1. cbn [bind fst snd].
  set (t := eff C o / tc). assert (Ht : 0 <= t) by (unfold t; apply Rmult_le_pos; [exact HE|left; apply Rinv_0_lt_compat; exact Pc]).
  destruct (evolve_profile t rs0) as [rs rc] eqn:EV. destruct (C56_radii t rs0 rs rc Ht P0 EV) as ([B1 B2] & _ & B3). cbn [fst snd].
  exists (m / unit_mass C P zs (sh_z o) rs0 (rs / co_kpc C (sh_z o)) (rc / co_kpc C (sh_z o)) (rt / co_kpc C (sh_z o)) (logspace (- 4) (log10 (sh_c o)) 250)), rs, rc, (sh_c o * rs0), rhos, rs0.
  split; [reflexivity|]. split; [rewrite <- E2; exact H|].
  destruct (conserved C P zs (sh_z o) rs0 (rs / co_kpc C (sh_z o)) (rc / co_kpc C (sh_z o)) (rt / co_kpc C (sh_z o)) (sh_c o) m) as [X Y];
    try assumption; try (apply Rdiv_lt_0_compat; lra).
  split; [exact X|]. split; [exact B3|]. split; [exact B2|]. unfold lenstronomy_params_tnfwc. cbv zeta. exact Y.
Qed.

(** The same for the parametric core-collapsed halo, whose radii are the given multiple of the NFW scale radius, or just
    below the truncation radius if that is smaller. *)
Theorem C56_mass_conserved_parametric : forall C P zs o m rt x,
  proportional P -> expanding C -> distances_ok C (sh_z o) zs -> 0 < co_kpc C (sh_z o) ->
  0 <= sh_z o -> 0 <= sh_zinf o -> 0 < sh_mass o -> / 10 ^ 4 < sh_c o ->
  arg "mass_conservation" (sh_args o) = Ok m -> arg "rt_kpc" (sh_args o) = Ok rt -> arg "x_core_halo" (sh_args o) = Ok x ->
  0 < m -> 0 < rt -> 0 < x ->
  exists alpha rs rc r200 rhos_0 rs_0,
    profile_args_parametric C P zs o = Ok (alpha, rs, rc, rt, r200) /\
    describes_halo false (sh_mass o) (sh_c o) (critical_kpc C (sh_zeval o)) rhos_0 rs_0 r200 /\
    0 < alpha /\ 0 < rc < rs /\ rs <= rt /\ rs <= x * rs_0 /\ (x * rs_0 <= rt -> rs = x * rs_0) /\
    let '(alpha_Rs, Rs, r_core, r_trunc) := lenstronomy_params_tnfwc C (sh_z o) (alpha, rs, rc, rt, r200) in
    trapezoid (map (fun r => (r, 4 * PI * r ^ 2 * density_profile C P zs (sh_z o) r Rs alpha_Rs r_core r_trunc)) (radii rs_0 (sh_c o))) = m.
Proof.
  intros C P zs o m rt x L K D Hk Z I Hm Hc A1 A2 A3 Pm Pt Px.
  assert (Hc0 : 0 < sh_c o) by lra. assert (Hz : 0 <= sh_zeval o) by (unfold sh_zeval; destruct (sh_sub o); assumption).
  destruct (C55_nfw_parameters C (sh_mass o) (sh_c o) (sh_zeval o) false K Hz Hm Hc0) as (rhos & rs0 & r2 & E & Pr & H).
  pose proof (dh_rs _ _ _ _ _ _ _ H) as P0. pose proof (dh_conc _ _ _ _ _ _ _ H) as E2.
  unfold profile_args_parametric. rewrite E, A2, A3, A1. cbn [bind fst snd].
  assert (PX : 0 < x * rs0) by (apply Rmult_lt_0_compat; assumption).
  replace (sh_c o * rs0 / rs0) with (sh_c o) by (field; lra).
  set (rs := if Rltb rt (x * rs0) then rt * 0.99 else x * rs0).
  assert (B : 0 < rs /\ rs <= rt /\ rs <= x * rs0 /\ (x * rs0 <= rt -> rs = x * rs0)).
  { unfold rs. destruct (Rltb rt (x * rs0)) eqn:B; [apply Rltb_true in B|apply Rltb_false in B]; repeat split; try lra; reflexivity. }
  destruct B as (B1 & B2 & B3 & B4).
  exists (m / unit_mass C P zs (sh_z o) rs0 (rs / co_kpc C (sh_z o)) (rs * 0.99 / co_kpc C (sh_z o)) (rt / co_kpc C (sh_z o)) (logspace (- 4) (log10 (sh_c o)) 250)), rs, (rs * 0.99), (rs0 * sh_c o), rhos, rs0.
  split; [reflexivity|]. split; [rewrite Rmult_comm, <- E2; exact H|].
  destruct (conserved C P zs (sh_z o) rs0 (rs / co_kpc C (sh_z o)) (rs * 0.99 / co_kpc C (sh_z o)) (rt / co_kpc C (sh_z o)) (sh_c o) m) as [X Y];
    try assumption; try (apply Rdiv_lt_0_compat; lra).
  split; [exact X|]. split; [lra|]. split; [exact B2|]. split; [exact B3|]. split; [exact B4|]. unfold lenstronomy_params_tnfwc. cbv zeta. exact Y.
Qed.

(** A profile that meets the assumptions, and a halo. *)
Definition demo_tnfwc : tnfwc := {| tc_alpha2rho0 := fun a Rs _ _ => a / Rs ^ 2; tc_density := fun r Rs rho0 rc rt => rho0 * (/ (1 + r ^ 2) / (1 + (r / rt) ^ 2)) |}.
Lemma demo_proportional : proportional demo_tnfwc.
Proof.
  split; [|split]; cbn -[pow]; [intros; unfold Rdiv; ring|intros; ring|]. unfold density_lens. cbn -[pow]. intros r Rs rc rt A B C D.
  assert (forall x, 0 < 1 + x ^ 2) by (intros; nra).
  apply Rmult_lt_0_compat; [apply Rdiv_lt_0_compat; [lra|apply pow_lt; exact B]|]. apply Rdiv_lt_0_compat; [apply Rinv_0_lt_compat|]; apply H.
Qed.
Definition demo_args : list (string * R) :=
  ("mass_conservation", 10 ^ 8) :: ("rt_kpc", 3) :: ("sidm_timescale", 4) :: ("x_core_halo", 0.05) :: nil.
Definition demo_sub : shalo := {| sh_mass := 10 ^ 8; sh_c := 12; sh_z := 0.5; sh_zinf := 2; sh_sub := true; sh_args := ("lambda_t", 0.5) :: demo_args |}.
Definition demo_field : shalo := {| sh_mass := 10 ^ 7; sh_c := 15; sh_z := 0.5; sh_zinf := 0; sh_sub := false; sh_args := demo_args |}.
Lemma demo_ageing : ageing demo.
Proof.
  intros z z' H H'. cbn. apply Rmult_le_compat_l; [lra|]. apply Rinv_le_contravar; lra.
Qed.
Example C56_mass_conserved_evolving_nonvacuous : exists alpha rs rc r200, profile_args_evolving demo demo_tnfwc 2 demo_sub = Ok (alpha, rs, rc, 3, r200) /\ 0 < alpha /\ 0 < rc < rs.
Proof.
  destruct (C56_mass_conserved_evolving demo demo_tnfwc 2 demo_sub (10 ^ 8) 3 4) as (al & rs & rc & r2 & x & y & E & _ & A & B & _);
    try reflexivity; try apply demo_proportional; try apply demo_expanding; try apply demo_ageing; try apply demo_distances; cbn -[pow]; try lra.
  - intros _. exists 0.5. split; [reflexivity|lra].
  - exists al, rs, rc, r2. split; [exact E|]. split; assumption.
Qed.
Example C56_mass_conserved_parametric_nonvacuous : exists alpha rs rc r200, profile_args_parametric demo demo_tnfwc 2 demo_sub = Ok (alpha, rs, rc, 3, r200) /\ 0 < alpha /\ 0 < rc < rs.
Proof.
  destruct (C56_mass_conserved_parametric demo demo_tnfwc 2 demo_sub (10 ^ 8) 3 0.05) as (al & rs & rc & r2 & x & y & E & _ & A & B & _);
    try reflexivity; try apply demo_proportional; try apply demo_expanding; try apply demo_distances; cbn -[pow]; try lra.
  exists al, rs, rc, r2. split; [exact E|]. split; assumption.
Qed.

(** The batch computation gives every halo exactly what querying it separately gives, if no required key is missing ... *)
Theorem C56_batch : forall C P zs halos,
  (forall o k, In o halos -> In k ("rt_kpc" :: "mass_conservation" :: "sidm_timescale" :: "lambda_t" :: nil) -> exists v, arg k (sh_args o) = Ok v) ->
  exists out, precompute_sidm C P zs halos = Ok out /\
    Forall2 (fun o q => halo_effective_age C o = Ok (fst q) /\ profile_args_evolving C P zs o = Ok (snd q)) halos out.
Proof.
  intros C P zs l H.
  assert (F : forall k, In k ("rt_kpc" :: "mass_conservation" :: "sidm_timescale" :: "lambda_t" :: nil) -> Forall (has k) l)
    by (intros k Hk; apply Forall_forall; intros o Ho; apply H; assumption).
  assert (F1 := F "rt_kpc" ltac:(cbn; tauto)). assert (F2 := F "mass_conservation" ltac:(cbn; tauto)).
  assert (F3 := F "sidm_timescale" ltac:(cbn; tauto)). assert (F4 := F "lambda_t" ltac:(cbn; tauto)).
  eexists. split; [apply precompute_spec; auto|]. clear H F. induction l as [|o l IH]; cbn [map]; [constructor|].
  inversion F1; inversion F2; inversion F3; inversion F4; subst. constructor; [|apply IH; assumption].
  cbn [fst snd]. split; [apply eff_scalar; auto|apply args_scalar; auto].
Qed.
Example C56_batch_nonvacuous : exists out, precompute_sidm demo demo_tnfwc 2 (demo_sub :: demo_sub :: nil) = Ok out.
Proof.
  destruct (C56_batch demo demo_tnfwc 2 (demo_sub :: demo_sub :: nil)) as (out & E & _); [|exists out; exact E].
  intros o k Ho Hk. cbn in Ho, Hk. destruct Ho as [<-|[<-|[]]]; destruct Hk as [<-|[<-|[<-|[<-|[]]]]]; eexists; reflexivity.
Qed.
(** ... and likewise without lambda_t if there is no subhalo among them. *)
Theorem C56_batch_field : forall C P zs halos,
  (forall o, In o halos -> sh_sub o = false) ->
  (forall o k, In o halos -> In k ("rt_kpc" :: "mass_conservation" :: "sidm_timescale" :: nil) -> exists v, arg k (sh_args o) = Ok v) ->
  exists out, precompute_sidm C P zs halos = Ok out /\
    Forall2 (fun o q => halo_effective_age C o = Ok (fst q) /\ profile_args_evolving C P zs o = Ok (snd q)) halos out.
Proof.
  intros C P zs l S H.
  assert (F : forall k, In k ("rt_kpc" :: "mass_conservation" :: "sidm_timescale" :: nil) -> Forall (has k) l)
    by (intros k Hk; apply Forall_forall; intros o Ho; apply H; assumption).
  assert (F1 := F "rt_kpc" ltac:(cbn; tauto)). assert (F2 := F "mass_conservation" ltac:(cbn; tauto)).
  assert (F3 := F "sidm_timescale" ltac:(cbn; tauto)).
  assert (X : existsb (fun b => b) (map sh_sub l) = false).
  { clear -S. induction l as [|o l IH]; cbn; [reflexivity|]. rewrite (S o) by (left; reflexivity). apply IH. intros. apply S. right. assumption. }
  eexists. split; [apply precompute_spec; auto; rewrite X; discriminate|]. clear H F X.
  induction l as [|o l IH]; cbn [map]; [constructor|].
  inversion F1; inversion F2; inversion F3; subst.
  assert (So : sh_sub o = false) by (apply S; left; reflexivity).
  constructor; [|apply IH; try assumption; intros; apply S; right; assumption].
  cbn [fst snd]. split; [apply eff_scalar; rewrite So; discriminate|apply args_scalar; auto; rewrite So; discriminate].
Qed.
Example C56_batch_field_nonvacuous : exists out, precompute_sidm demo demo_tnfwc 2 (demo_field :: demo_field :: nil) = Ok out.
Proof.
  destruct (C56_batch_field demo demo_tnfwc 2 (demo_field :: demo_field :: nil)) as (out & E & _); [| |exists out; exact E].
  - intros o [<-|[<-|[]]]; reflexivity.
  - intros o k Ho Hk. cbn in Ho, Hk. destruct Ho as [<-|[<-|[]]]; destruct Hk as [<-|[<-|[<-|[]]]]; eexists; reflexivity.
Qed.
(** In general it does not: one field halo without lambda_t, which never needs it, makes the batch fail as soon as a
    subhalo is in the list, although each halo can be queried separately. *)
Theorem C56_batch_refuted : exists C P zs halos,
  (forall o, In o halos -> exists a, profile_args_evolving C P zs o = Ok a) /\ precompute_sidm C P zs halos = Err EKeyError.
Proof.
  exists demo, demo_tnfwc, 2, (demo_sub :: demo_field :: nil). split; [|reflexivity].
  intros o [<-|[<-|[]]]; eexists; reflexivity.
Qed.

(** Rescaling the normalisation of such a halo changes the density among its physical parameters by the factor, but
    leaves the lens-model parameters as they were. *)
Theorem C56_rescale_refuted : forall C z factor alpha rs rc rt r200, 0 < alpha -> factor <> 1 ->
  params_physical_rhos factor (alpha, rs, rc, rt, r200) <> params_physical_rhos 1 (alpha, rs, rc, rt, r200) /\
  fst (fst (fst (lenstronomy_params_tnfwc C z (alpha, rs, rc, rt, r200)))) = params_physical_rhos 1 (alpha, rs, rc, rt, r200).
Proof.
  intros C z f al rs rc rt r2 A N. cbn. split; [|ring]. intros E. apply N. apply (Rmult_eq_reg_l al); lra.
Qed.
Example C56_rescale_refuted_nonvacuous : params_physical_rhos 0.5 (2, 1, 1, 1, 1) <> params_physical_rhos 1 (2, 1, 1, 1, 1).
Proof. apply (C56_rescale_refuted demo 0.5 0.5 2 1 1 1 1); lra. Qed.

Print Assumptions C56_radii.
Print Assumptions C56_limits.
Print Assumptions C56_density.
Print Assumptions C56_vectorised.
Print Assumptions C56_radii_grid.
Print Assumptions C56_mass_conserved_evolving.
Print Assumptions C56_mass_conserved_parametric.
Print Assumptions C56_batch.
Print Assumptions C56_batch_field.
Print Assumptions C56_batch_refuted.
Print Assumptions C56_rescale_refuted.
