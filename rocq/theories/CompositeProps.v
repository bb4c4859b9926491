(** C57, C58: composite profiles. *)
From Verif Require Import Prelude NfwModel NfwSpec NfwProofs3 NfwProps SidmModel SidmProps CompositeModel.
From Coquelicot Require Import Coquelicot.
Local Open Scope string_scope.
Local Open Scope R_scope.
Local Open Scope list_scope.

(** ** Specification *)
(** What lenstronomy guarantees: masses are proportional to the amplitudes. *)
Definition linear_parts (P : parts) : Prop :=
  (forall al Rs, env_alpha2rho0 P al Rs = al * env_alpha2rho0 P 1 Rs) /\
  (forall r Rs rho0 tau, env_mass_3d P r Rs rho0 tau = rho0 * env_mass_3d P r Rs 1 tau) /\
  (forall r Rs al gi go, cen_mass_3d_lens P r Rs al gi go = al * cen_mass_3d_lens P r Rs 1 gi go).
(** The mass (solar masses) inside [r] kpc of an envelope with amplitude [ae] and of a centre with amplitude [ac]. *)
Definition envelope_mass C P zs z (r ae Rs rt : R) : R :=
  sigma_crit_arcsec C zs z * env_mass_3d P (r / co_kpc C z) Rs (env_alpha2rho0 P ae Rs) (rt / Rs).
Definition centre_mass C P zs z (r ac Rs gi go : R) : R :=
  sigma_crit_arcsec C zs z * cen_mass_3d_lens P (r / co_kpc C z) Rs ac gi go.
(** The halo's dictionary holds everything the profile needs. *)
Record has_args (o : chalo) (gi go rt rsin rm mR m200 : R) : Prop := {
  ha_gi : arg "gamma_inner" (ch_args o) = Ok gi; ha_go : arg "gamma_outer" (ch_args o) = Ok go; ha_rt : arg "rt_kpc" (ch_args o) = Ok rt;
  ha_in : arg "Rs_inner_kpc" (ch_args o) = Ok rsin; ha_rm : arg "r_match_kpc" (ch_args o) = Ok rm;
  ha_mR : arg "m_target_R" (ch_args o) = Ok mR; ha_m2 : arg "m_target_r200" (ch_args o) = Ok m200 }.
(** Both mass constraints hold for the amplitudes [ae], [ac]. *)
Definition meets C P zs (o : chalo) (rs r200 gi go rt rsin rm mR m200 ae ac : R) : Prop :=
  let k := co_kpc C (ch_z o) in
  envelope_mass C P zs (ch_z o) rm ae (rs / k) (rt / k) + centre_mass C P zs (ch_z o) rm ac (rsin / k) gi go = mR /\
  envelope_mass C P zs (ch_z o) r200 ae (rs / k) (rt / k) + centre_mass C P zs (ch_z o) r200 ac (rsin / k) gi go = m200.

(** ** Proofs *)
Section Masses.
Variables (C : cosmo) (P : parts) (zs : R) (o : chalo) (rs r200 gi go rt rsin rm mR m200 : R).
Let k := co_kpc C (ch_z o).
Let sg := sigma_crit_arcsec C zs (ch_z o).
Let a := env_mass_3d P (rm / k) (rs / k) (env_alpha2rho0 P 1 (rs / k)) (rt / k / (rs / k)).
Let b := cen_mass_3d_lens P (rm / k) (rsin / k) 1 gi go.
Let c := env_mass_3d P (r200 / k) (rs / k) (env_alpha2rho0 P 1 (rs / k)) (rt / k / (rs / k)).
Let d := cen_mass_3d_lens P (r200 / k) (rsin / k) 1 gi go.
Definition det : R := a * d - b * c.
Definition sol_env : R := (1 / det * d * mR + 1 / det * - b * m200) / sg.
Definition sol_cen : R := (1 / det * - c * mR + 1 / det * a * m200) / sg.

Lemma solve_spec rhos : has_args o gi go rt rsin rm mR m200 -> NFW_params_physical C (ch_mass o) (ch_c o) (ch_zeval o) (Some false) = Ok (rhos, rs, r200) ->
  solve_amplitudes C P zs o = if Reqb det 0 then Err EException else
    if Rltb sol_cen 0 || Rltb sol_env 0 then Err EException else Ok (sol_env, sol_cen, rs / k, rsin / k, rt / k).
Proof.
  intros [E1 E2 E3 E4 E5 E6 E7] E. unfold solve_amplitudes. rewrite E1, E2, E3, E, E4, E5, E6, E7. reflexivity.
Qed.
Lemma meets_iff ae ac : linear_parts P ->
  meets C P zs o rs r200 gi go rt rsin rm mR m200 ae ac <-> sg * (ae * a + ac * b) = mR /\ sg * (ae * c + ac * d) = m200.
Proof.
  intros (L1 & L2 & L3). unfold meets. cbv zeta. fold k.
  assert (X : forall r al, envelope_mass C P zs (ch_z o) r al (rs / k) (rt / k) = sg * (al * env_mass_3d P (r / k) (rs / k) (env_alpha2rho0 P 1 (rs / k)) (rt / k / (rs / k)))).
  { intros r al. unfold envelope_mass. fold k sg. rewrite L1, L2. rewrite (L2 _ _ (env_alpha2rho0 P 1 (rs / k))). ring. }
  assert (Y : forall r al, centre_mass C P zs (ch_z o) r al (rsin / k) gi go = sg * (al * cen_mass_3d_lens P (r / k) (rsin / k) 1 gi go)).
  { intros r al. unfold centre_mass. fold k sg. rewrite L3. ring. }
  rewrite !X, !Y. unfold a, b, c, d. rewrite <- !Rmult_plus_distr_l. reflexivity.
Qed.
Lemma sol_meets : sg <> 0 -> det <> 0 -> sg * (sol_env * a + sol_cen * b) = mR /\ sg * (sol_env * c + sol_cen * d) = m200.
Proof. intros S D. unfold sol_env, sol_cen, det in *. clearbody a b c d sg. split; field; split; assumption. Qed.
Lemma sol_unique ae ac : sg <> 0 -> det <> 0 -> sg * (ae * a + ac * b) = mR -> sg * (ae * c + ac * d) = m200 -> ae = sol_env /\ ac = sol_cen.
Proof. intros S D E1 E2. unfold sol_env, sol_cen, det in *. clearbody a b c d sg. subst mR m200. split; field; split; assumption. Qed.
End Masses.

Lemma sigma_arcsec_pos C zs z : distances_ok C z zs -> 0 < co_kpc C z -> 0 < sigma_crit_arcsec C zs z.
Proof. intros D K. unfold sigma_crit_arcsec. apply Rmult_lt_0_compat; [apply sigma_pos; exact D|apply pow_lt; lra]. Qed.

(** Whenever the amplitudes are returned, they are non-negative, the composite profile has the target masses inside the
    matching radius and inside r_200, and no other pair of amplitudes has. *)
Theorem C57_mass_constraints : forall C P zs o gi go rt rsin rm mR m200 v,
  linear_parts P -> expanding C -> distances_ok C (ch_z o) zs -> 0 < co_kpc C (ch_z o) -> 0 <= ch_zeval o -> 0 < ch_mass o -> 0 < ch_c o ->
  has_args o gi go rt rsin rm mR m200 -> profile_args_cc C P zs o = Ok v ->
  0 <= cc_alpha_env v /\ 0 <= cc_alpha_cen v /\ cc_gi v = gi /\ cc_go v = go /\
  exists rhos rs r200, describes_halo false (ch_mass o) (ch_c o) (critical_kpc C (ch_zeval o)) rhos rs r200 /\
    cc_Rs v = rs / co_kpc C (ch_z o) /\ cc_Rs_in v = rsin / co_kpc C (ch_z o) /\ cc_rt v = rt / co_kpc C (ch_z o) /\
    forall ae ac, meets C P zs o rs r200 gi go rt rsin rm mR m200 ae ac <-> ae = cc_alpha_env v /\ ac = cc_alpha_cen v.
Proof.
  intros C P zs o gi go rt rsin rm mR m2 v L K D Hk Hz Hm Hc HA E.
  destruct (C55_nfw_parameters C (ch_mass o) (ch_c o) (ch_zeval o) false K Hz Hm Hc) as (rhos & rs & r2 & EN & _ & H).
  pose proof (sigma_arcsec_pos C zs (ch_z o) D Hk) as S.
  unfold profile_args_cc in E. rewrite (solve_spec C P zs o rs r2 gi go rt rsin rm mR m2 rhos HA EN), (ha_gi _ _ _ _ _ _ _ _ HA), (ha_go _ _ _ _ _ _ _ _ HA) in E.
  destruct (Reqb (det C P o rs r2 gi go rt rsin rm) 0) eqn:B; [discriminate E|]. apply Reqb_false in B.
  set (se := sol_env C P zs o rs r2 gi go rt rsin rm mR m2) in *. set (sc := sol_cen C P zs o rs r2 gi go rt rsin rm mR m2) in *.
  destruct (Rltb sc 0) eqn:N1; [discriminate E|]. destruct (Rltb se 0) eqn:N2; [discriminate E|]. apply Rltb_false in N1, N2.
  cbn in E. injection E as <-. cbn. split; [lra|]. split; [lra|]. split; [reflexivity|]. split; [reflexivity|].
  exists rhos, rs, r2. split; [exact H|]. split; [reflexivity|]. split; [reflexivity|]. split; [reflexivity|].
  intros ae ac. rewrite meets_iff by exact L. split.
  - intros [M1 M2]. unfold se, sc. apply sol_unique; try assumption; lra.
  - intros [-> ->]. unfold se, sc. apply sol_meets; [lra|exact B].
Qed.

(** If the two constraints determine the amplitudes, they are returned, unless one is negative: then the halo raises. *)
Theorem C57_raises_iff_negative : forall C P zs o gi go rt rsin rm mR m200 rhos rs r200 ae ac,
  linear_parts P -> expanding C -> distances_ok C (ch_z o) zs -> 0 < co_kpc C (ch_z o) -> 0 <= ch_zeval o -> 0 < ch_mass o -> 0 < ch_c o ->
  has_args o gi go rt rsin rm mR m200 ->
  describes_halo false (ch_mass o) (ch_c o) (critical_kpc C (ch_zeval o)) rhos rs r200 ->
  (forall ae' ac', meets C P zs o rs r200 gi go rt rsin rm mR m200 ae' ac' <-> ae' = ae /\ ac' = ac) ->
  (ae < 0 \/ ac < 0 -> profile_args_cc C P zs o = Err EException) /\
  (0 <= ae -> 0 <= ac -> exists v, profile_args_cc C P zs o = Ok v /\ cc_alpha_env v = ae /\ cc_alpha_cen v = ac).
Proof.
  intros C P zs o gi go rt rsin rm mR m2 rhos rs r2 ae ac L K D Hk Hz Hm Hc HA H U.
  destruct (C55_nfw_parameters C (ch_mass o) (ch_c o) (ch_zeval o) false K Hz Hm Hc) as (rhos' & rs' & r2' & EN & _ & H').
  destruct (NfwProofs.describes_unique _ _ _ _ _ _ _ _ _ _ Hm Hc H H') as (? & ? & ?). subst rhos' rs' r2'. clear H'.
  pose proof (sigma_arcsec_pos C zs (ch_z o) D Hk) as S.
  destruct (proj2 (U ae ac) (conj eq_refl eq_refl)) as [M1 M2] eqn:EM. clear EM.
  assert (M : meets C P zs o rs r2 gi go rt rsin rm mR m2 ae ac) by (split; assumption). rewrite meets_iff in M by exact L.
  assert (B : det C P o rs r2 gi go rt rsin rm <> 0).
  { intros Z. unfold det in Z.
    set (k := co_kpc C (ch_z o)) in *. set (a := env_mass_3d P (rm / k) _ _ _) in *. set (b := cen_mass_3d_lens P (rm / k) _ _ _ _) in *.
    set (c := env_mass_3d P (r2 / k) _ _ _) in *. set (d := cen_mass_3d_lens P (r2 / k) _ _ _ _) in *. destruct M as [Q1 Q2].
    assert (X : forall u v, u * a + v * b = 0 -> u * c + v * d = 0 -> u = 0 /\ v = 0).
    { intros u v X1 X2. assert (Y : meets C P zs o rs r2 gi go rt rsin rm mR m2 (ae + u) (ac + v)).
      { rewrite meets_iff by exact L. fold k a b c d. split.
        - rewrite <- Q1. replace ((ae + u) * a + (ac + v) * b) with (ae * a + ac * b + (u * a + v * b)) by ring. rewrite X1. ring.
        - rewrite <- Q2. replace ((ae + u) * c + (ac + v) * d) with (ae * c + ac * d + (u * c + v * d)) by ring. rewrite X2. ring. }
      apply U in Y. lra. }
    destruct (X b (- a)) as [b0 a0]; [ring|lra|]. assert (a = 0) by lra. clear a0.
    destruct (X d (- c)) as [d0 c0]; [lra|ring|]. destruct (X 1 0) as [W _]; [rewrite b0, H0; ring|rewrite d0; lra|lra]. }
  destruct M as [Q1 Q2].
  destruct (sol_unique C P zs o rs r2 gi go rt rsin rm mR m2 ae ac) as [E1 E2]; [lra|exact B|exact Q1|exact Q2|].
  unfold profile_args_cc. rewrite (solve_spec C P zs o rs r2 gi go rt rsin rm mR m2 rhos HA EN), (ha_gi _ _ _ _ _ _ _ _ HA), (ha_go _ _ _ _ _ _ _ _ HA).
  apply Reqb_false in B. rewrite B, <- E1, <- E2. split.
  - intros N. replace (Rltb ac 0 || Rltb ae 0) with true; [reflexivity|]. symmetry. apply orb_true_iff. destruct N as [N|N]; [right|left]; apply Rltb_true; exact N.
  - intros N1 N2. replace (Rltb ac 0) with false by (symmetry; apply Rltb_false; lra). replace (Rltb ae 0) with false by (symmetry; apply Rltb_false; lra).
    cbn. eexists. split; [reflexivity|]. split; reflexivity.
Qed.

(** When that is: the target masses' ratio has to lie between the ratios of the envelope and of the centre alone. *)
Theorem C57_feasible : forall C P zs o gi go rt rsin rm mR m200 rhos rs r200,
  linear_parts P -> expanding C -> distances_ok C (ch_z o) zs -> 0 < co_kpc C (ch_z o) -> 0 <= ch_zeval o -> 0 < ch_mass o -> 0 < ch_c o ->
  has_args o gi go rt rsin rm mR m200 ->
  describes_halo false (ch_mass o) (ch_c o) (critical_kpc C (ch_zeval o)) rhos rs r200 ->
  let k := co_kpc C (ch_z o) in
  let a := envelope_mass C P zs (ch_z o) rm 1 (rs / k) (rt / k) in
  let b := centre_mass C P zs (ch_z o) rm 1 (rsin / k) gi go in
  let c := envelope_mass C P zs (ch_z o) r200 1 (rs / k) (rt / k) in
  let d := centre_mass C P zs (ch_z o) r200 1 (rsin / k) gi go in
  0 < a -> 0 < b -> 0 < c -> 0 < d -> 0 < mR -> 0 < m200 ->
  ((exists v, profile_args_cc C P zs o = Ok v) <-> a / c <> b / d /\ Rmin (a / c) (b / d) <= mR / m200 <= Rmax (a / c) (b / d)).
Proof.
  intros C P zs o gi go rt rsin rm mR m2 rhos rs r2 L K D Hk Hz Hm Hc HA H k a b c d A0 B0 C0 D0 R0 T0.
  destruct (C55_nfw_parameters C (ch_mass o) (ch_c o) (ch_zeval o) false K Hz Hm Hc) as (rhos' & rs' & r2' & EN & _ & H').
  destruct (NfwProofs.describes_unique _ _ _ _ _ _ _ _ _ _ Hm Hc H H') as (? & ? & ?). subst rhos' rs' r2'. clear H'.
  pose proof (sigma_arcsec_pos C zs (ch_z o) D Hk) as S.
  set (sg := sigma_crit_arcsec C zs (ch_z o)) in *.
  set (a' := env_mass_3d P (rm / k) (rs / k) (env_alpha2rho0 P 1 (rs / k)) (rt / k / (rs / k))).
  set (b' := cen_mass_3d_lens P (rm / k) (rsin / k) 1 gi go).
  set (c' := env_mass_3d P (r2 / k) (rs / k) (env_alpha2rho0 P 1 (rs / k)) (rt / k / (rs / k))).
  set (d' := cen_mass_3d_lens P (r2 / k) (rsin / k) 1 gi go).
  assert (Ea : a = sg * a') by reflexivity. assert (Eb : b = sg * b') by reflexivity. assert (Ec : c = sg * c') by reflexivity. assert (Ed : d = sg * d') by reflexivity.
  assert (Q : (exists v, profile_args_cc C P zs o = Ok v) <-> a' * d' - b' * c' <> 0 /\ 0 <= sol_cen C P zs o rs r2 gi go rt rsin rm mR m2 /\ 0 <= sol_env C P zs o rs r2 gi go rt rsin rm mR m2).
  { unfold profile_args_cc. rewrite (solve_spec C P zs o rs r2 gi go rt rsin rm mR m2 rhos HA EN), (ha_gi _ _ _ _ _ _ _ _ HA), (ha_go _ _ _ _ _ _ _ _ HA).
    change (det C P o rs r2 gi go rt rsin rm) with (a' * d' - b' * c').
    destruct (Reqb (a' * d' - b' * c') 0) eqn:B.
    - apply Reqb_true in B. split; [intros [v V]; discriminate V|intros [X _]; contradiction].
    - apply Reqb_false in B. destruct (Rltb (sol_cen _ _ _ _ _ _ _ _ _ _ _ _ _) 0) eqn:N1.
      + apply Rltb_true in N1. split; [intros [v V]; discriminate V|intros (_ & X & _); lra].
      + apply Rltb_false in N1. destruct (Rltb (sol_env _ _ _ _ _ _ _ _ _ _ _ _ _) 0) eqn:N2.
        * apply Rltb_true in N2. split; [intros [v V]; discriminate V|intros (_ & _ & X); lra].
        * apply Rltb_false in N2. split; [intros _; repeat split; [exact B|lra|lra]|intros _; eexists; reflexivity]. }
  rewrite Q. clear Q.
  unfold sol_cen, sol_env. fold k. change (det C P o rs r2 gi go rt rsin rm) with (a' * d' - b' * c'). fold a' b' c' d'. fold sg.
  assert (A1 : 0 < a') by nra. assert (B1 : 0 < b') by nra. assert (C1 : 0 < c') by nra. assert (D1 : 0 < d') by nra.
  rewrite Ea, Eb, Ec, Ed. clear -S A1 B1 C1 D1 R0 T0. clearbody a' b' c' d' sg.
  replace (sg * a' / (sg * c')) with (a' / c') by (field; lra). replace (sg * b' / (sg * d')) with (b' / d') by (field; lra).
  assert (Sd : a' / c' - b' / d' = (a' * d' - b' * c') * / (c' * d')) by (field; lra).
  assert (Sa : mR / m2 - a' / c' = (mR * c' - a' * m2) * / (m2 * c')) by (field; lra).
  assert (Sb : mR / m2 - b' / d' = (mR * d' - b' * m2) * / (m2 * d')) by (field; lra).
  assert (I1 : 0 < / (c' * d')) by (apply Rinv_0_lt_compat; nra).
  assert (I2 : 0 < / (m2 * c')) by (apply Rinv_0_lt_compat; nra).
  assert (I3 : 0 < / (m2 * d')) by (apply Rinv_0_lt_compat; nra).
  set (i1 := / (c' * d')) in *. set (i2 := / (m2 * c')) in *. set (i3 := / (m2 * d')) in *. clearbody i1 i2 i3.
  set (x := a' / c') in *. set (y := b' / d') in *. set (m := mR / m2) in *. clearbody x y m.
  set (D := a' * d' - b' * c') in *. clearbody D.
  destruct (Req_dec D 0) as [Z|Z]; [split; [intros [X _]; contradiction|intros [X _]; exfalso; apply X; rewrite Z in Sd; lra]|].
  replace ((1 / D * - c' * mR + 1 / D * a' * m2) / sg) with ((- (mR * c' - a' * m2)) / (D * sg)) by (field; split; first [exact Z|lra]).
  replace ((1 / D * d' * mR + 1 / D * - b' * m2) / sg) with ((mR * d' - b' * m2) / (D * sg)) by (field; split; first [exact Z|lra]).
  set (u := mR * c' - a' * m2) in *. set (w := mR * d' - b' * m2) in *. clearbody u w.
  destruct (Rdichotomy _ _ Z) as [N|N].
  - assert (Nv : / (D * sg) < 0) by (apply Rinv_lt_0_compat; nra). set (v := / (D * sg)) in *. unfold Rdiv. fold v. clearbody v.
    assert (x < y) by nra. rewrite Rmin_left, Rmax_right by lra. split.
    + intros (_ & X & Y). split; [lra|]. assert (0 <= u) by nra. assert (w <= 0) by nra. nra.
    + intros (_ & X & Y). assert (0 <= u) by nra. assert (w <= 0) by nra. repeat split; [exact Z|nra|nra].
  - assert (Nv : 0 < / (D * sg)) by (apply Rinv_0_lt_compat; nra). set (v := / (D * sg)) in *. unfold Rdiv. fold v. clearbody v.
    assert (y < x) by nra. rewrite Rmin_right, Rmax_left by lra. split.
    + intros (_ & X & Y). split; [lra|]. assert (u <= 0) by nra. assert (0 <= w) by nra. nra.
    + intros (_ & X & Y). assert (u <= 0) by nra. assert (0 <= w) by nra. repeat split; [exact Z|nra|nra].
Qed.

Definition demo_parts : parts := {| env_alpha2rho0 := fun al _ => al; env_mass_3d := fun r _ rho0 _ => rho0 * r; cen_mass_3d_lens := fun _ _ al _ _ => al |}.
Lemma demo_linear : linear_parts demo_parts.
Proof. repeat split; cbn; intros; ring. Qed.
Definition demo_cc (rm : R) : chalo := {| ch_mass := 10 ^ 8; ch_c := 12; ch_z := 0.5; ch_zeval := 0.5; ch_x := 0; ch_y := 0;
  ch_args := ("gamma_inner", 2) :: ("gamma_outer", 3) :: ("rt_kpc", 3) :: ("Rs_inner_kpc", 0.05) :: ("r_match_kpc", rm) :: ("m_target_R", 3) :: ("m_target_r200", 4) :: nil |}.
Lemma demo_has rm : has_args (demo_cc rm) 2 3 3 0.05 rm 3 4.
Proof. split; reflexivity. Qed.
(** A halo whose matching radius is half of r_200 and whose targets are 3 and 4: 1/2 < 3/4 < 1. *)
Lemma demo_cc_ok : exists rm v, 0 < rm /\ profile_args_cc demo demo_parts 2 (demo_cc rm) = Ok v.
Proof.
  destruct (C55_nfw_parameters demo (10 ^ 8) 12 0.5 false demo_expanding ltac:(lra) ltac:(lra) ltac:(lra)) as (rhos & rs & r2 & EN & _ & H).
  assert (P2 : 0 < r2) by (rewrite (dh_conc _ _ _ _ _ _ _ H); pose proof (dh_rs _ _ _ _ _ _ _ H); lra).
  exists (r2 / 2).
  assert (S : 0 < sigma_crit_arcsec demo 2 0.5) by (apply sigma_arcsec_pos; [apply demo_distances|cbn; lra]).
  pose proof (C57_feasible demo demo_parts 2 (demo_cc (r2 / 2)) 2 3 3 0.05 (r2 / 2) 3 4 rhos rs r2 demo_linear demo_expanding demo_distances) as F.
  cbv zeta in F. cbn [ch_z ch_mass ch_c ch_zeval demo_cc] in F. unfold envelope_mass, centre_mass in F. cbn [env_alpha2rho0 env_mass_3d cen_mass_3d_lens demo_parts] in F.
  change (co_kpc demo 0.5) with 6 in F. set (sg := sigma_crit_arcsec demo 2 0.5) in *. clearbody sg.
  replace (sg * (1 * (r2 / 2 / 6)) / (sg * (1 * (r2 / 6)))) with (1 / 2) in F by (field; lra). replace (sg * 1 / (sg * 1)) with 1 in F by (field; lra).
  rewrite Rmin_left, Rmax_right in F by lra.
  destruct F as [_ F]; try lra; try apply demo_has; try exact H; try nra.
  destruct F as [v V]; [split; lra|]. exists v. split; [lra|exact V].
Qed.
Example C57_mass_constraints_nonvacuous : exists rm v rs r200, profile_args_cc demo demo_parts 2 (demo_cc rm) = Ok v /\
  meets demo demo_parts 2 (demo_cc rm) rs r200 2 3 3 0.05 rm 3 4 (cc_alpha_env v) (cc_alpha_cen v).
Proof.
  destruct demo_cc_ok as (rm & v & _ & E).
  destruct (C57_mass_constraints demo demo_parts 2 (demo_cc rm) 2 3 3 0.05 rm 3 4 v demo_linear demo_expanding demo_distances) as (_ & _ & _ & _ & rhos & rs & r2 & _ & _ & _ & _ & M);
    cbn -[pow]; try lra; [apply demo_has|exact E|]. exists rm, v, rs, r2. split; [exact E|]. apply M. split; reflexivity.
Qed.
Example C57_raises_iff_negative_nonvacuous : exists rm v rs r200, 
  forall ae ac, meets demo demo_parts 2 (demo_cc rm) rs r200 2 3 3 0.05 rm 3 4 ae ac <-> ae = cc_alpha_env v /\ ac = cc_alpha_cen v.
Proof.
  destruct demo_cc_ok as (rm & v & _ & E).
  destruct (C57_mass_constraints demo demo_parts 2 (demo_cc rm) 2 3 3 0.05 rm 3 4 v demo_linear demo_expanding demo_distances) as (_ & _ & _ & _ & rhos & rs & r2 & _ & _ & _ & _ & M);
    cbn -[pow]; try lra; [apply demo_has|exact E|]. exists rm, v, rs, r2. exact M.
Qed.
Example C57_feasible_nonvacuous : exists rm v, profile_args_cc demo demo_parts 2 (demo_cc rm) = Ok v.
Proof. destruct demo_cc_ok as (rm & v & _ & E). exists rm, v. exact E. Qed.

(** With a black hole instead of the cuspy centre: the point mass alone has the whole target mass ([theta_E] is its Einstein
    radius), and the envelope keeps the amplitude computed for the composite with the cuspy centre.  So the mass inside the
    matching radius is the target mass plus the envelope's, and the mass inside r_200 is off by the difference between the
    target mass at the matching radius and the centre's mass. *)
Theorem C57_black_hole_masses : forall C P zs o gi go rt rsin rm mR m200 v,
  linear_parts P -> expanding C -> distances_ok C (ch_z o) zs -> 0 < co_kpc C (ch_z o) -> 0 <= ch_zeval o -> 0 < ch_mass o -> 0 < ch_c o -> 0 <= mR ->
  has_args o gi go rt rsin rm mR m200 -> profile_args_bh C P zs o = Ok v ->
  let point_mass := PI * (bh_theta_E v * arcsec * co_DAz C (ch_z o)) ^ 2 * get_sigma_crit_lensing C (ch_z o) zs in
  exists w rhos rs r200, profile_args_cc C P zs o = Ok w /\ bh_alpha_env v = cc_alpha_env w /\ bh_Rs v = cc_Rs w /\ bh_rt v = cc_rt w /\
    describes_halo false (ch_mass o) (ch_c o) (critical_kpc C (ch_zeval o)) rhos rs r200 /\
    point_mass = mR /\
    envelope_mass C P zs (ch_z o) r200 (bh_alpha_env v) (bh_Rs v) (bh_rt v) + point_mass
      = m200 + (mR - centre_mass C P zs (ch_z o) r200 (cc_alpha_cen w) (cc_Rs_in w) gi go).
Proof.
  intros C P zs o gi go rt rsin rm mR m2 v L K D Hk Hz Hm Hc HmR HA E pm.
  unfold profile_args_bh in E. destruct (solve_amplitudes C P zs o) as [q|] eqn:ES; [|discriminate E]. destruct q as [[[[ae ac] Rs] Rsi] rtt].
  cbn [bind] in E. rewrite (ha_mR _ _ _ _ _ _ _ _ HA) in E. cbn [bind] in E. injection E as <-. cbn [bh_theta_E bh_alpha_env bh_Rs bh_rt] in *.
  assert (EW : profile_args_cc C P zs o = Ok {| cc_alpha_cen := ac; cc_Rs_in := Rsi; cc_gi := gi; cc_go := go; cc_alpha_env := ae; cc_Rs := Rs; cc_rt := rtt |}).
  { unfold profile_args_cc. rewrite ES, (ha_gi _ _ _ _ _ _ _ _ HA), (ha_go _ _ _ _ _ _ _ _ HA). reflexivity. }
  destruct (C57_mass_constraints C P zs o gi go rt rsin rm mR m2 _ L K D Hk Hz Hm Hc HA EW) as (_ & _ & _ & _ & rhos & rs & r2 & H & E1 & E2 & E3 & M).
  cbn [cc_alpha_cen cc_Rs_in cc_alpha_env cc_Rs cc_rt] in *.
  destruct (proj2 (M ae ac) (conj eq_refl eq_refl)) as [_ M2].
  assert (PM : pm = mR).
  { unfold pm. rewrite (Rmult_comm (point_mass_factor_z C zs (ch_z o))). apply (C74_point_mass_einstein_radius C zs (ch_z o) mR D HmR). }
  eexists. exists rhos, rs, r2. split; [exact EW|]. cbn [cc_alpha_cen cc_Rs_in cc_alpha_env cc_Rs cc_rt].
  repeat (split; [reflexivity|]). split; [exact H|]. split; [exact PM|]. rewrite PM, <- M2, E1, E2, E3. ring.
Qed.
Example C57_black_hole_masses_nonvacuous : exists rm v, 0 < rm /\ profile_args_bh demo demo_parts 2 (demo_cc rm) = Ok v.
Proof.
  destruct demo_cc_ok as (rm & w & Pr & E). exists rm. unfold profile_args_cc in E. unfold profile_args_bh.
  destruct (solve_amplitudes demo demo_parts 2 (demo_cc rm)) as [q|]; [|discriminate E]. destruct q as [[[[ae ac] Rs] Rsi] rtt]. eexists. split; [exact Pr|reflexivity].
Qed.
(** So the target mass inside the matching radius is not met. *)
Theorem C57_black_hole_refuted : exists C P zs o v rm,
  linear_parts P /\ expanding C /\ distances_ok C (ch_z o) zs /\ arg "r_match_kpc" (ch_args o) = Ok rm /\ arg "m_target_R" (ch_args o) = Ok 3 /\
  profile_args_bh C P zs o = Ok v /\
  PI * (bh_theta_E v * arcsec * co_DAz C (ch_z o)) ^ 2 * get_sigma_crit_lensing C (ch_z o) zs
    + envelope_mass C P zs (ch_z o) rm (bh_alpha_env v) (bh_Rs v) (bh_rt v) > 3.
Proof.
  destruct (C55_nfw_parameters demo (10 ^ 8) 12 0.5 false demo_expanding ltac:(lra) ltac:(lra) ltac:(lra)) as (rhos & rs & r2 & EN & _ & H).
  destruct C57_black_hole_masses_nonvacuous as (rm & v & Pr & E).
  destruct (C57_black_hole_masses demo demo_parts 2 (demo_cc rm) 2 3 3 0.05 rm 3 4 v demo_linear demo_expanding demo_distances)
    as (w & rhos' & rs' & r2' & EW & E1 & E2 & E3 & H' & PM & _); cbn -[pow]; try lra; [apply demo_has|exact E|].
  destruct (C57_mass_constraints demo demo_parts 2 (demo_cc rm) 2 3 3 0.05 rm 3 4 w demo_linear demo_expanding demo_distances)
    as (N1 & N2 & _ & _ & rhos'' & rs'' & r2'' & H'' & F1 & F2 & F3 & M); cbn -[pow]; try lra; [apply demo_has|exact EW|].
  cbn [ch_z demo_cc] in PM. exists demo, demo_parts, 2, (demo_cc rm), v, rm. split; [exact demo_linear|]. split; [exact demo_expanding|]. split; [exact demo_distances|].
  repeat (split; [reflexivity|]). split; [exact E|]. cbn [ch_z demo_cc]. rewrite PM.
  destruct (proj2 (M _ _) (conj eq_refl eq_refl)) as [M1 M2]. cbn [ch_z demo_cc] in M1, M2. rewrite E1, E2, E3, F1, F3. unfold envelope_mass, centre_mass in *.
  cbn [env_alpha2rho0 env_mass_3d cen_mass_3d_lens demo_parts] in *.
  assert (S : 0 < sigma_crit_arcsec demo 2 0.5) by (apply sigma_arcsec_pos; [apply demo_distances|cbn; lra]).
  set (sg := sigma_crit_arcsec demo 2 0.5) in *. clearbody sg. cbn [co_kpc demo] in *. set (ae := cc_alpha_env w) in *. set (ac := cc_alpha_cen w) in *. clearbody ae ac.
  destruct (Rle_or_lt (sg * (ae * (rm / 6))) 0) as [X|X]; [exfalso|lra].
  assert (Y : ae * rm <= 0) by (assert (ae * (rm / 6) <= 0) by nra; lra). assert (ae = 0) by nra. rewrite H0, Rmult_0_l, Rmult_0_r in M1, M2. lra.
Qed.

(** ** Hybrid halos *)
(** The keyword dictionaries: only alpha_Rs changes, with weights that add up to one. *)
Lemma scale_alpha_spec w d d' : scale_alpha w d = Ok d' ->
  (exists v, arg "alpha_Rs" d = Ok v /\ arg "alpha_Rs" d' = Ok (v * w)) /\ (forall k, k <> "alpha_Rs" -> arg k d' = arg k d) /\ map fst d' = map fst d.
Proof.
  revert d'. induction d as [|[k v] d IH]; cbn [scale_alpha]; intros d' E; [discriminate E|].
  destruct (String.eqb "alpha_Rs" k) eqn:B.
  - injection E as <-. apply String.eqb_eq in B. subst k. cbn. split; [exists v; split; reflexivity|]. split; [|reflexivity].
    intros k Hk. destruct (String.eqb k "alpha_Rs") eqn:B; [apply String.eqb_eq in B; contradiction|reflexivity].
  - destruct (scale_alpha w d) as [t|] eqn:ET; [|discriminate E]. cbn [bind] in E. injection E as <-. destruct (IH t eq_refl) as ((u & A1 & A2) & A3 & A4).
    cbn [arg map fst]. rewrite B. split; [exists u; split; assumption|]. split; [|rewrite A4; reflexivity].
    intros k' Hk. destruct (String.eqb k' k); [reflexivity|apply A3; exact Hk].
Qed.
Theorem C57_hybrid_keywords : forall f d1 d2 out, hybrid_params f d1 d2 = Ok out ->
  exists e1 e2 a1 a2, out = e1 :: e2 :: nil /\ arg "alpha_Rs" d1 = Ok a1 /\ arg "alpha_Rs" d2 = Ok a2 /\
    arg "alpha_Rs" e1 = Ok (a1 * (1 - f)) /\ arg "alpha_Rs" e2 = Ok (a2 * f) /\
    (forall k, k <> "alpha_Rs" -> arg k e1 = arg k d1 /\ arg k e2 = arg k d2) /\ map fst e1 = map fst d1 /\ map fst e2 = map fst d2.
Proof.
  intros f d1 d2 out E. unfold hybrid_params in E. destruct (scale_alpha (1 - f) d1) as [e1|] eqn:E1; [|discriminate E].
  cbn [bind] in E. destruct (scale_alpha f d2) as [e2|] eqn:E2; [|discriminate E]. cbn [bind] in E. injection E as <-.
  destruct (scale_alpha_spec _ _ _ E1) as ((a1 & A1 & A2) & A3 & A4). destruct (scale_alpha_spec _ _ _ E2) as ((a2 & B1 & B2) & B3 & B4).
  exists e1, e2, a1, a2. repeat (split; [first [reflexivity|assumption]|]). split; [|split; assumption].
  intros k Hk. split; [apply A3|apply B3]; exact Hk.
Qed.
Example C57_hybrid_keywords_nonvacuous : exists out, hybrid_params 0.3 (("alpha_Rs", 2) :: ("Rs", 1) :: nil) (("Rs", 1) :: ("alpha_Rs", 5) :: nil) = Ok out.
Proof. eexists. reflexivity. Qed.

(** The density is the weighted mean: between the two, and if both constituents have the mass [m] inside [R0], so has the hybrid. *)
Theorem C57_hybrid_mass : forall f rho1 rho2 R0 m,
  is_RInt (fun r => 4 * PI * r ^ 2 * rho1 r) 0 R0 m -> is_RInt (fun r => 4 * PI * r ^ 2 * rho2 r) 0 R0 m ->
  is_RInt (fun r => 4 * PI * r ^ 2 * hybrid_density f (rho1 r) (rho2 r)) 0 R0 m /\
  (0 <= f <= 1 -> forall r, Rmin (rho1 r) (rho2 r) <= hybrid_density f (rho1 r) (rho2 r) <= Rmax (rho1 r) (rho2 r)).
Proof.
  intros f rho1 rho2 R0 m I1 I2. split.
  - replace m with (plus (scal (1 - f) m) (scal f m)).
    2:{ unfold plus, scal. cbn. unfold mult. cbn. ring. }
    eapply is_RInt_ext; [|apply (is_RInt_plus (V := R_NormedModule)); [apply (is_RInt_scal (V := R_NormedModule)) with (k := 1 - f); exact I1|apply (is_RInt_scal (V := R_NormedModule)) with (k := f); exact I2]].
    intros r _. unfold hybrid_density, plus, scal. cbn. unfold mult. cbn. ring.
  - intros [F0 F1] r. unfold hybrid_density. set (a := rho1 r). set (b := rho2 r). clearbody a b.
    unfold Rmin, Rmax. destruct (Rle_dec a b); nra.
Qed.
Example C57_hybrid_mass_nonvacuous : is_RInt (fun r => 4 * PI * r ^ 2 * hybrid_density 0.3 (/ (4 * PI)) (/ (4 * PI))) 0 0 0.
Proof.
  apply (C57_hybrid_mass 0.3 (fun _ => / (4 * PI)) (fun _ => / (4 * PI)) 0 0);
    apply (is_RInt_point (V := R_NormedModule)).
Qed.

(** The TNFWC constituent shares the concentration and the infall redshift of the TNFW halo, if it was not queried before;
    it must be a subhalo if the TNFW halo is one. *)
Theorem C57_hybrid_constituent : forall F dc dz c z h,
  (wc_prof h = None -> exists h', hybrid_init c (Some z) true h = Ok h' /\ snd (wc_params F dc dz h') = F c z /\
     snd (wc_params F dc dz (fst (wc_params F dc dz h'))) = F c z) /\
  (wc_prof h = None -> exists h', hybrid_init c None true h = Ok h' /\
     snd (wc_params F dc dz h') = F c (match wc_zinf h with Some v => v | None => dz end)) /\
  hybrid_init c (Some z) false h = Err EAssertionError /\
  (forall a, wc_prof h = Some a -> exists h', hybrid_init c (Some z) true h = Ok h' /\ snd (wc_params F dc dz h') = a).
Proof.
  intros F dc dz c z [hc hz hp hk]. cbn [wc_prof wc_zinf]. split; [intros ->; eexists; split; [reflexivity|]; split; reflexivity|].
  split; [intros ->; eexists; split; reflexivity|]. split; [reflexivity|]. intros a ->. eexists. split; reflexivity.
Qed.
Example C57_hybrid_constituent_nonvacuous : exists h', hybrid_init 10 (Some 2) true {| wc_c := Some 5; wc_zinf := None; wc_prof := None; wc_kw := None |} = Ok h'.
Proof. eexists. reflexivity. Qed.
(** A constituent that has already computed its profile keeps the parameters computed from its own concentration, although
    both the concentration and the infall redshift it reports are then those of the TNFW halo. *)
Theorem C57_hybrid_stale_refuted : exists F dc dz c z h0 h', let h := fst (wc_params F dc dz h0) in
  hybrid_init c (Some z) true h = Ok h' /\ wc_c h' = Some c /\ wc_zinf h' = Some z /\ snd (wc_params F dc dz h') <> F c z.
Proof.
  exists (fun c z => ("alpha_Rs", c) :: nil), 5, 1, 10, 2, {| wc_c := None; wc_zinf := None; wc_prof := None; wc_kw := None |}.
  eexists. cbv zeta. split; [reflexivity|]. split; [reflexivity|]. split; [reflexivity|]. cbn. intros E. injection E as E. lra.
Qed.

(** ** C58: query histories *)
Section Histories.
Variables (rnd : nat -> R -> R) (o : chalo) (a : ccargs) (b : bhargs).
Let inv (s : caches) : Prop := (lens_args s = None \/ lens_args s = Some (one_dict rnd o a)) /\ (lens_split s = None \/ lens_split s = Some (split_dicts rnd o a)).
Lemma inv_step q s : inv s -> inv (fst (step (split_cc rnd o a) (params_cc rnd o a) q s)).
Proof.
  intros [A B]. destruct q; cbn [step]; unfold split_cc, params_cc.
  - destruct B as [B|B]; rewrite B; split; cbn; auto.
  - destruct A as [A|A]; rewrite A; split; cbn; auto.
  - destruct B as [B|B]; rewrite B; split; cbn; auto.
Qed.
Lemma inv_run h s : inv s -> inv (run (split_cc rnd o a) (params_cc rnd o a) h s).
Proof. revert s. induction h as [|q h IH]; cbn; intros s I; [exact I|]. apply IH. apply inv_step. exact I. Qed.
Lemma inv_fresh : inv fresh.
Proof. split; left; reflexivity. Qed.
End Histories.

(** The base class returns, whatever was queried before, the same single dictionary for its one profile name and the same
    two for the split profile; computing a density never fails and never changes them. *)
Theorem C58_history_independent : forall rnd o a h,
  let s := run (split_cc rnd o a) (params_cc rnd o a) h fresh in
  snd (step (split_cc rnd o a) (params_cc rnd o a) QParams s) = ADicts (one_dict rnd o a) /\
  snd (step (split_cc rnd o a) (params_cc rnd o a) QSplit s) = ADicts (split_dicts rnd o a) /\
  snd (step (split_cc rnd o a) (params_cc rnd o a) QDensity s) = ADone /\
  List.length (one_dict rnd o a) = 1%nat /\ List.length (split_dicts rnd o a) = 2%nat.
Proof.
  intros rnd o a h s. destruct (inv_run rnd o a h fresh (inv_fresh rnd o a)) as [A B]. fold s in A, B. clearbody s.
  repeat split.
  - cbn [step]. unfold params_cc. destruct A as [A|A]; rewrite A; reflexivity.
  - cbn [step]. unfold split_cc. destruct B as [B|B]; rewrite B; reflexivity.
  - cbn [step]. unfold split_cc. destruct B as [B|B]; rewrite B; reflexivity.
Qed.
(** The two forms describe the same halo. *)
Theorem C58_forms_agree : forall rnd o a, exists cen env one,
  split_dicts rnd o a = cen :: env :: nil /\ one_dict rnd o a = one :: nil /\
  arg "alpha_Rs" cen = arg "alpha_Rs_inner" one /\ arg "Rs" cen = arg "Rs_inner" one /\
  arg "gamma_inner" cen = arg "gamma_inner" one /\ arg "gamma_outer" cen = arg "gamma_outer" one /\
  arg "alpha_Rs" env = arg "alpha_Rs_outer" one /\ arg "Rs" env = arg "Rs_outer" one /\ arg "r_trunc" env = arg "r_trunc" one /\
  arg "center_x" cen = arg "center_x" one /\ arg "center_x" env = arg "center_x" one /\ arg "center_y" cen = arg "center_y" one /\ arg "center_y" env = arg "center_y" one /\
  arg "alpha_Rs_inner" one = Ok (rnd 10%nat (cc_alpha_cen a)) /\ arg "alpha_Rs_outer" one = Ok (rnd 10%nat (cc_alpha_env a)) /\
  arg "Rs_inner" one = Ok (rnd 10%nat (cc_Rs_in a)) /\ arg "Rs_outer" one = Ok (rnd 10%nat (cc_Rs a)) /\ arg "r_trunc" one = Ok (rnd 10%nat (cc_rt a)) /\
  arg "center_x" one = Ok (rnd 4%nat (ch_x o)) /\ arg "center_y" one = Ok (rnd 4%nat (ch_y o)).
Proof. intros. do 3 eexists. repeat (split; [reflexivity|]). reflexivity. Qed.

(** The black-hole class: after any history, the parameters are the single dictionary exactly if neither the split
    parameters nor a density were asked for before, and otherwise the two split dictionaries; densities always fail. *)
Definition is_split (q : query) : bool := match q with QParams => false | _ => true end.
Theorem C58_black_hole_history : forall rnd o b h,
  let s := run (split_bh rnd o b) (params_bh rnd o b) h fresh in
  snd (step (split_bh rnd o b) (params_bh rnd o b) QParams s)
    = ADicts (if existsb is_split h then split_dicts_bh rnd o b else one_dict_bh rnd o b) /\
  snd (step (split_bh rnd o b) (params_bh rnd o b) QSplit s) = ADicts (split_dicts_bh rnd o b) /\
  snd (step (split_bh rnd o b) (params_bh rnd o b) QDensity s) = AErr EKeyError.
Proof.
  intros rnd o b h s.
  assert (I : lens_split s = None /\ if existsb is_split h then lens_args s = Some (split_dicts_bh rnd o b) else lens_args s = None \/ lens_args s = Some (one_dict_bh rnd o b)).
  { unfold s. clear s. pose (st := fresh). fold st.
    assert (G : forall h st, lens_split st = None ->
      let s := run (split_bh rnd o b) (params_bh rnd o b) h st in lens_split s = None /\
      (existsb is_split h = true -> lens_args s = Some (split_dicts_bh rnd o b)) /\
      (lens_args st = Some (split_dicts_bh rnd o b) -> lens_args s = Some (split_dicts_bh rnd o b)) /\
      (existsb is_split h = false -> lens_args st = None \/ lens_args st = Some (one_dict_bh rnd o b) -> lens_args s = None \/ lens_args s = Some (one_dict_bh rnd o b))).
    { clear. induction h as [|q h IH]; intros st Hs; [cbn; repeat split; auto; discriminate|].
      cbn [run fold_left]. specialize (IH (fst (step (split_bh rnd o b) (params_bh rnd o b) q st))). fold (run (split_bh rnd o b) (params_bh rnd o b) h (fst (step (split_bh rnd o b) (params_bh rnd o b) q st))).
      destruct st as [la ls]. cbn in Hs. subst ls. destruct IH as (J1 & J2 & J3 & J4).
      { destruct q; cbn; [reflexivity|unfold params_bh; cbn; destruct la; reflexivity|reflexivity]. }
      cbv zeta. split; [exact J1|]. destruct q; cbn [existsb is_split orb].
      - repeat split; intros; try discriminate; apply J3; reflexivity.
      - split; [exact J2|]. split; [intros E; apply J3; cbn; cbn in E; rewrite E; reflexivity|]. intros X Y. apply J4; [exact X|].
        cbn. destruct Y as [Y|Y]; cbn in Y; rewrite Y; cbn; auto.
      - repeat split; intros; try discriminate; apply J3; reflexivity. }
    destruct (G h st eq_refl) as (J1 & J2 & _ & J4). split; [exact J1|]. destruct (existsb is_split h); [apply J2; reflexivity|apply J4; [reflexivity|left; reflexivity]]. }
  destruct I as [I1 I2]. clearbody s. destruct s as [la ls]. cbn in I1. subst ls. cbn in I2. split; [|split; reflexivity].
  cbn [step]. unfold params_bh. cbn [lens_args]. destruct (existsb is_split h).
  - subst la. reflexivity.
  - destruct I2 as [I2|I2]; subst la; reflexivity.
Qed.
Example C58_black_hole_history_nonvacuous : existsb is_split (QParams :: QSplit :: nil) = true /\ existsb is_split (QParams :: QParams :: nil) = false.
Proof. split; reflexivity. Qed.
(** So the number of dictionaries for the one profile name depends on what was asked before. *)
Theorem C58_query_order_refuted : forall rnd o b, exists h h' l l',
  snd (step (split_bh rnd o b) (params_bh rnd o b) QParams (run (split_bh rnd o b) (params_bh rnd o b) h fresh)) = ADicts l /\
  snd (step (split_bh rnd o b) (params_bh rnd o b) QParams (run (split_bh rnd o b) (params_bh rnd o b) h' fresh)) = ADicts l' /\
  List.length l = 1%nat /\ List.length l' = 2%nat.
Proof. intros. exists nil, (QSplit :: nil). do 2 eexists. repeat split. Qed.

Print Assumptions C57_mass_constraints.
Print Assumptions C57_raises_iff_negative.
Print Assumptions C57_feasible.
Print Assumptions C57_black_hole_masses.
Print Assumptions C57_black_hole_refuted.
Print Assumptions C57_hybrid_keywords.
Print Assumptions C57_hybrid_mass.
Print Assumptions C57_hybrid_constituent.
Print Assumptions C57_hybrid_stale_refuted.
Print Assumptions C58_history_independent.
Print Assumptions C58_forms_agree.
Print Assumptions C58_black_hole_history.
Print Assumptions C58_query_order_refuted.
