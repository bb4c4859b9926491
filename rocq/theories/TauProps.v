(** C103. Truncation radii from bound masses.

    Specification: [holds_fraction tau c f] says that a truncated halo with truncation radius [tau] (in scale radii) keeps
    the fraction [f] of the mass that the untruncated halo has inside [c] scale radii.  [is_table look g] says that [look]
    is one of the two tables of the package and [g] the grids it was built on. *)
From Coquelicot Require Import Coquelicot.
From Verif Require Import Prelude MassFnModel MassFnProofs MassLossModel MassLossProofs TnfwModel TnfwSpec TnfwProofs TnfwProps TauModel TauProofs.
From Coq Require Import Psatz Ranalysis5.
Local Open Scope R_scope.

Definition holds_fraction (tau c f : R) : Prop :=
  0 < tau /\ 0 < c /\ sphere_mass (rho_tnfw 1 1 tau) c = f * sphere_mass (rho_nfw 1 1) c.
(** lenstronomy's mass_3d is the mass inside the radius, with the truncation radius in units of the scale radius *)
Definition encloses (mass_3d : R -> R -> R -> R -> R) : Prop :=
  forall r rs rho0 tau, 0 < r -> 0 < rs -> 0 < tau -> mass_3d r rs rho0 tau = sphere_mass (rho_tnfw rho0 rs (tau * rs)) r.
Definition is_table (look : R -> R -> R) (g : tau_grid) : Prop :=
  (look = tau_mf_interpolator /\ g = grid_emulator) \/
  (exists mass_3d, encloses mass_3d /\ look = tau_mf_interpolation mass_3d /\ g = grid_util).
(** radii covered by the grid, and the ratio of neighbouring radii *)
Definition tabulated (g : tau_grid) (tau : R) : Prop := pow10 (ax_lo (tg_tau g)) <= tau <= pow10 (ax_hi (tg_tau g)).
Definition spacing (g : tau_grid) : R := pow10 ((ax_hi (tg_tau g) - ax_lo (tg_tau g)) / INR (ax_n (tg_tau g) - 1)).

Lemma table_cases look g : is_table look g -> exists frac, look = tau_lookup frac g /\ wf_grid g /\
  (forall tau c, 0 < tau -> 0 < c -> frac tau c = tnfw_mass_fraction tau c).
Proof.
  intros [[-> ->]|(m & E & -> & ->)].
  - exists tnfw_mass_fraction. repeat split; try apply wf_emulator; auto.
  - exists (tnfw_mass_fraction_util m). split; [reflexivity|]. split; [apply wf_util|].
    intros tau c Ht Hc. apply C25_util; assumption.
Qed.
Lemma holds_frac tau c f : holds_fraction tau c f <-> 0 < tau /\ 0 < c /\ tnfw_mass_fraction tau c = f.
Proof.
  unfold holds_fraction. split; intros (A & B & E); repeat split; auto.
  - replace tau with (tau / 1) by field. rewrite (C25_mass_fraction 1 1 tau c) by lra. rewrite !Rmult_1_r, E.
    pose proof (Func0_pos c B). destruct (nfw_mass 1 1 c Rlt_0_1 (Rlt_le _ _ B)) as [_ X]. rewrite Rmult_1_r in X. rewrite X.
    pose proof PI_RGT_0. field. split; lra.
  - subst f. replace tau with (tau / 1) at 2 by field. rewrite (C25_mass_fraction 1 1 tau c) by lra. rewrite !Rmult_1_r.
    pose proof (Func0_pos c B). destruct (nfw_mass 1 1 c Rlt_0_1 (Rlt_le _ _ B)) as [_ X]. rewrite Rmult_1_r in X. rewrite X.
    pose proof PI_RGT_0. field. split; lra.
Qed.

(** ** The radius that a bound mass asks for *)
Lemma frac_continuous c t : 0 < c -> 0 < t -> continuity_pt (fun t => tnfw_mass_fraction t c) t.
Proof.
  intros Hc Ht. apply continuity_pt_filterlim, (ex_derive_continuous (fun t => tnfw_mass_fraction t c) t).
  assert (D : ex_derive (fun t => Func t c / Func0 c) t).
  { unfold Func. auto_derive. pose proof (sq_pos t Ht). pose proof (pow2_ge_0 c). pose proof (Func0_pos c Hc).
    repeat split; try lra; simpl in *; try nra. }
  apply (ex_derive_ext_loc (fun t => Func t c / Func0 c)); [|exact D].
  assert (P : 0 < t / 2) by lra. exists (mkposreal _ P). intros y Hy.
  assert (Y : Rabs (y - t) < t / 2) by exact Hy. apply Rabs_def2 in Y. symmetry. apply frac_unfold; lra.
Qed.
(** Every bound fraction between those of two radii is held by exactly one radius between them. *)
Theorem C103_solution : forall c f t1 t2 f1 f2, t1 < t2 -> holds_fraction t1 c f1 -> holds_fraction t2 c f2 -> f1 <= f <= f2 ->
  exists! tau, t1 <= tau <= t2 /\ holds_fraction tau c f.
Proof.
  intros c f t1 t2 f1 f2 L H1 H2 [A B]. apply holds_frac in H1. apply holds_frac in H2.
  destruct H1 as (P1 & Pc & E1), H2 as (P2 & _ & E2).
  assert (X : exists tau, t1 <= tau <= t2 /\ tnfw_mass_fraction tau c = f).
  { destruct (Req_dec f1 f) as [E|N1]; [exists t1; split; lra|]. destruct (Req_dec f2 f) as [E|N2]; [exists t2; split; lra|].
    destruct (IVT_interv (fun t => tnfw_mass_fraction t c - f) t1 t2) as (t & Bt & Et).
    - intros a Ha. apply continuity_pt_minus; [apply frac_continuous; lra|apply continuity_pt_const; intros ? ?; reflexivity].
    - exact L.
    - lra.
    - lra.
    - exists t. split; [exact Bt|lra]. }
  destruct X as (t & Bt & Et). exists t. split.
  - split; [exact Bt|]. apply holds_frac. repeat split; auto. lra.
  - intros t' [Bt' Ht']. apply holds_frac in Ht'. destruct Ht' as (_ & _ & E').
    destruct (Rtotal_order t t') as [Q|[Q|Q]]; [|exact Q|].
    + pose proof (C25_monotone t t' c ltac:(lra) Q Pc). lra.
    + pose proof (C25_monotone t' t c ltac:(lra) Q Pc). lra.
Qed.
(** It grows with the bound fraction and with the concentration. *)
Theorem C103_solution_order : forall tau tau' c c' f f', holds_fraction tau c f -> holds_fraction tau' c' f' ->
  c <= c' -> f <= f' -> tau <= tau'.
Proof.
  intros tau tau' c c' f f' H H' Lc Lf. apply holds_frac in H. apply holds_frac in H'.
  destruct H as (A & B & E), H' as (A' & B' & E'). apply (frac_inj_le tau tau' c A A' B).
  pose proof (frac_decreasing tau' c c' A' B Lc). lra.
Qed.

(** ** The tables *)
(** At the nodes the table returns the radius that holds the requested mass, up to the spacing of the grid. *)
Theorem C103_node : forall look g i j tau, is_table look g -> (i < ax_n (tg_x g))%nat -> (j < ax_n (tg_mf g))%nat ->
  holds_fraction tau (tg_conc g (node (tg_x g) i)) (pow10 (node (tg_mf g) j)) -> tabulated g tau ->
  tau / spacing g <= pow10 (look (node (tg_x g) i) (node (tg_mf g) j)) <= tau * spacing g.
Proof.
  intros look g i j tau H I J Ht B. destruct (table_cases look g H) as (frac & -> & W & F).
  rewrite look_node by assumption. apply holds_frac in Ht. destruct Ht as (P & Pc & E).
  apply T_node; auto. rewrite F; assumption.
Qed.
(** Inside a cell the answer lies between the exact radii of the two extreme corners, up to the spacing, and so does the
    exact radius. *)
Theorem C103_cell : forall look g x y i j tau1 tau2, is_table look g -> (S i < ax_n (tg_x g))%nat -> (S j < ax_n (tg_mf g))%nat ->
  node (tg_x g) i <= x <= node (tg_x g) (S i) -> node (tg_mf g) j <= y <= node (tg_mf g) (S j) ->
  holds_fraction tau1 (tg_conc g (node (tg_x g) i)) (pow10 (node (tg_mf g) j)) -> tabulated g tau1 ->
  holds_fraction tau2 (tg_conc g (node (tg_x g) (S i))) (pow10 (node (tg_mf g) (S j))) -> tabulated g tau2 ->
  tau1 / spacing g <= pow10 (look x y) <= tau2 * spacing g /\
  (forall tau, holds_fraction tau (tg_conc g x) (pow10 y) -> tau1 <= tau <= tau2).
Proof.
  intros look g x y i j t1 t2 H I J Hx Hy H1 B1 H2 B2. destruct (table_cases look g H) as (frac & -> & W & F). split.
  - apply holds_frac in H1. apply holds_frac in H2. destruct H1 as (P1 & Pc1 & E1), H2 as (P2 & Pc2 & E2).
    rewrite <- F in E1, E2 by assumption.
    destruct (exact_in_range frac g W F i j t1 E1 B1) as [R1 _]. destruct (exact_in_range frac g W F (S i) (S j) t2 E2 B2) as [_ R2].
    destruct (look_cell frac g W F x y i j I J Hx Hy R1 R2) as [L U].
    destruct (T_node frac g W F i j t1 E1 B1) as [A _]. destruct (T_node frac g W F (S i) (S j) t2 E2 B2) as [_ C].
    apply pow10_le' in L. apply pow10_le' in U. unfold spacing. unfold step_ratio in A, C. lra.
  - intros tau Ht. split.
    + eapply C103_solution_order; [exact H1|exact Ht|apply (wf_inc g W); lra|apply pow10_le'; lra].
    + eapply C103_solution_order; [exact Ht|exact H2|apply (wf_inc g W); lra|apply pow10_le'; lra].
Qed.
(** More bound mass never gives a smaller radius, also beyond the tabulated bound masses. *)
Theorem C103_more_mass : forall look g x y y', is_table look g -> ax_lo (tg_x g) <= x <= ax_hi (tg_x g) -> y <= y' ->
  look x y <= look x y'.
Proof.
  intros look g x y y' H Hx L. destruct (table_cases look g H) as (frac & -> & W & F). apply look_mono; assumption.
Qed.
(** At fixed bound fraction a more concentrated halo gets a larger radius, as long as the tabulated radii reach it. *)
Theorem C103_more_concentrated : forall look g x x' y j tau1 tau2, is_table look g -> (S j < ax_n (tg_mf g))%nat -> x <= x' ->
  node (tg_mf g) j <= y <= node (tg_mf g) (S j) ->
  holds_fraction tau1 (tg_conc g (ax_lo (tg_x g))) (pow10 (node (tg_mf g) j)) -> tabulated g tau1 ->
  holds_fraction tau2 (tg_conc g (ax_hi (tg_x g))) (pow10 (node (tg_mf g) (S j))) -> tabulated g tau2 ->
  look x y <= look x' y.
Proof.
  intros look g x x' y j t1 t2 H J L Hy H1 B1 H2 B2. destruct (table_cases look g H) as (frac & -> & W & F).
  apply holds_frac in H1. apply holds_frac in H2. destruct H1 as (P1 & Pc1 & E1), H2 as (P2 & Pc2 & E2).
  rewrite <- F in E1, E2 by assumption. rewrite <- (node_0 (tg_x g)) in E1. rewrite <- (node_last (tg_x g) (wf_x g W)) in E2.
  destruct (exact_in_range frac g W F 0 j t1 E1 B1) as [R1 _].
  destruct (exact_in_range frac g W F (ax_n (tg_x g) - 1) (S j) t2 E2 B2) as [_ R2].
  apply look_conc with (j := j); assumption.
Qed.

(** ** The radii of halos *)
(** The truncation radius of a halo is positive and grows with its bound mass: the class based on the tidal-evolution draws ... *)
Theorem C103_keeley : forall mass_3d c lm lm' rs, encloses mass_3d -> 0 < rs -> lm <= lm' ->
  0 < keeley_radius mass_3d c lm rs <= keeley_radius mass_3d c lm' rs.
Proof.
  intros m c lm lm' rs E P L. unfold keeley_radius. cbv zeta. split.
  - apply Rmult_lt_0_compat; [apply pow10_pos|exact P].
  - apply Rmult_le_compat_r; [lra|]. apply pow10_le'. apply (C103_more_mass _ grid_util).
    + right. exists m. auto.
    + cbn. rewrite log10_pow10, log10_1. split.
      * apply Rmin_glb; [lra|apply Rmax_l].
      * apply Rmin_l.
    + apply Rle_min_compat_l, Rle_max_compat_l, L.
Qed.
(** Inside the limits (concentrations from 1 to 10^2.7, bound fractions from 10^-8 to 10^-0.001) the radius is the table's value in
    scale radii; outside it is the radius at the limit. *)
Theorem C103_keeley_limits : forall mass_3d c lm rs, 0 < c ->
  (1 <= c <= pow10 2.7 -> -8 <= lm <= -0.001 -> keeley_radius mass_3d c lm rs = pow10 (tau_mf_interpolation mass_3d (log10 c) lm) * rs) /\
  (lm <= -8 -> keeley_radius mass_3d c lm rs = keeley_radius mass_3d c (-8) rs) /\
  (-0.001 <= lm -> keeley_radius mass_3d c lm rs = keeley_radius mass_3d c (-0.001) rs) /\
  (c <= 1 -> keeley_radius mass_3d c lm rs = keeley_radius mass_3d 1 lm rs) /\
  (pow10 2.7 <= c -> keeley_radius mass_3d c lm rs = keeley_radius mass_3d (pow10 2.7) lm rs).
Proof.
  intros m c lm rs P. assert (M : forall x y, 0 < x -> x <= y -> log10 x <= log10 y).
  { intros x y X [L|E]; [left; now apply log10_lt|subst y; right; reflexivity]. }
  assert (L27 : 0 <= log10 (pow10 2.7)) by (rewrite log10_pow10; lra). pose proof (pow10_pos 2.7) as P27. pose proof log10_1 as L1.
  unfold keeley_radius. cbv zeta. repeat split.
  - intros [C1 C2] [A B]. rewrite (Rmax_right (-8) lm), (Rmin_right (-0.001) lm) by lra.
    rewrite (Rmax_right (log10 1) (log10 c)) by (apply M; lra). rewrite (Rmin_right (log10 _) (log10 c)) by (apply M; lra). reflexivity.
  - intros A. rewrite (Rmax_left (-8) lm), (Rmax_left (-8) (-8)) by lra. reflexivity.
  - intros A. rewrite (Rmax_right (-8) lm), (Rmax_right (-8) (-0.001)) by lra. rewrite (Rmin_left _ lm), (Rmin_left _ (-0.001)) by lra. reflexivity.
  - intros A. rewrite (Rmax_left (log10 1) (log10 c)), (Rmax_left (log10 1) (log10 1)) by (try apply M; lra). reflexivity.
  - intros A. pose proof (M (pow10 2.7) c P27 A).
    rewrite (Rmax_right (log10 1) (log10 c)), (Rmax_right (log10 1) (log10 (pow10 2.7))) by lra.
    rewrite (Rmin_left _ (log10 c)), (Rmin_left _ (log10 (pow10 2.7))) by lra. reflexivity.
Qed.
(** ... and imported halos with concentrations between 1 and 200. *)
Theorem C103_emulator : forall c f f' rs_angle kpc, 1 <= c <= 200 -> 0 < f <= f' -> 0 < rs_angle -> 0 < kpc ->
  0 < emulator_radius c f rs_angle kpc <= emulator_radius c f' rs_angle kpc.
Proof.
  intros c f f' r k Hc [P L] Hr Hk. unfold emulator_radius. split.
  - apply Rmult_lt_0_compat; [apply Rmult_lt_0_compat; [exact Hr|apply pow10_pos]|exact Hk].
  - apply Rmult_le_compat_r; [lra|]. apply Rmult_le_compat_l; [lra|]. apply pow10_le'.
    apply (C103_more_mass _ grid_emulator); [left; auto|cbn; lra|]. apply log10_le'; assumption.
Qed.

(** ** Concrete cases *)
Lemma ln2_bound : 0.6 <= ln 2.
Proof.
  assert (H : exp 3 <= 32).
  { replace 3 with (1 + 1 + 1) by ring. rewrite !exp_plus. pose proof exp_le_3. pose proof (exp_pos 1). nra. }
  assert (Q : 3 <= ln 32). { rewrite <- (ln_exp 3). destruct (Req_dec (exp 3) 32) as [->|]; [lra|]. left. apply ln_increasing; [apply exp_pos|lra]. }
  replace 32 with (2 ^ 5) in Q by ring. rewrite ln_pow in Q by lra. cbn in Q. lra.
Qed.
Lemma frac_small tau : 0 < tau -> tnfw_mass_fraction tau 1 <= 5 * tau.
Proof.
  intros Ht. rewrite frac_unfold by lra. pose proof (Func0_pos 1 Rlt_0_1) as P0.
  assert (P : 0.1 <= Func0 1) by (unfold Func0; replace (1 + 1) with 2 by ring; pose proof ln2_bound; lra).
  assert (A : Func tau 1 <= tau / 2).
  { destruct (diff_mvt tau 0 0 1 Ht ltac:(lra) ltac:(lra)) as (t & Bt & E). rewrite Func_0, Func0_0 in E by assumption.
    replace (Func tau 1) with (wgt tau t * nu0 t) by lra. rewrite <- nu_wgt by lra. unfold nu.
    pose proof (sq_pos tau Ht). pose proof (pow2_ge_0 t). pose proof (nu_denom tau t Ht ltac:(lra)).
    apply (Rmult_le_reg_r ((1 + t) ^ 2 * (t ^ 2 + tau ^ 2))); [assumption|].
    unfold Rdiv at 1. rewrite Rmult_assoc, Rinv_l by lra. rewrite Rmult_1_r.
    assert (t * tau ^ 2 <= tau / 2 * (t ^ 2 + tau ^ 2)) by (pose proof (pow2_ge_0 (t - tau)); simpl in *; nra).
    assert (1 <= (1 + t) ^ 2) by (simpl; nra).
    assert (0 <= tau / 2 * (t ^ 2 + tau ^ 2)) by (apply Rmult_le_pos; lra).
    replace (tau / 2 * ((1 + t) ^ 2 * (t ^ 2 + tau ^ 2))) with ((1 + t) ^ 2 * (tau / 2 * (t ^ 2 + tau ^ 2))) by ring. nra. }
  apply (Rmult_le_reg_r (Func0 1)); [exact P0|]. unfold Rdiv. rewrite Rmult_assoc, Rinv_l by lra. nra.
Qed.
Lemma frac_large tau c : 0 < tau -> 0 < c -> wgt tau c <= tnfw_mass_fraction tau c.
Proof.
  intros Ht Hc. rewrite frac_unfold by lra. pose proof (Func0_pos c Hc) as P0.
  destruct (diff_mvt tau (wgt tau c) 0 c Ht ltac:(lra) ltac:(lra)) as (t & Bt & E). rewrite Func_0, Func0_0 in E by assumption.
  assert (A : 0 <= (wgt tau t - wgt tau c) * nu0 t * (c - 0)).
  { apply Rmult_le_pos; [|lra]. apply Rmult_le_pos; [|apply nu0_nonneg; lra]. pose proof (wgt_dec tau t c Ht ltac:(lra) ltac:(lra)). lra. }
  apply (Rmult_le_reg_r (Func0 c)); [exact P0|]. unfold Rdiv. rewrite (Rmult_assoc (Func tau c)), Rinv_l by lra. lra.
Qed.
(** every concentration of the emulator table, fractions between 0.1 and 0.3 *)
Lemma emulator_reaches c m : 1 <= c <= 200 -> -1 <= m <= - (1 / 2) -> exists tau, tabulated grid_emulator tau /\ holds_fraction tau c (pow10 m).
Proof.
  intros Hc M.
  assert (E1 : pow10 (-1) = 0.1) by (unfold pow10; replace (-1) with (- (1)) by lra; rewrite Rpower_Ropp, Rpower_1 by lra; lra).
  assert (E3 : pow10 (-3) = 0.001).
  { unfold pow10. replace (-3) with (- (1 + 1 + 1)) by lra. rewrite Rpower_Ropp, !Rpower_plus, Rpower_1 by lra. lra. }
  assert (E2 : pow10 (- (1 / 2)) <= 0.5).
  { pose proof (pow10_pos (- (1 / 2))). assert (Q : pow10 (- (1 / 2)) * pow10 (- (1 / 2)) = 0.1).
    { unfold pow10. rewrite <- Rpower_plus. replace (- (1 / 2) + - (1 / 2)) with (-1) by lra. exact E1. }
    apply Rnot_lt_le. intros X. assert (0.5 * 0.5 <= pow10 (- (1 / 2)) * pow10 (- (1 / 2))) by nra. lra. }
  pose proof (pow10_le' _ _ (proj1 M)) as M1. pose proof (pow10_le' _ _ (proj2 M)) as M2.
  assert (L : pow10 (-3.5) <= pow10 (-3)) by (apply pow10_le'; lra).
  assert (U : 1 <= pow10 2.5). { replace 1 with (pow10 0) by (unfold pow10; apply Rpower_O; lra). apply pow10_le'. lra. }
  assert (U2 : pow10 2.5 * pow10 2.5 = 100000).
  { unfold pow10. rewrite <- Rpower_plus. replace (2.5 + 2.5) with (1 + 1 + 1 + 1 + 1) by lra. rewrite !Rpower_plus, Rpower_1 by lra. lra. }
  pose proof (pow10_pos (-3.5)) as P. pose proof (frac_small _ P) as F1. pose proof (frac_decreasing _ 1 c P ltac:(lra) ltac:(lra)) as F3.
  pose proof (frac_large (pow10 2.5) c ltac:(lra) ltac:(lra)) as F2.
  assert (W2 : 0.5 <= wgt (pow10 2.5) c).
  { unfold wgt. replace (pow10 2.5 ^ 2) with 100000 by (rewrite <- U2; ring). assert (0 <= c ^ 2 <= 40000) by (simpl; nra).
    apply (Rmult_le_reg_r (c ^ 2 + 100000)); [lra|]. unfold Rdiv. rewrite Rmult_assoc, Rinv_l by lra. lra. }
  destruct (C103_solution c (pow10 m) (pow10 (-3.5)) (pow10 2.5) (tnfw_mass_fraction (pow10 (-3.5)) c) (tnfw_mass_fraction (pow10 2.5) c))
    as (tau & (Bt & Ht) & _); [lra|apply holds_frac; repeat split; lra|apply holds_frac; repeat split; lra|lra|].
  exists tau. split; [exact Bt|exact Ht].
Qed.
Lemma emulator_node_c i : (i < 250)%nat -> 1 <= node (tg_x grid_emulator) i <= 200.
Proof.
  intros I. pose proof (wf_x _ wf_emulator) as G. pose proof (node_le (tg_x grid_emulator) 0 i G ltac:(lia)) as A.
  pose proof (node_le (tg_x grid_emulator) i 249 G ltac:(lia)) as B. rewrite node_0 in A.
  rewrite (node_last (tg_x grid_emulator) G : node (tg_x grid_emulator) 249 = 200) in B. exact (conj A B).
Qed.
Lemma emulator_node_m : -1 <= node (tg_mf grid_emulator) 200 <= - (1 / 2) /\ -1 <= node (tg_mf grid_emulator) 201 <= - (1 / 2).
Proof.
  unfold node. cbn [tg_mf grid_emulator ax_lo ax_hi ax_n]. rewrite !INR_IZR_INZ. cbn [Z.of_nat Nat.sub Pos.of_succ_nat Pos.succ]. lra.
Qed.
(** nodes of the emulator table with about 16 per cent of the mass *)
Example C103_nonvacuous : forall i, (i < 250)%nat -> exists tau,
  holds_fraction tau (node (tg_x grid_emulator) i) (pow10 (node (tg_mf grid_emulator) 200))
  /\ tabulated grid_emulator tau /\ is_table tau_mf_interpolator grid_emulator /\
  tau / spacing grid_emulator <= pow10 (tau_mf_interpolator (node (tg_x grid_emulator) i) (node (tg_mf grid_emulator) 200)) <= tau * spacing grid_emulator.
Proof.
  intros i I. assert (T : is_table tau_mf_interpolator grid_emulator) by (left; auto).
  destruct (emulator_reaches _ _ (emulator_node_c i I) (proj1 emulator_node_m)) as (tau & B & H).
  exists tau. repeat (split; [assumption|]). apply C103_node; assumption || (cbn; lia).
Qed.
Example C103_cell_nonvacuous : forall i, (S i < 250)%nat -> exists tau1 tau2,
  tau1 / spacing grid_emulator <= pow10 (tau_mf_interpolator (node (tg_x grid_emulator) i) (node (tg_mf grid_emulator) 200)) <= tau2 * spacing grid_emulator
  /\ tau1 <= tau2.
Proof.
  intros i I. assert (T : is_table tau_mf_interpolator grid_emulator) by (left; auto).
  destruct (emulator_reaches _ _ (emulator_node_c i ltac:(lia)) (proj1 emulator_node_m)) as (t1 & B1 & H1).
  destruct (emulator_reaches _ _ (emulator_node_c (S i) I) (proj2 emulator_node_m)) as (t2 & B2 & H2).
  exists t1, t2.
  pose proof (node_lt (tg_x grid_emulator) i (S i) (wf_x _ wf_emulator) ltac:(lia)).
  pose proof (node_lt (tg_mf grid_emulator) 200 201 (wf_mf _ wf_emulator) ltac:(lia)).
  destruct (C103_cell _ _ (node (tg_x grid_emulator) i) (node (tg_mf grid_emulator) 200) i 200 t1 t2 T I ltac:(cbn; lia) ltac:(lra) ltac:(lra) H1 B1 H2 B2)
    as [A C]. split; [exact A|]. apply (C t1 H1).
Qed.
Example C103_concentrated_nonvacuous : tau_mf_interpolator 10 (node (tg_mf grid_emulator) 200) <= tau_mf_interpolator 20 (node (tg_mf grid_emulator) 200).
Proof.
  assert (T : is_table tau_mf_interpolator grid_emulator) by (left; auto).
  destruct (emulator_reaches 1 _ ltac:(lra) (proj1 emulator_node_m)) as (t1 & B1 & H1).
  destruct (emulator_reaches 200 _ ltac:(lra) (proj2 emulator_node_m)) as (t2 & B2 & H2).
  pose proof (node_lt (tg_mf grid_emulator) 200 201 (wf_mf _ wf_emulator) ltac:(lia)).
  apply (C103_more_concentrated _ _ 10 20 _ 200 t1 t2 T); try assumption; try lra; try (cbn; lia).
Qed.
Example C103_util_nonvacuous : exists mass_3d, encloses mass_3d /\ is_table (tau_mf_interpolation mass_3d) grid_util /\
  0 < keeley_radius mass_3d 10 (-2) 3 <= keeley_radius mass_3d 10 (-1) 3.
Proof.
  exists (fun r rs rho0 tau => sphere_mass (rho_tnfw rho0 rs (tau * rs)) r).
  assert (E : encloses (fun r rs rho0 tau => sphere_mass (rho_tnfw rho0 rs (tau * rs)) r)) by (intros r rs rho0 tau _ _ _; reflexivity).
  split; [exact E|]. split; [right; eauto|]. apply C103_keeley; [exact E|lra|lra].
Qed.

Example C103_keeley_limits_nonvacuous : 0 < 10 /\ 1 <= 10 <= pow10 2.7 /\ -8 <= -7 <= -0.001.
Proof.
  split; [lra|]. split; [split; [lra|]|lra]. replace 10 with (pow10 1) by (unfold pow10; rewrite Rpower_1; lra). apply pow10_le'. lra.
Qed.

Print Assumptions C103_solution.
Print Assumptions C103_solution_order.
Print Assumptions C103_node.
Print Assumptions C103_cell.
Print Assumptions C103_more_mass.
Print Assumptions C103_more_concentrated.
Print Assumptions C103_keeley.
Print Assumptions C103_keeley_limits.
Print Assumptions C103_emulator.
