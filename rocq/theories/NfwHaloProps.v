(** C108: density, mass and peak velocity of an NFW halo object after any history of queries and rescalings. *)
From Coq Require Import Reals.
From Verif Require Import Prelude TnfwSpec TnfwProofs TidalInt NfwModel NfwSpec NfwProofs NfwProofs2 NfwProofs3 NfwProps NfwHaloModel.
From Coquelicot Require Import Coquelicot.
Local Open Scope R_scope.
Local Open Scope list_scope.

(** ** Specification *)
(** The factor by which a history has rescaled the halo: forced calls always count, unforced ones until the first logged one. *)
Fixpoint total_factor (locked : bool) (ops : list nop) : R :=
  match ops with
  | nil => 1
  | NRescale f force log :: t =>
      if force || negb locked then f * total_factor (locked || log) t else total_factor locked t
  | _ :: t => total_factor locked t
  end.
Definition is_vmax (o : nop) : Prop := o = NVmax.

(** ** Proofs *)
Lemma nrun_norm C h : forall ops s, n_norm (nrun C h ops s) = n_norm s * total_factor (n_once s) ops.
Proof.
  induction ops as [|o ops IH]; intros s; cbn [nrun fold_left total_factor]; [cbn; ring|].
  change (fold_left (nstep C h) ops (nstep C h s o)) with (nrun C h ops (nstep C h s o)). rewrite IH.
  destruct o as [f force log| |r|sc r]; cbn [nstep].
  - unfold rescale_normalization. destruct force, log, (n_once s) eqn:O; cbn; rewrite ?O; ring.
  - unfold vmax_nfw. destruct (n_vmax s) as [v|]; [reflexivity|]. destruct (own_params C h) as [[[a b] d]|e]; reflexivity.
  - reflexivity.
  - reflexivity.
Qed.
Lemma nrun_vmax C h : forall ops s v, n_vmax s = Some v -> n_vmax (nrun C h ops s) = Some v.
Proof.
  induction ops as [|o ops IH]; intros s v E; [exact E|]. cbn [nrun fold_left]. apply IH.
  destruct o as [f force log| |r|sc r]; cbn [nstep]; [|unfold vmax_nfw; rewrite E; exact E|exact E|exact E].
  unfold rescale_normalization. destruct force; [exact E|]. destruct (n_once s); exact E.
Qed.
Lemma nrun_none C h : forall ops s, n_vmax s = None -> ~ In NVmax ops -> n_vmax (nrun C h ops s) = None.
Proof.
  induction ops as [|o ops IH]; intros s E N; [exact E|]. cbn [nrun fold_left]. apply IH; [|intros K; apply N; right; exact K].
  destruct o as [f force log| |r|sc r]; cbn [nstep]; [|exfalso; apply N; left; reflexivity|exact E|exact E].
  unfold rescale_normalization. destruct force; [exact E|]. destruct (n_once s); exact E.
Qed.
Lemma nrun_app C h a b s : nrun C h (a ++ b) s = nrun C h b (nrun C h a s).
Proof. apply fold_left_app. Qed.

Definition fresh_halo (C : cosmo) (h : nfw_id) : Prop := expanding C /\ 0 <= id_z h /\ 0 < id_mass h /\ 0 < id_c h.

(** The enclosed mass is the total rescaling factor times the mass integral of the reported density; inside r200 it is the factor
    times the halo mass. *)
Theorem C108_mass : forall C h ops, fresh_halo C h -> exists rho,
  (forall r, 0 < r -> density_profile_3d C h 1 r = Ok (rho r)) /\
  (forall r, 0 < r -> exists M, is_RInt (fun x => 4 * PI * x ^ 2 * rho x) 0 r M /\
     mass_3d C h (nrun C h ops nfw_new) (Some r) = Ok (total_factor false ops * M)) /\
  mass_3d C h (nrun C h ops nfw_new) None = Ok (total_factor false ops * id_mass h).
Proof.
  intros C h ops (K & Hz & Hm & Hc).
  destruct (C55_nfw_parameters C (id_mass h) (id_c h) (id_z h) false K Hz Hm Hc) as (rhos & rs & r2 & E & P & D).
  pose proof (dh_rs _ _ _ _ _ _ _ D) as Hs. exists (rho_nfw rhos rs).
  assert (M : forall r, 0 <= r -> sphere_mass (rho_nfw rhos rs) r = lenstronomy_nfw_mass_3d r rs rhos /\
              is_RInt (fun x => 4 * PI * x ^ 2 * rho_nfw rhos rs x) 0 r (sphere_mass (rho_nfw rhos rs) r)).
  { intros r Hr. destruct (halo_mass false rhos rs (r / rs) Hs) as [I S0].
    - apply Rmult_le_pos; [exact Hr|]. left. apply Rinv_0_lt_compat. exact Hs.
    - replace (r / rs * rs) with r in I, S0 by (field; lra). cbn [halo_density] in *. split.
      + rewrite S0. unfold lenstronomy_nfw_mass_3d, Fp, Func0. replace ((rs + r) / rs) with (1 + r / rs) by (field; lra).
        replace (r / (rs + r)) with (r / rs / (1 + r / rs)) by (field; lra). ring.
      + unfold sphere_mass. apply (RInt_correct (V := R_CompleteNormedModule)). exact I. }
  assert (N : n_norm (nrun C h ops nfw_new) = total_factor false ops) by (rewrite nrun_norm; cbn; ring).
  split; [|split].
  - intros r Hr. unfold density_profile_3d. rewrite E. cbn. f_equal. unfold rho_nfw. field. repeat split; lra.
  - intros r Hr. destruct (M r ltac:(lra)) as [M1 M2]. exists (sphere_mass (rho_nfw rhos rs) r). split; [exact M2|].
    unfold mass_3d, own_params. rewrite E. cbn [bind fst snd]. f_equal. rewrite M1, N. unfold lenstronomy_nfw_mass_3d. ring.
  - unfold mass_3d, own_params. rewrite E. cbn [bind fst snd]. f_equal.
    pose proof (dh_mass _ _ _ _ _ _ _ D) as DM. cbn [halo_density] in DM. rewrite (dh_conc _ _ _ _ _ _ _ D) in DM.
    destruct (M (id_c h * rs)) as [M1 _]; [apply Rmult_le_pos; lra|]. rewrite M1 in DM. rewrite N, <- DM.
    rewrite (Rmult_comm rs). unfold lenstronomy_nfw_mass_3d. ring.
Qed.
Definition demo_id : nfw_id := mkId (10 ^ 8) 12 0.5.
Lemma demo_fresh : fresh_halo demo demo_id.
Proof. repeat split; cbn; try lra; intros; lra. Qed.
Example C108_mass_nonvacuous : fresh_halo demo demo_id /\
  mass_3d demo demo_id (nrun demo demo_id (NVmax :: NRescale 2 false true :: NRescale 5 false true :: NMass None :: NRescale 3 true false :: nil) nfw_new) None
  = Ok (6 * 10 ^ 8).
Proof.
  split; [apply demo_fresh|]. destruct (C108_mass demo demo_id (NVmax :: NRescale 2 false true :: NRescale 5 false true :: NMass None :: NRescale 3 true false :: nil) demo_fresh)
    as [rho [_ [_ E]]]. rewrite E. f_equal. cbn. ring.
Qed.

(** The mass inside a radius is not that of the reported density once the halo has been rescaled. *)
Theorem C108_density_after_rescaling_refuted : exists C h ops rho r M, fresh_halo C h /\ 0 < r /\
  (forall x, 0 < x -> density_profile_3d C h 1 x = Ok (rho x)) /\ is_RInt (fun x => 4 * PI * x ^ 2 * rho x) 0 r M /\
  mass_3d C h (nrun C h ops nfw_new) (Some r) = Ok (2 * M) /\ 2 * M <> M.
Proof.
  destruct (C55_nfw_parameters demo (10 ^ 8) 12 0.5 false demo_expanding ltac:(lra) ltac:(lra) ltac:(lra)) as (rhos & rs & r2 & E & P & D).
  pose proof (dh_rs _ _ _ _ _ _ _ D) as Hs.
  destruct (C108_mass demo demo_id (NRescale 2 false true :: nil) demo_fresh) as [rho [R1 [R2 R3]]].
  assert (Hr : 0 < 12 * rs) by lra.
  destruct (R2 _ Hr) as [M [I EM]]. exists demo, demo_id, (NRescale 2 false true :: nil), rho, (12 * rs), M.
  split; [apply demo_fresh|]. split; [exact Hr|]. split; [exact R1|]. split; [exact I|]. cbn [total_factor] in EM.
  split; [rewrite EM; f_equal; cbn; ring|]. intros Z. assert (M0 : M = 0) by lra. clear Z.
  unfold mass_3d, own_params in EM, R3. cbn [id_mass id_c id_z demo_id] in EM, R3. rewrite E in EM, R3. cbn [bind fst snd] in EM, R3.
  injection EM as EM. injection R3 as R3. rewrite (Rmult_comm rs 12) in R3. rewrite EM, M0 in R3. cbn in R3. lra.
Qed.

(** The first query fixes the peak velocity: it is that of the density multiplied by the factor accumulated up to that query, and later
    rescalings do not change it. *)
Theorem C108_peak_velocity : forall C h before after, fresh_halo C h -> ~ In NVmax before -> exists rhos rs r200 s',
  describes_halo false (id_mass h) (id_c h) (critical_kpc C (id_z h)) rhos rs r200 /\
  vmax_nfw C h (nrun C h (before ++ NVmax :: after) nfw_new) = Ok (nfw_vmax (total_factor false before * rhos) rs, s') /\
  (exists s, vmax_nfw C h (nrun C h before nfw_new) = Ok (nfw_vmax (total_factor false before * rhos) rs, s)) /\
  n_norm s' = total_factor false (before ++ after).
Proof.
  intros C h before after (K & Hz & Hm & Hc) N.
  destruct (C55_nfw_parameters C (id_mass h) (id_c h) (id_z h) false K Hz Hm Hc) as (rhos & rs & r2 & E & P & D).
  set (v := nfw_vmax (total_factor false before * rhos) rs).
  assert (NN : n_norm (nrun C h before nfw_new) = total_factor false before) by (rewrite nrun_norm; cbn; ring).
  assert (Q : vmax_nfw C h (nrun C h before nfw_new) = Ok (v, mkN (n_norm (nrun C h before nfw_new)) (n_once (nrun C h before nfw_new)) (Some v))).
  { unfold vmax_nfw. rewrite (nrun_none C h before nfw_new eq_refl N). unfold own_params. rewrite E. cbn [bind fst snd]. rewrite NN. reflexivity. }
  exists rhos, rs, r2, (nrun C h (before ++ NVmax :: after) nfw_new). split; [exact D|].
  assert (S1 : nrun C h (before ++ NVmax :: after) nfw_new
             = nrun C h after (mkN (n_norm (nrun C h before nfw_new)) (n_once (nrun C h before nfw_new)) (Some v))).
  { rewrite nrun_app. cbn [nrun fold_left nstep]. change (fold_left (nstep C h) before nfw_new) with (nrun C h before nfw_new). rewrite Q. reflexivity. }
  split; [|split].
  - unfold vmax_nfw. rewrite S1. rewrite (nrun_vmax C h after (mkN (n_norm (nrun C h before nfw_new)) (n_once (nrun C h before nfw_new)) (Some v)) v eq_refl). reflexivity.
  - eexists. exact Q.
  - rewrite nrun_norm. cbn [nfw_new n_norm n_once]. rewrite Rmult_1_l. generalize false. clear.
    induction before as [|o b IH]; intros l; [reflexivity|]. cbn [app total_factor]. destruct o; try apply IH. destruct (force || negb l); rewrite IH; reflexivity.
Qed.
Example C108_peak_velocity_nonvacuous : fresh_halo demo demo_id /\ ~ In NVmax (NMass None :: NRescale 2 false true :: nil).
Proof. split; [apply demo_fresh|]. cbn. intuition discriminate. Qed.

(** So after a rescaling the velocity reported is not that of the rescaled halo, while without the early query it is. *)
Theorem C108_stale_velocity_refuted : exists C h v1 v2 s1 s2, fresh_halo C h /\
  vmax_nfw C h (nrun C h (NVmax :: NRescale 4 true true :: nil) nfw_new) = Ok (v1, s1) /\
  vmax_nfw C h (nrun C h (NRescale 4 true true :: nil) nfw_new) = Ok (v2, s2) /\
  n_norm s1 = n_norm s2 /\ 0 < v1 /\ v2 = 2 * v1.
Proof.
  assert (M8 : 0 < id_mass demo_id) by (unfold demo_id, id_mass; apply pow_lt; lra).
  assert (C12 : 0 < id_c demo_id) by (unfold demo_id, id_c; lra).
  destruct (C108_peak_velocity demo demo_id nil (NRescale 4 true true :: nil) demo_fresh ltac:(cbn; tauto)) as (rhos & rs & r2 & s1 & D & Q1 & _ & N1).
  destruct (C108_peak_velocity demo demo_id (NRescale 4 true true :: nil) nil demo_fresh ltac:(cbn; intuition discriminate)) as (rhos' & rs' & r2' & s2' & D' & _ & [s2 Q2] & _).
  destruct (describes_unique false _ _ _ _ _ _ _ _ _ M8 C12 D D') as (<- & <- & <-).
  cbn [total_factor orb app] in *.
  exists demo, demo_id, (nfw_vmax (1 * rhos) rs), (nfw_vmax (4 * 1 * rhos) rs), s1, s2.
  split; [apply demo_fresh|]. split; [exact Q1|]. split; [exact Q2|].
  destruct (C55_nfw_parameters demo (10 ^ 8) 12 0.5 false demo_expanding ltac:(lra) ltac:(lra) ltac:(lra)) as (a & b & d & E & P & D2).
  destruct (describes_unique false _ _ _ _ _ _ _ _ _ M8 C12 D D2) as (-> & -> & ->).
  pose proof (dh_rs _ _ _ _ _ _ _ D2) as Hs.
  split; [|split].
  - rewrite N1. unfold vmax_nfw, own_params in Q2. cbn [nrun fold_left nstep rescale_normalization nfw_new n_norm n_once n_vmax id_mass id_c id_z demo_id] in Q2.
    rewrite E in Q2. cbn in Q2. injection Q2 as _ <-. cbn. ring.
  - unfold nfw_vmax. apply Rmult_lt_0_compat; [lra|]. apply sqrt_lt_R0. apply Rmult_lt_0_compat; [|apply pow_lt; exact Hs]. lra.
  - unfold nfw_vmax. replace (4.3 * / 10 ^ 6 * (4 * 1 * a) * b ^ 2) with (2 ^ 2 * (4.3 * / 10 ^ 6 * (1 * a) * b ^ 2)) by ring.
    rewrite sqrt_mult; [|lra|].
    + rewrite sqrt_pow2; [|lra]. ring.
    + apply Rmult_le_pos; [|apply pow_le; lra]. lra.
Qed.

Print Assumptions C108_mass.
Print Assumptions C108_density_after_rescaling_refuted.
Print Assumptions C108_peak_velocity.
Print Assumptions C108_stale_velocity_refuted.
