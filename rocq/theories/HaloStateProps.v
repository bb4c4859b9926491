(** C18-C21. One truncated-NFW halo object under arbitrary histories of calls. *)
From Verif Require Import Prelude HaloStateModel HaloStateSpec HaloStateProofs HaloFrame HaloStateLemmas.
#[local] Arguments pow : simpl never.

(** ** A concrete environment for the examples and counterexamples *)
Definition demo_round (n : nat) (v : R) : R := IZR (Int_part (v * 10 ^ n + 1 / 2)) / 10 ^ n.
Definition demo_env : Env :=
  mkEnv (fun _ c _ => (4, 2, 2 * c)) (fun a b _ => (b * 1000 / 3, a / 10 ^ 9)) (fun _ => 3) demo_round
        (fun rho rs => rho * rs) (fun _ _ rho _ => rho) (fun tau _ => tau) (fun _ _ => 1)
        (fun _ _ _ _ => (1, 1 / 2)) (fun _ _ => 1) (fun _ _ _ => 1) (fun _ _ => 10) (1 / 2) (fun _ _ => 0)
        (fun n _ => 2 + INR n) (fun n _ _ => 10 + INR n) (fun _ _ _ _ _ => -1) (fun _ _ => -1) (fun _ m _ => m).
Lemma Int_part_val r z : r - 1 < IZR z -> IZR z <= r -> Int_part r = z.
Proof.
  intros A B. unfold Int_part. replace (up r) with (z + 1)%Z; [lia|].
  apply tech_up; rewrite plus_IZR; lra.
Qed.
Ltac crunch := cbv -[Rmult Rplus Rdiv Rinv Rminus Ropp IZR INR pow demo_round Rpower exp ln log10 pow10 not]; try reflexivity.
(** a subhalo whose truncation model rescales it, and one with a constant truncation radius *)
Definition demo_resc : Static := mkStatic 8 50 (1 / 2) true KApproxCDM.
Definition demo_const : Static := mkStatic 8 50 (1 / 2) true (KConstant 3).

Example demo_ages : ages_ok demo_env.
Proof. intros z zf; simpl; lra. Qed.

(** ** C18 *)
(** Normalisation after any call sequence: the product of the effective factors. *)
Theorem C18_rescale_normalization : forall s l, s_once s = false ->
  exists gs, contributions l gs /\ s_norm (rescale_all l s) = s_norm s * rprod gs.
Proof. exact rescale_lemma. Qed.

(** [contributions] determines the factors, so the product above is the only possible value. *)
Theorem C18_contributions_unique : forall l gs gs', contributions l gs -> contributions l gs' -> gs = gs'.
Proof.
  intros l gs gs' [L1 C1] [L2 C2]. apply nth_ext with (d := 0) (d' := 0); [congruence|]. intros i Hi.
  destruct (nth_error l i) as [[[f fo] lg]|] eqn:En.
  - destruct (C1 i f fo lg En) as [A1 B1]. destruct (C2 i f fo lg En) as [A2 B2].
    destruct (Classical_Prop.classic (effective l i)) as [Y|Y].
    + rewrite (nth_error_nth _ _ _ (A1 Y)), (nth_error_nth _ _ _ (A2 Y)). reflexivity.
    + rewrite (nth_error_nth _ _ _ (B1 Y)), (nth_error_nth _ _ _ (B2 Y)). reflexivity.
  - apply nth_error_None in En. lia.
Qed.

(** After any sequence the once-only flag says whether a call was logged... *)
Theorem C18_once_flag : forall s l, s_once s = false ->
  (s_once (rescale_all l s) = true <-> exists c, In c l /\ snd c = true).
Proof. intros s l Hs. apply once_logged. exact Hs. Qed.

(** ... an effective call multiplies and clears the NFW, physical and lensing caches and nothing else;
    an ineffective call changes nothing at all. *)
Theorem C18_caches : forall f fo lg s,
  (fo = true \/ s_once s = false ->
     let s' := rescale_normalization f fo lg s in
     s_phys s' = None /\ s_kw s' = None /\ s_nfw s' = None /\ s_norm s' = s_norm s * f /\
     s_x s' = s_x s /\ s_y s' = s_y s /\ s_zinf s' = s_zinf s /\ s_zeval s' = s_zeval s /\ s_c s' = s_c s /\
     s_tsi s' = s_tsi s /\ s_pargs s' = s_pargs s /\ s_vmax s' = s_vmax s /\ s_mb s' = s_mb s) /\
  (fo = false -> s_once s = true -> rescale_normalization f fo lg s = s).
Proof. exact rescale_caches. Qed.

(** Seen from outside: once the halo was truncated, any sequence of forced calls multiplies the lensing
    amplitude and the density normalisation returned next by the product of the factors, and nothing else. *)
Theorem C18_forced_observable : forall E H x y qs l k p, ages_ok E ->
  Forall (fun c => snd (fst c) = true) l -> truncated_before E H x y qs ->
  value (lenstronomy_params E H) (reads E H qs (fresh x y)) = Ok k ->
  value (params_physical E H) (reads E H qs (fresh x y)) = Ok p ->
  let s' := rescale_all l (reads E H qs (fresh x y)) in
  let g := rprod (map (fun c => fst (fst c)) l) in
  value (lenstronomy_params E H) s' = Ok (mkLensKw (g * k_alpha k) (k_Rs k) (k_x k) (k_y k) (k_rtrunc k)) /\
  value (params_physical E H) s' = Ok (mkPhys (g * p_rhos p) (p_rs p) (p_r200 p) (p_rt p)).
Proof. intros. apply forced_seen; assumption. Qed.

(** The order matters: a forced, logged rescaling of a new object suppresses the tidal one. *)
Theorem C18_order_refuted : exists E H x y f p p',
  ages_ok E /\ rescaling (h_kind H) = true /\
  value (params_physical E H) (rescale_normalization f true true (reads E H [QPhysical] (fresh x y))) = Ok p /\
  value (params_physical E H) (rescale_normalization f true true (fresh x y)) = Ok p' /\ p_rhos p <> p_rhos p'.
Proof.
  exists demo_env, demo_resc, 1, 2, 3. eexists. eexists. split; [exact demo_ages|].
  split; [reflexivity|]. split; [crunch|]. split; [crunch|]. crunch. lra.
Qed.
(** ... and vmax is not recomputed after a rescaling. *)
Theorem C18_vmax_refuted : exists E H x y f v v',
  ages_ok E /\
  value (vmax_nfw E H) (rescale_normalization f true false (reads E H [QVmax] (fresh x y))) = Ok v /\
  value (vmax_nfw E H) (rescale_normalization f true false (reads E H [QPhysical] (fresh x y))) = Ok v' /\ v <> v'.
Proof.
  exists demo_env, demo_resc, 1, 2, 3. eexists. eexists. split; [exact demo_ages|].
  split; [crunch|]. split; [crunch|]. crunch. lra.
Qed.

(** Example: un-forced unlogged 2, un-forced logged 3, un-forced 5 (ignored), forced 7: norm 42. *)
Example C18_demo : s_norm (rescale_all [(2, false, false); (3, false, true); (5, false, true); (7, true, true)]
                             (fresh 0 0)) = 42 /\
  truncated_before demo_env demo_resc 1 2 [QC; QPhysical] /\
  exists k, value (lenstronomy_params demo_env demo_resc) (reads demo_env demo_resc [QC; QPhysical] (fresh 1 2)) = Ok k.
Proof.
  split; [simpl; lra|]. split.
  - exists [QC], QPhysical, []. repeat split; crunch.
  - eexists. crunch.
Qed.

(** ** C19 *)
(** Whatever was queried before, the lensing and physical parameters are those of a new object, and so are
    the other queries below. *)
Theorem C19_history_independent : forall E H x y qs r, ages_ok E ->
  let s := reads E H qs (fresh x y) in
  let same {A} (q : M A) := value q s = value q (fresh x y) in
  same (lenstronomy_params E H) /\ same (params_physical E H) /\ same (profile_args E H) /\
  same (nfw_params E H) /\ same (conc E H) /\ same (z_infall E H) /\ same (z_eval E H) /\
  same (time_since_infall E H) /\ same (vmax_nfw E H) /\ same (density_profile_3d E H r) /\
  same (bound_mass_galacticus_definition E H).
Proof.
  intros E H x y qs r age. cbv zeta beta. destruct (basic_indep E H age x y qs) as (A & B & C & D & F & G).
  split; [apply lensing_indep; assumption|]. split; [apply phys_indep; assumption|].
  do 6 (split; [assumption|]). split; [apply vmax_indep; assumption|]. split; [apply density_indep; assumption|].
  apply mb_indep; assumption.
Qed.

(** The value: the rescaling of the truncation model is applied exactly once. *)
Theorem C19_rescaled_once : forall E H x y qs p, ages_ok E ->
  value (params_physical E H) (reads E H qs (fresh x y)) = Ok p ->
  exists c z, value (conc E H) (fresh x y) = Ok c /\ value (z_eval E H) (fresh x y) = Ok z /\
    let '(rhos, rs, r200) := e_nfw E (h_mass H) c z in
    p_rs p = rs /\ p_r200 p = r200 /\
    if rescaling (h_kind H)
    then exists m_bound f, e_rte E m_bound (h_mass H) r200 c = (p_rt p, f) /\ p_rhos p = rhos * f
    else p_rhos p = rhos.
Proof. intros E H x y qs p age. apply phys_value. exact age. Qed.

(** mass_3d: independent for models without rescaling, and for the others once the halo was truncated... *)
Theorem C19_mass_3d : forall E H x y r, ages_ok E ->
  (rescaling (h_kind H) = false -> forall qs,
     value (mass_3d E H r) (reads E H qs (fresh x y)) = value (mass_3d E H r) (fresh x y)) /\
  (forall qs qs', truncated_before E H x y qs -> truncated_before E H x y qs' ->
     value (mass_3d E H r) (reads E H qs (fresh x y)) = value (mass_3d E H r) (reads E H qs' (fresh x y))).
Proof.
  intros E H x y r age. split.
  - intros Hk qs. apply m3d_plain; assumption.
  - intros qs qs' H1 H2. apply m3d_after; assumption.
Qed.
(** ... but not in general. *)
Theorem C19_mass_3d_refuted : exists E H x y qs r v v', ages_ok E /\
  value (mass_3d E H r) (fresh x y) = Ok v /\ value (mass_3d E H r) (reads E H qs (fresh x y)) = Ok v' /\ v <> v'.
Proof.
  exists demo_env, demo_resc, 1, 2, [QPhysical], (Some 5). eexists. eexists. split; [exact demo_ages|].
  split; [crunch|]. split; [crunch|]. crunch. lra.
Qed.

(** bound_mass: independent of histories without lensing queries... *)
Theorem C19_bound_mass : forall E H x y qs, ages_ok E -> (forall q, In q qs -> q <> QLensing) ->
  value (bound_mass E H) (reads E H qs (fresh x y)) = value (bound_mass E H) (fresh x y).
Proof. intros. apply bound_no_lensing; assumption. Qed.
(** ... but after one it uses the rounded keywords. *)
Theorem C19_bound_mass_refuted : exists E H x y v v', ages_ok E /\
  value (bound_mass E H) (fresh x y) = Ok v /\ value (bound_mass E H) (reads E H [QLensing] (fresh x y)) = Ok v' /\
  v <> v'.
Proof.
  exists demo_env, demo_resc, 1, 2. eexists. eexists. split; [exact demo_ages|].
  split; [crunch|]. split; [crunch|]. crunch. unfold demo_round.
  rewrite (Int_part_val (1 / 3 * 10 ^ 10 + 1 / 2) 3333333333) by (unfold pow; lra).
  rewrite (Int_part_val (2 * / 10 ^ 3 * 1000 / 3 * 10 ^ 10 + 1 / 2) 6666666667) by (unfold pow; lra).
  unfold pow. lra.
Qed.

Example C19_demo : exists p, value (params_physical demo_env demo_resc)
    (reads demo_env demo_resc [QMass3D (Some 5); QC; QLensing; QVmax; QBoundMass] (fresh 1 2)) = Ok p /\ p_rhos p = 2 /\
  truncated_before demo_env demo_resc 1 2 [QC; QVmax] /\ rescaling (h_kind demo_const) = false.
Proof.
  eexists. split; [crunch|]. split; [crunch; lra|]. split; [|reflexivity].
  exists [QC], QVmax, []. repeat split; crunch.
Qed.

(** ** C20 *)
Lemma zinf_hit E H s v : s_zinf s = Some v -> value (z_infall E H) s = Ok v.
Proof. intros Hv. unfold value, z_infall. rewrite bind_gets, Hv. reflexivity. Qed.
Lemma conc_hit E H s v : s_c s = Some v -> value (conc E H) s = Ok v.
Proof. intros Hv. unfold value, conc. rewrite bind_gets, Hv. reflexivity. Qed.
Lemma zeval_hit E H s v : s_zeval s = Some v -> value (z_eval E H) s = Ok v.
Proof. intros Hv. unfold value, z_eval. rewrite bind_gets, Hv. reflexivity. Qed.
Lemma time_hit E H s v : h_sub H = true -> s_tsi s = Some v -> value (time_since_infall E H) s = Ok (Some v).
Proof. intros Hs Hv. unfold value, time_since_infall. rewrite Hs. simpl. rewrite bind_gets, Hv. reflexivity. Qed.
(** Along any history the infall redshift and the concentration are drawn at most once. *)
Theorem C20_sampled_once : forall E H x y l,
  let s := history E H l (fresh x y) in (n_z s <= 1)%nat /\ (n_c s <= 1)%nat.
Proof.
  intros E H x y l. destruct (history_keep E H l (fresh x y)) as (_ & _ & _ & D).
  destruct (D (drawn_fresh x y)) as [[_ A] [_ B]]. split; assumption.
Qed.

(** A value that was returned is returned by every later query, whatever happens in between (for the infall
    redshift: unless it is set). *)
Theorem C20_first_value : forall E H s l v,
  (value (z_infall E H) s = Ok v -> Forall no_set l ->
     value (z_infall E H) (history E H l (act E H (ORead QZInfall) s)) = Ok v) /\
  (value (conc E H) s = Ok v -> value (conc E H) (history E H l (act E H (ORead QC) s)) = Ok v) /\
  (value (z_eval E H) s = Ok v -> value (z_eval E H) (history E H l (act E H (ORead QZEval) s)) = Ok v) /\
  (value (time_since_infall E H) s = Ok (Some v) ->
     value (time_since_infall E H) (history E H l (act E H (ORead QTime) s)) = Ok (Some v)).
Proof.
  intros E H s l v. simpl. rewrite !unit_snd. split; [|split; [|split]].
  - intros Hv Hl. apply zinf_value in Hv. apply (history_zinf E H l Hl) in Hv.
    apply zinf_hit. exact Hv.
  - intros Hv. apply conc_value in Hv. destruct (history_keep E H l (snd (conc E H s))) as (_ & _ & K & _).
    apply K in Hv. apply conc_hit. exact Hv.
  - intros Hv. apply zeval_value in Hv. destruct (history_keep E H l (snd (z_eval E H s))) as (K & _).
    apply K in Hv. apply zeval_hit. exact Hv.
  - intros Hv. pose proof (time_value E H s v Hv) as Ht.
    destruct (history_keep E H l (snd (time_since_infall E H s))) as (_ & K & _). apply K in Ht.
    apply time_hit; [|exact Ht]. destruct (h_sub H) eqn:Es; [reflexivity|].
    unfold value, time_since_infall in Hv. rewrite Es in Hv. discriminate.
Qed.

(** set_infall_redshift determines z_infall on subhalos; on field halos it raises and changes nothing. *)
Theorem C20_set_infall : forall E H z s,
  (h_sub H = true -> value (set_infall_redshift H z) s = Ok tt /\
     forall l, Forall no_set l -> value (z_infall E H) (history E H l (act E H (OSetInfall z) s)) = Ok z) /\
  (h_sub H = false -> set_infall_redshift H z s = (Err EException, s)).
Proof.
  intros E H z s. unfold set_infall_redshift. split; intros Hs.
  - rewrite Hs. split; [reflexivity|]. intros l Hl. simpl. unfold set_infall_redshift. rewrite Hs. simpl.
    pose proof (history_zinf E H l Hl (set_zinf z s) z eq_refl) as K.
    apply zinf_hit. exact K.
  - rewrite Hs. reflexivity.
Qed.

(** Dependent quantities are not updated: after z_eval was read, setting the infall redshift changes z_infall only. *)
Theorem C20_dependent_refuted : exists E H x y z,
  let s := act E H (OSetInfall z) (reads E H [QC] (fresh x y)) in
  let s' := act E H (OSetInfall z) (fresh x y) in
  value (z_infall E H) s = Ok z /\ value (z_eval E H) s <> Ok z /\ value (z_eval E H) s' = Ok z.
Proof.
  exists demo_env, demo_resc, 1, 2, 7. split; [crunch|]. split; [|crunch].
  crunch. intros X. apply Ok_inj in X. simpl in X. lra.
Qed.

Example C20_demo : value (conc demo_env demo_resc)
    (history demo_env demo_resc [ORead QLensing; OMove 3 4; ORescale 2 true true; ORead QC] (fresh 1 2)) = Ok (10 + 0) /\
  n_c (history demo_env demo_resc [ORead QLensing; OMove 3 4; ORescale 2 true true; ORead QC] (fresh 1 2)) = 1%nat.
Proof. split; [crunch; simpl; reflexivity|crunch]. Qed.

(** ** C21 *)
(** Without an earlier lensing query the centre is the current position. *)
Theorem C21_current_position : forall E H x y l k, Forall no_lensing l ->
  value (lenstronomy_params E H) (history E H l (fresh x y)) = Ok k ->
  let '(a, b) := position l (x, y) in k_x k = e_round E 4 a /\ k_y k = e_round E 4 b.
Proof.
  intros E H x y l k Hl Hk. pose proof (history_position E H l (fresh x y)) as Hp. simpl in Hp. rewrite <- Hp.
  apply (kw_built E H); [|exact Hk]. apply history_nk; auto.
Qed.
(** With one, the keywords stay exactly those returned then, whatever happens (including moves), until the
    halo is rescaled. *)
Theorem C21_stale : forall E H x y l1 l2 k, Forall no_rescale l2 ->
  value (lenstronomy_params E H) (history E H l1 (fresh x y)) = Ok k ->
  value (lenstronomy_params E H) (history E H l2 (act E H (ORead QLensing) (history E H l1 (fresh x y)))) = Ok k.
Proof. intros. apply stale_lemma; assumption. Qed.
(** A forced rescaling refreshes the centre. *)
Theorem C21_refreshed : forall E H s f lg k,
  value (lenstronomy_params E H) (rescale_normalization f true lg s) = Ok k ->
  k_x k = e_round E 4 (s_x s) /\ k_y k = e_round E 4 (s_y s).
Proof. intros E H s f lg k Hk. apply (kw_built E H (rescale_normalization f true lg s)); [reflexivity|exact Hk]. Qed.
(** Hence the keywords need not reflect the current position. *)
Theorem C21_position_refuted : exists E H x y a b k k',
  value (lenstronomy_params E H) (history E H [ORead QLensing; OMove a b] (fresh x y)) = Ok k /\
  value (lenstronomy_params E H) (history E H [OMove a b] (fresh x y)) = Ok k' /\ k_x k <> k_x k' /\
  k_x k = e_round E 4 x /\ k_x k' = e_round E 4 a.
Proof.
  exists demo_env, demo_resc, 1, 2, 3, 4. eexists. eexists. split; [crunch|]. split; [crunch|].
  split; [|split; crunch]. crunch. unfold demo_round.
  rewrite (Int_part_val (1 * 10 ^ 4 + 1 / 2) 10000) by (unfold pow; lra).
  rewrite (Int_part_val (3 * 10 ^ 4 + 1 / 2) 30000) by (unfold pow; lra). unfold pow. lra.
Qed.

Example C21_demo : exists k, value (lenstronomy_params demo_env demo_const)
   (history demo_env demo_const [ORead QC; OMove 3 4; ORead QVmax; OMove 5 6] (fresh 1 2)) = Ok k /\
   position [ORead QC; OMove 3 4; ORead QVmax; OMove 5 6] (1, 2) = (5, 6).
Proof. eexists. split; crunch. Qed.

Print Assumptions C18_rescale_normalization.
Print Assumptions C18_contributions_unique.
Print Assumptions C18_once_flag.
Print Assumptions C18_caches.
Print Assumptions C18_forced_observable.
Print Assumptions C18_order_refuted.
Print Assumptions C18_vmax_refuted.
Print Assumptions C19_history_independent.
Print Assumptions C19_rescaled_once.
Print Assumptions C19_mass_3d.
Print Assumptions C19_mass_3d_refuted.
Print Assumptions C19_bound_mass.
Print Assumptions C19_bound_mass_refuted.
Print Assumptions C20_sampled_once.
Print Assumptions C20_first_value.
Print Assumptions C20_set_infall.
Print Assumptions C20_dependent_refuted.
Print Assumptions C21_current_position.
Print Assumptions C21_stale.
Print Assumptions C21_refreshed.
Print Assumptions C21_position_refuted.
