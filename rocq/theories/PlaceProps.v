(** C120: where a halo is on the sky changes nothing but the centre of its lens model. *)
From Verif Require Import Prelude HaloStateModel HaloStateSpec HaloStateProofs HaloStateLemmas HaloStateProps PlaceModel.
#[local] Arguments pow : simpl never.

(** ** Specification *)
(** the history without the changes of position *)
Definition is_move (o : action) : bool := match o with OMove _ _ => true | _ => false end.
Definition without_moves (l : list action) : list action := filter (fun o => negb (is_move o)) l.
(** the same lens model but for its centre; an exception if the other is the same exception *)
Definition same_but_centre (a b : result LensKw) : Prop :=
  match a, b with
  | Ok k, Ok k' => k_alpha k = k_alpha k' /\ k_Rs k = k_Rs k' /\ k_rtrunc k = k_rtrunc k'
  | Err e, Err e' => e = e'
  | _, _ => False
  end.
(** an axisymmetric lens: the deflection points along the line to the centre and depends on the distance only *)
Definition axisymmetric (dv : derivatives) : Prop :=
  exists f : R -> R -> R -> R -> R, forall x y Rs a rt cx cy phi r, 0 < r -> x = cx + r * cos phi -> y = cy + r * sin phi ->
    dv x y Rs a rt cx cy = (f Rs a rt r * cos phi, f Rs a rt r * sin phi).
Definition linear_amplitude (dv : derivatives) : Prop :=
  forall x y Rs a rt cx cy g, fst (dv x y Rs (g * a) rt cx cy) = g * fst (dv x y Rs a rt cx cy).

(** ** Proof: a relation between states that ignores the position *)
Definition shape (k : LensKw) := (k_alpha k, k_Rs k, k_rtrunc k).
Definition rel (s s' : St) : Prop :=
  s_norm s = s_norm s' /\ s_once s = s_once s' /\ s_zinf s = s_zinf s' /\ s_zeval s = s_zeval s' /\ s_tsi s = s_tsi s' /\ s_c s = s_c s' /\
  s_nfw s = s_nfw s' /\ s_pargs s = s_pargs s' /\ s_phys s = s_phys s' /\ option_map shape (s_kw s) = option_map shape (s_kw s') /\
  s_vmax s = s_vmax s' /\ s_mb s = s_mb s' /\ n_z s = n_z s' /\ n_c s = n_c s' /\ n_mb s = n_mb s' /\ n_tr s = n_tr s'.
Lemma rel_refl s : rel s s. Proof. repeat split. Qed.
Lemma rel_trans a b c : rel a b -> rel b c -> rel a c.
Proof. unfold rel. intros. repeat match goal with H : _ /\ _ |- _ => destruct H end. repeat split; congruence. Qed.
Lemma rel_sym a b : rel a b -> rel b a.
Proof. unfold rel. intros. repeat match goal with H : _ /\ _ |- _ => destruct H end. repeat split; congruence. Qed.
Definition sim {A} (m : M A) : Prop := forall s s', rel s s' -> fst (m s) = fst (m s') /\ rel (snd (m s)) (snd (m s')).
Lemma sim_bind {A B} (m : M A) (k : A -> M B) : sim m -> (forall a, sim (k a)) -> sim (mbind m k).
Proof.
  intros Hm Hk s s' Hr. destruct (Hm s s' Hr) as [V R]. unfold mbind. destruct (m s) as [[a|e] t], (m s') as [[a'|e'] t']; cbn in V, R; try discriminate.
  - apply Ok_inj in V. subst a'. apply Hk. exact R.
  - split; [injection V as <-; reflexivity|exact R].
Qed.
Lemma sim_gets {A} (f : St -> A) : (forall s s', rel s s' -> f s = f s') -> sim (gets f).
Proof. intros H s s' R. split; [cbn; f_equal; apply H; exact R|exact R]. Qed.
Lemma sim_ret {A} (a : A) : sim (ret a). Proof. intros s s' R. split; [reflexivity|exact R]. Qed.
Lemma sim_raise {A} e : sim (@raise A e). Proof. intros s s' R. split; [reflexivity|exact R]. Qed.
Lemma sim_modify f : (forall s s', rel s s' -> rel (f s) (f s')) -> sim (modify f).
Proof. intros H s s' R. split; [reflexivity|apply H; exact R]. Qed.
Lemma rel_rescale f fo lg s s' : rel s s' -> rel (rescale_normalization f fo lg s) (rescale_normalization f fo lg s').
Proof.
  intros R. assert (O : s_once s = s_once s') by apply R.
  assert (A : rel (apply_rescale f lg s) (apply_rescale f lg s')).
  { unfold rel in *. repeat match goal with H : _ /\ _ |- _ => destruct H end. unfold apply_rescale. destruct lg; cbn; repeat split; congruence. }
  unfold rescale_normalization. destruct fo; [exact A|]. rewrite <- O. destruct (s_once s); [exact R|exact A].
Qed.
Ltac rels := let s := fresh "s" in let s' := fresh "s'" in intros s s' ?;
  unfold rel in *; repeat match goal with H : _ /\ _ |- _ => destruct H end; cbn; repeat split; congruence.
Ltac sims :=
  repeat first
    [ assumption
    | apply sim_bind; [|intro]
    | apply sim_gets; rels
    | apply sim_ret
    | apply sim_raise
    | apply sim_modify; (rels || (intros ? ? ?; apply rel_rescale; assumption))
    | match goal with |- sim (match ?x with _ => _ end) => destruct x end
    | match goal with |- sim (if ?x then _ else _) => destruct x end ].

Section S.
Variables (E : Env) (H : Static).
Lemma sim_zinf : sim (z_infall E H). Proof. unfold z_infall. sims. Qed.
Lemma sim_zeval : sim (z_eval E H). Proof. pose proof sim_zinf. unfold z_eval. sims. Qed.
Lemma sim_time : sim (time_since_infall E H). Proof. pose proof sim_zinf. unfold time_since_infall. sims. Qed.
Lemma sim_conc : sim (conc E H). Proof. pose proof sim_zeval. unfold conc. sims. Qed.
Lemma sim_nfw : sim (nfw_params E H). Proof. pose proof sim_zeval. pose proof sim_conc. unfold nfw_params. sims. Qed.
Lemma sim_draw st : sim (draw_number st). Proof. unfold draw_number. sims. Qed.
Lemma sim_loss st a t c : sim (mass_loss E st a t c). Proof. pose proof (sim_draw st). unfold mass_loss. sims. Qed.
Lemma sim_struct m c : sim (structure_from_mbound E H m c).
Proof. pose proof sim_zeval. pose proof sim_nfw. pose proof sim_conc. unfold structure_from_mbound. sims. Qed.
Lemma sim_trunc : sim (truncation_radius_halo E H).
Proof.
  pose proof sim_zeval. pose proof sim_nfw. pose proof sim_conc. pose proof sim_time. pose proof sim_zinf. pose proof sim_struct. pose proof sim_draw.
  pose proof sim_loss. unfold truncation_radius_halo. destruct (h_kind H); sims; auto.
Qed.
Lemma sim_mb : sim (calculate_mbound E H).
Proof.
  pose proof sim_conc. pose proof sim_time. pose proof sim_zinf. pose proof sim_draw. pose proof sim_loss. unfold calculate_mbound.
  destruct (h_kind H); sims; auto.
Qed.
Lemma sim_mbdef : sim (bound_mass_galacticus_definition E H).
Proof. pose proof sim_mb. unfold bound_mass_galacticus_definition. destruct (h_kind H); sims. Qed.
Lemma sim_pargs : sim (profile_args E H).
Proof. pose proof sim_mbdef. pose proof sim_conc. pose proof sim_trunc. pose proof sim_struct. unfold profile_args. sims; auto. Qed.
Lemma sim_phys : sim (params_physical E H).
Proof. pose proof sim_pargs. pose proof sim_nfw. unfold params_physical. sims. Qed.
Lemma sim_vmax : sim (vmax_nfw E H).
Proof. pose proof sim_pargs. pose proof sim_nfw. unfold vmax_nfw. sims. Qed.
Lemma sim_m3d r : sim (mass_3d E H r).
Proof. pose proof sim_pargs. pose proof sim_nfw. pose proof sim_conc. unfold mass_3d. sims. Qed.
Lemma sim_density r : sim (density_profile_3d E H r).
Proof. pose proof sim_pargs. pose proof sim_nfw. unfold density_profile_3d. sims. Qed.
Lemma sim_bound : sim (bound_mass E H).
Proof.
  pose proof sim_phys. pose proof sim_conc. unfold bound_mass. destruct (negb (h_sub H)); [apply sim_raise|].
  intros s s' R. rewrite !bind_gets. assert (K : option_map shape (s_kw s) = option_map shape (s_kw s')) by apply R.
  assert (G : forall tau, sim (let* c := conc E H in let* g := gets s_norm in ret (e_frac E tau c * h_mass H * g))) by (intros; sims).
  destruct (s_kw s) as [k|], (s_kw s') as [k'|]; cbn in K; try discriminate.
  - injection K as _ K2 K3. rewrite !bind_ret, K2, K3. apply G. exact R.
  - refine (sim_bind _ _ _ G s s' R). sims.
Qed.
Lemma sim_lens s s' : rel s s' ->
  same_but_centre (value (lenstronomy_params E H) s) (value (lenstronomy_params E H) s') /\ rel (snd (lenstronomy_params E H s)) (snd (lenstronomy_params E H s')).
Proof.
  intros R. unfold value, lenstronomy_params. rewrite !bind_gets. assert (K : option_map shape (s_kw s) = option_map shape (s_kw s')) by apply R.
  destruct (s_kw s) as [k|], (s_kw s') as [k'|]; cbn in K; try discriminate.
  - injection K as K1 K2 K3. cbn. auto.
  - destruct (sim_pargs s s' R) as [V R1].
    destruct (profile_args E H s) as [[a|e] t] eqn:P, (profile_args E H s') as [[a'|e'] t'] eqn:P'; cbn [fst snd] in V, R1; try discriminate.
    2: { rewrite (bind_err _ _ _ _ _ P), (bind_err _ _ _ _ _ P'). cbn. split; [congruence|exact R1]. }
    apply Ok_inj in V. subst a'. rewrite (bind_ok _ _ _ _ _ P), (bind_ok _ _ _ _ _ P'). destruct (sim_nfw t t' R1) as [V R2].
    destruct (nfw_params E H t) as [[p|e] u] eqn:Q, (nfw_params E H t') as [[p'|e'] u'] eqn:Q'; cbn [fst snd] in V, R2; try discriminate.
    2: { rewrite (bind_err _ _ _ _ _ Q), (bind_err _ _ _ _ _ Q'). cbn. split; [congruence|exact R2]. }
    apply Ok_inj in V. subst p'. rewrite (bind_ok _ _ _ _ _ Q), (bind_ok _ _ _ _ _ Q'). destruct p as [[rhos rs] r2]. destruct (e_angle E _ _ _) as [Rs theta].
    assert (N : s_norm u = s_norm u') by apply R2. rewrite !bind_gets, !bind_modify. cbn [ret fst snd]. rewrite N. split; [cbn; auto|].
    unfold rel in *. repeat match goal with H : _ /\ _ |- _ => destruct H end. cbn. repeat split; congruence.
Qed.
Lemma sim_unit {A} (m : M A) : sim m -> sim (unit_of m).
Proof. intros X. unfold unit_of. sims. Qed.
Lemma rel_ask q s s' : rel s s' -> rel (snd (ask E H q s)) (snd (ask E H q s')).
Proof.
  intros R. destruct q; cbn [ask]; try (apply sim_unit; [auto using sim_conc, sim_zinf, sim_zeval, sim_time, sim_nfw, sim_pargs, sim_phys, sim_vmax, sim_bound, sim_mbdef, sim_m3d, sim_density; fail|exact R]).
  rewrite !unit_snd. apply sim_lens. exact R.
Qed.
Lemma rel_act o s s' : is_move o = false -> rel s s' -> rel (act E H o s) (act E H o s').
Proof.
  intros N R. destruct o as [q|z|f fo lg|a b]; cbn [act]; [apply rel_ask; exact R| |apply rel_rescale; exact R|discriminate].
  unfold set_infall_redshift. destruct (h_sub H); [|exact R]. revert s s' R. cbn. rels.
Qed.
Lemma rel_move a b s : rel (set_xy a b s) s. Proof. repeat split. Qed.
Lemma rel_without l : forall s s', rel s s' -> rel (history E H l s) (history E H (without_moves l) s').
Proof.
  induction l as [|o l IH]; intros s s' R; [exact R|]. unfold history, without_moves in *. cbn [fold_left filter]. destruct (is_move o) eqn:M; cbn [negb].
  - destruct o; try discriminate. cbn [act]. apply IH. eapply rel_trans; [apply rel_move|exact R].
  - cbn [fold_left]. apply IH. apply rel_act; assumption.
Qed.
Lemma rel_histories x y x' y' l l' : without_moves l = without_moves l' -> rel (history E H l (fresh x y)) (history E H l' (fresh x' y')).
Proof.
  intros W. eapply rel_trans; [apply rel_without, rel_refl|]. rewrite W. apply rel_sym. eapply rel_trans; [apply rel_without, rel_refl|].
  apply rel_sym. rewrite <- W. clear. (* the start: fresh x y against fresh x' y' *)
  assert (G : forall m s s', rel s s' -> rel (history E H (without_moves m) s) (history E H (without_moves m) s')).
  { intros m. unfold without_moves, history. induction m as [|o m IH]; intros s s' R; [exact R|]. cbn [filter]. destruct (is_move o) eqn:M; cbn [negb]; [apply IH; exact R|].
    cbn [fold_left]. apply IH. apply rel_act; assumption. }
  apply G. repeat split.
Qed.
End S.

(** ** C120 *)
(** Two halos that differ in nothing but where they were put, and where and how often they were moved, give the same answers to
    every question after every history, and the same lens model but for its centre. *)
Theorem C120_position : forall E H x y x' y' l l' r rm dv, without_moves l = without_moves l' ->
  let s := history E H l (fresh x y) in let s' := history E H l' (fresh x' y') in
  let same {A} (q : M A) := value q s = value q s' in
  same (conc E H) /\ same (z_infall E H) /\ same (z_eval E H) /\ same (time_since_infall E H) /\ same (nfw_params E H) /\
  same (profile_args E H) /\ same (params_physical E H) /\ same (vmax_nfw E H) /\ same (bound_mass E H) /\
  same (bound_mass_galacticus_definition E H) /\ same (mass_3d E H rm) /\ same (density_profile_3d E H r) /\
  same (deflection_angle E H dv r) /\
  same_but_centre (value (lenstronomy_params E H) s) (value (lenstronomy_params E H) s').
Proof.
  intros E H x y x' y' l l' r rm dv W s s'. pose proof (rel_histories E H x y x' y' l l' W) as R. fold s s' in R. cbv zeta beta.
  assert (L := proj1 (sim_lens E H s s' R)).
  repeat split;
    try (apply (fun P : sim _ => proj1 (P s s' R)); auto using sim_conc, sim_zinf, sim_zeval, sim_time, sim_nfw, sim_pargs, sim_phys, sim_vmax, sim_bound, sim_mbdef, sim_m3d, sim_density; fail).
  - unfold value, deflection_angle, mbind. unfold value in L. destruct (lenstronomy_params E H s) as [[k|e] t], (lenstronomy_params E H s') as [[k'|e'] t']; cbn in L; try contradiction.
    + destruct L as (A & B & C). cbn. rewrite A, B, C. reflexivity.
    + cbn. congruence.
  - exact L.
Qed.
(** The deflection angle is what the lens model of the halo gives at that distance from its centre, in every direction. *)
Theorem C120_deflection : forall E H dv r s v k phi, axisymmetric dv -> 0 < r ->
  value (deflection_angle E H dv r) s = Ok v -> value (lenstronomy_params E H) s = Ok k ->
  dv (k_x k + r * cos phi) (k_y k + r * sin phi) (k_Rs k) (k_alpha k) (k_rtrunc k) (k_x k) (k_y k) = (v * cos phi, v * sin phi).
Proof.
  intros E H dv r s v k phi (f & F) P V K. rewrite (F _ _ _ _ _ _ _ phi r P eq_refl eq_refl).
  unfold value, deflection_angle, mbind in V. unfold value in K. destruct (lenstronomy_params E H s) as [[k0|e] t]; [|discriminate].
  cbn in K. apply Ok_inj in K. subst k0. cbn in V. apply Ok_inj in V.
  rewrite (F r 0 (k_Rs k) (k_alpha k) (k_rtrunc k) 0 0 0 r P) in V; [|rewrite cos_0; ring|rewrite sin_0; ring].
  cbn in V. rewrite cos_0, Rmult_1_r in V. rewrite V. reflexivity.
Qed.
(** Forced rescalings of a truncated halo multiply its deflection angles by the product of the factors. *)
Theorem C120_rescaled : forall E H x y qs l dv r v, ages_ok E -> linear_amplitude dv ->
  Forall (fun c => snd (fst c) = true) l -> truncated_before E H x y qs ->
  (exists p, value (params_physical E H) (reads E H qs (fresh x y)) = Ok p) ->
  value (deflection_angle E H dv r) (reads E H qs (fresh x y)) = Ok v ->
  value (deflection_angle E H dv r) (rescale_all l (reads E H qs (fresh x y))) = Ok (rprod (map (fun c => fst (fst c)) l) * v).
Proof.
  intros E H x y qs l dv r v A D L T (p & P) V.
  assert (exists k, value (lenstronomy_params E H) (reads E H qs (fresh x y)) = Ok k) as (k & K).
  { unfold value, deflection_angle, mbind in V. unfold value. destruct (lenstronomy_params E H (reads E H qs (fresh x y))) as [[k|e] t]; [exists k; reflexivity|discriminate]. }
  destruct (C18_forced_observable E H x y qs l k p A L T K P) as [K' _].
  unfold value, deflection_angle, mbind in *. destruct (lenstronomy_params E H (reads E H qs (fresh x y))) as [[k0|e] t]; [|discriminate].
  cbn in K. apply Ok_inj in K. subst k0. cbn in V. apply Ok_inj in V. destruct (lenstronomy_params E H (rescale_all l _)) as [[k1|e] t1]; [|discriminate].
  cbn in K'. apply Ok_inj in K'. subst k1. cbn. rewrite D, V. reflexivity.
Qed.

(** a singular isothermal sphere of strength alpha_Rs, written in these coordinates *)
Definition sis : derivatives := fun x y Rs a rt cx cy =>
  let d := sqrt ((x - cx) ^ 2 + (y - cy) ^ 2) in (a * (x - cx) / d, a * (y - cy) / d).
Example C120_deflection_nonvacuous : axisymmetric sis /\ linear_amplitude sis /\
  exists v, value (deflection_angle demo_env demo_resc sis 2) (reads demo_env demo_resc [QC; QPhysical] (fresh 1 2)) = Ok v.
Proof.
  split; [|split].
  - exists (fun Rs a rt r => a). intros x y Rs a rt cx cy phi r P -> ->. unfold sis. cbv zeta.
    replace ((cx + r * cos phi - cx) ^ 2 + (cy + r * sin phi - cy) ^ 2) with (r ^ 2 * (Rsqr (sin phi) + Rsqr (cos phi))) by (unfold Rsqr; ring).
    rewrite sin2_cos2, Rmult_1_r, sqrt_pow2 by lra. f_equal; field; lra.
  - intros x y Rs a rt cx cy g. unfold sis. cbn [fst]. unfold Rdiv. ring.
  - eexists. unfold deflection_angle. crunch.
Qed.
Example C120_position_nonvacuous :
  without_moves [OMove 3 4; ORead QLensing; OMove 5 6; ORescale 2 true true] = without_moves [ORead QLensing; ORescale 2 true true].
Proof. reflexivity. Qed.
Example C120_rescaled_nonvacuous : truncated_before demo_env demo_resc 1 2 [QC; QPhysical] /\
  exists p, value (params_physical demo_env demo_resc) (reads demo_env demo_resc [QC; QPhysical] (fresh 1 2)) = Ok p.
Proof. split; [exists [QC], QPhysical, []; repeat split; crunch|eexists; crunch]. Qed.

Print Assumptions C120_position.
Print Assumptions C120_deflection.
Print Assumptions C120_rescaled.
