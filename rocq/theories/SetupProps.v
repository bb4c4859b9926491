(** C111: halos made with simple_setup are what was asked for; they share one tag. *)
From Verif Require Import Prelude HaloStateModel HaloStateSpec HaloStateProofs HaloStateProps SetupModel.
From Coq Require Import String.
Local Open Scope R_scope.
Local Open Scope list_scope.

(** ** Subhalos: comparison with an object that drew these values *)
Section Compare.
Variable E : Env.
Variable H : Static.
Variables zi fb : R.
Variable ch : R.
Hypothesis Hsub : h_sub H = true.
Hypothesis Hkind : h_kind H = KGalacticus ch.

(** the environment in which the first infall redshift and the first bound fraction drawn are the given ones *)
Definition envd : Env :=
  mkEnv (e_nfw E) (e_angle E) (e_kpc E) (e_round E) (e_vmax E) (e_m3d E) (e_frac E) (e_age E) (e_rte E) (e_splash E) (e_rN E) (e_cmed E)
    (e_zlens E) (e_tau E) (fun _ _ => zi) (e_draw_c E) (fun _ _ _ _ _ => log10 fb) (e_logf E) (e_normal E).
(** one more draw of the infall redshift and of the bound mass *)
Definition bump (s : St) : St :=
  mkSt (s_x s) (s_y s) (s_norm s) (s_once s) (s_zinf s) (s_zeval s) (s_tsi s) (s_c s) (s_nfw s) (s_pargs s) (s_phys s) (s_kw s) (s_vmax s)
    (s_mb s) (S (n_z s)) (n_c s) (S (n_mb s)) (n_tr s).
Definition known (s : St) : Prop := s_zinf s <> None /\ s_mb s <> None.
Definition agree {A} (m m' : M A) : Prop := forall s, known s -> exists r s1, m s = (r, s1) /\ m' (bump s) = (r, bump s1) /\ known s1.

Lemma agree_ret {A} (a : A) : agree (ret a) (ret a).
Proof. intros s K. exists (Ok a), s. repeat split; apply K. Qed.
Lemma agree_raise {A} e : agree (@raise A e) (raise e).
Proof. intros s K. exists (Err e), s. repeat split; apply K. Qed.
Lemma agree_bind {A B} (m m' : M A) (k k' : A -> M B) : agree m m' -> (forall a, agree (k a) (k' a)) -> agree (mbind m k) (mbind m' k').
Proof.
  intros Hm Hk s K. destruct (Hm s K) as (r & s1 & E1 & E2 & K1). unfold mbind. rewrite E1, E2.
  destruct r as [a|e]; [exact (Hk a s1 K1)|]. exists (Err e), s1. repeat split; apply K1.
Qed.
Lemma agree_gets {A} (f : St -> A) : (forall s, f (bump s) = f s) -> agree (gets f) (gets f).
Proof. intros F s K. exists (Ok (f s)), s. unfold gets. rewrite F. repeat split; apply K. Qed.
Lemma agree_modify f : (forall s, f (bump s) = bump (f s)) -> (forall s, known s -> known (f s)) -> agree (modify f) (modify f).
Proof. intros F G s K. exists (Ok tt), (f s). unfold modify. rewrite F. split; [reflexivity|split; [reflexivity|apply G; exact K]]. Qed.
Lemma agree_zinf : agree (z_infall E H) (z_infall envd H).
Proof.
  intros s K. unfold z_infall. rewrite !bind_gets. destruct K as [K1 K2]. cbn [s_zinf bump]. destruct (s_zinf s) as [v|] eqn:V; [|congruence].
  exists (Ok v), s. repeat split; congruence.
Qed.
Ltac am := apply agree_modify; [intros s0; reflexivity|intros s0 [K1 K2]; split; cbn; (assumption || discriminate)].
Ltac ag := repeat first
  [ apply agree_ret | apply agree_raise | apply agree_zinf
  | (apply agree_gets; intros s0; reflexivity) | am
  | (apply agree_bind; [|intros ?]) ].
Lemma agree_zeval : agree (z_eval E H) (z_eval envd H).
Proof. unfold z_eval. apply agree_bind; [ag|]. intros [v|]; [ag|]. rewrite Hsub. ag. Qed.
Lemma agree_time : agree (time_since_infall E H) (time_since_infall envd H).
Proof.
  unfold time_since_infall. destruct (negb (h_sub H)); [ag|]. apply agree_bind; [ag|]. intros [v|]; [ag|].
  apply agree_bind; [ag|]. intros z. cbn [e_age envd]. cbv zeta. apply agree_bind; [ag|]. intros _. destruct (Rleb 0 (e_age E (h_z H) z)); ag.
Qed.
Lemma agree_conc : agree (conc E H) (conc envd H).
Proof.
  unfold conc. apply agree_bind; [ag|]. intros [v|]; [ag|]. apply agree_bind; [apply agree_zeval|]. intros z. cbn [e_draw_c envd]. ag.
Qed.
Lemma agree_nfw : agree (nfw_params E H) (nfw_params envd H).
Proof.
  unfold nfw_params. apply agree_bind; [ag|]. intros [v|]; [ag|]. apply agree_bind; [apply agree_conc|]. intros c.
  apply agree_bind; [apply agree_zeval|]. intros z. cbn [e_nfw envd]. ag.
Qed.
Lemma agree_mbdef : agree (bound_mass_galacticus_definition E H) (bound_mass_galacticus_definition envd H).
Proof.
  unfold bound_mass_galacticus_definition. rewrite Hsub, Hkind. cbn [negb]. intros s K. rewrite !bind_gets. cbn [s_mb bump]. destruct K as [K1 K2].
  destruct (s_mb s) as [v|] eqn:V; [|congruence]. exists (Ok v), s. repeat split; congruence.
Qed.
Lemma agree_struct mb c : agree (structure_from_mbound E H mb c) (structure_from_mbound envd H mb c).
Proof.
  unfold structure_from_mbound. apply agree_bind; [apply agree_zeval|]. intros z. cbn [e_nfw e_rte envd].
  destruct (e_nfw E (h_mass H) c z) as [[a b] r2]. destruct (e_rte E mb (h_mass H) r2 c) as [r f].
  apply agree_bind; [|intros; ag]. apply agree_modify.
  - intros s. unfold rescale_normalization, apply_rescale. cbn [s_once bump]. destruct (s_once s); reflexivity.
  - intros s [K1 K2]. unfold rescale_normalization, apply_rescale. destruct (s_once s); split; assumption.
Qed.
Lemma agree_pargs : agree (profile_args E H) (profile_args envd H).
Proof.
  unfold profile_args. apply agree_bind; [ag|]. intros [v|]; [ag|]. rewrite Hsub, Hkind.
  apply agree_bind; [apply agree_bind; [apply agree_mbdef|intros mb; apply agree_bind; [apply agree_conc|intros; apply agree_struct]]|].
  intros rt. apply agree_bind; [apply agree_conc|]. intros c. ag.
Qed.
Lemma agree_phys : agree (params_physical E H) (params_physical envd H).
Proof.
  unfold params_physical. apply agree_bind; [ag|]. intros [v|]; [ag|]. apply agree_bind; [apply agree_pargs|]. intros a.
  apply agree_bind; [apply agree_nfw|]. intros [[rhos rs] r2]. ag.
Qed.
Lemma agree_kw : agree (lenstronomy_params E H) (lenstronomy_params envd H).
Proof.
  unfold lenstronomy_params. apply agree_bind; [ag|]. intros [v|]; [ag|]. apply agree_bind; [apply agree_pargs|]. intros a.
  apply agree_bind; [apply agree_nfw|]. intros [[rhos rs] r2]. cbn [e_angle e_round e_kpc envd].
  destruct (e_angle E (rhos * 10 ^ 9) (rs * / 10 ^ 3) (h_z H)) as [Rs th]. ag.
Qed.
Lemma agree_vmax : agree (vmax_nfw E H) (vmax_nfw envd H).
Proof.
  unfold vmax_nfw. apply agree_bind; [ag|]. intros [v|]; [ag|]. apply agree_bind; [apply agree_nfw|]. intros [[rhos rs] r2].
  apply agree_bind; [apply agree_pargs|]. intros a. cbn [e_vmax envd]. ag.
Qed.
Lemma agree_bound : agree (bound_mass E H) (bound_mass envd H).
Proof.
  unfold bound_mass. destruct (negb (h_sub H)); [ag|]. apply agree_bind; [ag|]. intros k. apply agree_bind.
  { destruct k; [ag|]. apply agree_bind; [apply agree_phys|intros; ag]. }
  intros tau. apply agree_bind; [apply agree_conc|]. intros c. cbn [e_frac envd]. ag.
Qed.
Lemma agree_m3d r : agree (mass_3d E H r) (mass_3d envd H r).
Proof.
  unfold mass_3d. apply agree_bind.
  { destruct r; [ag|]. apply agree_bind; [apply agree_nfw|]. intros p. apply agree_bind; [apply agree_conc|intros; ag]. }
  intros rm. apply agree_bind; [apply agree_nfw|]. intros p. cbv zeta. apply agree_bind; [apply agree_nfw|]. intros p'.
  apply agree_bind; [ag|]. intros g. apply agree_bind; [apply agree_pargs|]. intros a. cbn [e_m3d envd]. ag.
Qed.
Lemma agree_density r : agree (density_profile_3d E H r) (density_profile_3d envd H r).
Proof.
  unfold density_profile_3d. apply agree_bind; [apply agree_pargs|]. intros a. apply agree_bind; [apply agree_nfw|]. intros [[rhos rs] r2]. ag.
Qed.
Lemma agree_unit {A} (m m' : M A) : agree m m' -> agree (unit_of m) (unit_of m').
Proof. intros G. unfold unit_of. apply agree_bind; [exact G|intros; ag]. Qed.
Lemma agree_ask q : agree (ask E H q) (ask envd H q).
Proof.
  destruct q; cbn [ask]; apply agree_unit;
    [apply agree_conc|apply agree_zinf|apply agree_zeval|apply agree_time|apply agree_nfw|apply agree_pargs|apply agree_phys|apply agree_kw
    |apply agree_vmax|apply agree_bound|apply agree_mbdef|apply agree_m3d|apply agree_density].
Qed.
Lemma agree_reads qs : forall s, known s -> reads envd H qs (bump s) = bump (reads E H qs s) /\ known (reads E H qs s).
Proof.
  induction qs as [|q qs IH]; intros s K; [split; [reflexivity|exact K]|]. cbn [reads fold_left].
  destruct (agree_ask q s K) as (r & s1 & E1 & E2 & K1). rewrite E1, E2. exact (IH s1 K1).
Qed.
Lemma agree_value {A} (m m' : M A) s : agree m m' -> known s -> value m s = value m' (bump s).
Proof. intros G K. destruct (G s K) as (r & s1 & E1 & E2 & _). unfold value. rewrite E1, E2. reflexivity. Qed.
End Compare.

(** ** Specification *)
(** What every query of a halo object made with simple_setup has to answer, after any sequence of queries [qs]. *)
Definition after (E : Env) (d : made) (qs : list query) : St := reads E (md_static d) qs (md_state d).

Lemma pow_log x : 0 < x -> pow10 (log10 x) = x.
Proof.
  intros Hx. unfold pow10, log10, Rpower. assert (0 < ln 10) by (rewrite <- ln_1; apply ln_increasing; lra).
  replace (ln x / ln 10 * ln 10) with (ln x) by (field; lra). apply exp_ln. exact Hx.
Qed.
Lemma nfw0_eq E H : nfw0 E H = e_nfw E (h_mass H) (c0 E H) (ze0 E H).
Proof. reflexivity. Qed.

(** A subhalo made with simple_setup has the requested bound mass and infall redshift, the concentration of a halo of its mass at infall, and
    the profile of the tidal track for exactly that bound mass - whatever is asked of it before; no infall redshift and no bound mass is drawn. *)
Theorem C111_subhalo : forall E mass fb zi x y z a d qs, ages_ok E -> 0 < fb -> sub_setup mass fb zi x y z a = Ok d ->
  let H := md_static d in let s := after E d qs in
  let c := e_draw_c E 0 mass zi in
  let '(rhos, rs, r200) := e_nfw E mass c zi in
  let '(r_te, f_t) := e_rte E (fb * mass) mass r200 c in
  let '(Rs, theta) := e_angle E (rhos * 10 ^ 9) (rs * / 10 ^ 3) z in
  value (z_infall E H) s = Ok zi /\
  value (conc E H) s = Ok c /\
  value (bound_mass_galacticus_definition E H) s = Ok (fb * mass) /\
  value (profile_args E H) s = Ok (c, r_te) /\
  value (params_physical E H) s = Ok (mkPhys (rhos * f_t) rs r200 r_te) /\
  value (lenstronomy_params E H) s =
    Ok (mkLensKw (f_t * e_round E 10 theta) (e_round E 10 Rs) (e_round E 4 x) (e_round E 4 y) (e_round E 10 (r_te / e_kpc E z))) /\
  n_z s = 0%nat /\ n_mb s = 0%nat.
Proof.
  intros E mass fb zi x y z a d qs AG Hf D. unfold sub_setup in D. destruct (simple_concentration a) as [k|]; [|discriminate].
  cbn [bind set_infall_redshift h_sub modify] in D. injection D as D. subst d. cbv zeta. cbn [md_static]. unfold after. cbn [md_static md_state].
  set (H := mkStatic mass 0 z true (KGalacticus 5)). set (s0 := set_zinf zi (set_mb (fb * mass) (fresh x y))).
  assert (K0 : known s0) by (split; discriminate).
  destruct (agree_reads E H zi fb 5 eq_refl eq_refl qs s0 K0) as [RE RK].
  set (E' := envd E zi fb) in *. set (s := reads E H qs s0) in *.
  assert (AG' : ages_ok E') by exact AG.
  assert (MB : mb0 E' H = Ok (fb * mass)).
  { unfold mb0, loss0. cbn. rewrite pow_log by exact Hf. f_equal. ring. }
  assert (I0 : Inv E' H x y (bump s0)).
  { split; [|split; [|repeat split; [cbn; lia|]]].
    - unfold Inv0. split; [right; split; reflexivity|]. split; [left; reflexivity|]. split; [left; reflexivity|]. split; [left; split; reflexivity|left; reflexivity].
    - right. split; [|reflexivity]. exists (fb * mass). split; [reflexivity|exact MB].
    - left. repeat split. }
  pose proof (inv_reads E' H AG' x y qs _ I0) as I1. rewrite RE in I1.
  assert (NF : nfw0 E' H = e_nfw E mass (e_draw_c E 0 mass zi) zi) by reflexivity.
  assert (RT : rt0 E' H = Ok (st0 E' H (fb * mass))) by (unfold rt0; cbn [h_sub h_kind H]; rewrite MB; reflexivity).
  unfold st0 in RT. rewrite NF in RT. change (c0 E' H) with (e_draw_c E 0 mass zi) in RT. cbn [e_rte h_mass H E' envd] in RT.
  destruct (e_nfw E mass (e_draw_c E 0 mass zi) zi) as [[rhos rs] r2]. destruct (e_rte E (fb * mass) mass r2 (e_draw_c E 0 mass zi)) as [rte ft].
  destruct (e_angle E (rhos * 10 ^ 9) (rs * / 10 ^ 3) z) as [Rs theta] eqn:AN.
  assert (V : forall A (m m' : M A), agree m m' -> value m s = value m' (bump s)) by (intros A m m' G; apply agree_value; assumption).
  split; [|split; [|split; [|split; [|split; [|split]]]]].
  - rewrite (V _ _ _ (agree_zinf E H zi fb)). destruct (inv_get _ _ x y _ _ _ (get_z_infall E' H) I1) as (s' & Q & _). change (envd E zi fb) with E'. unfold value. rewrite Q. reflexivity.
  - rewrite (V _ _ _ (agree_conc E H zi fb eq_refl)). destruct (inv_get _ _ x y _ _ _ (get_conc E' H) I1) as (s' & Q & _). change (envd E zi fb) with E'. unfold value. rewrite Q. reflexivity.
  - rewrite (V _ _ _ (agree_mbdef E H zi fb 5 eq_refl eq_refl)). destruct (inv_mbdef E' H AG' x y _ I1) as (s' & Q & _). change (envd E zi fb) with E'. unfold value. rewrite Q.
    unfold mbdef0. cbn [h_sub h_kind H]. exact MB.
  - rewrite (V _ _ _ (agree_pargs E H zi fb 5 eq_refl eq_refl)). destruct (inv_pargs E' H AG' x y _ I1) as (s' & Q & _). change (envd E zi fb) with E'. unfold value. rewrite Q.
    unfold pa0. rewrite RT. reflexivity.
  - rewrite (V _ _ _ (agree_phys E H zi fb 5 eq_refl eq_refl)). destruct (inv_phys E' H AG' x y _ I1) as (s' & Q & _). change (envd E zi fb) with E'. unfold value. rewrite Q.
    rewrite RT. cbn [bind fst snd]. unfold phys0. rewrite NF. cbn [factor]. rewrite Rmult_1_l. reflexivity.
  - rewrite (V _ _ _ (agree_kw E H zi fb 5 eq_refl eq_refl)). destruct (inv_kw E' H AG' x y _ I1) as (s' & Q & _). change (envd E zi fb) with E'. unfold value. rewrite Q.
    rewrite RT. cbn [bind fst snd]. unfold kw0. rewrite NF. change (e_angle E' (rhos * 10 ^ 9) (rs * / 10 ^ 3) (h_z H)) with (e_angle E (rhos * 10 ^ 9) (rs * / 10 ^ 3) z). rewrite AN. cbn [factor]. rewrite Rmult_1_l. reflexivity.
  - destruct I1 as (I2 & I3 & _). destruct RK as [R1 R2]. split.
    + destruct I2 as ([[Z1 Z2]|[Z1 Z2]] & _); [cbn in Z1; congruence|]. cbn in Z2. lia.
    + destruct I3 as [[Z1 Z2]|[_ Z2]]; [cbn in Z1; congruence|]. cbn in Z2. lia.
Qed.

(** A field halo made with simple_setup is truncated at tau scale radii, whatever is asked of it before; its density is the NFW density of its
    mass and concentration at its redshift times tau^2 / (tau^2 + x^2). *)
Theorem C111_field : forall E mass x y z tau a d qs, ages_ok E -> field_setup mass x y z tau a = Ok d ->
  let H := md_static d in let s := after E d qs in
  let c := e_draw_c E 0 mass z in
  let '(rhos, rs, r200) := e_nfw E mass c z in
  value (conc E H) s = Ok c /\
  value (params_physical E H) s = Ok (mkPhys rhos rs r200 (tau * rs)) /\
  (rs <> 0 -> forall r, value (density_profile_3d E H r) s =
     Ok (rhos / (r / rs) / (1 + r / rs) ^ 2 * (tau ^ 2 / (tau ^ 2 + (r / rs) ^ 2)))) /\
  value (bound_mass E H) s = Err EException /\ value (bound_mass_galacticus_definition E H) s = Err EAttributeError /\
  (forall zi, value (set_infall_redshift H zi) s = Err EException).
Proof.
  intros E mass x y z tau a d qs AG D. unfold field_setup in D. destruct (simple_concentration a) as [k|]; [|discriminate].
  cbn [bind] in D. injection D as D. subst d. cbv zeta. unfold after. cbn [md_static md_state].
  set (H := mkStatic mass 0 z false (KMultipleRS tau)).
  pose proof (inv_reads E H AG x y qs _ (inv_fresh E H x y)) as I1. set (s := reads E H qs (fresh x y)) in *.
  assert (NF : nfw0 E H = e_nfw E mass (e_draw_c E 0 mass z) z) by reflexivity.
  assert (RT : rt0 E H = Ok (let '(_, rs, _) := nfw0 E H in tau * rs, None)) by reflexivity. rewrite NF in RT.
  destruct (e_nfw E mass (e_draw_c E 0 mass z) z) as [[rhos rs] r2].
  split; [|split; [|split; [|split; [reflexivity|split; [reflexivity|reflexivity]]]]].
  - destruct (inv_get _ _ x y _ _ _ (get_conc E H) I1) as (s' & Q & _). unfold value. rewrite Q. reflexivity.
  - destruct (inv_phys E H AG x y _ I1) as (s' & Q & _). unfold value. rewrite Q. rewrite RT. cbn [bind fst snd]. unfold phys0. rewrite NF.
    cbn [factor]. rewrite Rmult_1_r. reflexivity.
  - intros Hr r. destruct (inv_density E H AG x y r _ I1) as (s' & Q & _). unfold value. rewrite Q. rewrite RT. cbn [bind fst snd]. rewrite NF.
    f_equal. replace (tau * rs / rs) with tau by (field; exact Hr). unfold Rdiv. ring.
Qed.

(** Which concentration models can be named. *)
Theorem C111_concentration_names : forall n,
  (exists k, simple_concentration (ConcName n) = Ok k) <-> n = "DIEMERJOYCE19"%string \/ n = "LUDLOW2016"%string.
Proof.
  intros n. split.
  - intros [k E]. unfold simple_concentration in E.
    destruct (String.eqb n "DIEMERJOYCE19") eqn:E1; [left; apply String.eqb_eq; exact E1|].
    destruct (String.eqb n "LUDLOW2016") eqn:E2; [right; apply String.eqb_eq; exact E2|].
    repeat match type of E with (if ?b then _ else _) = _ => destruct b; [discriminate|] end. discriminate.
  - intros [-> | ->]; eexists; reflexivity.
Qed.

(** ** The tag *)
From Verif Require RealizationModel RealizationProofs.
(** The object in the realization was made with simple_setup (mass, position and tag as in its attributes). *)
Definition made_with_setup (h : RealizationModel.Halo) : Prop :=
  exists d, ((exists tau a, field_setup (RealizationModel.h_mass h) (RealizationModel.h_x h) (RealizationModel.h_y h) (RealizationModel.h_z h) tau a = Ok d) \/
             (exists fb zi a, sub_setup (RealizationModel.h_mass h) fb zi (RealizationModel.h_x h) (RealizationModel.h_y h) (RealizationModel.h_z h) a = Ok d)) /\
    RealizationModel.h_tag h = md_tag d.
Lemma setup_tag h : made_with_setup h -> RealizationModel.h_tag h = 1%Z.
Proof.
  intros (d & [(tau & a & E)|(fb & zi & a & E)] & ->).
  - unfold field_setup in E. destruct (simple_concentration a); [|discriminate]. injection E as <-. reflexivity.
  - unfold sub_setup in E. destruct (simple_concentration a); [|discriminate]. cbn in E. injection E as <-. reflexivity.
Qed.
(** Refuted: 'unique_tag uniquely identifies each halo'.  All halos made with simple_setup carry the same tag, so joining two realizations made of
    them throws away every halo of the longer one (of the calling one if they are equally long), and any two of them compare equal. *)
Theorem C111_tags_refuted : forall hp A B classes, RealizationModel.rz_halos A <> nil -> RealizationModel.rz_halos B <> nil ->
  (forall r, In r (RealizationModel.rz_halos A ++ RealizationModel.rz_halos B) -> made_with_setup (hp r)) ->
  RealizationModel.rz_halos (RealizationModel.join hp A B classes) =
    (if (List.length (RealizationModel.rz_halos B) <=? List.length (RealizationModel.rz_halos A))%nat
     then RealizationModel.rz_halos B else RealizationModel.rz_halos A) /\
  RealizationModel.req hp A B = true.
Proof.
  intros hp A B cl HA HB HS.
  assert (DROP : forall l1 l2, l2 <> nil -> (forall r, In r (l1 ++ l2) -> made_with_setup (hp r)) ->
    filter (fun r => negb (RealizationModel.zmem (RealizationModel.h_tag (hp r)) (RealizationModel.tags hp l2))) l1 = nil).
  { intros l1 l2 Hn Hs. assert (P : forall r, In r l1 -> RealizationModel.zmem (RealizationModel.h_tag (hp r)) (RealizationModel.tags hp l2) = true).
    { intros r Hr. apply RealizationProofs.zmem_true. destruct l2 as [|q t]; [congruence|].
      rewrite (setup_tag _ (Hs r ltac:(apply in_or_app; left; exact Hr))). left.
      exact (setup_tag _ (Hs q ltac:(apply in_or_app; right; left; reflexivity))). }
    clear Hs. induction l1 as [|r t IH]; [reflexivity|]. cbn [filter]. rewrite (P r (or_introl eq_refl)). cbn [negb].
    apply IH. intros q Hq. apply P. right. exact Hq. }
  assert (SW : forall r, In r (RealizationModel.rz_halos B ++ RealizationModel.rz_halos A) -> made_with_setup (hp r)).
  { intros r Hr. apply HS. apply in_app_iff in Hr. apply in_or_app. tauto. }
  split.
  - unfold RealizationModel.join. unfold RealizationModel.tags at 1 2. rewrite !map_length.
    destruct (List.length (RealizationModel.rz_halos B) <=? List.length (RealizationModel.rz_halos A))%nat; cbn [RealizationModel.from_halos RealizationModel.rz_halos].
    + rewrite (DROP _ _ HB HS). apply app_nil_r.
    + rewrite (DROP _ _ HA SW). apply app_nil_r.
  - unfold RealizationModel.req. apply forallb_forall. intros t Ht. unfold RealizationModel.tags in Ht. apply in_map_iff in Ht as (r & <- & Hr).
    apply RealizationProofs.zmem_true. destruct (RealizationModel.rz_halos A) as [|q l]; [congruence|]. left.
    rewrite (setup_tag _ (HS r ltac:(apply in_or_app; right; exact Hr))). exact (setup_tag _ (HS q ltac:(left; reflexivity))).
Qed.

(** ** Concrete cases *)
Example C111_subhalo_nonvacuous : exists d, sub_setup 8 0.3 2 1 2 0.5 (ConcName "DIEMERJOYCE19") = Ok d /\ ages_ok demo_env /\
  value (bound_mass_galacticus_definition demo_env (md_static d)) (after demo_env d (QTime :: QVmax :: QMass3D None :: nil)) = Ok (0.3 * 8).
Proof.
  eexists. split; [reflexivity|]. split; [exact demo_ages|].
  match goal with |- value (_ _ (md_static ?d)) _ = _ =>
    exact (proj1 (proj2 (proj2 (C111_subhalo demo_env 8 0.3 2 1 2 0.5 (ConcName "DIEMERJOYCE19") d (QTime :: QVmax :: QMass3D None :: nil) demo_ages ltac:(lra) eq_refl)))) end.
Qed.
Example C111_field_nonvacuous : exists d p, field_setup 8 1 2 0.5 5 ConcObject = Ok d /\ ages_ok demo_env /\
  value (params_physical demo_env (md_static d)) (after demo_env d (QVmax :: QLensing :: nil)) = Ok p /\ p_rt p = 5 * p_rs p.
Proof.
  eexists. eexists. split; [reflexivity|]. split; [exact demo_ages|].
  match goal with |- value (_ _ (md_static ?d)) _ = _ /\ _ =>
    split; [exact (proj1 (proj2 (C111_field demo_env 8 1 2 0.5 5 ConcObject d (QVmax :: QLensing :: nil) demo_ages eq_refl)))|reflexivity] end.
Qed.
Example C111_concentration_names_nonvacuous : (exists k, simple_concentration (ConcName "LUDLOW2016") = Ok k) /\
  ~ exists k, simple_concentration (ConcName "BOSE2016") = Ok k.
Proof. split; [apply C111_concentration_names; right; reflexivity|]. intros [k E]. discriminate. Qed.
(** two one-halo realizations: the join has one halo, the argument's *)
Definition setup_heap (r : RealizationModel.ref) : RealizationModel.Halo :=
  RealizationModel.mkHalo (10 ^ 8) (INR r) 0 0.5 "TNFW" 1 false false None nil nil None.
Example C111_tags_refuted_nonvacuous :
  let one r := RealizationModel.from_halos setup_heap (r :: nil) true nil (fun _ => 0) (fun _ => 0) in
  RealizationModel.rz_halos (RealizationModel.join setup_heap (one 1%nat) (one 2%nat) false) = (2%nat :: nil) /\
  RealizationModel.req setup_heap (one 1%nat) (one 2%nat) = true.
Proof.
  cbv zeta. apply (C111_tags_refuted setup_heap (RealizationModel.from_halos setup_heap (1%nat :: nil) true nil (fun _ => 0) (fun _ => 0))
    (RealizationModel.from_halos setup_heap (2%nat :: nil) true nil (fun _ => 0) (fun _ => 0)) false); try discriminate.
  intros r _. eexists. split; [left; exists 5, ConcObject; reflexivity|reflexivity].
Qed.

Print Assumptions C111_subhalo.
Print Assumptions C111_field.
Print Assumptions C111_concentration_names.
Print Assumptions C111_tags_refuted.
