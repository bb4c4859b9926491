(** C68 (two-halo term) and the sign of subhalo sheets (C36, continued). *)
From Verif Require Import Prelude MassFnModel MassFnSpec MassFnProofs SpaceModel RenderModel RenderSpec RenderProofs RenderProofs2 RenderProps.
From Coq Require Import String.
From Coquelicot Require Import Coquelicot.
Open Scope string_scope.
Open Scope R_scope.

(** Background enhancement at distance r (Mpc) from the host. *)
Definition enhancement (e : renv) (host : R) (lazar : bool) (r : R) : R :=
  re_twohalo e r host (re_zlens e) + (if lazar then 0.1 / (r / re_r200 e host / 5) ^ 4 else 0).

Lemma integrand_enh e host lazar r : 0 < r -> 0 < re_r200 e host ->
  boost_integrand e host (re_zlens e) (re_r200 e host) lazar r = enhancement e host lazar r.
Proof.
  intros Hr HR. unfold boost_integrand, enhancement, modificationLazar2021. destruct lazar; [|ring]. f_equal.
  assert (P : 0 < r / re_r200 e host / 5) by (apply Rdiv_lt_0_compat; [apply Rdiv_lt_0_compat; assumption|lra]).
  unfold Rdiv at 3. f_equal. replace (-4) with (- INR 4) by (cbn; lra). rewrite Rpower_Ropp, Rpower_pow by exact P. reflexivity.
Qed.

(** C68: a successful TWO_HALO rendering draws its masses at the lens redshift from the mass function with the spacing
    of the plane nearest to the lens (the first one in case of ties) and with LOS_normalization multiplied by
    scale * 2 * (mean enhancement between 0.5 Mpc and the distance to the next plane). host_m200 takes precedence over log_m_host. *)
Theorem C68_two_halo : forall e zs ds lazar scale a out host n,
  exact_quad (re_quad e) ->
  match lk_host_m200 (pa_los a) with Some m => host = m | None => exists l, lk_log_m_host (pa_los a) = Some l /\ host = ten_to l end ->
  lk_norm (pa_los a) = Some (MNum n) -> 0 < re_r200 e host ->
  (forall r, 0.5 <= r -> continuous (fun r => re_twohalo e r host (re_zlens e)) r) ->
  render_population e (Some zs) (Some ds) lazar scale ("TWO_HALO" :: nil) (a :: nil) = Ok out ->
  exists i z dz lo hi,
    nth_error zs i = Some z /\ nth_error ds i = Some dz /\
    (forall j z', nth_error zs j = Some z' -> Rabs (z - re_zlens e) <= Rabs (z' - re_zlens e)) /\
    (forall j z', (j < i)%nat -> nth_error zs j = Some z' -> Rabs (z - re_zlens e) < Rabs (z' - re_zlens e)) /\
    lk_log_mlow (pa_los a) = Some lo /\ lk_log_mhigh (pa_los a) = Some hi /\
    let rmax := re_DC e (re_zlens e + dz) - re_DC e (re_zlens e) in
    0.5 < rmax /\
    let boost := scale * (2 * (RInt (enhancement e host lazar) 0.5 rmax / (rmax - 0.5))) in
    mf_draw (pa_from_redshift a (re_zlens e) dz (at_redshift (re_zlens e) lo) (at_redshift (re_zlens e) hi) (n * boost)
               (poisson_default (lk_poisson (pa_los a)))) 0 = Ok (a_m out).
Proof.
  intros * HQ HH EN HR HC H. unfold render_population in H. apply bind_Ok in H. destruct H as (ms & HI & H).
  cbn [population_init] in HI. unfold mk_model in HI. cbn [String.eqb Ascii.eqb Bool.eqb] in HI.
  apply bind_Ok in HI. destruct HI as (m & HI & E). injection E as <-.
  apply bind_Ok in HI. destruct HI as (t & HI & E). injection E as <-.
  cbn [population_render model_render] in H. apply bind_Ok in H. destruct H as (o & H1 & E). injection E as <-.
  cbn [arrays_app arrays_nil a_m app].
  unfold two_halo_init in HI. apply bind_Ok in HI. destruct HI as (host' & HO & HI).
  assert (host' = host) as ->.
  { destruct (lk_host_m200 (pa_los a)); [congruence|]. destruct HH as (l & EL & ->). rewrite EL in HO. injection HO as <-. reflexivity. }
  clear HO. apply bind_Ok in HI. destruct HI as (i & H0 & HI). apply bind_Ok in HI. destruct HI as (dz & H3 & H2). rewrite EN in H2.
  assert (NE : map (fun z => Rabs (z - re_zlens e)) zs <> nil) by (intros E; rewrite E in H0; discriminate).
  destruct (np_argmin_spec _ NE) as (i' & v & EI & Ev & Hmin & Hfirst). replace i' with i in * by congruence. clear EI.
  rewrite nth_error_map in Ev. destruct (nth_error zs i) as [z|] eqn:EZ; [|discriminate]. injection Ev as <-.
  destruct (nth_error ds i) as [d|] eqn:ED; [|discriminate]. injection H3 as <-.
  injection H2 as <-. unfold two_halo_render in H1. cbn [th_kw th_dz] in H1.
  unfold two_halo_enhancement_factor in H1. cbn zeta in H1. set (rmax := re_DC e (re_zlens e + d) - re_DC e (re_zlens e)) in *.
  destruct (Reqb (rmax - Rmin rmax 0.5) 0) eqn:ER; [discriminate|]. apply Reqb_false in ER.
  assert (RM : 0.5 < rmax). { destruct (Rle_dec rmax 0.5) as [L|L]; [|lra]. rewrite Rmin_left in ER by exact L. lra. }
  rewrite Rmin_right in H1 by lra.
  unfold los_mass_fn in H1. cbn [orelse los_init lk_log_mlow lk_log_mhigh lk_norm lk_poisson] in H1.
  apply bind_Ok in H1. destruct H1 as (mf & H & H1). apply bind_Ok in H1. destruct H1 as (mm & H2 & H1).
  apply bind_Ok in H1. destruct H1 as (pp & _ & H1). apply bind_Ok in H. destruct H as (lo & HLO & H). apply bind_Ok in H. destruct H as (hi & HHI & H).
  cbn [need bind] in H. apply bind_Ok in H. destruct H as (p & HPO & H). injection H as <-. injection H1 as <-.
  apply need_Ok in HLO, HHI, HPO. exists i, z, d, lo, hi. split; [exact EZ|]. split; [exact ED|].
  split. { intros j z' Hj. apply (Hmin j). now rewrite nth_error_map, Hj. }
  split. { intros j z' Hl Hj. apply (Hfirst j); [exact Hl|]. now rewrite nth_error_map, Hj. }
  split; [exact HLO|]. split; [exact HHI|]. cbn zeta. fold rmax. split; [exact RM|].
  assert (EXT : forall r, Rmin 0.5 rmax < r < Rmax 0.5 rmax ->
     boost_integrand e host (re_zlens e) (re_r200 e host) lazar r = enhancement e host lazar r).
  { intros r. rewrite Rmin_left, Rmax_right by lra. intros Hr. apply integrand_enh; [lra|exact HR]. }
  assert (EX : ex_RInt (boost_integrand e host (re_zlens e) (re_r200 e host) lazar) 0.5 rmax).
  { apply (ex_RInt_continuous (V := R_CompleteNormedModule)). intros r. rewrite Rmin_left, Rmax_right by lra. intros Hr.
    unfold boost_integrand. destruct lazar; [|apply HC; lra]. apply (continuous_plus (V := R_NormedModule)); [apply HC; lra|].
    unfold modificationLazar2021. apply (continuous_mult (K := R_AbsRing)); [apply continuous_const|].
    assert (P : 0 < r / re_r200 e host / 5) by (apply Rdiv_lt_0_compat; [apply Rdiv_lt_0_compat; lra|lra]).
    apply (continuous_comp (fun r => r / re_r200 e host / 5) (fun x => Rpower x (-4))).
    - apply (ex_derive_continuous (V := R_NormedModule)). auto_derive. exact I.
    - apply continuous_Rpower. exact P. }
  rewrite (HQ _ _ _ EX) in *. rewrite (RInt_ext _ _ _ _ EXT) in *.
  match goal with |- mf_draw (pa_from_redshift _ _ _ _ _ ?A ?P) _ = _ =>
    replace P with p; [|destruct (lk_poisson (pa_los a)); injection HPO as <-; reflexivity] end.
  cbn [eval_mlimit a_m] in *. rewrite <- H2. f_equal. f_equal. unfold Rdiv. ring.
Qed.

(** C68: bounds of the boost, and the contribution of the correction of Lazar et al. in closed form. *)
Theorem C68_boost_bounds : forall e host lazar rmax lo hi,
  0.5 < rmax -> ex_RInt (enhancement e host lazar) 0.5 rmax ->
  (forall r, 0.5 <= r <= rmax -> lo <= enhancement e host lazar r <= hi) ->
  2 * lo <= 2 * (RInt (enhancement e host lazar) 0.5 rmax / (rmax - 0.5)) <= 2 * hi.
Proof.
  intros * HR EX HB.
  assert (L : RInt (fun _ : R => lo) 0.5 rmax <= RInt (enhancement e host lazar) 0.5 rmax).
  { apply RInt_le; [lra|apply ex_RInt_const|exact EX|]. intros r Hr. apply HB. lra. }
  assert (U : RInt (enhancement e host lazar) 0.5 rmax <= RInt (fun _ : R => hi) 0.5 rmax).
  { apply RInt_le; [lra|exact EX|apply ex_RInt_const|]. intros r Hr. apply HB. lra. }
  rewrite RInt_const in L, U. unfold scal in L, U; simpl in L, U; unfold mult in L, U; simpl in L, U.
  assert (X : lo <= RInt (enhancement e host lazar) 0.5 rmax / (rmax - 0.5)).
  { apply Rmult_le_reg_r with (rmax - 0.5); [lra|]. unfold Rdiv. rewrite Rmult_assoc, Rinv_l by lra. lra. }
  assert (Y : RInt (enhancement e host lazar) 0.5 rmax / (rmax - 0.5) <= hi).
  { apply Rmult_le_reg_r with (rmax - 0.5); [lra|]. unfold Rdiv. rewrite Rmult_assoc, Rinv_l by lra. lra. }
  lra.
Qed.
Theorem C68_lazar : forall e host rmax,
  0.5 < rmax -> 0 < re_r200 e host -> ex_RInt (fun r => re_twohalo e r host (re_zlens e)) 0.5 rmax ->
  RInt (enhancement e host true) 0.5 rmax = RInt (enhancement e host false) 0.5 rmax
    + 0.1 * (5 * re_r200 e host) ^ 4 * (8 - / rmax ^ 3) / 3 /\
  RInt (enhancement e host false) 0.5 rmax < RInt (enhancement e host true) 0.5 rmax.
Proof.
  intros * HR HV EX. set (V := re_r200 e host) in *.
  assert (E0 : RInt (enhancement e host false) 0.5 rmax = RInt (fun r => re_twohalo e r host (re_zlens e)) 0.5 rmax).
  { apply RInt_ext. intros r _. unfold enhancement. match goal with |- ?a = ?b => change (@eq R a b) end. ring. }
  assert (I1 : is_RInt (fun r => 0.1 * (5 * V) ^ 4 * Rpower r (-4)) 0.5 rmax (0.1 * (5 * V) ^ 4 * RInt (fun r => Rpower r (-4)) 0.5 rmax)).
  { apply (is_RInt_scal (V := R_NormedModule)). apply (RInt_correct (V := R_CompleteNormedModule)). apply ex_RInt_Rpower; lra. }
  assert (E1 : RInt (enhancement e host true) 0.5 rmax
     = RInt (fun r => re_twohalo e r host (re_zlens e)) 0.5 rmax + 0.1 * (5 * V) ^ 4 * RInt (fun r => Rpower r (-4)) 0.5 rmax).
  { apply is_RInt_unique. apply (is_RInt_ext (fun r => plus (re_twohalo e r host (re_zlens e)) (0.1 * (5 * V) ^ 4 * Rpower r (-4)))).
    - intros r. rewrite Rmin_left, Rmax_right by lra. intros Hr. unfold plus; simpl. unfold enhancement. f_equal. fold V.
      replace (-4) with (- INR 4) by (cbn; lra). rewrite Rpower_Ropp, Rpower_pow by lra. field; repeat split; lra.
    - apply (is_RInt_plus (V := R_NormedModule)); [apply (RInt_correct (V := R_CompleteNormedModule)); exact EX|exact I1]. }
  assert (E2 : RInt (fun r => Rpower r (-4)) 0.5 rmax = (8 - / rmax ^ 3) / 3).
  { rewrite RInt_Rpower by lra. replace (Reqb (-4 + 1) 0) with false by (symmetry; apply Reqb_false; lra).
    replace (-4 + 1) with (- INR 3) by (cbn; lra). rewrite !Rpower_Ropp, !Rpower_pow by lra. match goal with |- ?a = ?b => change (@eq R a b) end. assert (H5 : / 0.5 ^ 3 = 8) by (replace (0.5 ^ 3) with (/ 8) by (cbn; lra); apply Rinv_inv). rewrite H5. assert (HX : rmax ^ 3 <> 0) by (apply pow_nonzero; lra). set (X := rmax ^ 3) in *. cbn [INR]. field. exact HX. }
  rewrite E1, E0, E2. split; [match goal with |- ?a = ?b => change (@eq R a b) end; unfold Rdiv; ring|].
  assert (0 < V ^ 4) by (apply pow_lt; assumption).
  assert (/ rmax ^ 3 < 8).
  { replace 8 with (/ 0.5 ^ 3) by (replace (0.5 ^ 3) with (/ 8) by (cbn; lra); apply Rinv_inv). apply Rinv_lt_contravar; [apply Rmult_lt_0_compat; apply pow_lt; lra|].
    assert (0.5 * 0.5 < rmax * rmax) by nra. cbn. nra. }
  assert (0 < 0.1 * (5 * V) ^ 4) by (apply Rmult_lt_0_compat; [lra|apply pow_lt; lra]). nra.
Qed.

(** C68, refuted: "the two-halo term works for every plane spacing".  When the next plane is within 0.5 Mpc (comoving) of
    the lens, the boost is 0/0 and rendering raises ValueError. *)
Theorem C68_small_spacing_refuted : forall e zs ds lazar scale a n i dz,
  (exists m, lk_host_m200 (pa_los a) = Some m) \/ (exists l, lk_log_m_host (pa_los a) = Some l) ->
  lk_norm (pa_los a) = Some (MNum n) ->
  np_argmin (map (fun z => Rabs (z - re_zlens e)) zs) = Ok i -> nth_error ds i = Some dz ->
  re_DC e (re_zlens e + dz) - re_DC e (re_zlens e) <= 0.5 ->
  render_population e (Some zs) (Some ds) lazar scale ("TWO_HALO" :: nil) (a :: nil) = Err EValueError.
Proof.
  intros * HH EN EI ED HL. unfold render_population. cbn [population_init]. unfold mk_model. cbn [String.eqb Ascii.eqb Bool.eqb].
  assert (HI : two_halo_init e (pa_los a) (Some zs) (Some ds) lazar scale = Ok {| th_dz := dz; th_kw := None |}).
  { unfold two_halo_init.
    assert (HO : exists host, match lk_host_m200 (pa_los a) with Some m => Ok m | None => match lk_log_m_host (pa_los a) with Some l => Ok (pow10 l) | None => Err EException end end = Ok host).
    { destruct HH as [(m & E)|(l & E)]; rewrite E; [eauto|]. destruct (lk_host_m200 (pa_los a)); eauto. }
    destruct HO as (host & ->). cbn [bind]. rewrite EI. cbn [bind]. rewrite ED, EN. cbn [bind]. unfold two_halo_enhancement_factor. rewrite Rmin_left by exact HL.
    match goal with |- context [Reqb ?x 0] => replace (Reqb x 0) with true by (symmetry; apply Reqb_true; ring) end. reflexivity. }
  rewrite HI. reflexivity.
Qed.
Example C68_small_spacing_nonvacuous :
  np_argmin (map (fun z => Rabs (z - re_zlens demo_env)) (0.5 :: nil)) = Ok 0%nat /\ nth_error (0.0001 :: nil) 0 = Some 0.0001 /\
  re_DC demo_env (re_zlens demo_env + 0.0001) - re_DC demo_env (re_zlens demo_env) <= 0.5.
Proof. split; [reflexivity|]. split; [reflexivity|]. cbn. lra. Qed.

(** C68: error behaviour of the constructor: no host mass, a redshift-dependent normalisation, no planes. *)
Theorem C68_errors : forall e planes dzs lazar scale a names rest,
  let out := render_population e planes dzs lazar scale ("TWO_HALO" :: names) (a :: rest) in
  (lk_host_m200 (pa_los a) = None -> lk_log_m_host (pa_los a) = None -> out = Err EException) /\
  (forall m, lk_host_m200 (pa_los a) = Some m -> planes = None -> out = Err ETypeError) /\
  (forall m, lk_host_m200 (pa_los a) = Some m -> forall ds, planes = Some nil -> dzs = Some ds -> out = Err EValueError) /\
  (forall m f zs ds, lk_host_m200 (pa_los a) = Some m -> lk_norm (pa_los a) = Some (MFun f) -> planes = Some zs -> dzs = Some ds ->
     zs <> nil -> List.length zs = List.length ds -> out = Err ETypeError).
Proof.
  intros *. unfold out. clear out. unfold render_population. cbn [population_init]. unfold mk_model. cbn [String.eqb Ascii.eqb Bool.eqb]. unfold two_halo_init.
  split; [intros -> ->; reflexivity|]. split; [intros m -> ->; reflexivity|]. split; [intros m -> ds -> ->; reflexivity|].
  intros m f zs ds -> EF -> -> NE HL. cbn [bind].
  destruct (np_argmin_spec (map (fun z => Rabs (z - re_zlens e)) zs)) as (i & v & -> & Ev & _); [destruct zs; cbn; congruence|].
  cbn [bind]. rewrite EF.
  assert (LT : (i < List.length ds)%nat). { rewrite <- HL. rewrite <- (map_length (fun z => Rabs (z - re_zlens e))). apply nth_error_Some. congruence. }
  apply nth_error_Some in LT. destruct (nth_error ds i); [reflexivity|congruence].
Qed.
Example C68_nonvacuous :
  exact_quad (fun f a b => RInt f a b) /\
  (forall r, 0.5 <= r -> continuous (fun r => re_twohalo demo_env r 1 (re_zlens demo_env)) r) /\
  exists out, render_population
    {| re_zlens := 0.5; re_zsource := 2; re_cone := 6; re_kpc := fun _ => Ok 5; re_scale := fun _ => 1; re_area := fun _ => 1;
       re_sigma_crit_mass := fun _ a => 100 * a; re_DC := fun z => 4000 * z; re_twohalo := fun _ _ _ => 1; re_r200 := fun _ => 1;
       re_quad := fun f a b => RInt f a b |} (Some (0.5 :: nil)) (Some (0.1 :: nil)) true 1 ("TWO_HALO" :: nil) (demo_args (SpCone 6) :: nil) = Ok out.
Proof.
  split; [intros f a b _; reflexivity|]. split; [intros; apply continuous_const|].
  unfold render_population. cbn [population_init]. unfold mk_model. cbn [String.eqb Ascii.eqb Bool.eqb]. unfold two_halo_init.
  cbn [demo_args pa_los demo_loskw lk_host_m200 lk_log_m_host bind map re_zlens np_argmin argmin_from nth_error lk_norm].
  unfold two_halo_enhancement_factor. cbn [re_DC].
  replace (Rmin (4000 * (0.5 + 0.1) - 4000 * 0.5) 0.5) with 0.5 by (rewrite Rmin_right; lra).
  replace (Reqb (4000 * (0.5 + 0.1) - 4000 * 0.5 - 0.5) 0) with false by (symmetry; apply Reqb_false; lra).
  eexists. reflexivity.
Qed.

Print Assumptions C68_two_halo.
Print Assumptions C68_boost_bounds.
Print Assumptions C68_lazar.
Print Assumptions C68_small_spacing_refuted.
Print Assumptions C68_errors.
