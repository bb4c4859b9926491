(** C61 (globular clusters), C70 (globular clusters added to a realization), C71 (primordial black holes) and C72 (sampling
    from a two-dimensional map). *)
From Verif Require Import Prelude MassFnModel MassFnSpec MassFnProofs SpaceModel SpaceSpec SpaceProofs SpaceProofs3 SpaceProps.
From Verif Require Import RealizationModel RealizationSpec RealizationProofs RenderModel RenderProofs PopModel PopSpec PopProofs PopProofs2 PopProofs3 PopProps.
Local Open Scope string_scope.
Local Open Scope R_scope.
Local Open Scope list_scope.

(** ** C61: the lens model of a globular cluster *)

(** lenstronomy's enclosed mass is proportional to its density argument. *)
Definition mass3d_linear (e : genv) : Prop := forall r c rho rc gamma, ge_mass3d e r (c * rho) rc gamma = c * ge_mass3d e r rho rc gamma.
(** The keywords of the lens model, and the mass they stand for: the density rho0 = sigma0/r_core * sigma_crit (in Msun per
    arcsec^3) gives the mass of the cluster inside its size. *)
Theorem C61_cluster_mass : forall e kpc m x y gamma size conc tag,
  mass3d_linear e -> 0 < kpc -> size <> 0 -> conc <> 0 ->
  let r := size * 1e-3 / kpc in
  let sigma_crit := ge_sigma_crit e * (kpc / 1000) ^ 2 in
  ge_mass3d e r sigma_crit (r / conc) gamma <> 0 ->
  exists sigma0 r_core,
    h_kwargs (globular_cluster e kpc m x y gamma size conc tag)
    = [[("sigma0", sigma0); ("gamma", gamma); ("center_x", x); ("center_y", y); ("r_core", r_core)]] /\
    r_core = r / conc /\
    ge_mass3d e r (sigma0 / r_core * sigma_crit) r_core gamma = m.
Proof.
  intros * LIN KP HS HC r sc NZ. unfold globular_cluster. cbn [h_kwargs].
  fold r. replace (ge_sigma_crit e * (0.001 * kpc) ^ 2) with sc by (unfold sc; lra).
  eexists _, _. split; [reflexivity|]. split; [reflexivity|].
  assert (RC : r / conc <> 0). { assert (r <> 0); [|intros E; apply H; apply (Rmult_eq_reg_r (/ conc)); [|now apply Rinv_neq_0_compat]; unfold Rdiv in E; lra].
    unfold r. intros E. apply HS. apply (Rmult_eq_reg_r (1e-3 * / kpc)); [unfold Rdiv in E; lra|]. apply Rmult_integral_contrapositive_currified; [lra|apply Rinv_neq_0_compat; lra]. }
  set (M := ge_mass3d e r sc (r / conc) gamma) in *. set (rc := r / conc) in *.
  replace (m / M * rc / rc * sc) with (m / M * sc) by (field; split; assumption). rewrite LIN. fold M. field. exact NZ.
Qed.
(** A profile with constant density has a linear enclosed mass 4/3 pi r^3 rho. *)
Definition gc_demo_env : genv := {| ge_zlens := 0.5; ge_kpc := fun _ => Ok 6; ge_factor := fun _ => 1; ge_sigma_crit := 10 ^ 15;
                                    ge_mass3d := fun r rho _ _ => 4 / 3 * PI * r ^ 3 * rho |}.
Example C61_cluster_nonvacuous : mass3d_linear gc_demo_env /\
  ge_mass3d gc_demo_env (60 * 1e-3 / 6) (10 ^ 15 * (6 / 1000) ^ 2) (60 * 1e-3 / 6 / 20) 6 <> 0.
Proof. split; [intros r c rho rc gamma; cbn; ring|]. cbn. pose proof PI_RGT_0. apply Rgt_not_eq. apply Rmult_lt_0_compat; [|lra]. apply Rmult_lt_0_compat; lra. Qed.

(** ** C70: globular clusters *)

(** A cluster object with the "SPL_CORE" profile. *)
Definition is_spl_core (gamma r_core_arcsec : R) (b : Halo) : Prop :=
  h_mdef b = "SPL_CORE" /\ h_ids b = ["SPL_CORE"] /\ h_bound b = None /\
  exists sigma0, h_kwargs b = [[("sigma0", sigma0); ("gamma", gamma); ("center_x", h_x b); ("center_y", h_y b); ("r_core", r_core_arcsec)]].
(** What is added around each centre: a Poisson number with mean int(density * disc area / mean mass), the masses log-normal,
    the positions in the disc, everything at the lens redshift with fixed position. *)
Definition cluster (e : genv) (a : gc_args) (g : gc_rng) (kpc : R) (i j : nat) (c : R * R) (b : Halo) : Prop :=
  h_mass b = ten_to (ga_mean a + ga_sigma a * gr_normal g i j) /\
  dist2 (h_x b) (h_y b) (fst c) (snd c) <= Rabs (ga_radius a) /\ h_z b = ge_zlens e /\ h_fixed b = true /\ h_sub b = false /\
  ((ga_profile a = "PTMASS" /\ is_point_mass (ge_factor e) true b) \/
   (ga_profile a = "SPL_CORE" /\
    is_spl_core (ga_gamma a - ga_dgamma a + 2 * ga_dgamma a * gr_gamma g i j)
                ((ga_size a - ga_dsize a + 2 * ga_dsize a * gr_size g i j) * Rpower (h_mass b / 10 ^ 5) (1 / 3) / 1000 / kpc) b)).

Theorem C70_globular_clusters : forall e a g hp n rz cx cy kpc hp' out,
  ge_kpc e (ge_zlens e) = Ok kpc -> 0 < kpc -> (forall i j, 0 <= snd (gr_pos g i j) <= 1) ->
  allocated n rz -> tags_distinct hp rz ->
  (forall i j i' j', gr_tag g i j = gr_tag g i' j' -> i = i' /\ j = j') ->
  (forall r i j, In r (rz_halos rz) -> h_tag (hp r) <> gr_tag g i j) ->
  add_globular_clusters e a g hp n rz cx cy = Ok (hp', out) ->
  List.length cx = List.length cy /\ cx <> [] /\
  exists parts, joined hp hp' n rz out (List.concat parts) /\
    Forall2 (fun ic part =>
        poisson_number (IZR (gc_number a kpc)) (gr_count g (fst ic)) (List.length part) /\
        forall j b, nth_error part j = Some b -> cluster e a g kpc (fst ic) j (snd ic) b)
      (enumerate (combine cx cy)) parts.
Proof.
  intros * K KP U AL TD INJ FR H. unfold add_globular_clusters in H. destruct (Nat.eqb _ _) eqn:EL; [|discriminate]. apply Nat.eqb_eq in EL.
  rewrite K in H. cbn [bind] in H. destruct (gc_loop _ _ _ _ _ _ _ _ _ _) as [[hp1 acc]|] eqn:EG; [|discriminate]. cbn [bind] in H.
  destruct (gc_loop_spec e a g kpc rz K KP U INJ _ _ _ _ _ _ _ EG) as (parts & F & UT & MP & PM & NN); [constructor|constructor|intros r []|].
  destruct acc as [gc|]; [|discriminate]. injection H as <- <-. split; [exact EL|]. split.
  { intros ->. assert (Some gc = None); [|discriminate]. apply NN. split; reflexivity. }
  exists parts. cbn [acc_refs app] in PM. set (L := List.length (List.concat parts)) in *.
  destruct (gc_tags e a g kpc INJ _ _ _ F) as (NT & TT). split.
  - split; [exact UT|]. split.
    + exists (seq n L). split; [apply seq_NoDup|]. split; [apply Forall_forall; intros r Hr; apply in_seq in Hr; lia|]. split; [exact MP|].
      eapply Permutation_trans; [apply join_disjoint|apply Permutation_app_head; exact PM].
      assert (T1 : map (fun r => h_tag (hp1 r)) (rz_halos rz) = map (fun r => h_tag (hp r)) (rz_halos rz)).
      { apply tags_ext. intros r Hr. apply UT. exact (proj1 (Forall_forall _ _) AL r Hr). }
      assert (T2 : Permutation (map (fun r => h_tag (hp1 r)) (rz_halos gc)) (map h_tag (List.concat parts))).
      { rewrite <- MP. change (map h_tag (map hp1 (seq n L))) with (map h_tag (@map ref Halo hp1 (seq n L))). rewrite map_map. now apply Permutation_map. }
      rewrite T1. eapply Permutation_NoDup; [apply Permutation_app_head, Permutation_sym; exact T2|].
      clear -TD NT TT FR. unfold tags_distinct in TD. induction (rz_halos rz) as [|r t IH]; [exact NT|]. cbn in *. inversion TD; subst. constructor.
      * intros X. apply in_app_or in X as [X|X]; [contradiction|]. apply TT in X as (i' & j & _ & E). eapply FR; [now left|exact E].
      * apply IH; [assumption|]. intros; apply FR; now right.
    + destruct (join_setup hp1 rz gc) as (S1 & S2 & S3). auto.
  - eapply F2_impl; [|exact F]. intros ic part (P & _ & Q). split; [exact P|]. intros j b N. destruct (Q j b N) as (A1 & A2 & A3 & A4 & A5 & O).
    repeat split; auto. unfold gc_object in O. destruct (String.eqb (ga_profile a) "SPL_CORE") eqn:E1.
    + apply String.eqb_eq in E1. right. split; [exact E1|]. injection O as <-. unfold globular_cluster. cbn [h_mass h_x h_y].
      repeat split. cbn [h_kwargs]. eexists.
      match goal with |- [[_; ("gamma", ?g1); _; _; ("r_core", ?r1)]] = [[_; ("gamma", ?g2); _; _; ("r_core", ?r2)]] =>
        assert (EG1 : g1 = g2) by ring; assert (ER : r1 = r2) by (change (10 * (10 * (10 * (10 * (10 * 1))))) with (10 ^ 5); generalize (Rpower (h_mass b / 10 ^ 5) (1 / 3)); intros; replace 1e-3 with (/ 1000) by lra; field; lra); rewrite EG1, ER end. reflexivity.
    + destruct (String.eqb (ga_profile a) "PTMASS") eqn:E2; [|discriminate]. apply String.eqb_eq in E2. left. split; [exact E2|].
      injection O as <-. repeat split.
Qed.
(** The expected number: as many clusters of the mean mass as fit into the surface density times the area, rounded down. *)
Theorem C70_expected_mass : forall a kpc, 0 <= ga_density a ->
  let mean := ten_to (ga_mean a + ga_sigma a ^ 2 * ln 10 / 2) in
  let total := ga_density a * (PI * (ga_radius a * kpc) ^ 2) in
  IZR (gc_number a kpc) * mean <= total < (IZR (gc_number a kpc) + 1) * mean.
Proof.
  intros a kpc H mean total. assert (MP : 0 < mean) by apply exp_pos.
  assert (E : gc_number a kpc = py_int (total / mean)).
  { unfold gc_number. f_equal. f_equal; [unfold total; ring|]. unfold mean, ten_to, pow10, Rpower. rewrite !ln_exp. f_equal. field. }
  rewrite E. assert (T : 0 <= total). { unfold total. pose proof PI_RGT_0. pose proof (pow2_ge_0 (ga_radius a * kpc)). apply Rmult_le_pos; [assumption|]. apply Rmult_le_pos; lra. }
  destruct (py_int_nonneg (total / mean)) as (A & B); [apply Rcomplements.Rdiv_le_0_compat; lra|].
  split; [apply Rcomplements.Rle_div_r; assumption|apply Rcomplements.Rlt_div_l; assumption].
Qed.
(** Errors. *)
Theorem C70_errors : forall e a g hp n rz cx cy kpc, ge_kpc e (ge_zlens e) = Ok kpc ->
  (List.length cx <> List.length cy -> add_globular_clusters e a g hp n rz cx cy = Err EAssertionError) /\
  (cx = [] -> cy = [] -> add_globular_clusters e a g hp n rz cx cy = Err EAttributeError) /\
  (List.length cx = List.length cy -> cx <> [] -> ga_profile a <> "SPL_CORE" -> ga_profile a <> "PTMASS" -> 0 <= ga_sigma a ->
   0 < IZR (gc_number a kpc) -> (0 < gr_count g 0)%nat -> is_err (add_globular_clusters e a g hp n rz cx cy)).
Proof.
  intros * K. unfold add_globular_clusters. split; [|split].
  - intros H. apply Nat.eqb_neq in H. now rewrite H.
  - intros -> ->. rewrite K. reflexivity.
  - intros E NE P1 P2 S0 N0 C0. apply Nat.eqb_eq in E. rewrite E. apply Nat.eqb_eq in E. rewrite K. cbn [bind].
    destruct cx as [|c cx]; [congruence|]. destruct cy as [|d cy]; [discriminate|]. cbn [combine gc_loop].
    assert (X : is_err (gc_centre e a g kpc 0 (c, d))).
    { unfold gc_centre, gf_draw. cbn [gf_poisson mk_gauss_fn gf_n_mean gf_sigma gf_mean]. unfold np_poisson.
      replace (Rltb (IZR (gc_number a kpc)) 0) with false by (symmetry; apply Rltb_false; lra).
      replace (Reqb (IZR (gc_number a kpc)) 0) with false by (symmetry; apply Reqb_false; lra). cbn [bind].
      replace (0 <? Z.of_nat (gr_count g 0))%Z with true by (symmetry; apply Z.ltb_lt; lia).
      replace (Rltb (ga_sigma a) 0) with false by (symmetry; apply Rltb_false; lra). cbn [bind]. rewrite Nat2Z.id.
      rewrite map_length, seq_length. destruct (gr_count g 0) as [|k]; [lia|]. cbn [seq map].
      unfold uniform_draw. rewrite K. cbn [bind map combine gc_objects]. cbn [fst snd].
      match goal with |- is_err (match uniform_point ?a ?b ?c ?d ?e0 ?f with _ => _ end) => destruct (uniform_point a b c d e0 f) | _ => idtac end.
      unfold gc_object. apply String.eqb_neq in P1. apply String.eqb_neq in P2. rewrite P1, P2. eexists. reflexivity. }
    destruct X as (er & ->). eexists; reflexivity.
Qed.
Definition gc_demo_args : gc_args := {| ga_mean := 5; ga_sigma := 0.5; ga_radius := 0.2; ga_profile := "SPL_CORE"; ga_gamma := 6; ga_dgamma := 0.3;
  ga_size := 3; ga_dsize := 1; ga_density := 10 ^ 6 |}.
Definition gc_demo_rng : gc_rng := {| gr_count := fun _ => 2%nat; gr_normal := fun _ _ => 0; gr_pos := fun _ _ => (0.5, 0.5);
  gr_tag := fun i j => Z.of_nat (Nat.pow 2 i * (2 * j + 1)); gr_gamma := fun _ _ => 0.5; gr_size := fun _ _ => 0.5 |}.
Example C70_nonvacuous : exists hp' out, add_globular_clusters gc_demo_env gc_demo_args gc_demo_rng pop_heap 1 pop_rz [0; 1] [0.5; 1] = Ok (hp', out).
Proof.
  unfold add_globular_clusters. cbn [List.length Nat.eqb ge_kpc gc_demo_env bind combine gc_loop].
  assert (X : forall kpc i c, 0 <= IZR (gc_number gc_demo_args kpc) -> exists os, gc_centre gc_demo_env gc_demo_args gc_demo_rng kpc i c = Ok os).
  { intros kpc i c N0. unfold gc_centre, gf_draw. cbn [gf_poisson mk_gauss_fn gf_n_mean gf_sigma gf_mean]. unfold np_poisson.
    replace (Rltb (IZR (gc_number gc_demo_args kpc)) 0) with false by (symmetry; apply Rltb_false; lra). cbn [bind].
    assert (W : forall (ms : list R), exists os, (do pts <- uniform_draw (ga_radius gc_demo_args) (ge_kpc gc_demo_env) (ge_zlens gc_demo_env) 1 (fst c) (snd c) (map (gr_pos gc_demo_rng i) (seq 0 (List.length ms)));
       gc_objects gc_demo_env gc_demo_args gc_demo_rng kpc i 0 (combine ms pts)) = Ok os).
    { intros ms. assert (exists pts, uniform_draw (ga_radius gc_demo_args) (ge_kpc gc_demo_env) (ge_zlens gc_demo_env) 1 (fst c) (snd c) (map (gr_pos gc_demo_rng i) (seq 0 (List.length ms))) = Ok pts) as (pts & ->).
      { unfold uniform_draw. destruct (map _ _); eexists; reflexivity. }
      cbn [bind]. generalize (combine ms pts). intros l. generalize 0%nat. induction l as [|[m [x y]] t IH]; intros j; [eexists; reflexivity|].
      cbn [gc_objects]. unfold gc_object at 1. cbn [ga_profile gc_demo_args]. replace (String.eqb "SPL_CORE" "SPL_CORE") with true by reflexivity. cbn [bind].
      destruct (IH (S j)) as (os & ->). eexists; reflexivity. }
    destruct (0 <? _)%Z.
    - cbn [ga_sigma gc_demo_args]. destruct (Rltb 0.5 0) eqn:E; [apply Rltb_true in E; lra|]. cbn [bind]. apply W.
    - apply (W []). }
  assert (N0 : 0 <= IZR (gc_number gc_demo_args 6)).
  { destruct (C70_expected_mass gc_demo_args 6) as (A & B). { cbn; lra. } cbn zeta in *.
    assert (P : 0 < ten_to (ga_mean gc_demo_args + ga_sigma gc_demo_args ^ 2 * ln 10 / 2)) by apply exp_pos.
    assert (T : 0 <= ga_density gc_demo_args * (PI * (ga_radius gc_demo_args * 6) ^ 2)). { pose proof PI_RGT_0. cbn. apply Rmult_le_pos; [lra|]. apply Rmult_le_pos; lra. }
    assert (Y : -1 < IZR (gc_number gc_demo_args 6)) by nra. apply lt_IZR in Y. apply IZR_le. lia. }
  destruct (X 6 0%nat (0, 0.5) N0) as (os0 & ->). cbn [bind]. destruct (X 6 1%nat (1, 1) N0) as (os1 & ->). cbn [bind]. do 2 eexists. reflexivity.
Qed.
Example C70_tags_nonvacuous : (forall i j i' j', gr_tag gc_demo_rng i j = gr_tag gc_demo_rng i' j' -> i = i' /\ j = j') /\
  (forall r i j, In r (rz_halos pop_rz) -> h_tag (pop_heap r) <> gr_tag gc_demo_rng i j).
Proof.
  split.
  - cbn [gr_tag gc_demo_rng]. intros i j i' j' H. apply Nat2Z.inj in H. revert i' H. induction i as [|i IH]; intros [|i'] H.
    + cbn in H. split; [reflexivity|lia].
    + exfalso. cbn [Nat.pow] in H. rewrite <- Nat.mul_assoc in H. cbn [Nat.pow] in H. lia.
    + exfalso. cbn [Nat.pow] in H. rewrite <- Nat.mul_assoc in H. lia.
    + cbn [Nat.pow] in H. rewrite <- !Nat.mul_assoc in H. destruct (IH i' ltac:(lia)) as (-> & ->). split; reflexivity.
  - intros r i j [<-|[]]. cbn [gr_tag gc_demo_rng pop_heap h_tag]. lia.
Qed.

(** ** C71: primordial black holes *)

(** The smooth part: image by image and plane by plane a Poisson number of black holes, whose mean times the mean mass is
    (1 - fraction in halos) * f * density * volume of the plane of a cone of opening angle 2 r_max; they lie within
    r_max * (scale of the cone) of the light ray, at the redshift of the plane. *)
Definition smooth_cell (e : penv) (f inh logM : R) (ty : pbh_type) (g : pbh_rng) (k : nat) (ray : R -> R * R) (r_max : R)
    (i : nat) (z dz : R) (cell : list point) : Prop :=
  let mass := (1 - inh) * f * pe_rho e * pe_volume e (2 * r_max) z dz in
  match ty with
  | PbhDelta => poisson_number (mass / ten_to logM) (pr_count g k i) (List.length cell)
  | PbhGauss s => poisson_number (mass / ten_to (logM + s ^ 2 * ln 10 / 2)) (pr_count g k i) (List.length cell)
  | PbhOther => False
  end /\
  forall j p, nth_error cell j = Some p ->
    pt_z p = z /\ dist2 (pt_x p) (pt_y p) (fst (ray z)) (snd (ray z)) <= Rabs (r_max * pe_scale e z) /\
    match ty with PbhGauss s => pt_m p = ten_to (logM + s * pr_normal g k i j) | _ => pt_m p = ten_to logM end.
Theorem C71_smooth : forall e halos planes f inh logM ty g app_ rescale images halos' clustered smooth,
  (forall z q, pe_kpc e z = Ok q -> 0 < q) -> (forall k i j, 0 <= snd (pr_pos g k i j) <= 1) ->
  add_primordial_black_holes e halos planes f inh logM ty g app_ rescale images = Ok (halos', clustered, smooth) ->
  exists thick grid, tiles (pe_zsource e) planes thick /\ smooth = List.concat (map (@List.concat point) grid) /\
    Forall2 (fun kim row =>
      Forall2 (fun iz cell => smooth_cell e f inh logM ty g (fst kim) (fst (fst (snd kim))) (snd (fst (snd kim))) (fst iz) (fst (snd iz)) (snd (snd iz)) cell)
              (enumerate (combine planes thick)) row) (enumerate images) grid.
Proof.
  intros * KP U H. unfold add_primordial_black_holes in H. destruct planes as [|z0 zt] eqn:EP; [discriminate|]. rewrite <- EP in *. cbv zeta in H.
  binds. destruct (pbh_images_spec e f inh logM ty g _ KP U _ _ _ H0) as (grid & E & F).
  exists (gaps planes (pe_zsource e)), grid. split; [apply gaps_tiles; rewrite EP; discriminate|].
  assert (smooth = x) as ->. { destruct (rev _); [discriminate|]. binds. congruence. } split; [exact E|].
  clear -F. set (zs := enumerate (combine planes (gaps planes (pe_zsource e)))) in *. clearbody zs. unfold enumerate. try unfold enumerate in F. revert F. generalize 0%nat. revert grid.
  induction images as [|[[ray rm] pl] t IH]; intros grid k F; cbn [map enum_from fst] in F; inversion F as [|? row ? gt HR HT]; subst; [constructor|].
  cbn [enum_from]. constructor; [exact HR|]. apply IH. exact HT.
Qed.
(** The clustered part is the structure added by add_correlated_structure with the fraction f * fraction in halos and ... *)
Theorem C71_clustered : forall e halos planes f inh logM ty g app_ rescale images halos' clustered smooth,
  add_primordial_black_holes e halos planes f inh logM ty g app_ rescale images = Ok (halos', clustered, smooth) ->
  images <> [] /\
  add_correlated_structure halos (CDelta logM (f * inh) true) (last (map (fun im => snd (fst im)) images) 0) app_
    (map (fun im => (fst (fst im), snd im)) images) rescale = Ok (halos', clustered).
Proof.
  intros * H. unfold add_primordial_black_holes in H. destruct planes as [|z0 zt]; [discriminate|]. cbv zeta in H. binds.
  assert (EC : x0 = CDelta logM (f * inh) true) by (destruct ty; [injection H1 as <-; reflexivity|injection H1 as <-; reflexivity|discriminate]).
  subst x0. destruct (rev _) as [|r t] eqn:ER; [discriminate|]. binds. destruct x0 as [h' c']. injection H as <- <- <-.
  assert (EL : map (fun im => snd (fst im)) images = rev t ++ [r]). { rewrite <- (rev_involutive (map _ images)), ER. reflexivity. }
  split. { intros ->. destruct t as [|? t]; discriminate ER. }
  rewrite EL, last_last. exact H2.
Qed.
(** ... (refuted: "with mass_function_type='GAUSSIAN' the masses are log-normal"): whatever the type, every clustered black
    hole has the mass 10^logM ... *)
Theorem C71_clustered_masses_refuted : forall e halos planes f inh logM ty g app_ rescale images halos' clustered smooth,
  add_primordial_black_holes e halos planes f inh logM ty g app_ rescale images = Ok (halos', clustered, smooth) ->
  Forall (fun p => pt_m p = ten_to logM) clustered.
Proof.
  intros * H. apply C71_clustered in H as (_ & H). unfold add_correlated_structure in H. binds. destruct x as [[pts is] fo].
  apply corr_images_delta in H0. destruct fo; [|discriminate]. injection H as _ <-. exact H0.
Qed.
(** ... (refuted: "r_max_arcsec gives the rendering radius around each image"): the clustered black holes and the rescaled halos
    depend on the radius of the last image only. *)
Theorem C71_radius_refuted : forall e halos planes f inh logM ty g app_ rescale images radii h1 c1 s1 h2 c2 s2,
  List.length radii = List.length images -> last radii 0 = last (map (fun im => snd (fst im)) images) 0 ->
  add_primordial_black_holes e halos planes f inh logM ty g app_ rescale images = Ok (h1, c1, s1) ->
  add_primordial_black_holes e halos planes f inh logM ty g app_ rescale
    (map (fun q => (fst (fst (fst q)), snd q, snd (fst q))) (combine images radii)) = Ok (h2, c2, s2) ->
  h2 = h1 /\ c2 = c1.
Proof.
  intros * LEN LAST H1 H2. apply C71_clustered in H1 as (_ & H1). apply C71_clustered in H2 as (_ & H2).
  rewrite !map_map in H2. cbn [fst snd] in H2.
  assert (E1 : map (fun x => snd x) (combine images radii) = radii).
  { clear -LEN. revert radii LEN. induction images as [|im t IH]; intros [|r rs] L; try reflexivity; try discriminate. cbn. f_equal. apply IH. now injection L. }
  assert (E2 : map (fun x => (fst (fst (fst x)), snd (fst x))) (combine images radii) = map (fun im => (fst (fst im), snd im)) images).
  { clear -LEN. revert radii LEN. induction images as [|im t IH]; intros [|r rs] L; try reflexivity; try discriminate. cbn. f_equal. apply IH. now injection L. }
  rewrite E1, E2, LAST in H2. rewrite H1 in H2. injection H2 as -> ->. split; reflexivity.
Qed.
Theorem C71_errors : forall e halos planes f inh logM ty g app_ rescale images,
  (planes = [] -> add_primordial_black_holes e halos planes f inh logM ty g app_ rescale images = Err EIndexError) /\
  (planes <> [] -> ty = PbhOther -> add_primordial_black_holes e halos planes f inh logM ty g app_ rescale images = Err EValueError) /\
  (planes <> [] -> ty <> PbhOther -> images = [] -> add_primordial_black_holes e halos planes f inh logM ty g app_ rescale images = Err EUnboundLocal).
Proof.
  intros. unfold add_primordial_black_holes. split; [|split].
  - intros ->. reflexivity.
  - intros NE ->. destruct planes as [|z0 zt]; [congruence|]. cbv zeta. destruct images as [|[[ray rm] pl] t]; [reflexivity|].
    cbn [map fst pbh_images]. destruct zt; reflexivity.
  - intros NE NT ->. destruct planes as [|z0 zt]; [congruence|]. cbv zeta. cbn [map pbh_images bind]. destruct ty; [reflexivity|reflexivity|congruence].
Qed.
Definition pbh_demo_env : penv := {| pe_rho := 1; pe_volume := fun _ _ _ => 1000; pe_scale := fun _ => 1; pe_kpc := fun _ => Ok 6; pe_zsource := 2 |}.
Definition pbh_demo_rng : pbh_rng := {| pr_count := fun _ _ => 3%nat; pr_normal := fun _ _ _ => 0; pr_pos := fun _ _ _ => (0.5, 0.5) |}.
Example C71_nonvacuous : exists halos' clustered smooth,
  add_primordial_black_holes pbh_demo_env [] [0.5; 1] 0.5 0.4 1 (PbhGauss 0.3) pbh_demo_rng 0.05 true
    [((fun _ => (0, 0)), 0.3, [(0.5, {| cp_count := 2; cp_normal := fun _ => 0; cp_kappa := fun _ _ => 0; cp_sigma_crit := 1 |})])]
  = Ok (halos', clustered, smooth) /\ List.length smooth = 6%nat.
Proof.
  assert (M : exists ms, List.length ms = 3%nat /\ forall z dz, pbh_masses pbh_demo_env 0.5 0.4 1 (PbhGauss 0.3) 0.3 z dz 3 (fun _ => 0) = Ok ms).
  { eexists. split; [|intros z dz; unfold pbh_masses, pbh_smooth_gauss, gf_draw; cbn [gf_poisson mk_gauss_fn gf_n_mean gf_sigma gf_mean pe_volume pe_rho pbh_demo_env pbh_fractions fst]; unfold np_poisson].
    2: { set (mean := exp _). assert (0 < mean) by apply exp_pos. assert (0 < 1000 * ((1 - 0.4) * 0.5 * 1) / mean) by (apply Rdiv_lt_0_compat; lra).
         replace (Rltb (1000 * ((1 - 0.4) * 0.5 * 1) / mean) 0) with false by (symmetry; apply Rltb_false; lra).
         replace (Reqb (1000 * ((1 - 0.4) * 0.5 * 1) / mean) 0) with false by (symmetry; apply Reqb_false; lra). cbn [bind].
         replace (0 <? Z.of_nat 3)%Z with true by reflexivity. replace (Rltb 0.3 0) with false by (symmetry; apply Rltb_false; lra). reflexivity. }
    reflexivity. }
  destruct M as (ms & L & M). unfold add_primordial_black_holes. cbv zeta.
  cbn [map fst snd gaps combine pbh_images pbh_planes pr_count pr_normal pbh_demo_rng]. rewrite !M. cbn [bind].
  destruct ms as [|m1 [|m2 [|m3 [|]]]]; try discriminate. cbn. do 3 eexists. split; reflexivity.
Qed.

(** ** C72: points drawn from a map *)

(** One sample: the pixel k with (sum of the densities before k) <= u * total < (sum up to and including k).  It has
    positive density, and the point is the centre of pixel k (column k mod s, row k / s of the s x s map), displaced by
    the shift and the smoothing. *)
Theorem C72_map_sampling : forall r_max sx sy smooth s density kpc devs pts,
  (2 <= s)%nat -> List.length density = (s * s)%nat -> Forall (fun d => 0 <= d) density ->
  (forall u gx gy, In (u, gx, gy) devs -> 0 <= u < 1) ->
  correlated_draw r_max sx sy smooth s density kpc devs = Ok pts ->
  Forall2 (fun d p => let '(u, gx, gy) := d in
    exists k, (k < s * s)%nat /\ 0 < nth k density 0 /\
      sumR (firstn k density) <= u * sumR density < sumR (firstn k density) + nth k density 0 /\
      fst p = (- r_max + 2 * r_max * INR (k mod s) / INR (s - 1) + smooth * r_max / INR s * gx + sx) * kpc /\
      snd p = (- r_max + 2 * r_max * INR (k / s) / INR (s - 1) + smooth * r_max / INR s * gy + sy) * kpc) devs pts.
Proof.
  intros * S2 LEN POS UU H. unfold correlated_draw in H. destruct (Reqb (sumR density) 0) eqn:EZ; [discriminate|]. apply Reqb_false in EZ.
  injection H as <-.
  assert (T0 : forall l, Forall (fun d => 0 <= d) l -> 0 <= sumR l). { intros l F. induction F; [cbn; lra|]. change (sumR (x :: l)) with (x + sumR l). lra. }
  assert (T : 0 < sumR density) by (pose proof (T0 _ POS); lra).
  induction devs as [|[[u gx] gy] t IH]; [constructor|]. cbn [map]. constructor; [|apply IH; intros u' a b I; apply (UU u' a b); right; exact I].
  specialize (UU u gx gy (or_introl eq_refl)). cbn [fst snd].
  set (p := map (fun d => d / sumR density) density).
  assert (SP : sumR p = 1) by (unfold p; rewrite sumR_scale; field; lra).
  destruct (choose_spec u p 0 0 ltac:(lra) ltac:(lra)) as (k & E & LK & RK). cbn [Nat.add] in E. rewrite !Rplus_0_l in RK.
  unfold p in LK. rewrite map_length, LEN in LK.
  assert (EF : sumR (firstn k p) = sumR (firstn k density) / sumR density) by (unfold p; rewrite firstn_map; apply sumR_scale).
  assert (EN : nth k p 0 = nth k density 0 / sumR density).
  { unfold p. rewrite <- (map_nth (fun d => d / sumR density)). apply nth_indep. rewrite map_length, LEN. exact LK. }
  rewrite EF, EN in RK. exists k. split; [exact LK|].
  assert (RK' : sumR (firstn k density) <= u * sumR density < sumR (firstn k density) + nth k density 0).
  { split.
    - apply Rcomplements.Rle_div_l; lra.
    - replace (sumR (firstn k density) / sumR density + nth k density 0 / sumR density) with ((sumR (firstn k density) + nth k density 0) / sumR density) in RK by (field; lra).
      apply Rcomplements.Rlt_div_r; lra. }
  split; [lra|]. split; [exact RK'|].
  assert (AX : forall i, (i < s)%nat -> nth i (np_linspace (- r_max) r_max s) 0 = - r_max + 2 * r_max * INR i / INR (s - 1)).
  { intros i Hi. unfold np_linspace. rewrite (nth_indep _ 0 ((fun i => - r_max + INR i * ((r_max - - r_max) / INR (s - 1))) 0%nat)) by (rewrite map_length, seq_length; exact Hi).
    rewrite (map_nth (fun i => - r_max + INR i * ((r_max - - r_max) / INR (s - 1)))), seq_nth by exact Hi. cbn [Nat.add]. field. apply not_0_INR. lia. }
  unfold map_sample. fold p. rewrite E. unfold pixel_of. cbn [fst snd]. rewrite !AX.
  - split; ring.
  - apply Nat.div_lt_upper_bound; lia.
  - apply Nat.mod_upper_bound. lia.
Qed.
(** It raises exactly for a map that sums to zero. *)
Theorem C72_errors : forall r_max sx sy smooth s density kpc devs,
  is_err (correlated_draw r_max sx sy smooth s density kpc devs) <-> sumR density = 0.
Proof.
  intros. unfold correlated_draw. destruct (Reqb (sumR density) 0) eqn:E.
  - apply Reqb_true in E. split; [auto|]. intros _. eexists; reflexivity.
  - apply Reqb_false in E. split; [intros (x & X); discriminate|contradiction].
Qed.
Example C72_nonvacuous :
  Forall (fun d => 0 <= d) [0; 1; 2; 3] /\
  exists pts, correlated_draw 1 0 0 1 2 [0; 1; 2; 3] 5 [(0.3, 0.1, -0.2)] = Ok pts /\ pts = [(- 4.75, 4.5)].
Proof.
  split; [repeat constructor; lra|]. unfold correlated_draw. replace (Reqb (sumR [0; 1; 2; 3]) 0) with false by (symmetry; apply Reqb_false; cbn; lra).
  eexists. split; [reflexivity|]. cbn [map fst snd].
  assert (E : choose 0.3 0 0 [0 / sumR [0; 1; 2; 3]; 1 / sumR [0; 1; 2; 3]; 2 / sumR [0; 1; 2; 3]; 3 / sumR [0; 1; 2; 3]] = 2%nat).
  { replace (sumR [0; 1; 2; 3]) with 6 by (cbn; lra). cbn [choose].
    repeat match goal with |- context [Rltb ?a ?b] => first [replace (Rltb a b) with true by (symmetry; apply Rltb_true; lra) | replace (Rltb a b) with false by (symmetry; apply Rltb_false; lra)] end.
    reflexivity. }
  unfold map_sample. cbn [map] in *. rewrite !E. unfold pixel_of, np_linspace. cbn. f_equal. f_equal; lra.
Qed.

Print Assumptions C61_cluster_mass.
Print Assumptions C70_globular_clusters.
Print Assumptions C70_expected_mass.
Print Assumptions C70_errors.
Print Assumptions C71_smooth.
Print Assumptions C71_clustered.
Print Assumptions C71_clustered_masses_refuted.
Print Assumptions C71_radius_refuted.
Print Assumptions C71_errors.
Print Assumptions C72_map_sampling.
Print Assumptions C72_errors.
