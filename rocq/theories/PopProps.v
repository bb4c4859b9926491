(** C43 and C44: black holes and ULDM fluctuations added to a realization. *)
From Verif Require Import Prelude MassFnModel MassFnSpec MassFnProofs MassFnProofs2 MassFnProps SpaceModel SpaceSpec SpaceProofs SpaceProofs3.
From Verif Require Import RealizationModel RealizationSpec RealizationProofs RealizationProps RenderModel RenderProofs PopModel PopSpec PopProofs PopProofs2.
Local Open Scope string_scope.
Local Open Scope R_scope.
Local Open Scope list_scope.

Lemma F2_impl {A B} (P Q : A -> B -> Prop) l l' : (forall a b, P a b -> Q a b) -> Forall2 P l l' -> Forall2 Q l l'.
Proof. intros H F. induction F; constructor; auto. Qed.

(** ** C43: black holes *)

(** The expected number of unresolved black holes scales with f and with the line-of-sight normalisation. *)
Theorem C43_expected_number : forall e a z dz,
  pl_n_mean (bh_mass_fn e a z dz) =
  ba_f a * ba_norm a * pl_n_mean (sheth_tormen (be_dndlnM e z) (be_h e) (be_volume e z dz) (10 ^ 8) (ba_mlow a) (ba_mhigh a) 0 1 true).
Proof.
  intros. unfold bh_mass_fn, sheth_tormen, sheth_tormen_params, mk_power_law. cbn [fst snd pl_n_mean].
  destruct (Rleb (ba_mhigh a) (ba_mlow a)); [ring|]. rewrite !analytic_is_integral by apply pow10_pos. ring.
Qed.

(** The returned realization consists of the black holes only: first one for each rendered halo whose random number is at
    most f and whose black-hole mass min(10^max, 10^ratio * m) exceeds 10^min, at the redshift of the halo and within its
    projected scale radius; then, plane by plane, the ones of unresolved halos of mass m in [10^mlow, 10^mhigh]: they need
    m > 10^min, and have the mass 10^ratio * m, a position in the light cone and the redshift of the plane. *)
Theorem C43_population : forall e a g hp n rz hp' out,
  scales_ok e -> ba_mlow a < ba_mhigh a ->
  (forall i, 0 <= br_radius g i <= 1) -> (forall i j, 0 <= br_mass g i j <= 1) -> (forall i j, 0 <= snd (br_pos g i j) <= 1) ->
  add_black_holes e a g hp n rz = Ok (hp', out) ->
  exists in_halos parts, only_new hp hp' n rz out (in_halos ++ List.concat parts) /\
    (exists hosts,
       kept (fun ir => br_u g (fst ir) <= ba_f a /\
                       ten_to (ba_min a) < Rmin (ten_to (ba_max a)) (ten_to (ba_ratio a) * h_mass (hp (snd ir))))
            (enumerate (rz_halos rz)) hosts /\
       Forall2 (fun ir b => let h := hp (snd ir) in
                  h_mass b = Rmin (ten_to (ba_max a)) (ten_to (ba_ratio a) * h_mass h) /\ h_z b = h_z h /\
                  is_point_mass (be_factor e) false b /\
                  exists rs kpc, be_rs e (snd ir) = Some rs /\ be_kpc e (h_z h) = Ok kpc /\
                    dist2 (h_x b) (h_y b) (h_x h) (h_y h) <= rs / kpc) hosts in_halos) /\
    exists thick, tiles (be_zsource e) (rz_uniq rz) thick /\
    Forall2 (fun iz part => let z := fst (snd iz) in
       exists ms big,
         poisson_number (ba_f a * ba_norm a *
                         pl_n_mean (sheth_tormen (be_dndlnM e z) (be_h e) (be_volume e z (snd (snd iz))) (10 ^ 8)
                                                 (ba_mlow a) (ba_mhigh a) 0 1 true))
                        (br_count g (fst iz)) (List.length ms) /\
         Forall (fun m => ten_to (ba_mlow a) <= m <= ten_to (ba_mhigh a)) ms /\
         kept (fun m => ten_to (ba_min a) < m) ms big /\
         Forall2 (fun m b => h_mass b = m * ten_to (ba_ratio a) /\ h_z b = z /\ is_point_mass (be_factor e) false b /\
                             dist2 (h_x b) (h_y b) 0 0 <= Rabs (be_cone e / 2 * be_scale e z)) big part)
      (enumerate (combine (rz_uniq rz) thick)) parts.
Proof.
  intros * SC LH U1 U2 U3 H. unfold add_black_holes in H. binds. injection H as <- <-.
  destruct (bh_halos_spec e a g hp SC U1 _ _ _ H0) as (hosts & K & F).
  destruct (bh_planes_spec e a g SC LH U2 U3 _ _ _ H2) as (parts & -> & G).
  exists x, parts. split; [apply rebuild_only_new|]. split; [exists hosts; split; assumption|].
  assert (E : rz_uniq rz <> [] /\ x0 = combine (rz_uniq rz) (gaps (rz_uniq rz) (be_zsource e))).
  { unfold planes_of in H1. destruct (rz_uniq rz) as [|z t]; [discriminate|]. injection H1 as E. split; [discriminate|]. symmetry. exact E. }
  destruct E as (NE & ->). exists (gaps (rz_uniq rz) (be_zsource e)). split; [now apply gaps_tiles|].
  eapply F2_impl; [|exact G]. intros iz part (ms & big & P & Q). exists ms, big. rewrite <- C43_expected_number. split; [exact P|exact Q].
Qed.

(** Black holes in rendered halos respect both mass limits. *)
Theorem C43_limits_in_halos : forall e a g hp hs bs,
  scales_ok e -> (forall i, 0 <= br_radius g i <= 1) -> bh_halos e a g hp 0 hs = Ok bs ->
  forall b, In b bs -> ten_to (ba_min a) < h_mass b <= ten_to (ba_max a).
Proof.
  intros * SC U H b Hb. destruct (bh_halos_spec e a g hp SC U _ _ _ H) as (hosts & K & F).
  assert (A : Forall (hosts_one a g hp) hosts).
  { clear -K. induction K; auto. }
  clear -F A Hb. induction F as [|ir b' hosts bs S F IH]; [destruct Hb|]. inversion A; subst. destruct Hb as [->|Hb]; [|auto].
  destruct S as (M & _). destruct H1 as (_ & L). rewrite M. split; [exact L|apply Rmin_l].
Qed.

(** C43, refuted: "no black hole is lighter than 10^min or heavier than 10^max".  The minimum is compared with the mass of
    the unresolved halo instead, and the maximum is not applied: if every unresolved halo is above 10^min, each one gets a
    black hole; if their masses times the ratio are below 10^min, all those black holes are too light. *)
Theorem C43_subresolution_refuted : forall e a g hp n rz hp' out,
  scales_ok e -> ba_mlow a < ba_mhigh a ->
  (forall i, 0 <= br_radius g i <= 1) -> (forall i j, 0 <= br_mass g i j <= 1) -> (forall i j, 0 <= snd (br_pos g i j) <= 1) ->
  add_black_holes e a g hp n rz = Ok (hp', out) ->
  exists in_halos field, map hp' (rz_halos out) = in_halos ++ field /\
    (ba_mhigh a + ba_ratio a <= ba_min a -> Forall (fun b => h_mass b <= ten_to (ba_min a)) field) /\
    (ba_max a < ba_mlow a + ba_ratio a -> Forall (fun b => ten_to (ba_max a) < h_mass b) field).
Proof.
  intros * SC LH U1 U2 U3 H. destruct (C43_population _ _ _ _ _ _ _ _ SC LH U1 U2 U3 H) as (ih & parts & (_ & _ & _ & M & _) & _ & thick & _ & G).
  exists ih, (List.concat parts). split; [exact M|]. clear -G.
  assert (P : Forall (fun b => exists m, ten_to (ba_mlow a) <= m <= ten_to (ba_mhigh a) /\ h_mass b = m * ten_to (ba_ratio a)) (List.concat parts)).
  { revert parts G. generalize (enumerate (combine (rz_uniq rz) thick)). induction l as [|iz t IH]; intros parts G; inversion G; subst; [constructor|].
    cbn. apply Forall_app. split; [|auto]. destruct H1 as (ms & big & _ & R & K & F). clear -R K F.
    assert (RB : Forall (fun m => ten_to (ba_mlow a) <= m <= ten_to (ba_mhigh a)) big).
    { clear F. induction K; [constructor| |]; inversion R; subst; auto. }
    clear R K. induction F as [|m b big part S F IH]; constructor; inversion RB; subst; [|auto]. exists m. split; [assumption|apply S]. }
  assert (T : forall x y, ten_to (x + y) = ten_to x * ten_to y) by (intros; apply Rpower_plus).
  assert (TP : forall x, 0 < ten_to x) by (intros; apply exp_pos).
  split; intros L; eapply Forall_impl; try exact P; intros b (m & R & ->).
  - assert (ten_to (ba_mhigh a + ba_ratio a) <= ten_to (ba_min a)) by (apply Rle_Rpower; lra). rewrite T in *.
    pose proof (TP (ba_ratio a)). nra.
  - assert (ten_to (ba_max a) < ten_to (ba_mlow a + ba_ratio a)) by (apply Rpower_lt; lra). rewrite T in *.
    pose proof (TP (ba_ratio a)). nra.
Qed.

(** When it raises: no halos (hence no lens planes), or a chosen halo without NFW parameters (for example a black hole). *)
Theorem C43_errors : forall e a g hp n rz,
  (forall z, exists k, be_kpc e z = Ok k) ->
  (rz_halos rz = [] -> rz_uniq rz = [] -> add_black_holes e a g hp n rz = Err EIndexError) /\
  (forall i r, nth_error (rz_halos rz) i = Some r -> br_u g i <= ba_f a -> be_rs e r = None ->
     is_err (add_black_holes e a g hp n rz)).
Proof.
  intros * KP. split.
  - intros H U. unfold add_black_holes, planes_of. rewrite H, U. reflexivity.
  - intros i r N U RS. unfold add_black_holes.
    assert (B : forall hs k, nth_error hs i = Some r -> br_u g (k + i)%nat <= ba_f a -> is_err (bh_halos e a g hp k hs)).
    { clear -RS KP. induction i as [|i IH]; intros [|r' t] k N U; try discriminate.
      - injection N as ->. cbn [bh_halos]. unfold bh_in_halo. rewrite Nat.add_0_r in U. replace (Rltb (ba_f a) (br_u g k)) with false by (symmetry; apply Rltb_false; lra).
        destruct (KP (h_z (hp r))) as (kp & ->). cbn [bind]. rewrite RS. eexists. reflexivity.
      - cbn [bh_halos]. destruct (bh_in_halo e a g hp k r'); [|eexists; reflexivity]. cbn [bind].
        destruct (IH t (S k) N) as (er & ->); [|eexists; reflexivity]. replace (S k + i)%nat with (k + S i)%nat by lia. exact U. }
    destruct (B _ 0%nat N U) as (er & ->). eexists; reflexivity.
Qed.

(** It succeeds otherwise: a density of states and volumes that are not negative suffice. *)
Theorem C43_succeeds : forall e a g hp n rz,
  (forall z, exists k, be_kpc e z = Ok k) -> rz_uniq rz <> [] ->
  (forall r, In r (rz_halos rz) -> be_rs e r <> None) ->
  0 <= ba_f a -> 0 <= ba_norm a -> (forall z dz, 0 <= be_volume e z dz) ->
  exists hp' out, add_black_holes e a g hp n rz = Ok (hp', out).
Proof.
  intros * KP NE RS F0 N0 V0. unfold add_black_holes.
  assert (A : forall hs i, (forall r, In r hs -> be_rs e r <> None) -> exists bs, bh_halos e a g hp i hs = Ok bs).
  { induction hs as [|r t IH]; intros i R; [eexists; reflexivity|]. cbn [bh_halos].
    destruct (IH (S i)) as (bs & ->); [intros; apply R; now right|].
    assert (exists b, bh_in_halo e a g hp i r = Ok b) as (b & ->).
    { unfold bh_in_halo. destruct (Rltb (ba_f a) (br_u g i)); [eexists; reflexivity|]. destruct (KP (h_z (hp r))) as (k & ->). cbn [bind].
      destruct (be_rs e r) eqn:E; [|exfalso; eapply R; [now left|exact E]]. destruct (Rltb (pow10 (ba_min a)) _); eexists; reflexivity. }
    eexists; reflexivity. }
  destruct (A _ 0%nat RS) as (b1 & ->). cbn [bind].
  unfold planes_of. destruct (rz_uniq rz) as [|z0 t0]; [congruence|]. cbn [bind]. generalize (combine (z0 :: t0) (gaps (z0 :: t0) (be_zsource e))). intros zs.
  assert (B : forall zs i, exists bs, bh_planes e a g i zs = Ok bs).
  { clear zs. induction zs as [|[z dz] t IH]; intros i; [eexists; reflexivity|]. cbn [bh_planes].
    assert (exists ms, pl_draw (bh_mass_fn e a z dz) (br_count g i) (br_mass g i) = Ok ms) as (ms & ->).
    { unfold bh_mass_fn, sheth_tormen. cbn zeta. apply pl_draw_ok. cbn [snd sheth_tormen_params].
      unfold sheth_tormen_params. cbn [snd]. repeat apply Rmult_le_pos; auto.
      - apply Rlt_le, pow10_pos.
      - apply Rlt_le, Rinv_0_lt_compat, exp_pos. }
    cbn [bind]. destruct (KP z) as (k & EK).
    assert (exists pts, lens_cone_draw (be_cone e) (be_scale e) (be_kpc e) z 0 0 (map (br_pos g i) (seq 0 (List.length ms))) = Ok pts) as (pts & ->).
    { unfold lens_cone_draw, uniform_draw. destruct (map _ _); [eexists; reflexivity|]. rewrite EK. eexists; reflexivity. }
    cbn [bind]. rewrite EK. cbn [bind]. destruct (IH (S i)) as (bs & ->). eexists; reflexivity. }
  destruct (B zs 0%nat) as (b2 & ->). do 2 eexists; reflexivity.
Qed.

Definition bh_demo_env : benv :=
  {| be_kpc := fun _ => Ok 6; be_rs := fun _ => Some 1; be_factor := fun _ => 1; be_zsource := 2; be_cone := 6; be_scale := fun _ => 1;
     be_dndlnM := fun _ _ => 1; be_h := 0.7; be_volume := fun _ _ => 1 |}.
Definition bh_demo_args : bh_args :=
  {| ba_ratio := -2; ba_f := 1; ba_mlow := 5; ba_min := 4.5; ba_mhigh := 6; ba_max := 6.7; ba_norm := 1 |}.
Definition bh_demo_rng : bh_rng :=
  {| br_u := fun _ => 0.5; br_angle := fun _ => 0.25; br_radius := fun _ => 0.5; br_tag := fun i => Z.of_nat i;
     br_count := fun _ => 2%nat; br_mass := fun _ _ => 0.5; br_pos := fun _ _ => (0.5, 0.5); br_ptag := fun i j => Z.of_nat (100 * i + j) |}.
Definition pop_heap : heap := fun r =>
  {| h_mass := 10 ^ 9; h_x := 0; h_y := 0; h_z := 0.5; h_mdef := "TNFW"; h_tag := (- Z.of_nat r - 1)%Z; h_sub := false; h_fixed := false;
     h_bound := None; h_ids := []; h_kwargs := []; h_interp := None |}.
Definition pop_rz : Realz := from_halos pop_heap [0%nat] true [] (fun _ => 0) (fun _ => 0).
Example C43_nonvacuous : scales_ok bh_demo_env /\ ba_mhigh bh_demo_args + ba_ratio bh_demo_args <= ba_min bh_demo_args /\
  exists hp' out, add_black_holes bh_demo_env bh_demo_args bh_demo_rng pop_heap 1 pop_rz = Ok (hp', out).
Proof.
  split; [split; cbn; intros; [injection H as <-|injection H as <-]; lra|]. split; [cbn; lra|].
  apply C43_succeeds.
  - intros; cbn; eauto.
  - discriminate.
  - discriminate.
  - cbn; lra.
  - cbn; lra.
  - cbn; intros; lra.
Qed.

(** A concrete run in which every unresolved halo gets a black hole, and they are all lighter than 10^min. *)
Example C43_too_light_witness : exists hp' out b,
  add_black_holes bh_demo_env bh_demo_args bh_demo_rng pop_heap 1 pop_rz = Ok (hp', out) /\
  In b (map hp' (rz_halos out)) /\ h_mass b < ten_to (ba_min bh_demo_args).
Proof.
  destruct C43_nonvacuous as (SC & _ & hp' & out & E). exists hp', out.
  destruct (C43_population bh_demo_env bh_demo_args bh_demo_rng _ _ _ _ _ SC ltac:(cbn; lra) ltac:(cbn; intros; lra) ltac:(cbn; intros; lra) ltac:(cbn; intros; lra) E)
    as (ih & parts & (_ & _ & _ & M & _) & _ & thick & T & G).
  change (rz_uniq pop_rz) with [0.5] in T. inversion T; subst.
  change (rz_uniq pop_rz) with [0.5] in G. unfold enumerate in G. cbn [enum_from combine] in G.
  inversion G as [|? part ? ? PS REST]; subst. inversion REST; subst. clear G REST T. cbn zeta in PS.
  destruct PS as (ms & big & P & R & K & F). cbn [fst snd] in *.
  assert (PM : forall x v, 0 < v -> 0 < 1 * 1 * pl_n_mean (sheth_tormen x (0.7) v (10 ^ 8) 5 6 0 1 true)).
  { intros. unfold sheth_tormen, sheth_tormen_params, mk_power_law. cbn [fst snd pl_n_mean].
    destruct (Rleb 6 5) eqn:L; [apply Rleb_true in L; lra|]. rewrite analytic_is_integral by apply pow10_pos.
    rewrite !Rmult_1_l. apply Rmult_lt_0_compat; [|apply RInt_Rpower_pos; [apply pow10_pos|apply pow10_lt; lra]].
    apply Rmult_lt_0_compat; [|assumption]. apply Rdiv_lt_0_compat; [apply pow10_pos|apply exp_pos]. }
  destruct P as [(P & _)|(_ & P)].
  { exfalso. apply (Rlt_irrefl 0). eapply Rlt_le_trans; [apply (PM (fun _ => 1) 1); lra|]. right. exact P. }
  destruct ms as [|m0 ms]; [discriminate|]. inversion R as [|? ? RM]; subst.
  assert (T : forall x y, x < y -> ten_to x < ten_to y) by (intros; apply Rpower_lt; lra).
  cbn [ba_mlow ba_mhigh bh_demo_args] in RM. inversion K as [|? ? ? KM|? ? ? KM]; subst.
  - inversion F as [|? b ? ? FB]; subst. exists b. split; [exact E|]. rewrite M. split; [apply in_or_app; right; cbn; left; reflexivity|].
    destruct FB as (-> & _). cbn [ba_ratio ba_min bh_demo_args]. apply Rle_lt_trans with (ten_to 6 * ten_to (-2)).
    + apply Rmult_le_compat_r; [apply Rlt_le, exp_pos|apply RM].
    + unfold ten_to. rewrite <- Rpower_plus. apply T. lra.
  - exfalso. apply KM. cbn [ba_min bh_demo_args]. eapply Rlt_le_trans; [apply T|apply RM]. lra.
Qed.

(** ** C44: ULDM fluctuations *)

Definition deviates_ok (g : ul_rng) : Prop := (forall i j, 0 <= ur_r g i j <= 1) /\ (forall i j, 0 <= ur_r2 g i j <= 1).
(** The number of kpc^2 of a region of [area] arcsec^2, divided by the area pi * size^2 of one fluctuation. *)
Definition expected (e : uenv) (a : ul_args) (area : R) : R :=
  ua_n_scale a * (area * (ue_DA e * ue_arcsec e * 1000) ^ 2) / (PI * ua_size a ^ 2).
(** Fluctuation [j] of image [i]: convergence drawn with standard deviation [amp], width with mean size and its variance. *)
Definition uldm_fluctuation (e : uenv) (a : ul_args) (g : ul_rng) (amp : R) (i j : nat) (b : Halo) : Prop :=
  is_fluctuation (ue_zlens e) (amp * ur_kappa g i j) (Rabs (ua_size a / ue_kpc e + ua_size_var a / ue_kpc e * ur_width g i j)) b.

(** Ring and ellipse, in common: a Poisson number [N] of fluctuations with the expected mean; if it is 0 the realization is
    returned as it is; above n_cut only n_cut are created, with their standard deviation multiplied by sqrt(n_cut/N). *)
Definition uldm_result (e : uenv) (a : ul_args) (g : ul_rng) (mean : R) (region : R -> R -> Prop) (hp hp' : heap) (n : nat) (rz out : Realz) : Prop :=
  exists N, poisson_number mean (ur_count g 0) N /\
    (N = 0%nat -> hp' = hp /\ out = rz) /\
    ((0 < N)%nat -> exists objs, joined hp hp' n rz out objs /\
       List.length objs = shown (ua_rescale a) (ua_n_cut a) (INR N) N /\
       forall j b, nth_error objs j = Some b -> 
         uldm_fluctuation e a g (strength (ua_rescale a) (ua_n_cut a) (ua_amplitude a) (INR N)) 0 j b /\ region (h_x b) (h_y b)).

Lemma plain_result e a g (point : nat -> R * R) hp hp' n rz out (region : R -> R -> Prop) s mean
  (make : make_flucs e a g s =
    (do n <- np_poisson (expected_flucs e a s) (ur_count g 0);
     if Nat.eqb n 0 then Ok None
     else
       let cut := (ua_rescale a && Rltb (ua_n_cut a) (INR n))%bool in
       do hs <- plain_flucs e a g (if cut then rescaled_amp a (INR n) else ua_amplitude a) point
                            (if cut then cut_count (ua_n_cut a) else n);
       Ok (Some hs))) :
  0 < ua_n_cut a -> allocated n rz -> fresh_tags hp rz (ur_tag g) -> expected_flucs e a s = mean ->
  (forall j, region (fst (point j)) (snd (point j))) ->
  add_ULDM_fluctuations e a g s hp n rz = Ok (hp', out) -> uldm_result e a g mean region hp hp' n rz out.
Proof.
  intros NC AL FT EM RG H. unfold add_ULDM_fluctuations in H. rewrite make, EM in H. cbn zeta in H.
  destruct (np_poisson mean (ur_count g 0)) as [N|] eqn:EN; [|discriminate]. cbn [bind] in H.
  exists N. split; [now apply np_poisson_number|]. destruct (Nat.eqb N 0) eqn:E0.
  - apply Nat.eqb_eq in E0. subst N. cbn [bind] in H. injection H as <- <-. split; [auto|lia].
  - apply Nat.eqb_neq in E0. split; [lia|]. intros _. assert (0 < INR N) by (apply lt_0_INR; lia).
    rewrite cut_amp, cut_shown in H by assumption.
    destruct (plain_flucs _ _ _ _ _ _) as [hs|] eqn:EP; [|discriminate]. cbn [bind] in H. injection H as <- <-.
    destruct (plain_flucs_spec _ _ _ _ _ _ _ EP) as (L & T & P). exists hs. split.
    + apply join_joined; [assumption|eapply fresh_tags_distinct; eassumption|apply Permutation_refl].
    + split; [exact L|]. intros j b Hb. destruct (P j b Hb) as (F & XY). split; [exact F|].
      specialize (RG j). rewrite <- XY in RG. exact RG.
Qed.

Theorem C44_ring : forall e a g rmin rmax hp n rz hp' out,
  deviates_ok g -> 0 <= rmin <= rmax -> 0 < ua_n_cut a -> ua_lambda a <> 0 -> ua_size a <> 0 ->
  allocated n rz -> fresh_tags hp rz (ur_tag g) ->
  add_ULDM_fluctuations e a g (Ring rmin rmax) hp n rz = Ok (hp', out) ->
  uldm_result e a g (expected e a (PI * (rmax ^ 2 - rmin ^ 2))) (fun x y => rmin <= dist2 x y 0 0 <= rmax) hp hp' n rz out.
Proof.
  intros * (U & _) HR NC HL HS AL FT H.
  eapply (plain_result e a g (fun j => ring_point rmin rmax (ur_angle g 0 j) (ur_r g 0 j))); try eassumption; [reflexivity| |].
  - now apply expected_ring.
  - intros j. apply ring_in; auto.
Qed.
(** Distances to the centre follow r = rmin + sqrt(u) (rmax - rmin): the fraction of fluctuations within r is
    ((r - rmin)/(rmax - rmin))^2 ... *)
Theorem C44_ring_radii : forall e a g rmin rmax hp n rz hp' out r,
  deviates_ok g -> 0 <= rmin < rmax -> rmin <= r <= rmax -> 0 < ua_n_cut a -> ua_lambda a <> 0 -> ua_size a <> 0 ->
  allocated n rz -> fresh_tags hp rz (ur_tag g) ->
  add_ULDM_fluctuations e a g (Ring rmin rmax) hp n rz = Ok (hp', out) ->
  exists objs, (objs = [] \/ joined hp hp' n rz out objs) /\
    forall j b, nth_error objs j = Some b -> (dist2 (h_x b) (h_y b) 0 0 <= r <-> ur_r g 0 j <= ((r - rmin) / (rmax - rmin)) ^ 2).
Proof.
  intros * (U & _) HR Hr NC HL HS AL FT H. unfold add_ULDM_fluctuations in H. cbn [make_flucs] in H.
  destruct (np_poisson _ (ur_count g 0)) as [N|] eqn:EN; [|discriminate]. cbn [bind] in H. destruct (Nat.eqb N 0) eqn:E0.
  - exists []. split; [auto|]. intros [|j] b; discriminate.
  - cbn zeta in H. destruct (plain_flucs _ _ _ _ _ _) as [hs|] eqn:EP; [|discriminate]. cbn [bind] in H. injection H as <- <-.
    destruct (plain_flucs_spec _ _ _ _ _ _ _ EP) as (L & T & P). exists hs. split.
    + right. apply join_joined; [assumption|eapply fresh_tags_distinct; eassumption|apply Permutation_refl].
    + intros j b Hb. destruct (P j b Hb) as (_ & XY). injection XY as -> ->. apply (ring_radius rmin rmax (ur_angle g 0 j)); auto.
Qed.
(** ... which is not the fraction (r^2 - rmin^2)/(rmax^2 - rmin^2) of the area, except for rmin = 0: the inner parts of the
    ring get too few. *)
Theorem C44_ring_not_uniform_refuted : forall rmin rmax r, 0 < rmin < r -> r < rmax ->
  ((r - rmin) / (rmax - rmin)) ^ 2 < (r ^ 2 - rmin ^ 2) / (rmax ^ 2 - rmin ^ 2).
Proof.
  intros rmin rmax r H1 H2. replace ((r ^ 2 - rmin ^ 2) / (rmax ^ 2 - rmin ^ 2)) with ((r - rmin) / (rmax - rmin) * ((r + rmin) / (rmax + rmin))) by (field; split; nra).
  cbn [pow]. rewrite Rmult_1_r. apply Rmult_lt_compat_l; [apply Rdiv_lt_0_compat; lra|].
  apply Rcomplements.Rlt_div_l; [lra|]. replace ((r + rmin) / (rmax + rmin) * (rmax - rmin)) with ((r + rmin) * (rmax - rmin) / (rmax + rmin)) by (field; lra).
  apply Rcomplements.Rlt_div_r; [lra|]. nra.
Qed.

Theorem C44_ellipse : forall e a g amin amax bmin bmax angle hp n rz hp' out,
  deviates_ok g -> 0 < amin <= amax -> 0 < bmin <= bmax -> 0 < ua_n_cut a -> ua_lambda a <> 0 -> ua_size a <> 0 ->
  allocated n rz -> fresh_tags hp rz (ur_tag g) ->
  add_ULDM_fluctuations e a g (Ellipse amin amax bmin bmax angle) hp n rz = Ok (hp', out) ->
  uldm_result e a g (expected e a (PI * (amax * bmax - amin * bmin)))
    (fun x y => (along angle x y / amax) ^ 2 + (across angle x y / bmax) ^ 2 <= 1 /\
                1 <= (along angle x y / amin) ^ 2 + (across angle x y / bmin) ^ 2) hp hp' n rz out.
Proof.
  intros * (U1 & U2) HA HB NC HL HS AL FT H.
  eapply (plain_result e a g (fun j => ellipse_point amin amax bmin bmax angle (ur_angle g 0 j) (ur_r g 0 j) (ur_r2 g 0 j))); try eassumption; [reflexivity| |].
  - now apply expected_ellipse.
  - intros j. apply ellipse_in; auto.
Qed.

(** Apertures: a Poisson number is drawn for every image.  The zeros are dropped from the list of numbers, and number k of
    the remaining list is placed around image k. *)
Theorem C44_aperture : forall e a g xs ys radius hp n rz hp' out,
  deviates_ok g -> 0 <= radius -> 0 < ua_n_cut a -> ua_lambda a <> 0 -> ua_size a <> 0 ->
  allocated n rz -> fresh_tags hp rz (ur_tag g) ->
  add_ULDM_fluctuations e a g (Aperture xs ys radius) hp n rz = Ok (hp', out) ->
  exists drawn counts,
    Forall2 (fun i N => poisson_number (expected e a (PI * radius ^ 2)) (ur_count g i) N) (seq 0 (List.length xs)) drawn /\
    kept (fun N => N <> 0%nat) drawn counts /\
    (counts = [] -> hp' = hp /\ out = rz) /\
    (counts <> [] -> let mean := average counts in
     exists parts, joined hp hp' n rz out (List.concat parts) /\
       Forall2 (fun kN part =>
         List.length part = shown (ua_rescale a) (ua_n_cut a) mean (snd kN) /\
         exists cx cy, nth_error xs (fst kN) = Some cx /\ nth_error ys (fst kN) = Some cy /\
         forall j b, nth_error part j = Some b ->
           uldm_fluctuation e a g (strength (ua_rescale a) (ua_n_cut a) (ua_amplitude a) mean) (fst kN) j b /\
           dist2 (h_x b) (h_y b) cx cy <= radius) (enumerate counts) parts).
Proof.
  intros * (U & _) HR NC HL HS AL FT H. unfold add_ULDM_fluctuations in H. cbn [make_flucs] in H.
  destruct (mapM _ _) as [drawn|] eqn:ED; [|discriminate]. cbn [bind] in H.
  exists drawn, (filter (fun n => negb (Nat.eqb n 0)) drawn). split.
  { rewrite expected_aperture in ED by assumption. clear -ED. revert drawn ED. generalize (seq 0 (List.length xs)).
    induction l as [|i t IH]; intros drawn H; cbn in H; [injection H as <-; constructor|].
    destruct (np_poisson _ (ur_count g i)) as [N|] eqn:EN; [|discriminate]. cbn in H.
    destruct (mapM _ t) as [Ns|] eqn:ET; [|discriminate]. injection H as <-. constructor; [|now apply IH].
    apply np_poisson_number in EN. exact EN. }
  split. { eapply kept_ext; [|apply filter_kept]. intros N. cbn. rewrite negb_true_iff, Nat.eqb_neq. reflexivity. }
  assert (POS : filter (fun n => negb (Nat.eqb n 0)) drawn <> [] -> 0 < average (filter (fun n => negb (Nat.eqb n 0)) drawn)).
  { clear. assert (A : Forall (fun n => (0 < n)%nat) (filter (fun n => negb (Nat.eqb n 0)) drawn)).
    { apply Forall_forall. intros N HN. apply filter_In in HN as (_ & HN). apply negb_true_iff, Nat.eqb_neq in HN. lia. }
    destruct (filter _ drawn) as [|N t]; [congruence|]. intros _. unfold average. apply Rdiv_lt_0_compat; [|apply lt_0_INR; cbn; lia].
    inversion A; subst. cbn. assert (0 < INR N) by now apply lt_0_INR.
    assert (0 <= fold_right Rplus 0 (map INR t)); [|lra]. clear. induction t; cbn; [lra|]. pose proof (pos_INR a). lra. }
  destruct (filter _ drawn) as [|c t] eqn:EC.
  - cbn [bind] in H. injection H as <- <-. split; [auto|congruence].
  - split; [discriminate|]. intros _. cbn zeta. specialize (POS ltac:(discriminate)).
    cbn zeta in H. rewrite mean_average in H. rewrite cut_amp in H by assumption.
    destruct (aperture_loop _ _ _ _ _ _ _ _ _ _) as [hs|] eqn:EL; [|discriminate]. cbn [bind] in H. injection H as <- <-.
    destruct (aperture_loop_spec _ _ _ _ _ _ _ HR U _ _ _ _ EL) as ((parts & E & F) & T). exists parts. split.
    + rewrite <- E. apply join_joined; [assumption|eapply fresh_tags_distinct; eassumption|apply Permutation_refl].
    + clear EL E T hs EC POS ED. set (am := average (c :: t)) in *. clearbody am.
      set (cs := c :: t) in *. clearbody cs. unfold enumerate. revert F. generalize 0%nat.
      assert (SH : (if (ua_rescale a && Rltb (ua_n_cut a) am)%bool then repeat (cut_count (ua_n_cut a)) (List.length cs) else cs)
                   = map (shown (ua_rescale a) (ua_n_cut a) am) cs).
      { clear -NC. destruct (ua_rescale a && Rltb (ua_n_cut a) am)%bool eqn:EB.
        - induction cs as [|k r IH]; [reflexivity|]. cbn. rewrite IH. f_equal. rewrite <- cut_shown by assumption. now rewrite EB.
        - induction cs as [|k r IH]; [reflexivity|]. cbn. rewrite <- IH. f_equal. rewrite <- cut_shown by assumption. now rewrite EB. }
      rewrite SH. clear SH. revert parts. induction cs as [|k r IH]; intros parts i F; cbn in F; inversion F; subst; [constructor|].
      cbn. constructor; [|now apply IH]. exact H1.
Qed.

Lemma enum_seq {A} (f : nat -> A) : forall n i, enum_from i (map f (seq i n)) = map (fun k => (k, f k)) (seq i n).
Proof. induction n as [|n IH]; intros i; [reflexivity|]. cbn. now rewrite IH. Qed.

(** If no image drew a zero, the list is not shortened: every image is surrounded by its own number of fluctuations. *)
Theorem C44_aperture_each_image : forall e a g xs ys radius hp n rz hp' out,
  deviates_ok g -> 0 <= radius -> 0 < ua_n_cut a -> ua_lambda a <> 0 -> ua_size a <> 0 ->
  allocated n rz -> fresh_tags hp rz (ur_tag g) -> xs <> [] ->
  0 < expected e a (PI * radius ^ 2) -> (forall i, (i < List.length xs)%nat -> ur_count g i <> 0%nat) ->
  add_ULDM_fluctuations e a g (Aperture xs ys radius) hp n rz = Ok (hp', out) ->
  let mean := average (map (ur_count g) (seq 0 (List.length xs))) in
  exists parts, joined hp hp' n rz out (List.concat parts) /\
    Forall2 (fun k part =>
      List.length part = shown (ua_rescale a) (ua_n_cut a) mean (ur_count g k) /\
      exists cx cy, nth_error xs k = Some cx /\ nth_error ys k = Some cy /\
      forall j b, nth_error part j = Some b ->
        uldm_fluctuation e a g (strength (ua_rescale a) (ua_n_cut a) (ua_amplitude a) mean) k j b /\
        dist2 (h_x b) (h_y b) cx cy <= radius) (seq 0 (List.length xs)) parts.
Proof.
  intros * D HR NC HL HS AL FT NE EX NZ H. cbn zeta.
  destruct (C44_aperture _ _ _ _ _ _ _ _ _ _ _ D HR NC HL HS AL FT H) as (drawn & counts & P & K & _ & G).
  assert (ED : drawn = map (ur_count g) (seq 0 (List.length xs))).
  { clear -P EX. induction P as [|i N l d E P IH]; [reflexivity|]. cbn. f_equal; [|exact IH]. destruct E as [(E & _)|(_ & E)]; [lra|exact E]. }
  assert (EC : counts = drawn).
  { assert (A : Forall (fun N => N <> 0%nat) drawn).
    { subst drawn. apply Forall_forall. intros N HN. apply in_map_iff in HN as (i & <- & Hi). apply in_seq in Hi. apply NZ. lia. }
    clear -K A. induction K; [reflexivity| |]; inversion A; subst; [f_equal; auto|contradiction]. }
  subst counts drawn. destruct G as (parts & J & F). { destruct xs; [congruence|discriminate]. }
  exists parts. split; [exact J|]. clear -F. set (am := average _) in *. clearbody am.
  unfold enumerate in F. rewrite enum_seq in F. revert parts F. induction (seq 0 (List.length xs)) as [|k t IH]; intros parts F; inversion F; subst; constructor; auto.
Qed.

(** C44, refuted: "the fluctuations drawn for an image surround that image".  If the first of two images draws no
    fluctuations, those drawn for the second one are placed around the first. *)
Theorem C44_wrong_image_refuted : forall e a g x1 y1 x2 y2 radius hp n rz hp' out c,
  deviates_ok g -> 0 <= radius -> 0 < ua_n_cut a -> ua_lambda a <> 0 -> ua_size a <> 0 ->
  allocated n rz -> fresh_tags hp rz (ur_tag g) -> 0 < expected e a (PI * radius ^ 2) ->
  ur_count g 0 = 0%nat -> ur_count g 1 = S c -> ua_rescale a = false ->
  add_ULDM_fluctuations e a g (Aperture [x1; x2] [y1; y2] radius) hp n rz = Ok (hp', out) ->
  exists objs, joined hp hp' n rz out objs /\ List.length objs = S c /\ forall b, In b objs -> dist2 (h_x b) (h_y b) x1 y1 <= radius.
Proof.
  intros * D HR NC HL HS AL FT EX C0 C1 RS H.
  destruct (C44_aperture _ _ _ _ _ _ _ _ _ _ _ D HR NC HL HS AL FT H) as (drawn & counts & P & K & _ & G).
  assert (ED : drawn = [0; S c]%nat).
  { cbn [seq List.length] in P. inversion P as [|? d1 ? ? P1 P2]; subst. inversion P2 as [|? d2 ? ? P3 P4]; subst. inversion P4; subst.
    rewrite C0 in P1. rewrite C1 in P3. f_equal; [|f_equal]; [destruct P1 as [(?&?)|(_&?)]; assumption|]. destruct P3 as [(?&?)|(_&?)]; [lra|assumption]. }
  subst drawn. inversion K as [|? ? ? KM|? ? ? KM K']; subst; [congruence|]. inversion K' as [|? ? ? KM2 K2|? ? ? KM2]; subst; [|exfalso; apply KM2; discriminate].
  inversion K2; subst. destruct G as (parts & J & F); [discriminate|].
  cbn in F. inversion F as [|? part ? ? FP FR]; subst. inversion FR; subst. destruct FP as (L & cx & cy & EX1 & EY1 & FB).
  cbn in EX1, EY1. injection EX1 as <-. injection EY1 as <-. exists part. rewrite <- (app_nil_r part). cbn in J.
  split; [exact J|]. rewrite app_nil_r. split; [rewrite L; unfold shown; rewrite RS; reflexivity|].
  intros b Hb. apply In_nth_error in Hb as (j & Hj). apply (FB j b Hj).
Qed.

(** Errors: an unknown shape; and nothing else for sensible parameters. *)
Theorem C44_unknown_shape : forall e a g hp n rz, add_ULDM_fluctuations e a g OtherShape hp n rz = Err EException.
Proof. reflexivity. Qed.
Theorem C44_succeeds : forall e a g s hp n rz,
  s <> OtherShape -> 0 <= expected_flucs e a s -> 0 < ue_kpc e -> 0 <= ua_size_var a -> 0 <= ua_amplitude a -> 0 < ua_n_cut a ->
  (forall xs ys r, s = Aperture xs ys r -> (List.length xs <= List.length ys)%nat) ->
  exists hp' out, add_ULDM_fluctuations e a g s hp n rz = Ok (hp', out).
Proof.
  intros * NS EX KP SV AM NC LEN. unfold add_ULDM_fluctuations.
  assert (PO : forall k, exists N, np_poisson (expected_flucs e a s) k = Ok N).
  { intros k. unfold np_poisson. destruct (Rltb _ 0) eqn:E; [apply Rltb_true in E; lra|eexists; reflexivity]. }
  assert (CK : forall amp, 0 <= amp -> check_scales e a amp = Ok tt).
  { intros amp HA. unfold check_scales. assert (0 <= ua_size_var a / ue_kpc e) by (apply Rcomplements.Rdiv_le_0_compat; lra).
    destruct (Rltb (_ / _) 0) eqn:E; [apply Rltb_true in E; lra|]. destruct (Rltb amp 0) eqn:E'; [apply Rltb_true in E'; lra|reflexivity]. }
  assert (AMP : forall (b : bool) m, 0 <= (if b then rescaled_amp a m else ua_amplitude a)).
  { intros [] m; [|assumption]. unfold rescaled_amp. unfold Rdiv at 1. apply Rmult_le_pos; [assumption|].
    destruct (Req_dec (sqrt (m / ua_n_cut a)) 0) as [->|Z]; [rewrite Rinv_0; lra|].
    left. apply Rinv_0_lt_compat. pose proof (sqrt_pos (m / ua_n_cut a)). lra. }
  assert (MF : exists r, make_flucs e a g s = Ok r).
  { assert (PL : forall point, exists r, (do n <- np_poisson (expected_flucs e a s) (ur_count g 0);
       if Nat.eqb n 0 then Ok None
       else
         let cut := (ua_rescale a && Rltb (ua_n_cut a) (INR n))%bool in
         do hs <- plain_flucs e a g (if cut then rescaled_amp a (INR n) else ua_amplitude a) point
                              (if cut then cut_count (ua_n_cut a) else n);
         Ok (Some hs)) = Ok r).
    { intros point. destruct (PO (ur_count g 0)) as (N & ->). cbn [bind]. destruct (Nat.eqb N 0); [eexists; reflexivity|]. cbn zeta.
      unfold plain_flucs. rewrite CK by apply AMP. eexists; reflexivity. }
    destruct s as [rmin rmax|amin amax bmin bmax angle|xs ys radius|]; cbn [make_flucs]; [apply PL|apply PL| |congruence].
    assert (ML : forall l, exists drawn, mapM (fun i => np_poisson (expected_flucs e a (Aperture xs ys radius)) (ur_count g i)) l = Ok drawn /\ List.length drawn = List.length l).
    { induction l as [|i t (d & IH & L)]; [exists []; split; reflexivity|]. cbn [mapM]. destruct (PO (ur_count g i)) as (N & ->). rewrite IH.
      exists (N :: d). cbn. split; [reflexivity|lia]. }
    destruct (ML (seq 0 (List.length xs))) as (drawn & -> & LD). cbn [bind]. rewrite seq_length in LD.
    assert (LF : (List.length (filter (fun n => negb (Nat.eqb n 0)) drawn) <= List.length xs)%nat).
    { rewrite <- LD. clear. induction drawn as [|d t IH]; [reflexivity|]. cbn [filter]. destruct (negb _); cbn; lia. }
    destruct (filter _ drawn) as [|c t]; [eexists; reflexivity|]. cbn zeta.
    assert (AL : forall cs i t0 amp, 0 <= amp -> (i + List.length cs <= List.length xs)%nat -> exists hs, aperture_loop e a g amp xs ys radius i t0 cs = Ok hs).
    { specialize (LEN _ _ _ eq_refl). clear -CK LEN. induction cs as [|c t IH]; intros i t0 amp HA L; [eexists; reflexivity|].
      cbn [aperture_loop]. rewrite CK by assumption. cbn [bind]. cbn in L.
      destruct (nth_error xs i) eqn:E1; [|apply nth_error_None in E1; lia]. destruct (nth_error ys i) eqn:E2; [|apply nth_error_None in E2; lia].
      destruct (IH (S i) (t0 + c)%nat amp HA ltac:(lia)) as (hs & ->). eexists; reflexivity. }
    match goal with |- context [aperture_loop _ _ _ ?am _ _ _ _ _ ?cs] => destruct (AL cs 0%nat 0%nat am) as (hs & ->) end.
    - apply AMP.
    - destruct (_ && _)%bool; [rewrite repeat_length|]; assumption.
    - eexists; reflexivity. }
  destruct MF as ([hs|] & ->); do 2 eexists; reflexivity.
Qed.

(** C44, refuted: "the result works like any realization".  The fluctuations are subhalos without a bound mass: as soon as
    one has been added, filtering by bound mass raises. *)
Theorem C44_bound_mass_refuted : forall hp hp' n rz out objs zl k sg b m,
  joined hp hp' n rz out objs -> In b objs -> is_fluctuation zl k sg b -> is_err (filter_bound_mass hp' out m).
Proof.
  intros * (_ & (new & _ & _ & E & P) & _) Hb (_ & S & _ & BM & _). apply C05_filter_bound_mass. subst objs. apply in_map_iff in Hb as (r & <- & Hr).
  exists r. split; [|auto]. eapply Permutation_in; [apply Permutation_sym; exact P|]. apply in_or_app. now right.
Qed.

Definition ul_demo_env : uenv := {| ue_zlens := 0.5; ue_DA := 1; ue_arcsec := 1; ue_kpc := 1 |}.
Definition ul_demo_args (rs : bool) : ul_args :=
  {| ua_lambda := 0.6; ua_amplitude := 0.1; ua_size := 0.05; ua_size_var := 0.01; ua_n_cut := 2; ua_n_scale := 1; ua_rescale := rs |}.
Definition ul_demo_rng (c0 c1 : nat) : ul_rng :=
  {| ur_count := fun i => match i with O => c0 | _ => c1 end; ur_width := fun _ _ => 0; ur_kappa := fun _ _ => 1; ur_angle := fun _ _ => 0.25;
     ur_r := fun _ _ => 0.5; ur_r2 := fun _ _ => 0.5; ur_tag := fun i => Z.of_nat i |}.
Lemma ul_demo_hyps rs c0 c1 : deviates_ok (ul_demo_rng c0 c1) /\ 0 < ua_n_cut (ul_demo_args rs) /\ ua_lambda (ul_demo_args rs) <> 0 /\
  ua_size (ul_demo_args rs) <> 0 /\ allocated 1 pop_rz /\ fresh_tags pop_heap pop_rz (ur_tag (ul_demo_rng c0 c1)) /\
  (forall A, 0 < A -> 0 < expected ul_demo_env (ul_demo_args rs) A).
Proof.
  split; [split; cbn; intros; lra|]. cbn. split; [lra|]. split; [lra|]. split; [lra|]. split; [repeat constructor|].
  split. { split; [|split]; cbn. - unfold tags_distinct. cbn. repeat constructor. auto. - intros i j H. lia. - intros r j [<-|[]]. cbn. lia. }
  intros A HA. unfold expected. cbn. pose proof PI_RGT_0. apply Rdiv_lt_0_compat; nra.
Qed.
Lemma ul_demo_runs rs c0 c1 s : s <> OtherShape -> 0 <= expected_flucs ul_demo_env (ul_demo_args rs) s ->
  (forall xs ys r, s = Aperture xs ys r -> (List.length xs <= List.length ys)%nat) ->
  exists hp' out, add_ULDM_fluctuations ul_demo_env (ul_demo_args rs) (ul_demo_rng c0 c1) s pop_heap 1 pop_rz = Ok (hp', out).
Proof. intros. apply C44_succeeds; auto; cbn; lra. Qed.
Example C44_ring_nonvacuous : exists hp' out,
  add_ULDM_fluctuations ul_demo_env (ul_demo_args true) (ul_demo_rng 5 0) (Ring 0.2 1) pop_heap 1 pop_rz = Ok (hp', out) /\
  List.length (rz_halos out) = 3%nat.
Proof.
  destruct (ul_demo_hyps true 5 0) as (A & B & C & D & E & F & G).
  destruct (ul_demo_runs true 5 0 (Ring 0.2 1)) as (hp' & out & H); [discriminate| |discriminate|].
  { rewrite expected_ring by assumption. apply Rlt_le, (G (PI * (1 ^ 2 - 0.2 ^ 2))). pose proof PI_RGT_0. nra. }
  exists hp', out. split; [exact H|]. destruct (C44_ring _ _ _ 0.2 1 _ _ _ _ _ A ltac:(lra) B C D E F H) as (N & P & _ & Q).
  assert (N = 5%nat) as -> . { destruct P as [(P & _)|(_ & P)]; [|exact P]. exfalso. specialize (G (PI * (1 ^ 2 - 0.2 ^ 2))). pose proof PI_RGT_0. nra. }
  destruct Q as (objs & (_ & (new & _ & _ & EN & PM) & _) & L & _); [lia|]. apply Permutation_length in PM. rewrite PM, app_length.
  apply (f_equal (@List.length _)) in EN. rewrite map_length in EN. rewrite EN, L.
  unfold shown. cbn [ua_rescale ua_n_cut ul_demo_args]. destruct (Rlt_dec 2 (INR 5)) as [_|X]; [|cbn in X; lra].
  replace (Int_part 2) with 2%Z; [reflexivity|]. unfold Int_part. replace (up 2) with 3%Z; [reflexivity|]. symmetry. apply eq_sym, tech_up; cbn; lra.
Qed.
Example C44_ellipse_nonvacuous : exists hp' out,
  add_ULDM_fluctuations ul_demo_env (ul_demo_args true) (ul_demo_rng 5 0) (Ellipse 0.2 1 0.1 0.7 0.4) pop_heap 1 pop_rz = Ok (hp', out).
Proof.
  destruct (ul_demo_hyps true 5 0) as (A & B & C & D & E & F & G). apply ul_demo_runs; [discriminate| |discriminate].
  rewrite expected_ellipse by assumption. apply Rlt_le, (G (PI * (1 * 0.7 - 0.2 * 0.1))). pose proof PI_RGT_0. nra.
Qed.
(** Both aperture cases: every image draws some, and the first image draws none. *)
Example C44_aperture_nonvacuous : forall c0, exists hp' out,
  0 < expected ul_demo_env (ul_demo_args false) (PI * 0.3 ^ 2) /\
  add_ULDM_fluctuations ul_demo_env (ul_demo_args false) (ul_demo_rng c0 4) (Aperture [1; -1] [0; 0.5] 0.3) pop_heap 1 pop_rz = Ok (hp', out).
Proof.
  intros c0. destruct (ul_demo_hyps false c0 4) as (A & B & C & D & E & F & G). pose proof PI_RGT_0.
  destruct (ul_demo_runs false c0 4 (Aperture [1; -1] [0; 0.5] 0.3)) as (hp' & out & R).
  - discriminate.
  - rewrite expected_aperture by assumption. apply Rlt_le, (G (PI * 0.3 ^ 2)). nra.
  - intros ? ? ? [= <- <- <-]. reflexivity.
  - exists hp', out. split; [apply G; nra|exact R].
Qed.
(** The second image of this run is 2 arcsec away from the first, so none of its 4 fluctuations is within 0.3 arcsec of it. *)
Example C44_wrong_image_witness : exists hp' out objs,
  add_ULDM_fluctuations ul_demo_env (ul_demo_args false) (ul_demo_rng 0 4) (Aperture [1; -1] [0; 0.5] 0.3) pop_heap 1 pop_rz = Ok (hp', out) /\
  joined pop_heap hp' 1 pop_rz out objs /\ List.length objs = 4%nat /\ forall b, In b objs -> 0.3 < dist2 (h_x b) (h_y b) (-1) 0.5.
Proof.
  destruct (ul_demo_hyps false 0 4) as (A & B & C & D & E & F & G). destruct (C44_aperture_nonvacuous 0) as (hp' & out & EX & RUN).
  destruct (C44_wrong_image_refuted _ _ _ 1 0 (-1) 0.5 0.3 _ _ _ _ _ 3 A ltac:(lra) B C D E F EX eq_refl eq_refl eq_refl RUN) as (objs & J & L & Q).
  exists hp', out, objs. split; [exact RUN|]. split; [exact J|]. split; [exact L|]. intros b Hb. specialize (Q b Hb). unfold dist2 in *.
  assert (SQ : (h_x b - 1) ^ 2 + (h_y b - 0) ^ 2 <= 0.3 ^ 2).
  { rewrite <- (pow2_sqrt ((h_x b - 1) ^ 2 + (h_y b - 0) ^ 2)) by (apply Rplus_le_le_0_compat; apply pow2_ge_0). apply pow_incr. split; [apply sqrt_pos|exact Q]. }
  assert (XB : 0.7 <= h_x b). { pose proof (pow2_ge_0 (h_y b - 0)). destruct (Rle_lt_dec 0.7 (h_x b)); [assumption|exfalso; nra]. }
  pose proof (pow2_ge_0 (h_y b - 0.5)). rewrite <- (sqrt_pow2 0.3) by lra. apply sqrt_lt_1; [lra|nra|nra].
Qed.

Print Assumptions C43_expected_number.
Print Assumptions C43_population.
Print Assumptions C43_limits_in_halos.
Print Assumptions C43_subresolution_refuted.
Print Assumptions C43_errors.
Print Assumptions C43_succeeds.
Print Assumptions C44_ring.
Print Assumptions C44_ring_radii.
Print Assumptions C44_ring_not_uniform_refuted.
Print Assumptions C44_ellipse.
Print Assumptions C44_aperture.
Print Assumptions C44_aperture_each_image.
Print Assumptions C44_wrong_image_refuted.
Print Assumptions C44_unknown_shape.
Print Assumptions C44_succeeds.
Print Assumptions C44_bound_mass_refuted.
