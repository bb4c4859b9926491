(** C37 (correlated structure rendering) and C69 (adding correlated structure to a realization). *)
From Verif Require Import Prelude MassFnModel MassFnSpec MassFnProofs SpaceModel RenderModel RenderSpec RenderProofs RenderProofs2.
From Coq Require Import String.
Open Scope string_scope.
Open Scope R_scope.

(** ** The pixel grid *)
(** Lattice points (2i-n, 2j-n), 0 <= i, j <= n: the pixel centres in units of r/n. *)
Definition lattice (n : nat) : list (Z * Z) :=
  flat_map (fun j => map (fun i => (2 * Z.of_nat i - Z.of_nat n, 2 * Z.of_nat j - Z.of_nat n)%Z) (seq 0 (S n))) (seq 0 (S n)).
Definition beyond (n : nat) (p : Z * Z) : bool := (Z.of_nat n ^ 2 <? fst p ^ 2 + snd p ^ 2)%Z.
Definition n_out (n : nat) : nat := List.length (filter (beyond n) (lattice n)).
Definition n_in (n : nat) : nat := List.length (filter (fun p => negb (beyond n p)) (lattice n)).

Definition scaled (r : R) (n : nat) (p : Z * Z) : R * R := (r * IZR (fst p) / INR n, r * IZR (snd p) / INR n).
Lemma pixels_lattice r n : (0 < n)%nat -> pixels r (S n) = map (scaled r n) (lattice n).
Proof.
  intros Hn. unfold pixels, lattice, pixel_axis, np_linspace. replace (S n - 1)%nat with n by lia.
  assert (NZ : INR n <> 0) by (apply not_0_INR; lia).
  assert (PX : forall i, - r + INR i * ((r - - r) / INR n) = r * IZR (2 * Z.of_nat i - Z.of_nat n) / INR n).
  { intros i. rewrite minus_IZR, mult_IZR, <- !INR_IZR_INZ. field. exact NZ. }
  remember (seq 0 (S n)) as l eqn:E. clear E. rewrite flat_map_concat_map, flat_map_concat_map, concat_map, !map_map. f_equal.
  apply map_ext. intros j. rewrite !map_map. apply map_ext. intros i. unfold scaled; cbn [fst snd]. now rewrite !PX.
Qed.
Lemma outside_beyond r n p : 0 < r -> (0 < n)%nat -> outside r (scaled r n p) = beyond n p.
Proof.
  intros Hr Hn. unfold outside, beyond, scaled; cbn [fst snd]. assert (NP : 0 < INR n) by (apply lt_0_INR; lia).
  assert (E : (r * IZR (fst p) / INR n) ^ 2 + (r * IZR (snd p) / INR n) ^ 2 = (r / INR n) ^ 2 * IZR (fst p ^ 2 + snd p ^ 2)).
  { rewrite plus_IZR, <- !(pow_IZR _ 2). field. lra. }
  rewrite E. assert (RN : 0 < r / INR n) by (apply Rdiv_lt_0_compat; assumption).
  assert (RE : r = r / INR n * INR n) by (field; lra).
  rewrite sqrt_mult_alt by nra. rewrite (sqrt_pow2 (r / INR n)) by lra.
  assert (SQ : INR n = sqrt (IZR (Z.of_nat n ^ 2))).
  { rewrite <- (pow_IZR _ 2), <- INR_IZR_INZ. change (INR n ^ Z.to_nat 2)%R with (INR n ^ 2). symmetry. apply sqrt_pow2. lra. }
  destruct (Z.ltb_spec (Z.of_nat n ^ 2) (fst p ^ 2 + snd p ^ 2)) as [L|L].
  - apply Rltb_true. rewrite RE at 1. apply Rmult_lt_compat_l; [exact RN|]. rewrite SQ. apply sqrt_lt_1_alt. split; [apply IZR_le; nia|now apply IZR_lt].
  - apply Rltb_false. rewrite RE at 2. apply Rmult_le_compat_l; [lra|]. rewrite SQ. apply sqrt_le_1_alt. now apply IZR_le.
Qed.
Lemma filter_map {A B} (f : A -> B) p l : filter p (map f l) = map f (filter (fun a => p (f a)) l).
Proof. induction l as [|a l IH]; cbn; [reflexivity|]. destruct (p (f a)); cbn; now rewrite IH. Qed.
Lemma sumR_two {A} (c : A -> bool) k l : sumR (map (fun a => if c a then 0 else k) l) = k * INR (List.length (filter (fun a => negb (c a)) l)).
Proof.
  induction l as [|a l IH]; [cbn; ring|]. cbn [map filter].
  match goal with |- sumR (?x :: ?t) = _ => change (sumR (x :: t)) with (x + sumR t) end.
  rewrite IH. destruct (c a); cbn [negb]; [ring|]. cbn [List.length]. rewrite S_INR. ring.
Qed.

(** For a uniform convergence the returned mass is the true mass of the disc times (pixels inside)/(pixels outside). *)
Theorem C37_uniform_mass : forall k sigma cx cy r n, 0 < r -> (0 < n)%nat ->
  mass_in_area (fun _ _ => k) sigma cx cy r (S n) = k * sigma * (PI * r ^ 2) * (INR (n_in n) / INR (n_out n)).
Proof.
  intros * Hr Hn. unfold mass_in_area, kappa_pdf. rewrite pixels_lattice by assumption. rewrite filter_map, map_length.
  rewrite (filter_ext (fun a => outside r (scaled r n a)) (beyond n)) by (intros; now apply outside_beyond).
  fold (n_out n). rewrite !map_map.
  rewrite (map_ext _ (fun p => if beyond n p then 0 else k * sigma)).
  2:{ intros p. rewrite outside_beyond by assumption. destruct (beyond n p); ring. }
  rewrite sumR_two. fold (n_in n). unfold Rdiv. ring.
Qed.
Lemma n_in_20 : n_in 19 = 276%nat. Proof. vm_compute. reflexivity. Qed.
Lemma n_out_20 : n_out 19 = 124%nat. Proof. vm_compute. reflexivity. Qed.
(** C37, refuted: "mass_in_area is the mass of the convergence map inside the rendering radius".  On the coarsest
    (and default smallest) 20x20 map a uniform sheet is credited with 69/31 of its mass: the pixel area is computed from the number of
    pixels outside the circle. *)
Theorem C37_mass_in_area_refuted : forall k sigma cx cy r, 0 < r -> k * sigma <> 0 ->
  mass_in_area (fun _ _ => k) sigma cx cy r 20 = 69 / 31 * (k * sigma * (PI * r ^ 2)) /\
  mass_in_area (fun _ _ => k) sigma cx cy r 20 <> k * sigma * (PI * r ^ 2).
Proof.
  intros * Hr Hk. rewrite (C37_uniform_mass k sigma cx cy r 19 Hr ltac:(lia)). rewrite n_in_20, n_out_20.
  replace (INR 276) with 276 by (rewrite INR_IZR_INZ; reflexivity). replace (INR 124) with 124 by (rewrite INR_IZR_INZ; reflexivity). pose proof PI_RGT_0.
  split; [field|]. assert (0 < PI * r ^ 2) by (apply Rmult_lt_0_compat; [assumption|apply pow_lt; assumption]). intros E.
  assert (X : k * sigma * (PI * r ^ 2) * (276 / 124 - 1) = 0) by lra. apply Rmult_integral in X as [X|X]; [|lra].
  apply Rmult_integral in X as [X|X]; lra.
Qed.

(** C37: what render returns, for every realization, ray, mass function and draws.  [hit] lists the planes at which
    masses were drawn: the positions are the coordinates of ALL halos of the realization, repeated once per such plane. *)
Theorem C37_render : forall halos c ray rmax app_ planes ms xs ys zs f is,
  corr_render halos c ray rmax app_ planes = Ok (ms, xs, ys, zs, f, is) ->
  exists hit : list R,
    xs = List.concat (repeat (map ch_x halos) (List.length hit)) /\
    ys = List.concat (repeat (map ch_y halos) (List.length hit)) /\
    zs = flat_map (fun z => repeat z (List.length halos)) hit /\
    (List.length hit <= List.length planes)%nat /\ (List.length hit <= List.length ms)%nat /\ (hit = [] <-> ms = []) /\
    (forall z, In z hit -> exists h, In h halos /\ in_aperture rmax ray z h) /\
    List.length xs = (List.length hit * List.length halos)%nat.
Proof.
  intros * H. unfold corr_render in H. destruct planes as [|p0 pt] eqn:EP; [discriminate|]. rewrite <- EP in *. binds.
  destruct x as [[[[[ms1 xs1] ys1] zs1] f1] is1]. injection H as <- <- <- <- <- <-.
  destruct (corr_loop_spec _ _ _ _ _ _ _ _ _ _ _ _ _ H0) as ((hit & L & E1 & E2 & E3 & HP & HZ & HM) & _).
  exists hit. split; [exact E1|]. split; [exact E2|]. split; [exact E3|]. split; [exact L|]. split; [exact HM|]. split; [exact HZ|].
  split; [exact HP|]. rewrite E1, copies_length, map_length. reflexivity.
Qed.

(** C37: the returned indices are exactly the halos inside the aperture around the ray at one of the planes, each once, increasing. *)
Theorem C37_indices : forall halos c ray rmax app_ planes ms xs ys zs f is,
  corr_render halos c ray rmax app_ planes = Ok (ms, xs, ys, zs, f, is) ->
  StronglySorted lt is /\
  (forall i, In i is <-> exists h z cp, nth_error halos i = Some h /\ In (z, cp) planes /\ in_aperture rmax ray z h).
Proof.
  intros * H. unfold corr_render in H. destruct planes as [|p0 pt] eqn:EP; [discriminate|]. rewrite <- EP in *. binds.
  destruct x as [[[[[ms1 xs1] ys1] zs1] f1] is1]. injection H as <- <- <- <- <- <-.
  destruct (corr_loop_spec _ _ _ _ _ _ _ _ _ _ _ _ _ H0) as (_ & HI).
  split; [apply unique_nat_sorted|]. intros i. rewrite unique_nat_In. apply HI.
Qed.

(** C37: the masses drawn at one plane: each has the prescribed mass, the number is the rounded (or Poisson) value of
    fraction * mass / mass of one object, and the halos are to be scaled by 1 - fraction, so that the expected total is unchanged. *)
Theorem C37_mass_budget : forall logM fr poisson M count g,
  0 <= fr * M ->
  exists ms, render_masses_at_z (CDelta logM fr poisson) M count g = Ok (ms, 1 - fr) /\
    Forall (fun m => m = ten_to logM) ms /\
    (poisson = false -> nearest_even (fr * M / ten_to logM) (Z.of_nat (List.length ms))) /\
    (poisson = true -> 0 < fr * M -> List.length ms = count) /\
    (fr * M / ten_to logM) * ten_to logM + (1 - fr) * M = M.
Proof.
  intros * H. assert (P : 0 < ten_to logM) by apply exp_pos. unfold render_masses_at_z, df_draw.
  cbn [mk_delta_fn df_poisson df_n_mean df_mass]. rewrite Rmult_1_r. change (pow10 logM) with (ten_to logM).
  assert (Q : 0 <= fr * M / ten_to logM) by (apply Rmult_le_pos; [assumption|]; left; now apply Rinv_0_lt_compat).
  destruct poisson.
  - unfold np_poisson. replace (Rltb (fr * M / ten_to logM) 0) with false by (symmetry; apply Rltb_false; lra). cbn [bind].
    eexists. split; [reflexivity|]. split.
    { destruct (0 <? _)%Z; [|constructor]. apply Forall_forall. intros m Hm. now apply repeat_spec in Hm. }
    split; [discriminate|]. split; [|field; lra]. intros _ HP.
    assert (Q' : 0 < fr * M / ten_to logM) by (apply Rdiv_lt_0_compat; assumption).
    replace (Reqb (fr * M / ten_to logM) 0) with false by (symmetry; apply Reqb_false; lra).
    destruct (Z.ltb_spec 0 (Z.of_nat count)) as [L|L]; [rewrite repeat_length; lia|cbn; lia].
  - cbn [bind]. eexists. split; [reflexivity|]. split.
    { destruct (0 <? _)%Z; [|constructor]. apply Forall_forall. intros m Hm. now apply repeat_spec in Hm. }
    split; [|split; [discriminate|field; lra]]. intros _. pose proof (np_round_spec (fr * M / ten_to logM)) as NE.
    pose proof (nearest_even_nonneg _ _ Q NE) as NN.
    destruct (Z.ltb_spec 0 (np_round (fr * M / ten_to logM))) as [L|L].
    + rewrite repeat_length, Z2Nat.id by lia. exact NE.
    + cbn. replace 0%Z with (np_round (fr * M / ten_to logM)) by lia. exact NE.
Qed.
Example C37_mass_budget_nonvacuous : 0 <= 0.1 * 1000. Proof. lra. Qed.
(** C37: only the two mass functions are supported. *)
Theorem C37_other_mass_functions : forall name M count g, render_masses_at_z (COther name) M count g = Err EException.
Proof. reflexivity. Qed.
(** C37: a realization without halos (no redshift planes) cannot be rendered. *)
Theorem C37_no_planes : forall halos c ray rmax app_, corr_render halos c ray rmax app_ [] = Err EIndexError.
Proof. reflexivity. Qed.

(** ** A concrete case: a halo on the ray at redshift 0.5 and one 100 arcsec away at redshift 1. *)
Definition demo_halos : list chalo := [{| ch_x := 0; ch_y := 0; ch_z := 0.5; ch_norm := 4 |}; {| ch_x := 100; ch_y := 0; ch_z := 1; ch_norm := 4 |}].
Definition demo_plane : cplane := {| cp_count := 3; cp_normal := fun _ => 0; cp_kappa := fun _ _ => 1; cp_sigma_crit := 1 |}.
Definition demo_mass : cmass := CDelta 0 0.5 true.
Definition demo_planes : list (R * cplane) := [(0.5, demo_plane); (1, demo_plane)].

Lemma demo_near0 : near {| ch_x := 0; ch_y := 0; ch_z := 0.5; ch_norm := 4 |} 0.5 0 0 1 = true.
Proof.
  unfold near; cbn [ch_x ch_y ch_z]. replace (Reqb 0.5 0.5) with true by (symmetry; now apply Reqb_true). cbn [andb].
  apply Rltb_true. replace ((0 - 0) ^ 2 + (0 - 0) ^ 2) with 0 by ring. rewrite sqrt_0. lra.
Qed.
Lemma demo_near1 z : near {| ch_x := 100; ch_y := 0; ch_z := 1; ch_norm := 4 |} z 0 0 1 = false.
Proof.
  unfold near; cbn [ch_x ch_y ch_z]. destruct (Reqb 1 z); [|reflexivity]. cbn [andb]. apply Rltb_false.
  replace ((100 - 0) ^ 2 + (0 - 0) ^ 2) with (100 ^ 2) by ring. rewrite sqrt_pow2; lra.
Qed.
Lemma demo_near0' : near {| ch_x := 0; ch_y := 0; ch_z := 0.5; ch_norm := 4 |} 1 0 0 1 = false.
Proof. unfold near; cbn [ch_x ch_y ch_z]. replace (Reqb 0.5 1) with false by (symmetry; apply Reqb_false; lra). reflexivity. Qed.
Lemma Int_part_2 : Int_part (2 * 1 / 1) = 2%Z.
Proof.
  replace (2 * 1 / 1) with (IZR 2) by lra. destruct (base_Int_part (IZR 2)) as [A B].
  assert (Int_part (IZR 2) <= 2)%Z by now apply le_IZR. assert (1 < Int_part (IZR 2))%Z by (apply lt_IZR; lra). lia.
Qed.
Lemma demo_npix : n_pixels 1 1 = 20%nat. Proof. unfold n_pixels. rewrite Int_part_2. reflexivity. Qed.
Lemma demo_render : corr_render demo_halos demo_mass (fun _ => (0, 0)) 1 1 demo_planes =
  Ok ([ten_to 0; ten_to 0; ten_to 0], [0; 100], [0; 0], [0.5; 0.5], 1, [0%nat]).
Proof.
  assert (MA : mass_in_area (fun _ _ => 1) 1 0 0 1 20 = 69 / 31 * PI).
  { destruct (C37_mass_in_area_refuted 1 1 0 0 1 ltac:(lra) ltac:(lra)) as [-> _]. field. }
  pose proof PI_RGT_0 as PI0.
  assert (SUM : sumR (kappa_pdf (fun _ _ => 1) 0 0 1 20) <> 0).
  { intros E. revert MA. unfold mass_in_area. rewrite (map_ext (fun k => k * 1) (fun k => k)) by (intros; ring). rewrite map_id, E. lra. }
  assert (P1 : 0 < pow10 0) by apply exp_pos.
  assert (X0 : existsb (fun h => near h 0.5 0 0 1) demo_halos = true) by (unfold demo_halos; cbn [existsb]; now rewrite demo_near0).
  assert (X1 : existsb (fun h => near h 1 0 0 1) demo_halos = false) by (unfold demo_halos; cbn [existsb]; now rewrite demo_near0', demo_near1).
  assert (W0 : where_near 0 demo_halos 0.5 0 0 1 = [0%nat]) by (unfold demo_halos; cbn [where_near]; now rewrite demo_near0, demo_near1).
  assert (W1 : where_near 0 demo_halos 1 0 0 1 = []) by (unfold demo_halos; cbn [where_near]; now rewrite demo_near0', demo_near1).
  unfold corr_render, demo_planes, corr_loop, render_at_z. rewrite X0, X1, W0, W1, demo_npix.
  cbn [cp_kappa cp_sigma_crit cp_count cp_normal demo_plane]. rewrite MA.
  unfold render_masses_at_z, demo_mass, df_draw. cbn [mk_delta_fn df_poisson df_n_mean df_mass].
  assert (PP : 0 < 0.5 * (69 / 31 * PI) * 1 / pow10 0) by (apply Rdiv_lt_0_compat; nra).
  unfold np_poisson. replace (Rltb _ 0) with false by (symmetry; apply Rltb_false; lra).
  replace (Reqb (0.5 * (69 / 31 * PI) * 1 / pow10 0) 0) with false by (symmetry; apply Reqb_false; lra).
  cbn [bind]. change (Z.of_nat 3) with 3%Z. change (0 <? 3)%Z with true. change (Z.to_nat 3) with 3%nat. cbn [repeat fst snd].
  replace (Reqb (sumR (kappa_pdf (fun _ _ : R => 1) 0 0 1 20)) 0) with false by (symmetry; apply Reqb_false; exact SUM).
  reflexivity.
Qed.
(** Non-vacuity of C37_render and C37_indices. *)
Example C37_render_nonvacuous : exists ms xs ys zs f is,
  corr_render demo_halos demo_mass (fun _ => (0, 0)) 1 1 demo_planes = Ok (ms, xs, ys, zs, f, is) /\ ms <> [] /\ is <> [].
Proof. rewrite demo_render. do 6 eexists. split; [reflexivity|]. split; discriminate. Qed.

(** C37, refuted: "one position per mass, within rmax of the ray, at the redshift where the mass was drawn".
    Three masses, two positions; the second position is 100 arcsec from the ray with rmax = 1, and it is the position
    of a halo at another redshift. *)
Theorem C37_alignment_refuted : exists halos c ray rmax app_ planes ms xs ys zs f is,
  corr_render halos c ray rmax app_ planes = Ok (ms, xs, ys, zs, f, is) /\
  List.length ms <> List.length xs /\
  exists j x y z, nth_error xs j = Some x /\ nth_error ys j = Some y /\ nth_error zs j = Some z /\
    rmax < sep x y (fst (ray z)) (snd (ray z)).
Proof.
  exists demo_halos, demo_mass, (fun _ => (0, 0)), 1, 1, demo_planes. rewrite demo_render. do 6 eexists. split; [reflexivity|].
  split; [cbn; lia|]. exists 1%nat, 100, 0, 0.5. cbn [nth_error fst snd]. split; [reflexivity|]. split; [reflexivity|]. split; [reflexivity|].
  unfold sep. replace ((100 - 0) ^ 2 + (0 - 0) ^ 2) with (100 ^ 2) by ring. rewrite sqrt_pow2; lra.
Qed.

(** ** C69: add_correlated_structure *)
(** A halo is touched when it lies in the aperture of at least one image path at one of its planes. *)
Definition touched rmax (images : list ((R -> R * R) * list (R * cplane))) (h : chalo) : Prop :=
  exists ray planes z cp, In (ray, planes) images /\ In (z, cp) planes /\ in_aperture rmax ray z h.

(** C69: the halos keep their number, order, positions and redshifts; exactly the touched ones have their
    normalisation multiplied, once, by a common factor which is 1 or 1 - fraction; without rescaling nothing changes. *)
Theorem C69_halos : forall halos c fr rmax app_ images rescale halos' pts,
  has_fraction c fr ->
  add_correlated_structure halos c rmax app_ images rescale = Ok (halos', pts) ->
  images <> [] /\ List.length halos' = List.length halos /\
  (rescale = false -> halos' = halos) /\
  exists s, (s = 1 \/ s = 1 - fr) /\
    forall i h, nth_error halos i = Some h -> exists h', nth_error halos' i = Some h' /\
      ch_x h' = ch_x h /\ ch_y h' = ch_y h /\ ch_z h' = ch_z h /\
      (rescale = true -> touched rmax images h -> ch_norm h' = ch_norm h * s) /\
      (~ touched rmax images h -> h' = h).
Proof.
  intros * HC H. unfold add_correlated_structure in H. binds. destruct x as [[ps is] f]. destruct f as [f|]; [|discriminate].
  injection H as <- <-. pose proof (corr_images_last _ _ _ _ _ HC _ _ _ _ _ H0) as HF.
  destruct (corr_images_spec _ _ _ _ _ _ _ _ _ H0) as (_ & HI).
  split. { intros ->. cbn in H0. now injection H0 as <- <- E. }
  split. { destruct rescale; [apply rescale_at_length|reflexivity]. }
  split; [intros ->; reflexivity|].
  exists f. split. { destruct images; [cbn in HF; discriminate|]. destruct HF as [E|E]; injection E as ->; auto. }
  intros i h Hi. destruct rescale; [|exists h; repeat split; auto; discriminate].
  rewrite rescale_at_nth by apply sorted_NoDup, unique_nat_sorted. rewrite Hi. cbn [option_map]. eexists. split; [reflexivity|].
  destruct (in_dec Nat.eq_dec i (unique_nat is)) as [I|I].
  - apply unique_nat_In, HI in I as (h0 & ray & pl & z & cp & N & A & B & D). replace h0 with h in * by congruence.
    repeat split; auto. intros NT. exfalso. apply NT. exists ray, pl, z, cp. auto.
  - repeat split; auto. intros _ (ray & pl & z & cp & A & B & D). exfalso. apply I, unique_nat_In, HI. exists h, ray, pl, z, cp. auto.
Qed.

(** C69: every added point mass sits at the coordinates of a halo of the input realization. *)
Theorem C69_points : forall halos c rmax app_ images rescale halos' pts,
  add_correlated_structure halos c rmax app_ images rescale = Ok (halos', pts) ->
  forall p, In p pts -> exists h, In h halos /\ pt_x p = ch_x h /\ pt_y p = ch_y h.
Proof.
  intros * H. unfold add_correlated_structure in H. binds. destruct x as [[ps is] f]. destruct f as [f|]; [|discriminate].
  injection H as <- <-. apply (corr_images_spec _ _ _ _ _ _ _ _ _ H0).
Qed.

(** C69: without image paths the call raises. *)
Theorem C69_no_images : forall halos c rmax app_ rescale, add_correlated_structure halos c rmax app_ [] rescale = Err EUnboundLocal.
Proof. reflexivity. Qed.

(** C69, refuted: "halos near the images lose the fraction of their mass that went into the point masses".
    The factor applied is the one of the LAST plane of the LAST image: if no halo lies in the aperture there, no halo changes. *)
Theorem C69_rescale_refuted : forall halos c rmax app_ images ray planes z cp rescale halos' pts,
  (forall h, In h halos -> ~ in_aperture rmax ray z h) ->
  add_correlated_structure halos c rmax app_ (app images [(ray, app planes [(z, cp)])]) rescale = Ok (halos', pts) ->
  Forall2 (fun h h' => ch_norm h' = ch_norm h) halos halos'.
Proof.
  intros * HN H. unfold add_correlated_structure in H. binds. destruct x as [[ps is] f].
  rewrite (corr_images_last_none _ _ _ _ _ _ _ _ _ _ _ _ _ H0 HN) in H. injection H as <- <-.
  assert (RF : forall l : list chalo, Forall2 (fun h h' => ch_norm h' = ch_norm h) l l) by (induction l; constructor; auto).
  destruct rescale; [|apply RF]. generalize (unique_nat is). intros l. clear.
  assert (TR : forall l1 l2 l3 : list chalo, Forall2 (fun h h' => ch_norm h' = ch_norm h) l1 l2 -> Forall2 (fun h h' => ch_norm h' = ch_norm h) l2 l3 ->
     Forall2 (fun h h' => ch_norm h' = ch_norm h) l1 l3).
  { intros l1 l2 l3 A. revert l3. induction A as [|a b l1 l2 E A IH]; intros l3 B; inversion B; subst; constructor; [congruence|auto]. }
  revert halos. induction l as [|i t IH]; intros halos; cbn [rescale_at].
  - induction halos; constructor; auto.
  - eapply TR; [|apply IH]. generalize 0%nat. induction halos as [|h hs IHh]; intros s; cbn; [constructor|]. constructor; [|apply IHh].
    destruct (Nat.eqb s i); cbn; ring.
Qed.
Example C69_nonvacuous : exists halos' pts,
  add_correlated_structure demo_halos demo_mass 1 1 [(fun _ => (0, 0), demo_planes)] true = Ok (halos', pts) /\
  has_fraction demo_mass 0.5 /\ List.length pts = 2%nat /\
  touched 1 [(fun _ => (0, 0), demo_planes)] {| ch_x := 0; ch_y := 0; ch_z := 0.5; ch_norm := 4 |} /\
  (forall h, In h demo_halos -> ~ in_aperture 1 (fun _ => (0, 0)) 1 h).
Proof.
  unfold add_correlated_structure, corr_images. rewrite demo_render. cbn [bind fst snd app]. do 2 eexists. split; [reflexivity|].
  split; [reflexivity|]. split; [reflexivity|]. split.
  - exists (fun _ => (0, 0)), demo_planes, 0.5, demo_plane. split; [now left|]. split; [now left|]. apply near_iff. exact demo_near0.
  - intros h [<-|[<-|[]]] A; apply near_iff in A; cbn [fst snd] in A; [rewrite demo_near0' in A|rewrite demo_near1 in A]; discriminate.
Qed.

Print Assumptions C37_uniform_mass.
Print Assumptions C37_mass_in_area_refuted.
Print Assumptions C37_render.
Print Assumptions C37_indices.
Print Assumptions C37_mass_budget.
Print Assumptions C37_other_mass_functions.
Print Assumptions C37_no_planes.
Print Assumptions C37_alignment_refuted.
Print Assumptions C69_halos.
Print Assumptions C69_points.
Print Assumptions C69_no_images.
Print Assumptions C69_rescale_refuted.
