(** C119: the structure of subhalos and the convergence map as drawn. *)
From Coq Require Import Lra Lia.
From Verif Require Import Prelude RealizationModel RealizationSpec RealizationProofs RealizationProps SampleModel PlotModel PlotProps SpaceModel Plot2Model.
Local Open Scope R_scope.
Local Open Scope list_scope.

(** * Bound masses *)
(** Exactly when every subhalo has a bound mass, all subhalos are drawn in the order of the realization, each at its own two masses;
    otherwise the routine raises. *)
Theorem C119_bound_mass : forall hp rz,
  (is_err (plot_subhalo_bound_mass hp rz) <-> exists r, In r (rz_halos rz) /\ h_sub (hp r) = true /\ h_bound (hp r) = None) /\
  forall pts, plot_subhalo_bound_mass hp rz = Ok pts ->
    exists l, kept (fun r => h_sub (hp r) = true) (rz_halos rz) l /\ Forall2 (fun r p => h_bound (hp r) = Some (snd p) /\ h_mass (hp r) = fst p) l pts.
Proof.
  intros hp rz. unfold plot_subhalo_bound_mass. split.
  - rewrite mapM_err. split.
    + intros (r & I & [e E]). apply filter_In in I. exists r. split; [apply I|]. split; [apply I|]. destruct (h_bound (hp r)); [discriminate|reflexivity].
    + intros (r & I & S & B). exists r. rewrite filter_In, B. split; [auto|eexists; reflexivity].
  - intros pts E. apply mapM_Forall2 in E. eexists. split; [apply (kept_filter _ (fun r => h_sub (hp r))); intros; reflexivity|].
    induction E as [|r p l pts F E IH]; constructor; [|exact IH]. destruct (h_bound (hp r)); [|discriminate]. injection F as <-. auto.
Qed.

(** * Truncation radii *)
(** The values are the logarithms of the truncation radii in scale radii of exactly the halos in the mass range, without the field halos
    when only subhalos are asked for; one such halo without a truncation or scale radius makes the routine raise. *)
Definition chosen (hp : heap) (sub_only : bool) (lo hi : R) (r : ref) : Prop :=
  (sub_only = true -> h_sub (hp r) = true) /\ Rpower 10 lo <= h_mass (hp r) < Rpower 10 hi.
Theorem C119_truncation : forall hp params rz sub_only lo hi,
  (is_err (plot_truncation_radius_histogram hp params rz sub_only lo hi) <->
     exists r, In r (rz_halos rz) /\ chosen hp sub_only lo hi r /\ forall rt rs, params r <> Ok (mkPhys (Some rt) (Some rs))) /\
  forall vs, plot_truncation_radius_histogram hp params rz sub_only lo hi = Ok vs ->
    exists l, kept (chosen hp sub_only lo hi) (rz_halos rz) l /\
      Forall2 (fun r v => exists rt rs, params r = Ok (mkPhys (Some rt) (Some rs)) /\ (0 < rt -> 0 < rs -> Rpower 10 v * rs = rt)) l vs.
Proof.
  intros hp params rz so lo hi. unfold plot_truncation_radius_histogram. rewrite filter_filter. set (l := filter _ (rz_halos rz)).
  assert (K : kept (chosen hp so lo hi) (rz_halos rz) l).
  { apply kept_filter. intros r _. unfold chosen, in_mass_range. rewrite !andb_true_iff, Rleb_true, Rltb_true.
    destruct so, (h_sub (hp r)); cbn; intuition congruence. }
  set (f := fun r => _). split.
  - assert (BE : is_err (do tau <- mapM f l; Ok (map (fun t => ln t / ln 10) tau)) <-> is_err (mapM f l)).
    { destruct (mapM f l); cbn [bind]; unfold is_err; split; intros [e0 E]; try discriminate; eauto. }
    rewrite BE, mapM_err. split.
    + intros (r & I & E). apply (kept_In _ _ _ r K) in I. destruct I as [I C]. exists r. split; [exact I|]. split; [exact C|].
      intros rt rs P. unfold f in E. rewrite P in E. destruct E as [e E]. discriminate.
    + intros (r & I & C & N). exists r. split; [apply (kept_In _ _ _ r K); auto|]. unfold f. destruct (params r) as [[[rt|] [rs|]]|e] eqn:P; cbn; try (eexists; reflexivity).
      exfalso. apply (N rt rs). reflexivity.
  - intros vs E. exists l. split; [exact K|]. clearbody l. clear K. revert vs E. induction l as [|r l IH]; intros vs E; cbn [mapM] in E.
    + cbn in E. injection E as <-. constructor.
    + destruct (f r) as [t|] eqn:F; [|discriminate]. cbn [bind] in E. destruct (mapM f l) as [ts|]; [|discriminate]. cbn in E. injection E as <-.
      constructor; [|apply IH; reflexivity]. unfold f in F. destruct (params r) as [[[rt|] [rs|]]|e]; try discriminate. cbn in F. injection F as <-.
      exists rt, rs. split; [reflexivity|]. intros A B. unfold Rpower. replace (ln (rt / rs) / ln 10 * ln 10) with (ln (rt / rs)).
      * rewrite exp_ln by (apply Rdiv_lt_0_compat; assumption). field. lra.
      * field. pose proof (ln_increasing 1 10 ltac:(lra) ltac:(lra)) as L. rewrite ln_1 in L. lra.
Qed.

(** * The convergence map *)
Lemma map_concat {A B} (f : A -> B) l : map f (List.concat l) = List.concat (map (map f) l).
Proof. induction l as [|a l IH]; [reflexivity|]. cbn. rewrite map_app, IH. reflexivity. Qed.
Lemma rsum_shift l m : rsum (map (fun v => v - m) l) = rsum l - INR (List.length l) * m.
Proof. induction l as [|a l IH]; [cbn; ring|]. cbn [map rsum fold_right List.length] in *. rewrite S_INR. unfold rsum in *. cbn. rewrite IH. ring. Qed.
(** With the option the drawn values have zero mean, every difference between two of them is that of the map, and the shape is kept;
    without it the map is drawn unchanged. *)
Theorem C119_mean : forall m, multiplane_image m false = m /\
  map (@List.length R) (multiplane_image m true) = map (@List.length R) m /\
  (List.concat m <> [] -> rsum (List.concat (multiplane_image m true)) = 0) /\
  (forall i j i' j', (i < List.length m)%nat -> (i' < List.length m)%nat -> (j < List.length (nth i m []))%nat -> (j' < List.length (nth i' m []))%nat ->
     nth j (nth i (multiplane_image m true) []) 0 - nth j' (nth i' (multiplane_image m true) []) 0 = nth j (nth i m []) 0 - nth j' (nth i' m []) 0).
Proof.
  intros m. split; [reflexivity|]. unfold multiplane_image. cbv zeta. set (mean := rmean (List.concat m)). split; [|split].
  - rewrite map_map. apply map_ext. intros l. apply map_length.
  - intros N. rewrite <- map_concat, rsum_shift. unfold mean, rmean. field.
    destruct (List.concat m) as [|a l]; [congruence|]. cbn [List.length]. rewrite S_INR. pose proof (pos_INR (List.length l)). lra.
  - intros i j i' j' I I' J J'.
    assert (E : forall i j, (i < List.length m)%nat -> (j < List.length (nth i m []))%nat -> nth j (nth i (map (map (fun v => v - mean)) m) []) 0 = nth j (nth i m []) 0 - mean).
    { clear. intros i j I J. change (@nil R) with (map (fun v => v - mean) []) at 1. rewrite (map_nth (map (fun v => v - mean))).
      rewrite (nth_indep _ 0 (0 - mean)) by (rewrite map_length; exact J). rewrite (map_nth (fun v => v - mean)). reflexivity. }
    rewrite !E by assumption. ring.
Qed.
(** A value is drawn at most half a pixel from the grid point where it was computed: exactly on it in the middle of the map, and a full half
    pixel inside of it at the border. *)
Theorem C119_pixels : forall w n i, 0 < w -> (2 <= n)%nat -> (i < n)%nat ->
  let x := nth i (np_linspace (- w / 2) (w / 2) n) 0 in
  Rabs (drawn_at w n i - x) <= w / INR n / 2 /\ drawn_at w n i - x = w / INR n / 2 * (1 - 2 * INR i / INR (n - 1)).
Proof.
  intros w n i W N I x. assert (X : x = - w / 2 + INR i * ((w / 2 - - w / 2) / INR (n - 1))).
  { unfold x, np_linspace. rewrite (nth_indep _ 0 (- w / 2 + INR 0 * ((w / 2 - - w / 2) / INR (n - 1)))) by (rewrite map_length, seq_length; exact I).
    rewrite (map_nth (fun i => - w / 2 + INR i * ((w / 2 - - w / 2) / INR (n - 1)))), seq_nth by exact I. reflexivity. }
  assert (PN : INR n = INR (n - 1) + 1) by (rewrite <- S_INR; f_equal; lia).
  assert (P1 : 0 < INR (n - 1)) by (apply lt_0_INR; lia). pose proof (pos_INR i) as P0.
  assert (L : INR i <= INR (n - 1)) by (apply le_INR; lia).
  assert (E : drawn_at w n i - x = w / INR n / 2 * (1 - 2 * INR i / INR (n - 1))).
  { rewrite X. unfold drawn_at. rewrite PN. field. lra. }
  split; [|exact E]. rewrite E.
  assert (Q : 0 <= INR i / INR (n - 1) <= 1). { pose proof (Rinv_0_lt_compat _ P1) as PI1. assert (EQ : INR (n - 1) * / INR (n - 1) = 1) by (field; lra). unfold Rdiv. nra. }
  assert (PW : 0 < w / INR n) by (apply Rdiv_lt_0_compat; lra). rewrite Rabs_mult, (Rabs_right (w / INR n / 2)) by lra.
  assert (A : Rabs (1 - 2 * INR i / INR (n - 1)) <= 1). { replace (2 * INR i / INR (n - 1)) with (2 * (INR i / INR (n - 1))) by (unfold Rdiv; ring). apply Rabs_le. lra. }
  rewrite <- (Rmult_1_r (w / INR n / 2)) at 2. apply Rmult_le_compat_l; lra.
Qed.
(** So the map is not drawn where it was computed: its corner is displaced by half a pixel. *)
Theorem C119_pixels_refuted : forall w n, 0 < w -> (2 <= n)%nat ->
  drawn_at w n 0 - nth 0 (np_linspace (- w / 2) (w / 2) n) 0 = w / INR n / 2 /\ drawn_at w n 0 <> nth 0 (np_linspace (- w / 2) (w / 2) n) 0.
Proof.
  intros w n W N. destruct (C119_pixels w n 0 W N ltac:(lia)) as [_ E]. cbn [INR] in E.
  assert (E' : drawn_at w n 0 - nth 0 (np_linspace (- w / 2) (w / 2) n) 0 = w / INR n / 2) by (rewrite E; unfold Rdiv; ring).
  split; [exact E'|]. assert (0 < INR n) by (apply lt_0_INR; lia). assert (0 < w / INR n) by (apply Rdiv_lt_0_compat; lra). lra.
Qed.

(** * The hypotheses are met *)
Example C119_bound_mass_nonvacuous : plot_subhalo_bound_mass demo_heap demo = Ok [(100, 50); (5, 2)].
Proof. reflexivity. Qed.
Example C119_truncation_nonvacuous : exists vs, plot_truncation_radius_histogram demo_heap (fun _ => Ok (mkPhys (Some 3) (Some 2))) demo true 0 3 = Ok vs.
Proof.
  destruct (plot_truncation_radius_histogram demo_heap (fun _ => Ok (mkPhys (Some 3) (Some 2))) demo true 0 3) as [vs|e] eqn:E; [eauto|exfalso].
  destruct (C119_truncation demo_heap (fun _ => Ok (mkPhys (Some 3) (Some 2))) demo true 0 3) as [[H _] _].
  destruct (H (ex_intro _ e E)) as (r & _ & _ & N). apply (N 3 2). reflexivity.
Qed.
Example C119_mean_nonvacuous : multiplane_image [[1; 2]; [3; 6]] true = [[1 - 3; 2 - 3]; [3 - 3; 6 - 3]].
Proof. unfold multiplane_image, rmean. cbn. repeat f_equal; field. Qed.
Example C119_pixels_nonvacuous : drawn_at 3 3 0 = -1 /\ nth 0 (np_linspace (- 3 / 2) (3 / 2) 3) 0 = -1.5.
Proof. unfold drawn_at. cbn. lra. Qed.

Print Assumptions C119_bound_mass.
Print Assumptions C119_truncation.
Print Assumptions C119_mean.
Print Assumptions C119_pixels.
Print Assumptions C119_pixels_refuted.
