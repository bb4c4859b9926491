(** C99: views of a realization: comoving coordinates, one-halo realizations and the multi-plane convergence map. *)
From Verif Require Import Prelude RealizationModel LoaderModel SpaceModel ViewModel.
From Verif Require RealizationProps.

(** ** Specification *)
(** radians per arcsec *)
Definition arcsec : R := PI / 180 / 3600.
(** the documented quantity: comoving transverse position, distance times angle in radians *)
Definition comoving_position (DC : R -> R) (z angle_arcsec : R) : R := DC z * (angle_arcsec * arcsec).
(** the same lens model without the halos / aligned lists *)
Definition aligned (m : lensmodel) : Prop :=
  List.length (lm_names m) = List.length (lm_redshifts m) /\ List.length (lm_names m) = List.length (lm_kwargs m).
Definition entries (m : lensmodel) : list (string * R * kw) := combine (combine (lm_names m) (lm_redshifts m)) (lm_kwargs m).

(** ** Comoving coordinates *)
Lemma loop_spec DC hp hs : comoving_loop DC hp hs =
  (map (fun r => DC (h_z (hp r)) * h_x (hp r)) hs, map (fun r => DC (h_z (hp r)) * h_y (hp r)) hs, map (fun r => h_mass (hp r)) hs, map (fun r => h_z (hp r)) hs).
Proof. induction hs as [|r t IH]; simpl; auto. rewrite IH. reflexivity. Qed.

(** One entry per halo in each array, in the order of the halos; the fourth array is the redshift and ten to the third the mass. *)
Theorem C99_coordinates DC hp rz xs ys ms zs : (forall r, In r (rz_halos rz) -> 0 < h_mass (hp r)) ->
  halo_comoving_coordinates DC hp rz = (xs, ys, ms, zs) ->
  let n := List.length (rz_halos rz) in
  List.length xs = n /\ List.length ys = n /\ List.length ms = n /\ List.length zs = n /\
  forall i r, nth_error (rz_halos rz) i = Some r ->
    nth i zs 0 = h_z (hp r) /\ Rpower 10 (nth i ms 0) = h_mass (hp r) /\
    nth i xs 0 * arcsec = comoving_position DC (h_z (hp r)) (h_x (hp r)) /\ nth i ys 0 * arcsec = comoving_position DC (h_z (hp r)) (h_y (hp r)).
Proof.
  intros M. unfold halo_comoving_coordinates. rewrite loop_spec. intros E0. injection E0 as <- <- <- <-. cbv zeta. rewrite !map_length. repeat (split; [reflexivity|]). intros i r E.
  assert (L : (i < List.length (rz_halos rz))%nat) by (apply nth_error_Some; congruence).
  assert (N : nth i (rz_halos rz) 0%nat = r) by (apply nth_error_nth; auto).
  split; [|split; [|split]].
  - rewrite (nth_indep _ 0 (h_z (hp 0%nat))) by (rewrite map_length; auto). rewrite (map_nth (fun r => h_z (hp r))). rewrite N. auto.
  - rewrite map_map. rewrite (nth_indep _ 0 (log10 (h_mass (hp 0%nat)))) by (rewrite map_length; auto).
    rewrite (map_nth (fun r => log10 (h_mass (hp r)))). rewrite N. unfold log10, Rpower.
    assert (0 < ln 10) by (rewrite <- ln_1; apply ln_increasing; lra).
    replace (ln (h_mass (hp r)) / ln 10 * ln 10) with (ln (h_mass (hp r))) by (field; lra). apply exp_ln. apply M. rewrite <- N. apply nth_In; auto.
  - rewrite (nth_indep _ 0 (DC (h_z (hp 0%nat)) * h_x (hp 0%nat))) by (rewrite map_length; auto).
    rewrite (map_nth (fun r => DC (h_z (hp r)) * h_x (hp r))). rewrite N. unfold comoving_position. ring.
  - rewrite (nth_indep _ 0 (DC (h_z (hp 0%nat)) * h_y (hp 0%nat))) by (rewrite map_length; auto).
    rewrite (map_nth (fun r => DC (h_z (hp r)) * h_y (hp r))). rewrite N. unfold comoving_position. ring.
Qed.

Lemma arcsec_small : 0 < arcsec < 1.
Proof. unfold arcsec. pose proof PI_RGT_0. pose proof PI_4. lra. Qed.

(** The documented comoving positions are not what is returned: every off-centre halo is reported too far out, by the number of
    arcsec in a radian. *)
Theorem C99_coordinates_refuted DC hp rz xs ys ms zs i r : halo_comoving_coordinates DC hp rz = (xs, ys, ms, zs) ->
  nth_error (rz_halos rz) i = Some r -> 0 < DC (h_z (hp r)) -> h_x (hp r) <> 0 ->
  Rabs (nth i xs 0) = / arcsec * Rabs (comoving_position DC (h_z (hp r)) (h_x (hp r))) /\ nth i xs 0 <> comoving_position DC (h_z (hp r)) (h_x (hp r)).
Proof.
  unfold halo_comoving_coordinates. rewrite loop_spec. intros [= <- <- <- <-] E D X.
  assert (L : (i < List.length (rz_halos rz))%nat) by (apply nth_error_Some; congruence).
  assert (N : nth i (rz_halos rz) 0%nat = r) by (apply nth_error_nth; auto).
  rewrite (nth_indep _ 0 (DC (h_z (hp 0%nat)) * h_x (hp 0%nat))) by (rewrite map_length; auto).
  rewrite (map_nth (fun r => DC (h_z (hp r)) * h_x (hp r))). rewrite N. unfold comoving_position.
  pose proof arcsec_small as A. split.
  - rewrite !Rabs_mult, (Rabs_right arcsec) by lra. field. lra.
  - intros Q. assert (DC (h_z (hp r)) * h_x (hp r) * (1 - arcsec) = 0) by lra.
    apply Rmult_integral in H as [H|H]; [|lra]. apply Rmult_integral in H as [H|H]; lra.
Qed.

(** ** One-halo realizations *)
Theorem C99_single d w mdef tag hs : single_halo d w mdef tag = Ok hs ->
  exists h, hs = [h] /\ ld_mass h = w_mass w /\ ld_x h = w_x w /\ ld_y h = w_y w /\ ld_r3d h = w_r3d w /\ ld_z h = w_z w /\ ld_sub h = w_sub w /\
    ld_tag h = tag /\ 0 < w_z w /\ model_class mdef (w_sub w) = Ok (ld_class h).
Proof.
  unfold single_halo. simpl. unfold load_halo_model.
  destruct (pick_model "truncation_model" (w_sub w) d); simpl; [|discriminate].
  destruct (pick_model "concentration_model" (w_sub w) d); simpl; [|discriminate].
  destruct (ditem "kwargs_density_profile" d); simpl; [|discriminate].
  destruct (model_class mdef (w_sub w)) eqn:C; simpl; [|discriminate].
  destruct (Rltb 0 (w_z w)) eqn:Z; simpl; [|discriminate]. intros [= <-]. eexists. split; [reflexivity|]. apply Rltb_true in Z. simpl. repeat split; auto.
Qed.
(** The default for kwargs_halo_model never works, for any halo: it is the empty dictionary. *)
Theorem C99_single_default_refuted w mdef tag : single_halo [] w mdef tag = Err EKeyError.
Proof. unfold single_halo. simpl. unfold load_halo_model, pick_model. simpl. destruct (w_sub w); reflexivity. Qed.

(** ** The multi-plane convergence *)
Section Maps.
Variables (km : list string -> list R -> list kw -> R -> R -> R) (ks : list string -> list kw -> R -> R -> R) (zl : R).

(** With no macromodel given the typical one of two components at the lens redshift is used, whatever else is passed. *)
Theorem C99_default_macro lensed angle npix k z :
  multiplane_convergence km ks zl lensed angle npix None k z =
  multiplane_convergence km ks zl lensed angle npix (Some ["EPL"; "SHEAR"]%string) (Some default_kwargs) (Some [zl; zl]).
Proof. unfold multiplane_convergence. destruct lensed as [[a b] c]. reflexivity. Qed.

(** A macromodel needs its keywords and redshifts. *)
Theorem C99_macro_needed lensed angle npix n k z :
  multiplane_convergence km ks zl lensed angle npix (Some n) k z = Err ETypeError <-> (k = None \/ z = None).
Proof.
  unfold multiplane_convergence. destruct lensed as [[a b] c]. destruct z, k; simpl; split; intros H; auto; try discriminate; destruct H; discriminate.
Qed.

(** The full lens model is the macromodel followed by what the realization hands out, entry by entry, provided both are aligned. *)
Theorem C99_full nh zh kh angle npix n k z out : List.length n = List.length z -> List.length n = List.length k ->
  List.length nh = List.length zh -> List.length nh = List.length kh ->
  multiplane_convergence km ks zl (nh, zh, kh) angle npix (Some n) (Some k) (Some z) = Ok out ->
  aligned (mp_full out) /\ entries (mp_full out) = combine (combine n z) k ++ combine (combine nh zh) kh /\ mp_macro out = (n, k).
Proof.
  intros A B C D. unfold multiplane_convergence. intros [= <-]. unfold aligned, entries. simpl. rewrite !app_length. repeat split; try lia.
  assert (P : forall {X Y} (a a' : list X) (b b' : list Y), List.length a = List.length b -> combine (a ++ a') (b ++ b') = combine a b ++ combine a' b').
  { clear. induction a as [|x a IH]; intros a' [|y b] b' L; simpl in *; try discriminate; auto. f_equal. apply IH. lia. }
  rewrite P by auto. apply P. rewrite combine_length. lia.
Qed.

Lemma nth_linspace a b n i d : (i < n)%nat -> nth i (np_linspace a b n) d = a + INR i * ((b - a) / INR (n - 1)).
Proof.
  intros L. unfold np_linspace. rewrite (nth_indep _ d (a + INR 0 * ((b - a) / INR (n - 1)))) by (rewrite map_length, seq_length; auto).
  rewrite (map_nth (fun i => a + INR i * ((b - a) / INR (n - 1)))). rewrite seq_nth by auto. reflexivity.
Qed.

(** The map is square, and pixel (row i, column j) is the convergence added by the realization at the grid point
    (x_j, y_i); the grid covers the window of the given full width, ends included. *)
Theorem C99_map nh zh kh angle npix n k z out : (2 <= npix)%nat ->
  multiplane_convergence km ks zl (nh, zh, kh) angle npix (Some n) (Some k) (Some z) = Ok out ->
  List.length (mp_map out) = npix /\ (forall row, In row (mp_map out) -> List.length row = npix) /\
  let pos i := angle * (INR i / INR (npix - 1) - 1 / 2) in
  (forall i j, (i < npix)%nat -> (j < npix)%nat ->
    nth j (nth i (mp_map out) []) 0 =
    km (lm_names (mp_full out)) (lm_redshifts (mp_full out)) (lm_kwargs (mp_full out)) (pos j) (pos i) - ks n k (pos j) (pos i)) /\
  pos 0%nat = - angle / 2 /\ pos (npix - 1)%nat = angle / 2.
Proof.
  intros N. unfold multiplane_convergence. intros [= <-]. simpl mp_map. simpl mp_full.
  assert (NZ : INR (npix - 1) <> 0) by (apply not_0_INR; lia).
  split; [rewrite map_length; unfold np_linspace; rewrite map_length, seq_length; auto|].
  split. { intros row I. apply in_map_iff in I as (y & <- & _). rewrite map_length. unfold np_linspace. rewrite map_length, seq_length. auto. }
  set (pos := fun i : nat => angle * (INR i / INR (npix - 1) - 1 / 2)).
  split; [|split; [simpl; field; auto | field; auto]].
  intros i j Hi Hj.
  set (r := np_linspace (- angle / 2) (angle / 2) npix).
  assert (Lr : List.length r = npix) by (unfold r, np_linspace; rewrite map_length, seq_length; auto).
  set (f := fun x y : R => km (n ++ nh) (z ++ zh) (k ++ kh) x y - ks n k x y). change (nth j (nth i (map (fun y => map (fun x => f x y) r) r) []) 0 = f (pos j) (pos i)).
  rewrite (nth_indep _ [] (map (fun x => f x 0) r)) by (rewrite map_length, Lr; auto).
  rewrite (map_nth (fun y => map (fun x => f x y) r)).
  rewrite (nth_indep _ 0 (f 0 (nth i r 0))) by (rewrite map_length, Lr; auto).
  rewrite (map_nth (fun x => f x (nth i r 0))). unfold r. rewrite !nth_linspace by auto.
  f_equal; unfold pos; field; auto.
Qed.
End Maps.

(** The documentation says that each axis spans twice the window size; it spans it once. *)
Theorem C99_window_refuted : exists km ks zl lensed angle npix out, multiplane_convergence km ks zl lensed angle npix None None None = Ok out /\
  0 < angle /\ (2 <= npix)%nat /\ ~ (exists x, In x (np_linspace (- angle / 2) (angle / 2) npix) /\ x = angle) /\
  (forall x, In x (map (hd 0) (map (rev (A:=R)) (mp_map out))) -> x = angle / 2).
Proof.
  exists (fun _ _ _ x _ => x), (fun _ _ _ _ => 0), 0.5, ([], [], []), 2, 2%nat. eexists. split; [reflexivity|].
  split; [lra|]. split; [lia|]. split.
  - intros (x & I & ->). simpl in I. destruct I as [I|[I|[]]]; lra.
  - simpl. intros x [<-|[<-|[]]]; lra.
Qed.

(** ** The hypotheses are met *)
Definition demo_h1 := mkHalo 1000000 3 4 0.5 "TNFW" 1 false false None ["TNFW"%string] [[("Rs"%string, 1)]] None.
Definition demo_h2 := mkHalo 100 (-1) 2 0.25 "TNFW" 2 false false None ["NFW"%string] [[("Rs"%string, 2)]] None.
Definition demo_heap : heap := fun r => match r with 0%nat => demo_h1 | _ => demo_h2 end.
Definition demo_rz := from_halos demo_heap [0; 1]%nat false [] (fun _ => 0) (fun _ => 0).
Example C99_coordinates_nonvacuous : (forall r, In r (rz_halos demo_rz) -> 0 < h_mass (demo_heap r)) /\
  exists ms zs, halo_comoving_coordinates (fun z => 3000 * z) demo_heap demo_rz = ([3000 * 0.5 * 3; 3000 * 0.25 * -1], [3000 * 0.5 * 4; 3000 * 0.25 * 2], ms, zs).
Proof.
  split. { intros r [<-|[<-|[]]]; simpl; lra. } do 2 eexists. unfold halo_comoving_coordinates. simpl. reflexivity.
Qed.
Example C99_single_nonvacuous : exists h, single_halo [("truncation_model"%string, 1%Z); ("concentration_model"%string, 2%Z); ("kwargs_density_profile"%string, 3%Z)]
  (mkRow 100000 0.5 0.5 10 0.5 true) "TNFW" 7 = Ok [h] /\ ld_class h = "TNFWSubhalo"%string.
Proof. eexists. unfold single_halo. simpl. unfold load_halo_model. simpl. rewrite (proj2 (Rltb_true 0 0.5)) by lra. simpl. split; reflexivity. Qed.
Example C99_full_nonvacuous : exists out, multiplane_convergence (fun _ _ _ x y => x + y) (fun _ _ x y => x * y) 0.5 (["TNFW"%string], [0.3], [[("Rs"%string, 1)]]) 2.5 100
  (Some ["SIS"%string]) (Some [[("theta_E"%string, 1)]]) (Some [0.5]) = Ok out /\ List.length (mp_map out) = 100%nat.
Proof.
  eexists. split; [reflexivity|]. cbv beta iota delta [mp_map]. rewrite map_length. unfold np_linspace. rewrite map_length, seq_length. reflexivity.
Qed.

Print Assumptions C99_coordinates.
Print Assumptions C99_coordinates_refuted.
Print Assumptions C99_single.
Print Assumptions C99_single_default_refuted.
Print Assumptions C99_default_macro.
Print Assumptions C99_macro_needed.
Print Assumptions C99_full.
Print Assumptions C99_map.
Print Assumptions C99_window_refuted.
