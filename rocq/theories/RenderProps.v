(** C35 (rendered arrays) and C36 (convergence sheets). *)
From Verif Require Import Prelude RealizationSpec RealizationProofs MassFnModel SpaceModel RenderModel RenderSpec RenderProofs RenderProofs2.
From Coq Require Import String.
Open Scope string_scope.
Open Scope R_scope.

(** A concrete set-up used to show that the hypotheses below can be met: two planes, a lens at 0.5, a source at 2;
    the mass functions return fixed masses. *)
Definition demo_env : renv :=
  {| re_zlens := 0.5; re_zsource := 2; re_cone := 6; re_kpc := fun _ => Ok 5; re_scale := fun _ => 1; re_area := fun _ => 1;
     re_sigma_crit_mass := fun _ a => 100 * a; re_DC := fun z => 4000 * z; re_twohalo := fun _ _ _ => 1; re_r200 := fun _ => 1;
     re_quad := fun f a b => f a * (b - a) |}.
Definition demo_los : los_class := fun z dz lo hi norm p =>
  {| mf_draw := fun i => Ok (repeat (Rpower 10 lo) (2 - i)); mf_first_moment := norm * 10 |}.
Definition demo_sub : sub_class := fun lo hi ind p norm => {| mf_draw := fun i => Ok [1; 2]; mf_first_moment := 7 |}.
Definition demo_loskw : los_kwargs :=
  {| lk_log_mlow := Some (MNum 6); lk_log_mhigh := Some (MNum 10); lk_norm := Some (MNum 1); lk_host_m200 := None;
     lk_log_m_host := Some 13; lk_poisson := None |}.
Definition demo_subkw : sub_kwargs :=
  {| sk_log_mlow := MNum 6; sk_log_mhigh := MNum 10; sk_power_law_index := -1.9; sk_delta_power_law_index := 0;
     sk_m_pivot := 1; sk_sigma_sub := None; sk_dndA := Some 1; sk_host_m200 := None; sk_log_m_host := None;
     sk_host_scaling_factor := None; sk_redshift_scaling_factor := None; sk_draw_poisson := None |}.
Definition demo_args (s : sp_kind) : pop_args :=
  {| pa_from_redshift := demo_los; pa_construct := demo_sub; pa_los := demo_loskw; pa_sub := demo_subkw;
     pa_spatial := {| sp_what := s; sp_devs := fun _ _ => (0.5, 0.5, 0.5) |} |}.

(** C35: every successful rendering of a list of populations returns the six columns of one table, which is the
    concatenation of one block per population in the given order; each block has exactly the masses its mass
    function drew, the right redshifts (plane by plane along the line of sight, the lens redshift otherwise), the
    flag True exactly for SUBHALOS, and positions inside the rendering region. *)
Theorem C35_rendered : forall e planes dzs lazar scale2 names args out,
  render_population e planes dzs lazar scale2 names args = Ok out ->
  (List.length names <= List.length args)%nat /\
  exists blocks,
    columns out (List.concat blocks) /\
    Forall2 (population_rows e (zipped planes dzs)) (combine names args) blocks.
Proof.
  intros * H. unfold render_population in H. binds.
  apply (population_rows_all _ _ _ _ _ _ _ _ _ [] _ H0 H). repeat split.
Qed.

(** C35: consequently the six arrays always have equal length. *)
Theorem C35_equal_lengths : forall e planes dzs lazar scale2 names args out,
  render_population e planes dzs lazar scale2 names args = Ok out ->
  let n := List.length (a_m out) in
  List.length (a_x out) = n /\ List.length (a_y out) = n /\ List.length (a_r3d out) = n /\
  List.length (a_z out) = n /\ List.length (a_sub out) = n.
Proof.
  intros * H. destruct (C35_rendered _ _ _ _ _ _ _ _ H) as (_ & bl & (A1 & A2 & A3 & A4 & A5 & A6) & _).
  cbn zeta. rewrite A1, A2, A3, A4, A5, A6, !map_length. repeat split.
Qed.

Lemma Forall2_In_r {A B} (P : A -> B -> Prop) l l' b : Forall2 P l l' -> In b l' -> exists a, In a l /\ P a b.
Proof.
  induction 1 as [|x y l l' H HF IH]; [intros []|]. intros [<-|Hb]; [exists x; auto with datatypes|].
  destruct (IH Hb) as (a & ? & ?). exists a. auto with datatypes.
Qed.
Lemma los_rows_field a planes rows r : los_rows a planes rows -> In r rows -> (exists z, In z (map fst planes) /\ field_at z r).
Proof.
  intros (bl & -> & HL & HB) Hr. apply in_concat in Hr as (blk & Hb & Hr). apply In_nth_error in Hb as (j & Hj).
  destruct (nth_error planes j) as [[z dz]|] eqn:EJ.
  - destruct (HB j z dz blk EJ Hj) as (_ & _ & _ & _ & _ & _ & _ & F). exists z. split.
    + apply nth_error_In in EJ. apply (in_map fst) in EJ. exact EJ.
    + rewrite Forall_forall in F. now apply F.
  - apply nth_error_None in EJ. assert (j < List.length bl)%nat by (apply nth_error_Some; congruence). lia.
Qed.
(** C35: the flags count the subhalos: every object of a flagged block comes from a SUBHALOS population, and every
    redshift is the lens redshift or a plane redshift. *)
Theorem C35_redshifts_and_flags : forall e planes dzs lazar scale2 names args out,
  render_population e planes dzs lazar scale2 names args = Ok out ->
  (forall z, In z (a_z out) -> z = re_zlens e \/ In z (map fst (zipped planes dzs))) /\
  (~ In "SUBHALOS" names -> Forall (fun b => b = false) (a_sub out)) /\
  ((forall n, In n names -> n = "SUBHALOS") -> Forall (fun b => b = true) (a_sub out)).
Proof.
  intros * H. destruct (C35_rendered _ _ _ _ _ _ _ _ H) as (HL & bl & (A1 & A2 & A3 & A4 & A5 & A6) & HF).
  assert (ROW : forall r, In r (List.concat bl) -> exists n a blk, In n names /\ In r blk /\ population_rows e (zipped planes dzs) (n, a) blk).
  { intros r Hr. apply in_concat in Hr as (blk & Hb & Hr). destruct (Forall2_In_r _ _ _ _ HF Hb) as ([n a] & Hna & P).
    exists n, a, blk. split; [eapply in_combine_l; eauto|auto]. }
  split; [|split].
  - intros z Hz. rewrite A5 in Hz. apply in_map_iff in Hz as (r & <- & Hr).
    destruct (ROW r Hr) as (n & a & blk & Hn & Hrb & [[[_ P]|[[_ P]|[_ P]]] _]); cbn [fst snd] in P.
    + destruct (los_rows_field _ _ _ _ P Hrb) as (z & Hz & (Z & _)). right. now rewrite Z.
    + destruct P as (? & ? & _ & F). rewrite Forall_forall in F. left. now apply F.
    + destruct P as (? & ? & ? & ? & _ & _ & _ & F). rewrite Forall_forall in F. left. now apply (F r).
  - intros NS. rewrite A6. apply Forall_map, Forall_forall. intros r Hr.
    destruct (ROW r Hr) as (n & a & blk & Hn & Hrb & [[[_ P]|[[E P]|[_ P]]] _]); cbn [fst snd] in *.
    + destruct (los_rows_field _ _ _ _ P Hrb) as (z & Hz & (_ & S & _)). exact S.
    + subst n. contradiction.
    + destruct P as (? & ? & ? & ? & _ & _ & _ & F). rewrite Forall_forall in F. now apply (F r).
  - intros AS. rewrite A6. apply Forall_map, Forall_forall. intros r Hr.
    destruct (ROW r Hr) as (n & a & blk & Hn & Hrb & [[[E P]|[[E P]|[E P]]] _]); cbn [fst snd] in *.
    + rewrite (AS n Hn) in E. destruct E; discriminate.
    + destruct P as (? & ? & _ & F). rewrite Forall_forall in F. now apply (F r).
    + rewrite (AS n Hn) in E. discriminate.
Qed.

(** Non-vacuity: three populations, two planes (2 and 1 objects), two subhalos and two two-halo objects. *)
Example C35_nonvacuous : exists out,
  render_population demo_env (Some [0.4; 0.5]) (Some [0.1; 0.1]) false 1 ["LINE_OF_SIGHT"; "SUBHALOS"; "TWO_HALO"]
    [demo_args (SpCone 6); demo_args (SpUniform 3); demo_args (SpCone 6)] = Ok out /\
  a_z out = [0.4; 0.4; 0.5; 0.5; 0.5; 0.5; 0.5] /\ a_sub out = [false; false; false; true; true; false; false] /\
  good_draws demo_env (pa_spatial (demo_args (SpCone 6))).
Proof.
  unfold render_population, population_init, mk_model. cbn [String.eqb Ascii.eqb Bool.eqb bind].
  unfold two_halo_init. cbn [demo_args pa_los demo_loskw lk_host_m200 lk_log_m_host bind map re_zlens demo_env np_argmin argmin_from].
  replace (Rltb (Rabs (0.5 - 0.5)) (Rabs (0.4 - 0.5))) with true.
  2:{ symmetry. apply Rltb_true. replace (0.5 - 0.5) with 0 by lra. rewrite Rabs_R0. apply Rabs_pos_lt. lra. }
  cbn [bind nth_error lk_norm demo_loskw].
  unfold two_halo_enhancement_factor. cbn [re_DC demo_env].
  replace (Rmin (4000 * (0.5 + 0.1) - 4000 * 0.5) 0.5) with 0.5 by (rewrite Rmin_right; lra).
  replace (Reqb (4000 * (0.5 + 0.1) - 4000 * 0.5 - 0.5) 0) with false by (symmetry; apply Reqb_false; lra).
  eexists. split; [reflexivity|]. split; [reflexivity|]. split; [reflexivity|].
  split; [intros; cbn; lra|]. intros z k [= <-]. lra.
Qed.

Example C35_nfw_nonvacuous : nfw_ok (pa_spatial (demo_args (SpNfw 3 50 5 (fun r => 1 / (1 + r)) (fun r => 1 / (1 + r))))) 3 50 5 (fun r => 1 / (1 + r)) (fun r => 1 / (1 + r)).
Proof. unfold nfw_ok. cbn. repeat split; try lra; intros; apply Rdiv_lt_0_compat; lra. Qed.
(** C35: an unknown population name makes the constructor raise, whatever follows it. *)
Theorem C35_unknown_name : forall e planes dzs lazar scale2 pre name post args,
  ~ known_population name -> (List.length pre < List.length args)%nat ->
  exists err, render_population e planes dzs lazar scale2 (app pre (name :: post)) args = Err err /\
    ((forall n, In n pre -> known_population n /\ n <> "TWO_HALO") -> err = EException).
Proof.
  intros * HU. assert (MK : forall a, mk_model e planes dzs lazar scale2 name a = Err EException).
  { intros a. unfold mk_model. unfold known_population in HU.
    destruct (String.eqb_spec name "LINE_OF_SIGHT"); [tauto|]. destruct (String.eqb_spec name "LINE_OF_SIGHT_NOSHEET"); [tauto|].
    destruct (String.eqb_spec name "SUBHALOS"); [tauto|]. destruct (String.eqb_spec name "TWO_HALO"); [tauto|reflexivity]. }
  intros HL. unfold render_population.
  enough (X : exists err, population_init e planes dzs lazar scale2 (app pre (name :: post)) args = Err err /\
            ((forall n, In n pre -> known_population n /\ n <> "TWO_HALO") -> err = EException)).
  { destruct X as (err & -> & ?). exists err. auto. }
  revert args HL. induction pre as [|n ns IH]; intros [|a rest] HL; cbn in HL; try lia; cbn [app population_init].
  - rewrite MK. exists EException. auto.
  - destruct (mk_model e planes dzs lazar scale2 n a) as [m|er] eqn:EM; cbn [bind].
    + destruct (IH rest ltac:(lia)) as (err & -> & HE). cbn [bind]. exists err. split; [reflexivity|].
      intros HP. apply HE. intros n' Hn'. apply HP. now right.
    + exists er. split; [reflexivity|]. intros HP. destruct (HP n (or_introl eq_refl)) as [K NT]. exfalso.
      unfold mk_model in EM. unfold known_population in K.
      destruct (String.eqb_spec n "LINE_OF_SIGHT"); [discriminate|]. destruct (String.eqb_spec n "LINE_OF_SIGHT_NOSHEET"); [discriminate|].
      destruct (String.eqb_spec n "SUBHALOS"); [discriminate|]. tauto.
Qed.
Example C35_unknown_name_nonvacuous : ~ known_population "HALOS" /\
  render_population demo_env (Some [0.4]) (Some [0.1]) false 1 ["LINE_OF_SIGHT"; "HALOS"] [demo_args (SpCone 6); demo_args (SpCone 6)] = Err EException.
Proof. split; [unfold known_population; intros [E|[E|[E|E]]]; discriminate|reflexivity]. Qed.

(** C35, refuted expectation: the [name] attributes of two of the classes themselves ('LINE_OF_SIGHT_NO_SHEET' of
    LineOfSightNoSheet, 'TWO_HALO_TERM' of TwoHaloContribution) are not accepted as population names. *)
Theorem C35_class_names_refuted : forall e planes dzs lazar scale2 a rest name,
  name = "LINE_OF_SIGHT_NO_SHEET" \/ name = "TWO_HALO_TERM" ->
  render_population e planes dzs lazar scale2 [name] (a :: rest) = Err EException.
Proof. intros * [->| ->]; reflexivity. Qed.

(** C35: fewer mass-function/spatial entries than names is an IndexError (when the earlier populations are valid);
    surplus entries are ignored. *)
Theorem C35_list_lengths : forall e planes dzs lazar scale2 names args,
  ((forall n, In n names -> known_population n /\ n <> "TWO_HALO") -> (List.length args < List.length names)%nat ->
     render_population e planes dzs lazar scale2 names args = Err EIndexError) /\
  (forall extra, (List.length names <= List.length args)%nat ->
     render_population e planes dzs lazar scale2 names (app args extra) = render_population e planes dzs lazar scale2 names args).
Proof.
  intros *. unfold render_population. split.
  - intros HP HL. enough (population_init e planes dzs lazar scale2 names args = Err EIndexError) as -> by reflexivity.
    revert args HL. induction names as [|n ns IH]; intros [|a rest] HL; cbn in HL; try lia; cbn [population_init]; [reflexivity|].
    destruct (mk_model e planes dzs lazar scale2 n a) as [m|er] eqn:EM; cbn [bind].
    + rewrite IH; [reflexivity| |lia]. intros n' Hn'. apply HP. now right.
    + destruct (HP n (or_introl eq_refl)) as [K NT]. exfalso. unfold mk_model in EM. unfold known_population in K.
      destruct (String.eqb_spec n "LINE_OF_SIGHT"); [discriminate|]. destruct (String.eqb_spec n "LINE_OF_SIGHT_NOSHEET"); [discriminate|].
      destruct (String.eqb_spec n "SUBHALOS"); [discriminate|]. tauto.
  - intros extra HL. f_equal. revert args HL.
    induction names as [|n ns IH]; intros [|a rest] HL; cbn in HL; try lia; cbn [population_init app]; try reflexivity.
    destruct (mk_model _ _ _ _ _ _ _); cbn [bind]; [|reflexivity]. now rewrite IH by lia.
Qed.
Example C35_list_lengths_nonvacuous :
  (forall n, In n ["SUBHALOS"; "LINE_OF_SIGHT"] -> known_population n /\ n <> "TWO_HALO") /\
  (List.length [demo_args (SpUniform 3)] < List.length ["SUBHALOS"; "LINE_OF_SIGHT"])%nat.
Proof.
  split; [|cbn; lia]. unfold known_population. intros n [<-|[<-|[]]]; (split; [tauto|discriminate]).
Qed.

(** C35: a line-of-sight population with the three-dimensional (NFW) distribution raises as soon as there is a plane. *)
Theorem C35_los_with_nfw : forall e a z dz zs ds lo hi norm m,
  (exists r2 r3 k f g, sp_what (pa_spatial a) = SpNfw r2 r3 k f g) ->
  lk_log_mlow (pa_los a) = Some lo -> lk_log_mhigh (pa_los a) = Some hi -> lk_norm (pa_los a) = Some norm ->
  mf_draw (pa_from_redshift a z dz (at_redshift z lo) (at_redshift z hi) (at_redshift z norm) (poisson_default (lk_poisson (pa_los a)))) 0 = Ok m ->
  forall lazar scale2, render_population e (Some (z :: zs)) (Some (dz :: ds)) lazar scale2 ["LINE_OF_SIGHT"] [a] = Err EValueError.
Proof.
  intros * (r2 & r3 & k & f & g & ES) EL EH EN ED lazar scale2. unfold render_population. cbn.
  unfold los_mass_fn; cbn [orelse los_init lk_log_mlow lk_log_mhigh lk_norm lk_poisson]. rewrite EL, EH, EN. cbn [need bind].
  assert (EP : need match lk_poisson (pa_los a) with Some b => Some b | None => Some true end = Ok (poisson_default (lk_poisson (pa_los a)))) by (destruct (lk_poisson (pa_los a)); reflexivity).
  rewrite EP. cbn [bind]. change (eval_mlimit z lo) with (at_redshift z lo). change (eval_mlimit z hi) with (at_redshift z hi).
  change (eval_mlimit z norm) with (at_redshift z norm). rewrite ED. cbn [bind]. unfold render_xy, draw_xy. rewrite ES. reflexivity.
Qed.
Example C35_los_with_nfw_nonvacuous :
  (exists r2 r3 k f g, sp_what (pa_spatial (demo_args (SpNfw 3 100 5 (fun _ => 1) (fun _ => 1)))) = SpNfw r2 r3 k f g) /\
  exists m, mf_draw (demo_los 0.4 0.1 6 10 1 true) 0 = Ok m.
Proof. split; [repeat eexists|eexists; reflexivity]. Qed.

(** *** C36 *)
(** Sheets returned by the population called [name]. *)
Definition sheets_of e planes dzs lazar scale2 name a scale lo hi zmin zmax use_class : result sheets :=
  do m <- mk_model e planes dzs lazar scale2 name a; model_sheets e planes dzs m scale lo hi zmin zmax use_class.

(** C36: a LINE_OF_SIGHT population returns one sheet for every plane inside [zmin, zmax] (by default [0, z_source])
    whose mean convergence is positive; the three lists are aligned and the sheet is minus scale times the
    convergence first_moment/sigma_crit_mass(z, area). *)
Theorem C36_los_sheets : forall e zs ds lazar scale2 a scale lo hi zmin zmax norm,
  lk_norm (pa_los a) = Some norm ->
  let kappa q := mf_first_moment (pa_from_redshift a (fst q) (snd q) (at_redshift (fst q) lo) (at_redshift (fst q) hi)
                    (at_redshift (fst q) norm) (poisson_default (lk_poisson (pa_los a))))
                 / re_sigma_crit_mass e (fst q) (re_area e (fst q)) in
  exists sel,
    kept (fun q => match zmin with Some v => v | None => 0 end <= fst q <= match zmax with Some v => v | None => re_zsource e end
                   /\ 0 < kappa q) (combine zs ds) sel /\
    sheets_of e (Some zs) (Some ds) lazar scale2 "LINE_OF_SIGHT" a scale lo hi zmin zmax false =
      Ok (map (fun q => - scale * kappa q) sel, repeat "CONVERGENCE" (List.length sel), map fst sel).
Proof.
  intros * EN kappa. unfold sheets_of, mk_model. cbn [String.eqb Ascii.eqb Bool.eqb bind model_sheets]. unfold los_sheets. cbn [bind fst snd].
  apply (sheet_loop_ok e (pa_from_redshift a) (los_init (pa_los a)) scale lo hi _ _ norm (poisson_default (lk_poisson (pa_los a)))).
  - exact EN.
  - cbn. destruct (lk_poisson (pa_los a)); reflexivity.
Qed.

(** C36: use_class_mass_ranges replaces the range by the one of the population. *)
Theorem C36_class_range : forall e planes dzs lazar scale2 a scale lo hi lo' hi' zmin zmax,
  (lk_log_mlow (pa_los a) = Some lo' -> lk_log_mhigh (pa_los a) = Some hi' ->
   sheets_of e planes dzs lazar scale2 "LINE_OF_SIGHT" a scale lo hi zmin zmax true =
   sheets_of e planes dzs lazar scale2 "LINE_OF_SIGHT" a scale lo' hi' zmin zmax false) /\
  sheets_of e planes dzs lazar scale2 "SUBHALOS" a scale lo hi zmin zmax true =
  sheets_of e planes dzs lazar scale2 "SUBHALOS" a scale (sk_log_mlow (pa_sub a)) (sk_log_mhigh (pa_sub a)) zmin zmax false.
Proof.
  intros *. split; [|reflexivity]. intros E1 E2. unfold sheets_of, mk_model. cbn [String.eqb Ascii.eqb Bool.eqb bind model_sheets].
  unfold los_sheets. cbn [los_init lk_log_mlow lk_log_mhigh]. rewrite E1, E2. reflexivity.
Qed.

(** C36: for a non-negative scale no line-of-sight sheet is positive (negative for a positive scale). *)
Theorem C36_los_sign : forall e planes dzs lazar scale2 a scale lo hi zmin zmax use ks ns zs,
  sheets_of e planes dzs lazar scale2 "LINE_OF_SIGHT" a scale lo hi zmin zmax use = Ok (ks, ns, zs) ->
  List.length ns = List.length ks /\ List.length zs = List.length ks /\
  (0 <= scale -> Forall (fun k => k <= 0) ks) /\ (0 < scale -> Forall (fun k => k < 0) ks).
Proof.
  intros * H. unfold sheets_of, mk_model in H. cbn [String.eqb Ascii.eqb Bool.eqb bind model_sheets] in H. unfold los_sheets in H. binds.
  destruct planes as [pz|], dzs as [dz|]; try discriminate. clear H0. revert ks ns zs H.
  generalize (match zmin with Some z => z | None => 0 end), (match zmax with Some z => z | None => re_zsource e end).
  intros z0 z1. induction (combine pz dz) as [|[z d] t IH]; intros ks ns zs H; cbn [sheet_loop] in H.
  - injection H as <- <- <-. repeat split; constructor.
  - destruct (Rltb z z0); [now apply IH|]. destruct (Rltb z1 z); [now apply IH|]. binds. destruct x1 as [[ks' ns'] zs'].
    destruct (IH _ _ _ H1) as (A & B & C & D). destruct (Rltb 0 _) eqn:E; [|injection H as <- <- <-; auto].
    apply Rltb_true in E. injection H as <- <- <-. split; [cbn; congruence|]. split; [cbn; congruence|].
    split; intros S; constructor; auto; nra.
Qed.

Lemma demo_kappa z dz lo hi : mf_first_moment (demo_los z dz lo hi 1 true) / re_sigma_crit_mass demo_env z (re_area demo_env z) = 0.1.
Proof. cbn. lra. Qed.
Example C36_los_sheets_nonvacuous : exists ks ns,
  sheets_of demo_env (Some [0.4; 0.5; 2.5]) (Some [0.1; 0.1; 0.1]) false 1 "LINE_OF_SIGHT" (demo_args (SpCone 6)) 1 (MNum 7) (MNum 10)
    None None false = Ok (ks, ns, [0.4; 0.5]) /\ ks = [-1 * 0.1; -1 * 0.1].
Proof.
  destruct (C36_los_sheets demo_env [0.4; 0.5; 2.5] [0.1; 0.1; 0.1] false 1 (demo_args (SpCone 6)) 1 (MNum 7) (MNum 10) None None (MNum 1) eq_refl) as (sel & HK & ->).
  cbn in HK. assert (E : sel = [(0.4, 0.1); (0.5, 0.1)]).
  { eapply kept_fun; [exact HK|]. apply kept_take; [cbn; lra|]. apply kept_take; [cbn; lra|]. apply kept_drop; [cbn; lra|]. constructor. }
  subst sel. do 2 eexists. split; [reflexivity|]. cbn. repeat (f_equal; try lra).
Qed.

(** C36: a SUBHALOS population returns no sheet exactly when the first moment of its mass function is zero, and
    otherwise one sheet at the lens redshift. *)
Theorem C36_sub_sheet : forall e planes dzs lazar scale2 a scale lo hi zmin zmax kpc d,
  re_kpc e (re_zlens e) = Ok kpc -> sk_sigma_sub (pa_sub a) = None -> sk_dndA (pa_sub a) = Some d ->
  exists index norm,
    let M := mf_first_moment (pa_construct a (at_redshift (re_zlens e) lo) (at_redshift (re_zlens e) hi) index
                                (poisson_default (sk_draw_poisson (pa_sub a))) norm) in
    let out := sheets_of e planes dzs lazar scale2 "SUBHALOS" a scale lo hi zmin zmax false in
    (out = Ok ([], [], []) <-> M = 0) /\
    (M <> 0 -> out = Ok ([- scale * (M / re_sigma_crit_mass e (re_zlens e) (re_area e (re_zlens e)))], ["CONVERGENCE"], [re_zlens e])).
Proof.
  intros * EK ES ED. unfold sheets_of, mk_model. cbn [String.eqb Ascii.eqb Bool.eqb bind model_sheets]. unfold sub_sheets, sub_mass_fn. rewrite EK. cbn [bind].
  unfold sub_mass_function_args. cbn [sub_init sk_sigma_sub sk_dndA sk_draw_poisson]. rewrite ES, ED. cbn [bind].
  set (norm := _ * _). set (index := _ + _).
  assert (EP : need match sk_draw_poisson (pa_sub a) with Some b => Some b | None => Some true end = Ok (poisson_default (sk_draw_poisson (pa_sub a)))) by (destruct (sk_draw_poisson (pa_sub a)); reflexivity).
  rewrite EP. cbn [bind]. exists index, norm. cbn zeta.
  change (eval_mlimit (re_zlens e) lo) with (at_redshift (re_zlens e) lo). change (eval_mlimit (re_zlens e) hi) with (at_redshift (re_zlens e) hi).
  set (M := mf_first_moment _). destruct (Reqb M 0) eqn:E.
  - apply Reqb_true in E. split; [tauto|congruence].
  - apply Reqb_false in E. split; [split; [discriminate|congruence]|]. intros _. repeat f_equal. lra.
Qed.
Example C36_sub_sheet_nonvacuous :
  re_kpc demo_env (re_zlens demo_env) = Ok 5 /\ sk_sigma_sub demo_subkw = None /\ sk_dndA demo_subkw = Some 1.
Proof. repeat split. Qed.

(** C36: populations without a sheet correction. *)
Theorem C36_no_sheets : forall e planes dzs lazar scale2 name a scale lo hi zmin zmax use r,
  name = "LINE_OF_SIGHT_NOSHEET" \/ name = "TWO_HALO" ->
  sheets_of e planes dzs lazar scale2 name a scale lo hi zmin zmax use = Ok r -> r = ([], [], []).
Proof.
  intros * [->| ->] H; unfold sheets_of, mk_model in H; cbn [String.eqb Ascii.eqb Bool.eqb bind model_sheets] in H.
  - now injection H as <-.
  - binds. injection H0 as <-. now injection H as <-.
Qed.
Example C36_no_sheets_nonvacuous : exists r,
  sheets_of demo_env (Some [0.4]) (Some [0.1]) false 1 "LINE_OF_SIGHT_NOSHEET" (demo_args (SpCone 6)) 1 (MNum 7) (MNum 10) None None true = Ok r.
Proof. eexists; reflexivity. Qed.

(** C36, refuted: "the sheet removes the mass added in halos".  With a delta-function mass function the first moment is
    the mass of ONE object (delta_function.py 26): the sheet does not depend on how many objects are rendered, and it
    is negative even when the mass fraction, and hence the expected number of objects, is zero. *)
Definition delta_class (rho_dm volume f logM : R) (count : nat) : los_class := fun z dz lo hi norm p =>
  let d := delta_from_redshift rho_dm volume norm f (pow10 logM) p in
  {| mf_draw := fun _ => df_draw d count; mf_first_moment := df_first_moment d |}.
Theorem C36_delta_sheet_refuted : forall rho_dm volume logM count z, 0 <= z <= 2 ->
  let a := {| pa_from_redshift := delta_class rho_dm volume 0 logM count; pa_construct := demo_sub; pa_los := demo_loskw; pa_sub := demo_subkw;
              pa_spatial := {| sp_what := SpCone 6; sp_devs := fun _ _ => (0.5, 0.5, 0.5) |} |} in
  (exists out, render_population demo_env (Some [z]) (Some [0.1]) false 1 ["LINE_OF_SIGHT"] [a] = Ok out /\ a_m out = []) /\
  exists k ns, sheets_of demo_env (Some [z]) (Some [0.1]) false 1 "LINE_OF_SIGHT" a 1 (MNum 6) (MNum 10) None None false = Ok ([k], ns, [z]) /\ k < 0.
Proof.
  intros rho vol logM count z Hz a. assert (P10 : 0 < pow10 logM) by apply exp_pos. split.
  - unfold render_population, population_init, mk_model. cbn [String.eqb Ascii.eqb Bool.eqb bind]. cbn. unfold delta_class, df_draw. cbn.
    unfold np_poisson. replace (1 * 0 * rho * vol / pow10 logM) with 0 by (field; lra).
    replace (Rltb 0 0) with false by (symmetry; apply Rltb_false; lra). replace (Reqb 0 0) with true by (symmetry; now apply Reqb_true).
    cbn. eexists; split; reflexivity.
  - destruct (C36_los_sheets demo_env [z] [0.1] false 1 a 1 (MNum 6) (MNum 10) None None (MNum 1) eq_refl) as (sel & HK & ->).
    cbn in HK. assert (E : sel = [(z, 0.1)]).
    { eapply kept_fun; [exact HK|]. apply kept_take; [cbn; split; [lra|]|constructor]. apply Rdiv_lt_0_compat; lra. }
    subst sel. do 2 eexists. split; [reflexivity|]. cbn. assert (0 < pow10 logM / (100 * 1)) by (apply Rdiv_lt_0_compat; lra). lra.
Qed.

Print Assumptions C35_rendered.
Print Assumptions C35_equal_lengths.
Print Assumptions C35_redshifts_and_flags.
Print Assumptions C35_unknown_name.
Print Assumptions C35_class_names_refuted.
Print Assumptions C35_list_lengths.
Print Assumptions C35_los_with_nfw.
Print Assumptions C36_los_sheets.
Print Assumptions C36_class_range.
Print Assumptions C36_los_sign.
Print Assumptions C36_sub_sheet.
Print Assumptions C36_no_sheets.
Print Assumptions C36_delta_sheet_refuted.
