(** C125: averaged over the random numbers, the halos rendered at a plane along the line of sight and the sheet of
    negative convergence of that plane cancel exactly (cold and warm dark matter, sheets over the rendered mass range); the same for subhalos. *)
From Verif Require Import Prelude RealizationSpec RealizationProofs MassFnModel MassFnSpec MassFnProofs MassFnProofs2 MassFnProps
  SpaceModel RenderModel RenderSpec RenderProofs RenderProofs2 RenderProps MeanMassProps.
From Coq Require Import String.
From Coquelicot Require Import Coquelicot.
Open Scope string_scope.
Open Scope R_scope.

(** ** Specification *)

(** Sum of the values whose redshift is [z]. *)
Definition sum_at (z : R) (values redshifts : list R) : R :=
  rsum (map (fun q => if Req_EM_T (snd q) z then fst q else 0) (combine values redshifts)).
(** Total mass rendered at redshift [z]. *)
Definition mass_at (z : R) (r : result arrays) : R :=
  match r with Ok out => sum_at z (a_m out) (a_z out) | Err _ => 0 end.
(** Total convergence of the sheets at redshift [z]. *)
Definition sheet_at (z : R) (r : result sheets) : R :=
  match r with Ok (ks, _, zs) => sum_at z ks zs | Err _ => 0 end.
(** The sequence [f] with entry [i] replaced. *)
Definition replace_at {A} (f : nat -> A) (i : nat) (v : A) : nat -> A := fun j => if Nat.eqb i j then v else f j.

(** The class ShethTormen as a population uses it (density_peaks.py 38-59, mass_function_base.py 13-60): plane [i]
    consumes the Poisson count [counts i] and the uniform numbers [uniforms i]. [dn z] is colossus' dndlnM at z,
    [vol z dz] the comoving volume of the plane. *)
Definition st_class (dn : R -> R -> R) (h : R) (vol : R -> R -> R) (pivot delta : R)
    (counts : nat -> nat) (uniforms : nat -> nat -> R) : los_class :=
  fun z dz lo hi norm poisson =>
    let p := sheth_tormen (dn z) h (vol z dz) pivot lo hi delta norm poisson in
    {| mf_draw := fun i => pl_draw p (counts i) (uniforms i); mf_first_moment := pl_first_moment p |}.
(** The same population with another mass-function class. *)
Definition with_class (a : pop_args) (cls : los_class) : pop_args :=
  {| pa_from_redshift := cls; pa_construct := pa_construct a; pa_los := pa_los a; pa_sub := pa_sub a; pa_spatial := pa_spatial a |}.

(** ** Lemmas *)
Lemma sum_at_app z a b c d : List.length a = List.length c -> sum_at z (app a b) (app c d) = sum_at z a c + sum_at z b d.
Proof.
  revert c. induction a as [|x a IH]; intros [|y c] H; cbn in H; try discriminate; unfold sum_at in *; cbn; [ring|].
  rewrite IH by lia. ring.
Qed.
Lemma sum_at_repeat z z' m : sum_at z m (repeat z' (List.length m)) = if Req_EM_T z' z then rsum m else 0.
Proof.
  unfold sum_at. induction m as [|x m IH]; cbn; [destruct (Req_EM_T z' z); reflexivity|]. rewrite IH.
  destruct (Req_EM_T z' z); ring.
Qed.
Lemma render_xy_ok e sp i n z : (exists k, re_kpc e z = Ok k) ->
  match sp_what sp with SpNfw _ _ _ _ _ => False | _ => True end -> exists p, render_xy e sp i n z = Ok p.
Proof.
  intros [k Hk] HS. unfold render_xy, draw_xy, render_positions, lens_cone_draw, uniform_draw.
  destruct (sp_what sp); [| |contradiction]; destruct (map _ (seq 0 n)) as [|d t]; cbn; rewrite ?Hk; cbn; eauto.
Qed.

(** Contribution of every plane. *)
Fixpoint contrib (z : R) (D : nat -> R -> R -> list R) (i : nat) (planes : list (R * R)) : R :=
  match planes with
  | [] => 0
  | (z', dz) :: t => (if Req_EM_T z' z then rsum (D i z' dz) else 0) + contrib z D (Datatypes.S i) t
  end.
Lemma contrib_absent z D : forall planes i, ~ In z (map fst planes) -> contrib z D i planes = 0.
Proof.
  induction planes as [|[z' dz] t IH]; intros i H; cbn; [reflexivity|]. cbn in H.
  destruct (Req_EM_T z' z) as [E|E]; [tauto|]. rewrite IH by tauto. ring.
Qed.
Lemma contrib_one z dz D : forall planes i j, NoDup (map fst planes) -> nth_error planes j = Some (z, dz) ->
  contrib z D i planes = rsum (D (i + j)%nat z dz).
Proof.
  induction planes as [|[z' dz'] t IH]; intros i [|j] N E; cbn in E; try discriminate; cbn in N |- *; inversion N as [|? ? NI ND]; subst.
  - injection E as -> ->. destruct (Req_EM_T z z) as [_|F]; [|congruence]. rewrite contrib_absent by assumption.
    rewrite Nat.add_0_r. ring.
  - destruct (Req_EM_T z' z) as [F|_].
    + exfalso. apply NI. rewrite F. change z with (fst (z, dz)). apply in_map. eapply nth_error_In; eauto.
    + rewrite (IH (Datatypes.S i) j ND E), Rplus_0_l. do 2 f_equal. lia.
Qed.
Lemma los_loop_sum e cls k sp D : match sp_what sp with SpNfw _ _ _ _ _ => False | _ => True end ->
  forall planes i,
  (forall q, In q planes -> exists kpc, re_kpc e (fst q) = Ok kpc) ->
  (forall z dz j, In (z, dz) planes -> exists mf, los_mass_fn cls k z dz None None = Ok mf /\ mf_draw mf j = Ok (D j z dz)) ->
  exists ms xs ys rs, los_loop e cls k sp i planes = Ok (ms, xs, ys, rs) /\ List.length ms = List.length rs /\
    forall z, sum_at z ms rs = contrib z D i planes.
Proof.
  intros HS. induction planes as [|[z dz] t IH]; intros i HK HD; cbn [los_loop].
  - exists [], [], [], []. repeat split.
  - destruct (HD z dz i (or_introl eq_refl)) as (mf & -> & ED). cbn [bind]. rewrite ED. cbn [bind].
    destruct (render_xy_ok e sp i (List.length (D i z dz)) z (HK _ (or_introl eq_refl)) HS) as [p EP]. rewrite EP. cbn [bind].
    destruct (IH (Datatypes.S i)) as (ms & xs & ys & rs & -> & L & HC).
    { intros q Hq. apply HK. now right. } { intros z' dz' j H. apply HD. now right. }
    cbn [bind]. do 4 eexists. split; [reflexivity|]. pose proof (render_xy_length _ _ _ _ _ _ EP) as LP.
    split; [rewrite !app_length, repeat_length; lia|].
    intros z0. rewrite sum_at_app by (rewrite repeat_length; lia). rewrite LP, sum_at_repeat, HC. reflexivity.
Qed.
Lemma render_los e zs ds lazar scale2 a D :
  match sp_what (pa_spatial a) with SpNfw _ _ _ _ _ => False | _ => True end ->
  (forall q, In q (combine zs ds) -> exists kpc, re_kpc e (fst q) = Ok kpc) ->
  (forall z dz j, In (z, dz) (combine zs ds) -> exists mf, los_mass_fn (pa_from_redshift a) (los_init (pa_los a)) z dz None None = Ok mf /\ mf_draw mf j = Ok (D j z dz)) ->
  forall z, mass_at z (render_population e (Some zs) (Some ds) lazar scale2 ("LINE_OF_SIGHT" :: nil) (a :: nil)) = contrib z D 0 (combine zs ds).
Proof.
  intros HS HK HD z. unfold render_population, population_init, mk_model. cbn [String.eqb Ascii.eqb Bool.eqb bind population_render model_render].
  unfold los_render. destruct (los_loop_sum e (pa_from_redshift a) (los_init (pa_los a)) (pa_spatial a) D HS (combine zs ds) 0%nat HK HD)
    as (ms & xs & ys & rs & -> & _ & HC). cbn [bind mass_at a_m a_z arrays_app arrays_nil app]. apply HC.
Qed.
Lemma kept_sum (P : R * R -> Prop) (f : R * R -> R) z dz l sel : kept P l sel -> NoDup (map fst l) ->
  (In (z, dz) l -> P (z, dz) -> sum_at z (map f sel) (map fst sel) = f (z, dz)) /\
  (~ In z (map fst l) -> sum_at z (map f sel) (map fst sel) = 0).
Proof.
  induction 1 as [|x l sel HP HK IH|x l sel HP HK IH]; intros N; cbn in N; [split; [intros []|reflexivity]|..];
    inversion N as [|? ? NI ND]; subst; destruct (IH ND) as [I1 I2]; unfold sum_at in *; cbn; split.
  - intros [->|H] Hz; cbn [fst] in *.
    + destruct (Req_EM_T z z) as [_|F]; [|congruence]. rewrite I2 by assumption. ring.
    + destruct (Req_EM_T (fst x) z) as [F|_].
      * exfalso. apply NI. rewrite F. change z with (fst (z, dz)). now apply in_map.
      * rewrite (I1 H Hz). ring.
  - intros H. destruct (Req_EM_T (fst x) z) as [F|_]; [tauto|]. rewrite I2 by tauto. ring.
  - intros [->|H] Hz; [contradiction|]. apply I1; assumption.
  - intros H. apply I2. tauto.
Qed.
Lemma st_norm_pos dn h volume pivot lo hi delta norm : 0 < norm -> 0 < volume ->
  0 < snd (sheth_tormen_params dn h volume pivot lo hi delta norm).
Proof.
  intros H1 H2. unfold sheth_tormen_params. cbn [snd]. apply Rmult_lt_0_compat; [|exact H2]. apply Rmult_lt_0_compat; [exact H1|].
  apply Rdiv_lt_0_compat; [apply pow10_pos|apply exp_pos].
Qed.

(** ** C125 *)

(** A line-of-sight population whose planes have distinct redshifts, whatever was drawn at the other planes: the mean
    mass [mean] rendered at plane [i] (over the Poisson count and the uniform numbers of that plane) is positive and
    the sheets at that redshift have the convergence of minus that mass, spread over the area of the plane. *)
Theorem C125_balance e zs ds lazar scale2 a dn h vol pivot delta lo hi norm i z dz counts uniforms lo' hi' zmin zmax :
  lk_log_mlow (pa_los a) = Some lo -> lk_log_mhigh (pa_los a) = Some hi -> lk_norm (pa_los a) = Some norm ->
  poisson_default (lk_poisson (pa_los a)) = true ->
  match sp_what (pa_spatial a) with SpNfw _ _ _ _ _ => False | _ => True end ->
  NoDup (map fst (combine zs ds)) -> nth_error (combine zs ds) i = Some (z, dz) ->
  (forall q, In q (combine zs ds) -> (exists kpc, re_kpc e (fst q) = Ok kpc) /\
     at_redshift (fst q) lo < at_redshift (fst q) hi /\ 0 < at_redshift (fst q) norm /\ 0 < vol (fst q) (snd q)) ->
  match zmin with Some v => v | None => 0 end <= z <= match zmax with Some v => v | None => re_zsource e end ->
  0 < re_sigma_crit_mass e z (re_area e z) ->
  let pop c u := with_class a (st_class dn h vol pivot delta c u) in
  let law := sheth_tormen (dn z) h (vol z dz) pivot (at_redshift z lo) (at_redshift z hi) delta (at_redshift z norm) true in
  exists mean, 0 < mean /\
    poisson_mean (pl_poisson_argument law) (fun k => uniform_mean k (fun u =>
      mass_at z (render_population e (Some zs) (Some ds) lazar scale2 ("LINE_OF_SIGHT" :: nil)
                   (pop (replace_at counts i k) (replace_at uniforms i u) :: nil)))) mean /\
    forall scale c u,
      sheet_at z (sheets_of e (Some zs) (Some ds) lazar scale2 "LINE_OF_SIGHT" (pop c u) scale lo' hi' zmin zmax true) =
      - scale * (mean / re_sigma_crit_mass e z (re_area e z)).
Proof.
  intros EL EH EN EP HS ND EI HQ HZ HC pop law.
  pose proof (nth_error_In _ _ EI) as HI. destruct (HQ _ HI) as (_ & HL & HN & HV). cbn [fst snd] in HL, HN, HV.
  pose proof (st_norm_pos (dn z) h (vol z dz) pivot (at_redshift z lo) (at_redshift z hi) delta (at_redshift z norm) HN HV) as NP.
  destruct (C124_cdm_moments _ _ (fst (sheth_tormen_params (dn z) h (vol z dz) pivot (at_redshift z lo) (at_redshift z hi) delta (at_redshift z norm))) _ HL NP) as [_ M].
  change (mk_power_law _ _ _ true _) with law in M.
  exists (pl_first_moment law).
  assert (MP : 0 < pl_first_moment law).
  { unfold law, sheth_tormen. destruct (C27_nonneg (at_redshift z lo) (at_redshift z hi)
      (fst (sheth_tormen_params (dn z) h (vol z dz) pivot (at_redshift z lo) (at_redshift z hi) delta (at_redshift z norm))) true _ (Rlt_le _ _ NP)) as [_ [_ [P _]]].
    apply P; assumption. }
  split; [exact MP|]. split.
  - unfold poisson_mean in *. eapply is_series_ext; [|exact M]. intros k.
    match goal with |- @eq _ ?x ?y => change (@eq R x y) end. cbv beta. apply Rmult_eq_compat_l. apply uniform_mean_ext. intros u.
    set (D := fun j z dz => match pl_draw (sheth_tormen (dn z) h (vol z dz) pivot (at_redshift z lo) (at_redshift z hi) delta (at_redshift z norm) true)
                  (replace_at counts i k j) (replace_at uniforms i u j) with Ok l => l | Err _ => [] end).
    rewrite (render_los e zs ds lazar scale2 (pop (replace_at counts i k) (replace_at uniforms i u)) D HS).
    + rewrite (contrib_one z dz D (combine zs ds) 0 i ND EI). unfold D. cbn [Nat.add]. unfold replace_at. rewrite Nat.eqb_refl.
      fold law. unfold drawn. destruct (pl_draw law k u); [rewrite map_id|]; reflexivity.
    + intros q Hq. apply HQ, Hq.
    + intros z' dz' j Hq. destruct (HQ _ Hq) as (_ & HL' & HN' & HV'). cbn [fst snd] in HL', HN', HV'.
      unfold los_mass_fn, pop. cbn [with_class pa_los pa_from_redshift los_init lk_log_mlow lk_log_mhigh lk_norm lk_poisson orelse].
      rewrite EL, EH, EN. cbn [need bind].
      assert (EP' : need match lk_poisson (pa_los a) with Some b => Some b | None => Some true end = Ok true).
      { unfold poisson_default in EP. destruct (lk_poisson (pa_los a)); cbn; [now rewrite EP|reflexivity]. }
      rewrite EP'. cbn [bind]. eexists. split; [reflexivity|]. cbn [st_class mf_draw]. unfold D.
      change (eval_mlimit z' lo) with (at_redshift z' lo). change (eval_mlimit z' hi) with (at_redshift z' hi).
      change (eval_mlimit z' norm) with (at_redshift z' norm). unfold sheth_tormen.
      rewrite draw_poisson; [reflexivity|exact HL'|apply st_norm_pos; assumption].
  - intros scale c u.
    destruct (C36_class_range e (Some zs) (Some ds) lazar scale2 (pop c u) scale lo' hi' lo hi zmin zmax) as [CR _].
    rewrite (CR EL EH). clear CR.
    destruct (C36_los_sheets e zs ds lazar scale2 (pop c u) scale lo hi zmin zmax norm EN) as (sel & HK & ->).
    cbn [sheet_at]. unfold pop in HK |- *. cbn [with_class pa_los pa_from_redshift st_class mf_first_moment] in HK |- *. rewrite EP in HK |- *.
    destruct (kept_sum _ (fun q => - scale * (pl_first_moment (sheth_tormen (dn (fst q)) h (vol (fst q) (snd q)) pivot (at_redshift (fst q) lo) (at_redshift (fst q) hi) delta (at_redshift (fst q) norm) true) / re_sigma_crit_mass e (fst q) (re_area e (fst q)))) z dz _ _ HK ND) as [K _].
    rewrite K; [reflexivity|exact HI|]. cbn [fst snd]. fold law. split; [exact HZ|]. apply Rdiv_lt_0_compat; assumption.
Qed.

(** The class ShethTormenTurnover as a population uses it (density_peaks.py 80-102, mass_function_base.py 102-113):
    a second sequence of uniform numbers feeds the thinning. *)
Definition st_wdm_class (quad : (R -> R) -> R -> R -> R) (log_mc b c d : R) (dn : R -> R -> R) (h : R) (vol : R -> R -> R)
    (pivot delta : R) (counts : nat -> nat) (uniforms uniforms2 : nat -> nat -> R) : los_class :=
  fun z dz lo hi norm poisson =>
    let t := sheth_tormen_turnover quad (dn z) h (vol z dz) pivot lo hi delta norm poisson log_mc b c d in
    {| mf_draw := fun i => tl_draw t (counts i) (uniforms i) (uniforms2 i); mf_first_moment := tl_first_moment t |}.
(** C125, warm dark matter: the same balance. *)
Theorem C125_balance_wdm quad log_mc b c d e zs ds lazar scale2 a dn h vol pivot delta lo hi norm i z dz counts uniforms uniforms2 lo' hi' zmin zmax :
  exact_quad quad -> 0 < b -> d < 0 ->
  lk_log_mlow (pa_los a) = Some lo -> lk_log_mhigh (pa_los a) = Some hi -> lk_norm (pa_los a) = Some norm ->
  poisson_default (lk_poisson (pa_los a)) = true ->
  match sp_what (pa_spatial a) with SpNfw _ _ _ _ _ => False | _ => True end ->
  NoDup (map fst (combine zs ds)) -> nth_error (combine zs ds) i = Some (z, dz) ->
  (forall q, In q (combine zs ds) -> (exists kpc, re_kpc e (fst q) = Ok kpc) /\
     at_redshift (fst q) lo < at_redshift (fst q) hi /\ 0 < at_redshift (fst q) norm /\ 0 < vol (fst q) (snd q)) ->
  match zmin with Some v => v | None => 0 end <= z <= match zmax with Some v => v | None => re_zsource e end ->
  0 < re_sigma_crit_mass e z (re_area e z) ->
  let pop k u v := with_class a (st_wdm_class quad log_mc b c d dn h vol pivot delta k u v) in
  let law := sheth_tormen_turnover quad (dn z) h (vol z dz) pivot (at_redshift z lo) (at_redshift z hi) delta (at_redshift z norm) true log_mc b c d in
  exists mean, 0 < mean /\
    poisson_mean (pl_poisson_argument (tl_unbroken law)) (fun k => uniform_mean2 k (fun u v =>
      mass_at z (render_population e (Some zs) (Some ds) lazar scale2 ("LINE_OF_SIGHT" :: nil)
                   (pop (replace_at counts i k) (replace_at uniforms i u) (replace_at uniforms2 i v) :: nil)))) mean /\
    forall scale k u v,
      sheet_at z (sheets_of e (Some zs) (Some ds) lazar scale2 "LINE_OF_SIGHT" (pop k u v) scale lo' hi' zmin zmax true) =
      - scale * (mean / re_sigma_crit_mass e z (re_area e z)).
Proof.
  intros HX HB HD0 EL EH EN EP HS ND EI HQ HZ HC pop law.
  pose proof (nth_error_In _ _ EI) as HI. destruct (HQ _ HI) as (_ & HL & HN & HV). cbn [fst snd] in HL, HN, HV.
  pose proof (st_norm_pos (dn z) h (vol z dz) pivot (at_redshift z lo) (at_redshift z hi) delta (at_redshift z norm) HN HV) as NP.
  set (index := fst (sheth_tormen_params (dn z) h (vol z dz) pivot (at_redshift z lo) (at_redshift z hi) delta (at_redshift z norm))).
  assert (F0 : 0 <= 0 <= 1) by lra.
  destruct (C124_suppressed_moments quad _ _ index _ log_mc b c d 0 HX HL NP HB HD0 F0 law (or_introl eq_refl)) as [_ M].
  destruct (C27_suppressed quad _ _ index true _ log_mc b c d 0 HX HL NP HB HD0 F0 law (or_introl eq_refl)) as [_ [CS _]].
  exists (tl_first_moment law).
  assert (MP : 0 < tl_first_moment law).
  { rewrite CS. pose proof (pow10_lt _ _ HL) as HLT. pose proof (pow10_pos (at_redshift z lo)) as HLP.
    change ten_to with pow10. apply RInt_gt_0; [exact HLT| |].
    - intros m Hm. unfold tl_evaluate, law, sheth_tormen_turnover. cbn [tl_norm tl_index tl_turnover mk_turnover_law].
      pose proof (wdm_range log_mc b c d m HB HD0 ltac:(lra)). pose proof (exp_pos (fst (sheth_tormen_params (dn z) h (vol z dz) pivot (at_redshift z lo) (at_redshift z hi) delta (at_redshift z norm)) * ln m)) as HE.
      apply Rmult_lt_0_compat; [lra|]. apply Rmult_lt_0_compat; [|lra]. apply Rmult_lt_0_compat; [exact NP|exact HE].
    - intros m Hm. apply (continuous_mult (K := R_AbsRing) (fun m => m) (tl_evaluate law)); [apply continuous_id|].
      unfold tl_evaluate, law, sheth_tormen_turnover. cbn [tl_norm tl_index tl_turnover mk_turnover_law].
      apply (continuous_mult (K := R_AbsRing) (fun m => snd (sheth_tormen_params (dn z) h (vol z dz) pivot (at_redshift z lo) (at_redshift z hi) delta (at_redshift z norm)) * Rpower m index) (wdm_turnover log_mc b c d)); [|apply wdm_continuous; lra].
      apply (continuous_mult (K := R_AbsRing) (fun _ => _) (fun m => Rpower m index)); [apply continuous_const|apply continuous_Rpower; lra]. }
  split; [exact MP|]. split.
  - unfold poisson_mean in *. eapply is_series_ext; [|exact M]. intros k.
    match goal with |- @eq _ ?x ?y => change (@eq R x y) end. cbv beta. apply Rmult_eq_compat_l. apply uniform_mean2_ext. intros u v.
    set (D := fun j z dz => match tl_draw (sheth_tormen_turnover quad (dn z) h (vol z dz) pivot (at_redshift z lo) (at_redshift z hi) delta (at_redshift z norm) true log_mc b c d)
                  (replace_at counts i k j) (replace_at uniforms i u j) (replace_at uniforms2 i v j) with Ok l => l | Err _ => [] end).
    rewrite (render_los e zs ds lazar scale2 (pop (replace_at counts i k) (replace_at uniforms i u) (replace_at uniforms2 i v)) D HS).
    + rewrite (contrib_one z dz D (combine zs ds) 0 i ND EI). unfold D. cbn [Nat.add]. unfold replace_at. rewrite Nat.eqb_refl.
      fold law. unfold drawn. destruct (tl_draw law k u v); [rewrite map_id|]; reflexivity.
    + intros q Hq. apply HQ, Hq.
    + intros z' dz' j Hq. destruct (HQ _ Hq) as (_ & HL' & HN' & HV'). cbn [fst snd] in HL', HN', HV'.
      unfold los_mass_fn, pop. cbn [with_class pa_los pa_from_redshift los_init lk_log_mlow lk_log_mhigh lk_norm lk_poisson orelse].
      rewrite EL, EH, EN. cbn [need bind].
      assert (EP' : need match lk_poisson (pa_los a) with Some b => Some b | None => Some true end = Ok true).
      { unfold poisson_default in EP. destruct (lk_poisson (pa_los a)); cbn; [now rewrite EP|reflexivity]. }
      rewrite EP'. cbn [bind]. eexists. split; [reflexivity|]. cbn [st_wdm_class mf_draw]. unfold D.
      change (eval_mlimit z' lo) with (at_redshift z' lo). change (eval_mlimit z' hi) with (at_redshift z' hi).
      change (eval_mlimit z' norm) with (at_redshift z' norm). unfold sheth_tormen_turnover.
      pose proof (st_norm_pos (dn z') h (vol z' dz') pivot (at_redshift z' lo) (at_redshift z' hi) delta (at_redshift z' norm) HN' HV') as NP'.
      match goal with |- tl_draw (mk_turnover_law ?q ?l ?hh ?ix true ?nn ?S) ?k ?u ?v = _ =>
        destruct (C28_draw_total q l hh ix true nn S k u v) as [ms' ->]; [exact (Rlt_le _ _ NP')|reflexivity] end.
  - intros scale k u v.
    destruct (C36_class_range e (Some zs) (Some ds) lazar scale2 (pop k u v) scale lo' hi' lo hi zmin zmax) as [CR _].
    rewrite (CR EL EH). clear CR.
    destruct (C36_los_sheets e zs ds lazar scale2 (pop k u v) scale lo hi zmin zmax norm EN) as (sel & HK & ->).
    cbn [sheet_at]. unfold pop in HK |- *. cbn [with_class pa_los pa_from_redshift st_wdm_class mf_first_moment] in HK |- *. rewrite EP in HK |- *.
    destruct (kept_sum _ (fun q => - scale * (tl_first_moment (sheth_tormen_turnover quad (dn (fst q)) h (vol (fst q) (snd q)) pivot (at_redshift (fst q) lo) (at_redshift (fst q) hi) delta (at_redshift (fst q) norm) true log_mc b c d) / re_sigma_crit_mass e (fst q) (re_area e (fst q)))) z dz _ _ HK ND) as [K _].
    rewrite K; [reflexivity|exact HI|]. cbn [fst snd]. fold law. split; [exact HZ|]. apply Rdiv_lt_0_compat; assumption.
Qed.

(** The class CDMPowerLaw as a subhalo population uses it, with Poisson count [k] and uniform numbers [u]. *)
Definition pl_class (k : nat) (u : nat -> R) : sub_class :=
  fun lo hi index poisson norm =>
    {| mf_draw := fun _ => pl_draw (mk_power_law lo hi index poisson norm) k u;
       mf_first_moment := pl_first_moment (mk_power_law lo hi index poisson norm) |}.
Definition with_sub_class (a : pop_args) (cls : sub_class) : pop_args :=
  {| pa_from_redshift := pa_from_redshift a; pa_construct := cls; pa_los := pa_los a; pa_sub := pa_sub a; pa_spatial := pa_spatial a |}.
Lemma mapM_total {A B} (f : A -> result B) l : (forall x, exists y, f x = Ok y) -> exists ys, mapM f l = Ok ys.
Proof.
  intros H. induction l as [|x l [ys IH]]; cbn; [eauto|]. destruct (H x) as [y ->]. rewrite IH. cbn. eauto.
Qed.
Lemma sub_positions_ok e sp n kpc : re_kpc e (re_zlens e) = Ok kpc ->
  match sp_what sp with SpNfw r2 r3 k f g => nfw_ok sp r2 r3 k f g | _ => True end -> exists p, sub_positions e sp n = Ok p.
Proof.
  intros HK HS. unfold sub_positions. destruct (sp_what sp) as [r|r|r2 r3 k f g] eqn:ES.
  1,2: destruct (render_xy_ok e sp 0 n (re_zlens e)) as [p ->]; [eauto|rewrite ES; exact I|cbn; eauto].
  destruct HS as (H1 & H2 & H3 & H4 & H5 & H6).
  destruct (mapM_total (fun j => let '(u2, ut, u3) := sp_devs sp 0 j in nfw_point r2 r3 k f g u2 ut u3) (seq 0 n)) as [ys ->].
  - intros j. specialize (H6 j). destruct (sp_devs sp 0 j) as [[u2 ut] u3]. cbn [fst snd] in H6.
    destruct (SpaceProps.C31_nfw_bounds r2 r3 k f g u2 ut u3 H1 H2 H3 H4 H5 (proj1 H6) (proj2 H6)) as (x & y & r & E & _). eauto.
  - cbn [bind]. destruct ys; [eauto|]. rewrite HK. cbn. eauto.
Qed.

(** C125, subhalos: the mean mass of the rendered subhalos is what the sheet at the lens redshift removes. *)
Theorem C125_subhalos e planes dzs lazar scale2 a kpc law lo' hi' zmin zmax :
  re_kpc e (re_zlens e) = Ok kpc ->
  sub_cdm (re_zlens e) kpc (re_cone e) (sub_init (pa_sub a)) None None = Ok law ->
  pl_draw_poisson law = true -> pl_logmlow law < pl_logmhigh law -> 0 < pl_norm law ->
  match sp_what (pa_spatial a) with SpNfw r2 r3 k f g => nfw_ok (pa_spatial a) r2 r3 k f g | _ => True end ->
  exists mean, 0 < mean /\
    poisson_mean (pl_poisson_argument law) (fun k => uniform_mean k (fun u =>
      mass_at (re_zlens e) (render_population e planes dzs lazar scale2 ("SUBHALOS" :: nil) (with_sub_class a (pl_class k u) :: nil)))) mean /\
    forall scale k u,
      sheet_at (re_zlens e) (sheets_of e planes dzs lazar scale2 "SUBHALOS" (with_sub_class a (pl_class k u)) scale lo' hi' zmin zmax true) =
      - scale * (mean / re_sigma_crit_mass e (re_zlens e) (re_area e (re_zlens e))).
Proof.
  intros HK HL HP HR HN HS. unfold sub_cdm in HL.
  destruct (sub_mass_function_args (re_zlens e) kpc (re_cone e) (sub_init (pa_sub a)) None None) as [[[[[lo hi] index] po] norm]|] eqn:EA; [|discriminate].
  cbn [bind] in HL. injection HL as <-. cbn [pl_draw_poisson mk_power_law] in HP. subst po.
  cbn [pl_logmlow pl_logmhigh pl_norm mk_power_law] in HR, HN.
  set (law := mk_power_law lo hi index true norm).
  destruct (C124_cdm_moments lo hi index norm HR HN) as [_ M]. cbv zeta in M. fold law in M.
  destruct (C27_nonneg lo hi index true norm (Rlt_le _ _ HN)) as [_ [_ [P _]]]. destruct (P HN HR) as [_ MP]. fold law in MP.
  exists (pl_first_moment law). split; [exact MP|]. split.
  - unfold poisson_mean in *. eapply is_series_ext; [|exact M]. intros k.
    match goal with |- @eq _ ?x ?y => change (@eq R x y) end. cbv beta. apply Rmult_eq_compat_l. apply uniform_mean_ext. intros u.
    unfold render_population, population_init, mk_model. cbn [String.eqb Ascii.eqb Bool.eqb bind population_render model_render].
    unfold sub_render, sub_mass_fn. rewrite HK. cbn [bind with_sub_class pa_sub pa_construct pa_spatial]. rewrite EA. cbn [bind pl_class mf_draw].
    fold law. unfold law at 2. rewrite draw_poisson by assumption. fold law. cbn [bind].
    destruct (sub_positions_ok e (pa_spatial a) (List.length (map (pl_sample law) (map u (seq 0 k)))) kpc HK HS) as [p ->].
    cbn [bind mass_at arrays_app arrays_nil a_m a_z app]. rewrite sum_at_repeat. destruct (Req_EM_T (re_zlens e) (re_zlens e)); [|congruence].
    unfold law at 1. rewrite draw_poisson by assumption. fold law. cbn [drawn]. rewrite map_id. reflexivity.
  - intros scale k u. unfold sheets_of, mk_model. cbn [String.eqb Ascii.eqb Bool.eqb bind model_sheets]. unfold sub_sheets, sub_mass_fn.
    rewrite HK. cbn [bind with_sub_class pa_sub pa_construct].
    change (sub_mass_function_args (re_zlens e) kpc (re_cone e) (sub_init (pa_sub a)) (Some (sk_log_mlow (sub_init (pa_sub a)))) (Some (sk_log_mhigh (sub_init (pa_sub a)))))
      with (sub_mass_function_args (re_zlens e) kpc (re_cone e) (sub_init (pa_sub a)) None None).
    rewrite EA. cbn [bind pl_class mf_first_moment]. fold law. rewrite (proj2 (Reqb_false _ 0)) by lra.
    cbn [sheet_at]. unfold sum_at. cbn. destruct (Req_EM_T (re_zlens e) (re_zlens e)); [|congruence]. lra.
Qed.

(** C125, sheets over a smaller range: when the sheet starts at [lo'] above the rendered minimum, it leaves exactly
    the mean mass of the subhalos between the two, which is positive. *)
Theorem C125_subrange e planes dzs lazar scale2 a kpc law lo' zmin zmax :
  re_kpc e (re_zlens e) = Ok kpc ->
  sub_cdm (re_zlens e) kpc (re_cone e) (sub_init (pa_sub a)) None None = Ok law ->
  pl_draw_poisson law = true -> pl_logmlow law < lo' -> lo' < pl_logmhigh law -> 0 < pl_norm law ->
  match sp_what (pa_spatial a) with SpNfw r2 r3 k f g => nfw_ok (pa_spatial a) r2 r3 k f g | _ => True end ->
  let left_over := RInt (fun m => m * pl_evaluate law m) (ten_to (pl_logmlow law)) (ten_to lo') in
  0 < left_over /\
  exists mean,
    poisson_mean (pl_poisson_argument law) (fun k => uniform_mean k (fun u =>
      mass_at (re_zlens e) (render_population e planes dzs lazar scale2 ("SUBHALOS" :: nil) (with_sub_class a (pl_class k u) :: nil)))) mean /\
    forall scale k u,
      sheet_at (re_zlens e) (sheets_of e planes dzs lazar scale2 "SUBHALOS" (with_sub_class a (pl_class k u)) scale
                               (MNum lo') (MNum (pl_logmhigh law)) zmin zmax false) =
      - scale * ((mean - left_over) / re_sigma_crit_mass e (re_zlens e) (re_area e (re_zlens e))).
Proof.
  intros HK HL HP HR HR' HN HS left_over.
  destruct (C125_subhalos e planes dzs lazar scale2 a kpc law (MNum 0) (MNum 0) zmin zmax HK HL HP ltac:(lra) HN HS) as (mean & MP & M & _).
  pose proof M as M0. unfold sub_cdm in HL.
  destruct (sub_mass_function_args (re_zlens e) kpc (re_cone e) (sub_init (pa_sub a)) None None) as [[[[[lo hi] index] po] norm]|] eqn:EA; [|discriminate].
  cbn [bind] in HL. injection HL as <-. cbn [pl_draw_poisson mk_power_law] in HP. subst po.
  cbn [pl_logmlow pl_logmhigh pl_norm mk_power_law] in *.
  set (law := mk_power_law lo hi index true norm) in *.
  assert (C : forall m, 0 < m -> continuous (fun m => m * pl_evaluate law m) m).
  { intros m Hm. apply (continuous_mult (K := R_AbsRing) (fun m => m) (pl_evaluate law)); [apply continuous_id|].
    unfold pl_evaluate. apply (continuous_mult (K := R_AbsRing) (fun _ => _) (fun m => Rpower m index)); [apply continuous_const|apply continuous_Rpower; exact Hm]. }
  pose proof (pow10_pos lo) as P0. pose proof (pow10_lt _ _ HR) as P1. pose proof (pow10_lt _ _ HR') as P2.
  split.
  { unfold left_over. change ten_to with pow10. apply RInt_gt_0; [exact P1| |intros m Hm; apply C; lra].
    intros m Hm. apply Rmult_lt_0_compat; [lra|]. unfold pl_evaluate. apply Rmult_lt_0_compat; [exact HN|apply exp_pos]. }
  exists mean. split; [exact M|]. intros scale k u.
  assert (EM : mean = pl_first_moment law).
  { destruct (C124_cdm_moments lo hi index norm ltac:(lra) HN) as [_ M3]. cbv zeta in M3. fold law in M3.
    eapply eq_trans; [symmetry; apply is_series_unique; exact M|]. apply is_series_unique. unfold poisson_mean in M3.
    eapply is_series_ext; [|exact M3]. intros j. match goal with |- @eq _ ?x ?y => change (@eq R x y) end. cbv beta.
    apply Rmult_eq_compat_l. apply uniform_mean_ext. intros v.
    unfold render_population, population_init, mk_model. cbn [String.eqb Ascii.eqb Bool.eqb bind population_render model_render].
    unfold sub_render, sub_mass_fn. rewrite HK. cbn [bind with_sub_class pa_sub pa_construct pa_spatial]. rewrite EA. cbn [bind pl_class mf_draw].
    fold law. unfold law at 2. rewrite draw_poisson by (assumption || lra). fold law. cbn [bind].
    destruct (sub_positions_ok e (pa_spatial a) (List.length (map (pl_sample law) (map v (seq 0 j)))) kpc HK HS) as [p ->].
    cbn [bind mass_at arrays_app arrays_nil a_m a_z app]. rewrite sum_at_repeat. destruct (Req_EM_T (re_zlens e) (re_zlens e)); [|congruence].
    unfold law at 1. rewrite draw_poisson by (assumption || lra). fold law. cbn [drawn]. rewrite map_id. reflexivity. }
  assert (ES : pl_first_moment (mk_power_law lo' hi index true norm) = mean - left_over).
  { rewrite EM. destruct (C27_moments lo' hi index true norm HR') as [_ [E1 _]]. rewrite E1.
    destruct (C27_moments lo hi index true norm ltac:(lra)) as [_ [E2 _]]. fold law in E2. rewrite E2. unfold left_over. change ten_to with pow10.
    change (pl_evaluate (mk_power_law lo' hi index true norm)) with (pl_evaluate law).
    rewrite <- (RInt_Chasles (V := R_CompleteNormedModule) (fun m => m * pl_evaluate law m) (pow10 lo) (pow10 lo') (pow10 hi)).
    - assert (X : forall x y : R, y = x + y - x) by (intros; ring). apply X.
    - apply (ex_RInt_continuous (V := R_CompleteNormedModule)). intros m Hm. rewrite Rmin_left, Rmax_right in Hm by lra. apply C. lra.
    - apply (ex_RInt_continuous (V := R_CompleteNormedModule)). intros m Hm. rewrite Rmin_left, Rmax_right in Hm by lra. apply C. lra. }
  unfold sheets_of, mk_model. cbn [String.eqb Ascii.eqb Bool.eqb bind model_sheets]. unfold sub_sheets, sub_mass_fn.
  rewrite HK. cbn [bind with_sub_class pa_sub pa_construct].
  assert (EB : sub_mass_function_args (re_zlens e) kpc (re_cone e) (sub_init (pa_sub a)) (Some (MNum lo')) (Some (MNum hi)) = Ok (lo', hi, index, true, norm)).
  { unfold sub_mass_function_args in *. cbv zeta in *.
    apply bind_Ok in EA. destruct EA as (n0 & X & EA). rewrite X. cbn [bind].
    destruct (need (sk_draw_poisson (sub_init (pa_sub a)))); [|discriminate]. cbn [bind] in *. injection EA as _ _ E3 E4 E5. subst. reflexivity. }
  rewrite EB. cbn [bind pl_class mf_first_moment].
  destruct (C27_nonneg lo' hi index true norm (Rlt_le _ _ HN)) as [_ [_ [PP _]]]. destruct (PP HN HR') as [_ PM].
  rewrite (proj2 (Reqb_false _ 0)) by lra. rewrite ES.
  cbn [sheet_at]. unfold sum_at. cbn. destruct (Req_EM_T (re_zlens e) (re_zlens e)); [|congruence]. lra.
Qed.

(** A population meeting the hypotheses of the line-of-sight theorems, and one for the subhalos. *)
Lemma demo_planes : NoDup (map fst (combine [0.4; 0.5] [0.1; 0.1])).
Proof. cbn. repeat constructor; cbn; intros H; [destruct H as [H|[]]; lra|contradiction]. Qed.
Example C125_balance_nonvacuous : exists mean, 0 < mean /\
  sheet_at 0.5 (sheets_of demo_env (Some [0.4; 0.5]) (Some [0.1; 0.1]) false 1 "LINE_OF_SIGHT"
    (with_class (demo_args (SpCone 6)) (st_class (fun _ _ => 1) 0.7 (fun _ _ => 1) 1 0 (fun _ => 3%nat) (fun _ _ => / 2)))
    1 (MNum 7) (MNum 9) None None true) = - mean / 100.
Proof.
  destruct (C125_balance demo_env [0.4; 0.5] [0.1; 0.1] false 1 (demo_args (SpCone 6)) (fun _ _ => 1) 0.7 (fun _ _ => 1) 1 0
    (MNum 6) (MNum 10) (MNum 1) 1 0.5 0.1 (fun _ => 3%nat) (fun _ _ => / 2) (MNum 7) (MNum 9) None None
    eq_refl eq_refl eq_refl eq_refl I demo_planes eq_refl) as (mean & MP & _ & E).
  - intros q _. cbn. split; [eauto|]. lra.
  - cbn. lra.
  - cbn. lra.
  - exists mean. split; [exact MP|]. rewrite E. cbn. lra.
Qed.
Example C125_balance_wdm_nonvacuous : exists mean, 0 < mean /\
  sheet_at 0.5 (sheets_of demo_env (Some [0.4; 0.5]) (Some [0.1; 0.1]) false 1 "LINE_OF_SIGHT"
    (with_class (demo_args (SpCone 6)) (st_wdm_class (fun f a b => RInt f a b) 8 1 1 (-1) (fun _ _ => 1) 0.7 (fun _ _ => 1) 1 0
       (fun _ => 3%nat) (fun _ _ => / 2) (fun _ _ => / 2)))
    1 (MNum 7) (MNum 9) None None true) = - mean / 100.
Proof.
  destruct (C125_balance_wdm (fun f a b => RInt f a b) 8 1 1 (-1) demo_env [0.4; 0.5] [0.1; 0.1] false 1 (demo_args (SpCone 6)) (fun _ _ => 1) 0.7 (fun _ _ => 1) 1 0
    (MNum 6) (MNum 10) (MNum 1) 1 0.5 0.1 (fun _ => 3%nat) (fun _ _ => / 2) (fun _ _ => / 2) (MNum 7) (MNum 9) None None
    ltac:(intros f a b _; reflexivity) ltac:(lra) ltac:(lra) eq_refl eq_refl eq_refl eq_refl I demo_planes eq_refl) as (mean & MP & _ & E).
  - intros q _. cbn. split; [eauto|]. lra.
  - cbn. lra.
  - cbn. lra.
  - exists mean. split; [exact MP|]. rewrite E. cbn. lra.
Qed.
Example C125_subhalos_nonvacuous :
  exists law, sub_cdm (re_zlens demo_env) 5 (re_cone demo_env) (sub_init (pa_sub (demo_args (SpUniform 3)))) None None = Ok law /\
    pl_draw_poisson law = true /\ pl_logmlow law < pl_logmhigh law /\ 0 < pl_norm law.
Proof.
  eexists. split; [reflexivity|]. split; [reflexivity|]. cbn. split; [lra|].
  pose proof PI_RGT_0. apply Rmult_lt_0_compat; [nra|apply exp_pos].
Qed.
(** ... and for the smaller range: rendering starts at 6, the sheet at 7. *)
Example C125_subrange_nonvacuous :
  exists law, sub_cdm (re_zlens demo_env) 5 (re_cone demo_env) (sub_init (pa_sub (demo_args (SpUniform 3)))) None None = Ok law /\
    pl_logmlow law < 7 /\ 7 < pl_logmhigh law.
Proof. eexists. split; [reflexivity|]. cbn. lra. Qed.

Print Assumptions C125_balance.
Print Assumptions C125_balance_wdm.
Print Assumptions C125_subhalos.
Print Assumptions C125_subrange.
