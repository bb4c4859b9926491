(** The computation of the truncation radius and normalisation: success, consistency, batch version (C54). *)
From Verif Require Import Prelude MassFnModel MassFnProofs InfallModel TidalModel TidalSpec TidalProofs TidalInt TidalTotal TidalHalf2 TidalTable.
From Coquelicot Require Import Coquelicot.
Local Open Scope R_scope.
Local Open Scope list_scope.

Lemma mapM_pos {A} (P : A -> Prop) (f : A -> result R) (l : list A) :
  List.Forall P l -> (forall a, P a -> exists y, f a = Ok y /\ 0 < y <= 1) ->
  exists ys, mapM f l = Ok ys /\ Forall2 (fun a y => f a = Ok y /\ 0 < y <= 1) l ys.
Proof.
  intros Hl Hf. induction Hl as [|a l Ha Hl IH]; [exists []; split; [reflexivity|constructor]|].
  destruct (Hf a Ha) as (y & Hy & Hr). destruct IH as (ys & E & F). exists (y :: ys). cbn [mapM]. rewrite Hy, E. cbn [bind].
  split; [reflexivity|]. constructor; auto.
Qed.
Lemma inner_supported gamma delta : inner gamma -> delta = 2 \/ delta = 3 -> supported 1 3 gamma delta.
Proof. intros Hg Hd. unfold supported. split; [exact Hd|]. split; [left; reflexivity|]. left. split; [reflexivity|exact Hg]. Qed.
(** one halo of the output *)
Definition halo_out (spline : list (R * R) -> R -> R) (tab : list (R * R)) (mu : R) (h : halo_in) (o : R * R) (q : R) : Prop :=
  0 < snd o <= 1 /\ q = i_mbound h / (i_mvir h / mu) / snd o /\ fst o = i_rvir h / i_c h * exp (spline tab (ln q)).
Definition outputs (spline : list (R * R) -> R -> R) (tab : list (R * R)) (hyp : R -> R -> R -> R -> R) (gamma : R)
    (hs : list halo_in) (out : list (R * R)) (lo hi : R) : Prop :=
  Forall2 (fun h o => exists q, 0 < q /\ Mof gamma lo <= q <= Mof gamma hi /\ halo_out spline tab (M_enclosed hyp (i_c h) 1 3 gamma) h o q) hs out.

Lemma queries_pos hyp gamma hs fts : inner gamma -> List.Forall halo_ok hs -> Forall2 (fun h f => 0 < f <= 1) hs fts ->
  List.Forall (fun q => 0 < q) (map (fun hf : halo_in * R => i_mbound (fst hf) / (i_mvir (fst hf) / M_enclosed hyp (i_c (fst hf)) 1 3 gamma) / snd hf) (combine hs fts)).
Proof.
  intros Hg Hh HF. induction HF as [|h f hs fts Hf HF IH]; [constructor|]. inversion Hh as [|? ? Hh1 Hh2]; subst.
  cbn [combine map]. constructor; [|apply IH, Hh2]. cbn [fst snd]. destruct Hh1 as (H1 & H2 & H3 & H4).
  pose proof (M_enclosed_pos hyp (i_c h) gamma Hg H4).
  apply Rdiv_lt_0_compat; [|lra]. apply Rdiv_lt_0_compat; [exact H1|]. apply Rdiv_lt_0_compat; assumption.
Qed.
Lemma outputs_of spline tab hyp gamma hs fts lo hi :
  inner gamma -> List.Forall halo_ok hs -> Forall2 (fun h f => 0 < f <= 1) hs fts ->
  let Ms := map (fun hf : halo_in * R => i_mbound (fst hf) / (i_mvir (fst hf) / M_enclosed hyp (i_c (fst hf)) 1 3 gamma) / snd hf) (combine hs fts) in
  (forall q, In q Ms -> Mof gamma lo <= q <= Mof gamma hi) ->
  outputs spline tab hyp gamma hs
    (map (fun t : halo_in * R * R => (i_rvir (fst (fst t)) / i_c (fst (fst t)) * snd t, snd (fst t)))
       (combine (combine hs fts) (map (fun q => exp (spline tab (ln q))) Ms))) lo hi.
Proof.
  intros Hg Hh HF. induction HF as [|h f hs fts Hf HF IH]; intros Ms Hr; [constructor|]. inversion Hh as [|? ? Hh1 Hh2]; subst.
  unfold Ms in *. cbn [combine map fst snd]. constructor.
  - cbn [fst snd]. eexists. split; [|split; [|split; [|split; reflexivity]]].
    + destruct Hh1 as (H1 & H2 & H3 & H4). pose proof (M_enclosed_pos hyp (i_c h) gamma Hg H4).
      apply Rdiv_lt_0_compat; [|apply Hf]. apply Rdiv_lt_0_compat; [exact H1|]. apply Rdiv_lt_0_compat; assumption.
    + apply Hr. left. reflexivity.
    + exact Hf.
  - apply IH; [exact Hh2|]. intros q Hq. apply Hr. right. exact Hq.
Qed.
Lemma F2_range {A} (f : A -> result R) l ys : Forall2 (fun a y => f a = Ok y /\ 0 < y <= 1) l ys -> Forall2 (fun (_ : A) y => 0 < y <= 1) l ys.
Proof. induction 1; constructor; tauto. Qed.
Lemma combine_ne {A B} (l : list A) (l' : list B) (P : A -> B -> Prop) : l <> [] -> Forall2 P l l' -> combine l l' <> [].
Proof. intros Hn H. destruct H; [contradiction|discriminate]. Qed.

Lemma fts_ok hyp gamma delta ys Rmax hs : inner gamma -> delta = 2 \/ delta = 3 -> 0 < Rmax -> 0 < ys -> List.Forall halo_ok hs ->
  exists fts, mapM (fun h => f_t_Du_2024 (i_mbound h / (i_mvir h / M_enclosed hyp (i_c h) 1 3 gamma * M_enclosed hyp Rmax 1 3 gamma) * ys) 1 3 gamma delta) hs = Ok fts
  /\ Forall2 (fun h f => f_t_Du_2024 (i_mbound h / (i_mvir h / M_enclosed hyp (i_c h) 1 3 gamma * M_enclosed hyp Rmax 1 3 gamma) * ys) 1 3 gamma delta = Ok f /\ 0 < f <= 1) hs fts.
Proof.
  intros Hg Hd HR Hy Hh. apply (mapM_pos halo_ok); [exact Hh|]. intros h (H1 & H2 & H3 & H4).
  destruct (coef_supported 1 3 gamma delta (inner_supported gamma delta Hg Hd)) as (D & E & EC & Hgood & _).
  unfold f_t_Du_2024. rewrite EC. cbn [bind]. eexists. split; [reflexivity|]. apply ft_range; [exact Hgood|].
  pose proof (M_enclosed_pos hyp (i_c h) gamma Hg H4). pose proof (M_enclosed_pos hyp Rmax gamma Hg HR).
  apply Rmult_lt_0_compat; [|exact Hy]. apply Rdiv_lt_0_compat; [exact H1|]. apply Rmult_lt_0_compat; [|assumption]. apply Rdiv_lt_0_compat; assumption.
Qed.

Definition computed (spline : list (R * R) -> R -> R) hyp (st : table) (hs : list halo_in) gamma (out : list (R * R)) (st' : table) : Prop :=
  cinv st' /\ t_used st' = Some (1, 3, gamma, 2) /\ t_xmin st' <= t_xmin st /\ t_xmax st <= t_xmax st'
  /\ outputs spline (mktab (Mof gamma) (t_xmin st') (t_xmax st')) hyp gamma hs out (t_xmin st') (t_xmax st').
Lemma compute_ok hyp spline st hs gamma delta : cinv st -> inner gamma -> delta = 2 \/ delta = 3 -> hs <> [] -> List.Forall halo_ok hs ->
  (forall fuel r st', compute_rte_ft hyp spline fuel st hs 1 3 gamma delta = Some (r, st') -> exists out, r = Ok out /\ computed spline hyp st hs gamma out st')
  /\ exists n, forall fuel, (n <= fuel)%nat -> exists r st', compute_rte_ft hyp spline fuel st hs 1 3 gamma delta = Some (r, st').
Proof.
  intros Hc Hg Hd Hne Hh. destruct (R_max_inner gamma Hg) as (Rm & ER & HRm). destruct (ref_inner hyp gamma Hg) as (ys & z & Ey & Hy).
  unfold compute_rte_ft. rewrite ER, Ey. cbv zeta.
  destruct (fts_ok hyp gamma delta ys Rm hs Hg Hd HRm Hy Hh) as (fts & -> & HF).
  pose proof (F2_range _ _ _ HF) as HF'.
  set (Ms := map (fun hf : halo_in * R => i_mbound (fst hf) / (i_mvir (fst hf) / M_enclosed hyp (i_c (fst hf)) 1 3 gamma) / snd hf) (combine hs fts)) in *.
  assert (HMne : Ms <> []).
  { unfold Ms. intro H. apply map_eq_nil in H. exact (combine_ne hs fts _ Hne HF' H). }
  pose proof (queries_pos hyp gamma hs fts Hg Hh HF') as Hpos. fold Ms in Hpos.
  split.
  - intros fuel r st' H. destruct (truncation_radius spline fuel st Ms 1 3 gamma 2) as [[r1 st1]|] eqn:ET; [|discriminate].
    destruct (step_any spline fuel st Ms gamma r1 st1 Hc Hg HMne ET) as (Hc1 & Hu & Hx1 & Hx2 & HL1 & HL2 & Er). rewrite Er in H.
    injection H as <- <-. eexists. split; [reflexivity|]. unfold computed. repeat (split; [assumption|]).
    destruct Hc1 as [_ Hused]. destruct (Hused _ Hu) as (g & _ & Hp & _ & _ & Htab). assert (g = gamma) by congruence. subst g. rewrite <- Htab.
    apply outputs_of; try assumption. intros q Hq.
    pose proof (proj2 (list_min_spec Ms HMne) q Hq). pose proof (proj2 (list_max_spec Ms HMne) q Hq). lra.
  - destruct (step_total spline st Ms gamma Hc Hg HMne Hpos) as [n Hn]. exists n. intros fuel Hf.
    destruct (Hn fuel Hf) as (r & st' & ->). destruct r; eauto.
Qed.

(** ** relative accuracy carries over to the bound mass *)
Lemma halo_out_mass spline tab hyp gamma h o q M : inner gamma -> halo_ok h -> 0 < q ->
  halo_out spline tab (M_enclosed hyp (i_c h) 1 3 gamma) h o q ->
  fst o * i_c h / i_rvir h = exp (spline tab (ln q)) /\ 0 < fst o
  /\ snd o * (i_mvir h / M_enclosed hyp (i_c h) 1 3 gamma) * M - i_mbound h = i_mbound h / q * (M - q).
Proof.
  intros Hg (H1 & H2 & H3 & H4) Hq (Hf & Eq & Er). pose proof (M_enclosed_pos hyp (i_c h) gamma Hg H4) as Hmu. rewrite Er.
  split; [field; lra|]. split; [apply Rmult_lt_0_compat; [apply Rdiv_lt_0_compat; assumption|apply exp_pos]|].
  rewrite Eq. field. repeat split; lra.
Qed.

(** ** the batch version *)
Lemma fresh_same spline fuel Ms :
  option_map fst (truncation_radius_cached spline fuel None Ms) = option_map fst (truncation_radius spline fuel table0 Ms 1 3 1 2).
Proof.
  unfold truncation_radius_cached, truncation_radius. cbn [t_used table0 t_xmin t_xmax].
  rewrite (M_closed 1 _ ltac:(unfold inner; tauto)).
  assert (E : forall x, num (M_total 1 3 1 2 x) = tot_131 x) by (intro x; unfold M_total; reqb; reflexivity).
  assert (H1 : forall fuel q x, halve fuel (fun x => num (M_total 1 3 1 2 x)) q x = halve fuel tot_131 q x).
  { induction fuel0 as [|n IH]; intros q x; cbn [halve]; rewrite E; [reflexivity|]. destruct (Rltb q (tot_131 x)); [apply IH|reflexivity]. }
  assert (H2 : forall fuel q x, double fuel (fun x => num (M_total 1 3 1 2 x)) q x = double fuel tot_131 q x).
  { induction fuel0 as [|n IH]; intros q x; cbn [double]; rewrite E; [reflexivity|]. destruct (Rltb (tot_131 x) q); [apply IH|reflexivity]. }
  rewrite H1, H2. destruct (halve _ _ _ _) as [xmin|]; [|reflexivity]. destruct (double _ _ _ _) as [xmax|]; [|reflexivity]. cbn [option_map fst].
  f_equal. f_equal. apply map_ext. intro x. rewrite E. reflexivity.
Qed.
Lemma fresh_same_compute hyp spline fuel hs :
  option_map fst (compute_rte_ft_vectorized hyp spline fuel None hs) = option_map fst (compute_rte_ft hyp spline fuel table0 hs 1 3 1 2).
Proof.
  unfold compute_rte_ft_vectorized, compute_rte_ft.
  destruct (R_max 1 3 1) as [Rm|e]; [|reflexivity]. destruct (convert_to_reference hyp 1 3 1) as [[ys z]|e]; [|reflexivity]. cbv zeta.
  destruct (mapM _ hs) as [fts|e]; [|reflexivity].
  set (Ms := map _ (combine hs fts)). pose proof (fresh_same spline fuel Ms) as H.
  destruct (truncation_radius_cached spline fuel None Ms) as [[[xs|e] c]|]; destruct (truncation_radius spline fuel table0 Ms 1 3 1 2) as [[[xs'|e'] st']|];
    cbn [option_map fst] in H; try discriminate; try reflexivity; injection H as H; try discriminate; subst; reflexivity.
Qed.
Definition cacheinv (c : cache) : Prop := match c with None => True
  | Some tab => exists lo hi, 0 < lo <= / 10 ^ 6 /\ 10 ^ 4 <= hi /\ tab = mktab tot_131 lo hi end.
Lemma Mof_131 x : Mof 1 x = tot_131 x.
Proof. unfold Mof, M_total. reqb. reflexivity. Qed.
Lemma mktab_ends M lo hi : 0 < lo <= / 10 ^ 6 -> 10 ^ 4 <= hi ->
  fst (hd (0, 0) (mktab M lo hi)) = ln (M lo) /\ fst (last (mktab M lo hi) (0, 0)) = ln (M hi).
Proof.
  intros Hl Hh. unfold mktab.
  destruct (geom_ends lo hi (n_tab lo hi) ltac:(lra) ltac:(lra) (n_tab_big lo hi Hl Hh)) as (t & -> & Hlast).
  rewrite (last_map_fst (fun x => (ln (M x), ln x)) t lo 0 (0, 0)), Hlast. split; reflexivity.
Qed.
Lemma cached_step spline c Ms : cacheinv c -> Ms <> [] -> List.Forall (fun q => 0 < q) Ms ->
  (forall fuel r c', truncation_radius_cached spline fuel c Ms = Some (r, c') ->
     exists lo hi, 0 < lo <= / 10 ^ 6 /\ 10 ^ 4 <= hi /\ c' = Some (mktab tot_131 lo hi)
       /\ (forall q, In q Ms -> tot_131 lo <= q <= tot_131 hi)
       /\ r = Ok (map (fun q => exp (spline (mktab tot_131 lo hi) (ln q))) Ms))
  /\ exists n, forall fuel, (n <= fuel)%nat -> exists r c', truncation_radius_cached spline fuel c Ms = Some (r, c').
Proof.
  intros Hc Hne Hpos. destruct (list_min_spec Ms Hne) as [Hin Hmin]. destruct (list_max_spec Ms Hne) as [Hinx Hmax].
  rewrite List.Forall_forall in Hpos. pose proof (Hpos _ Hin) as Hq. pose proof (Hpos _ Hinx) as Hqx.
  assert (Hi : inner 1) by (unfold inner; tauto).
  assert (HP : forall x, 0 < x -> 0 < tot_131 x) by (intros x Hx; rewrite <- Mof_131; apply Mof_pos; assumption).
  assert (H6 : 0 < / 10 ^ 6) by (apply Rinv_0_lt_compat, pow_lt; lra).
  assert (HR : forall fuel r c', match halve fuel tot_131 (list_min Ms) (/ 10 ^ 6) with
    | None => None
    | Some xmin => match double fuel tot_131 (list_max Ms) (10 ^ 4) with
        | None => None
        | Some xmax => Some (eval_all spline (mktab tot_131 xmin xmax) Ms, Some (mktab tot_131 xmin xmax)) end end = Some (r, c') ->
     exists lo hi, 0 < lo <= / 10 ^ 6 /\ 10 ^ 4 <= hi /\ c' = Some (mktab tot_131 lo hi)
       /\ (forall q, In q Ms -> tot_131 lo <= q <= tot_131 hi)
       /\ r = Ok (map (fun q => exp (spline (mktab tot_131 lo hi) (ln q))) Ms)).
  { intros fuel r c' H. destruct (halve _ _ _ _) as [xmin|] eqn:E1; [|discriminate]. destruct (double _ _ _ _) as [xmax|] eqn:E2; [|discriminate].
    injection H as <- <-. destruct (halve_sound _ _ _ _ _ E1) as [L1 [k1 ->]]. destruct (double_sound _ _ _ _ _ E2) as [L2 [k2 ->]].
    pose proof (halved_le (/ 10 ^ 6) k1 H6) as B1. pose proof (doubled_ge (10 ^ 4) k2 ltac:(lra)) as B2.
    do 2 eexists. split; [exact B1|]. split; [exact B2|]. split; [reflexivity|]. split.
    - intros q Hq'. specialize (Hmin q Hq'). specialize (Hmax q Hq'). lra.
    - apply eval_ok; try assumption; apply HP; lra. }
  unfold truncation_radius_cached. split.
  - intros fuel r c' H. destruct c as [tab|]; [|apply (HR fuel); exact H].
    destruct (Rltb _ _ || Rltb _ _) eqn:E in H; [apply (HR fuel); exact H|].
    injection H as <- <-. destruct Hc as (lo & hi & Hl & Hh & ->). exists lo, hi. do 3 (split; [assumption || reflexivity|]).
    destruct (mktab_ends tot_131 lo hi Hl Hh) as [-> ->] in E. apply orb_false_iff in E. destruct E as [E1 E2].
    apply Rltb_false in E1, E2.
    assert (L1 : tot_131 lo <= list_min Ms) by (apply Rnot_lt_le; intro L; apply ln_increasing in L; lra).
    assert (L2 : list_max Ms <= tot_131 hi) by (apply Rnot_lt_le; intro L; apply ln_increasing in L; [lra|apply HP; lra]).
    split; [intros q Hq'; specialize (Hmin q Hq'); specialize (Hmax q Hq'); lra|].
    apply eval_ok; try assumption; apply HP; lra.
  - pose proof PI_RGT_0 as Hpi.
    destruct (loops_end tot_131 (2 * PI ^ 2) (PI / 4) (list_min Ms) (list_max Ms) (/ 10 ^ 6) (10 ^ 4)) as [n Hn]; try lra.
    + pose proof (pow_lt PI 2 Hpi). lra.
    + intros t Ht. rewrite <- Mof_131. apply (total_upper 1); [lra|exact Ht|apply Mof_total; assumption].
    + intros t Ht. rewrite <- Mof_131. apply (total_lower 1); [lra|exact Ht|apply Mof_total; [assumption|lra]].
    + exists n. intros fuel Hf. destruct (Hn fuel Hf) as [[y1 E1] [y2 E2]]. rewrite E1, E2. destruct c as [tab|]; [|eauto].
      destruct (Rltb _ _ || Rltb _ _); eauto.
Qed.
Lemma batch_ok hyp spline c hs : cacheinv c -> hs <> [] -> List.Forall halo_ok hs ->
  (forall fuel r c', compute_rte_ft_vectorized hyp spline fuel c hs = Some (r, c') -> cacheinv c' /\
     exists out lo hi, 0 < lo <= / 10 ^ 6 /\ 10 ^ 4 <= hi /\ r = Ok out /\ outputs spline (mktab tot_131 lo hi) hyp 1 hs out lo hi)
  /\ exists n, forall fuel, (n <= fuel)%nat -> exists r c', compute_rte_ft_vectorized hyp spline fuel c hs = Some (r, c').
Proof.
  intros Hc Hne Hh. assert (Hg : inner 1) by (unfold inner; tauto).
  destruct (R_max_inner 1 Hg) as (Rm & ER & HRm). destruct (ref_inner hyp 1 Hg) as (ys & z & Ey & Hy).
  unfold compute_rte_ft_vectorized. rewrite ER, Ey. cbv zeta.
  destruct (fts_ok hyp 1 2 ys Rm hs Hg ltac:(tauto) HRm Hy Hh) as (fts & -> & HF).
  pose proof (F2_range _ _ _ HF) as HF'.
  set (Ms := map (fun hf : halo_in * R => i_mbound (fst hf) / (i_mvir (fst hf) / M_enclosed hyp (i_c (fst hf)) 1 3 1) / snd hf) (combine hs fts)) in *.
  assert (HMne : Ms <> []).
  { unfold Ms. intro H. apply map_eq_nil in H. exact (combine_ne hs fts _ Hne HF' H). }
  pose proof (queries_pos hyp 1 hs fts Hg Hh HF') as Hpos. fold Ms in Hpos.
  destruct (cached_step spline c Ms Hc HMne Hpos) as [HS [n Hn]]. split.
  - intros fuel r c' H. destruct (truncation_radius_cached spline fuel c Ms) as [[r1 c1]|] eqn:ET; [|discriminate].
    destruct (HS fuel r1 c1 ET) as (lo & hi & Hl & Hhi & -> & HL & Er). rewrite Er in H. injection H as <- <-.
    split; [cbn [cacheinv]; eauto|]. do 3 eexists. split; [exact Hl|]. split; [exact Hhi|]. split; [reflexivity|].
    apply outputs_of; try assumption. intros q Hq. rewrite !Mof_131. apply HL, Hq.
  - exists n. intros fuel Hf. destruct (Hn fuel Hf) as (r & c' & ->). destruct r; eauto.
Qed.

(** ** any sequence of calls: the range only grows *)
Lemma step_grows spline fuel st Ms alpha beta gamma delta r st' :
  truncation_radius spline fuel st Ms alpha beta gamma delta = Some (r, st') -> 0 < t_xmin st -> 0 < t_xmax st ->
  0 < t_xmin st' <= t_xmin st /\ t_xmax st <= t_xmax st'.
Proof.
  intros H H1 H2. unfold truncation_radius in H. cbv zeta in H.
  assert (Hsame : 0 < t_xmin st <= t_xmin st /\ t_xmax st <= t_xmax st) by lra.
  assert (HR : forall M : R -> R, match M_total alpha beta gamma delta (t_xmin st) with
    | PPair => Some (Err EValueError, mkTable (t_xmin st) (t_xmax st) PPair PPair (t_used st) (t_tab st))
    | PNum _ =>
        match halve fuel M (list_min Ms) (t_xmin st) with
        | None => None
        | Some xmin =>
            match double fuel M (list_max Ms) (t_xmax st) with
            | None => None
            | Some xmax =>
                Some (eval_all spline (map (fun x => (ln (M x), ln x)) (geomspace xmin xmax (n_tab xmin xmax))) Ms,
                      mkTable xmin xmax (PNum (M xmin)) (PNum (M xmax)) (Some (alpha, beta, gamma, delta)) (map (fun x => (ln (M x), ln x)) (geomspace xmin xmax (n_tab xmin xmax))))
            end
        end
    end = Some (r, st') -> 0 < t_xmin st' <= t_xmin st /\ t_xmax st <= t_xmax st').
  { clear H. intros M HM. destruct (M_total alpha beta gamma delta (t_xmin st)) as [v|]; [|injection HM as <- <-; cbn [t_xmin t_xmax]; lra].
    destruct (halve _ _ _ _) as [xmin|] eqn:E1; [|discriminate]. destruct (double _ _ _ _) as [xmax|] eqn:E2; [|discriminate].
    injection HM as <- <-. cbn [t_xmin t_xmax].
    destruct (halve_sound _ _ _ _ _ E1) as [L1 [k1 ->]]. destruct (double_sound _ _ _ _ _ E2) as [L2 [k2 ->]].
    pose proof (halved_le (t_xmin st) k1 H1). pose proof (doubled_ge (t_xmax st) k2 H2). lra. }
  specialize (HR (fun x => num (M_total alpha beta gamma delta x))).
  destruct (t_used st) as [u|]; [|exact (HR H)].
  destruct (same_params _ _); [|exact (HR H)].
  destruct (t_Mmin st) as [a|]; [|injection H as <- <-; exact Hsame].
  destruct (Rltb (list_min Ms) a); [exact (HR H)|].
  destruct (t_Mmax st) as [b|]; [|injection H as <- <-; exact Hsame].
  destruct (Rltb b (list_max Ms)); [exact (HR H)|]. injection H as <- <-. exact Hsame.
Qed.

(** ** the removable singularity of the delta = 3 form *)
Lemma total_131d3_one : total_mass 1 3 1 3 1 (4 * PI * (2 / (9 * sqrt 3) * PI - 1 / 6)).
Proof.
  assert (Hs : 0 < sqrt 3) by (apply sqrt_lt_R0; lra). assert (Hs3 : sqrt 3 * sqrt 3 = 3) by (apply sqrt_sqrt; lra).
  set (K := 1 / (3 * sqrt 3)).
  apply (total_by (fun x => 1 / 9 * ln (1 + x) + 1 / 6 / (1 + x) ^ 2 - 1 / 18 * ln (x ^ 2 - x + 1) + K * atan ((2 * x - 1) / sqrt 3))
                  (fun x => 1 / 9 / (1 + x) - 1 / 3 / (1 + x) ^ 3 + (2 / 9 - x / 9) / (x ^ 2 - x + 1))
                  1 3 1 3 1 (1 / 6 - K * (PI / 6)) (K * (PI / 2))).
  - intros x Hx. assert (Hq : 0 < x * (x * 1) + - x + 1) by nra.
    auto_derive; [repeat split; nra|].
    replace (1 + (2 * x + - (1)) * / sqrt 3 * ((2 * x + - (1)) * / sqrt 3 * 1)) with (4 * (x * (x * 1) + - x + 1) / (sqrt 3 * sqrt 3)).
    2: { rewrite Hs3. replace ((2 * x + - (1)) * / sqrt 3 * ((2 * x + - (1)) * / sqrt 3 * 1)) with ((2 * x - 1) ^ 2 / (sqrt 3 * sqrt 3)) by (field; lra).
         rewrite Hs3. field. }
    unfold K. field. repeat split; nra.
  - intros x Hx. assert (Hq : 0 < x * (x * 1) + - x + 1) by nra. pose proof (pow_lt (1 + x) 2 ltac:(lra)) as H4. pose proof (pow_lt (1 + x) 3 ltac:(lra)) as H5.
    cbn [pow] in H4, H5. auto_derive. repeat split; lra.
  - apply right_lim.
    + apply (ex_derive_continuous (V := R_NormedModule)). auto_derive. cbn [pow] in *. repeat split; lra.
    + replace (1 + 0) with 1 by ring. rewrite ln_1. replace (0 ^ 2 - 0 + 1) with 1 by ring. rewrite ln_1.
      replace ((2 * 0 - 1) / sqrt 3) with (- (/ sqrt 3)) by (field; lra). rewrite atan_third. field.
  - apply (inf_lim' _ (fun y => 1 / 9 * ln (1 + y) + 1 / 6 * y ^ 2 / (1 + y) ^ 2 - 1 / 18 * ln (1 - y + y ^ 2) + K * (PI / 2 - atan (sqrt 3 * y / (2 - y)))) 1); [lra| | |].
    + intros x Hx. assert (Hx0 : 0 < x) by lra. pose proof (Rinv_0_lt_compat x Hx0) as Hi.
      assert (Hq : 0 < 1 - / x + (/ x) ^ 2) by nra.
      assert (Hl1 : ln (1 + x) = ln x + ln (1 + / x)) by (rewrite <- ln_mult by lra; f_equal; field; lra).
      assert (Hl3 : ln (x ^ 2 - x + 1) = ln x + ln x + ln (1 - / x + (/ x) ^ 2)).
      { rewrite <- ln_mult by lra. rewrite <- ln_mult; [f_equal; field; lra|nra|exact Hq]. }
      rewrite Hl1, Hl3.
      replace (atan ((2 * x - 1) / sqrt 3)) with (PI / 2 - atan (sqrt 3 * / x / (2 - / x))).
      * field. split; lra.
      * symmetry. replace ((2 * x - 1) / sqrt 3) with (/ (sqrt 3 * / x / (2 - / x))) by (field; repeat split; lra).
        apply atan_inv. apply Rdiv_lt_0_compat; [nra|]. assert (/ x < 1) by (rewrite <- Rinv_1; apply Rinv_lt_contravar; lra). lra.
    + apply (ex_derive_continuous (V := R_NormedModule)). auto_derive. cbn [pow] in *. repeat split; lra.
    + replace (sqrt 3 * 0 / (2 - 0)) with 0 by (field). rewrite atan_0. replace (1 + 0) with 1 by ring. replace (1 - 0 + 0 ^ 2) with 1 by ring. rewrite ln_1. field.
  - intros x Hx. rewrite trunc_3, den_131 by lra. replace (x ^ 3 + 1 ^ 3) with ((1 + x) * (x ^ 2 - x + 1)) by ring.
    field. repeat split; nra.
  - unfold K. field. lra.
Qed.
