(** Proofs about the rendering classes (C35-C37, C68, C69). *)
From Verif Require Import Prelude MassFnModel SpaceModel SpaceProofs3 SpaceProps RenderModel RenderSpec.
From Coq Require Import String.
Open Scope string_scope.
Open Scope R_scope.

Lemma bind_Ok {A B} (m : result A) (k : A -> result B) b :
  (do x <- m; k x) = Ok b -> exists a, m = Ok a /\ k a = Ok b.
Proof. destruct m; cbn; [eauto|discriminate]. Qed.
Ltac binds :=
  repeat match goal with
  | H : (do _ <- _; _) = Ok _ |- _ => apply bind_Ok in H; destruct H as (? & ? & H)
  end.

Lemma need_Ok {A} (o : option A) a : need o = Ok a -> o = Some a.
Proof. destruct o; cbn; congruence. Qed.

Lemma uniform_draw_length r kpc z s cx cy devs p : uniform_draw r kpc z s cx cy devs = Ok p -> List.length p = List.length devs.
Proof.
  unfold uniform_draw. destruct devs as [|d t]; [intros [= <-]; reflexivity|]. intros H; binds. injection H as <-.
  cbn. now rewrite map_length.
Qed.
Lemma draw_xy_length e sp i n z p : draw_xy e sp i n z = Ok p -> List.length p = n.
Proof.
  unfold draw_xy. destruct (sp_what sp).
  - intros H. apply uniform_draw_length in H. now rewrite map_length, seq_length in H.
  - unfold lens_cone_draw. intros H. remember (map _ (seq 0 n)) as devs eqn:E.
    assert (L : List.length devs = n) by (subst; now rewrite map_length, seq_length).
    destruct devs as [|d t]; [injection H as <-; exact L|]. apply uniform_draw_length in H. congruence.
  - discriminate.
Qed.
Lemma render_positions_length kpc z p q : render_positions kpc z p = Ok q -> List.length q = List.length p.
Proof.
  unfold render_positions. destruct p as [|d t]; [intros [= <-]; reflexivity|]. intros H; binds. injection H as <-.
  cbn. now rewrite map_length.
Qed.
Lemma render_xy_length e sp i n z p : render_xy e sp i n z = Ok p -> List.length p = n.
Proof.
  unfold render_xy. intros H; binds. apply render_positions_length in H. apply draw_xy_length in H0. congruence.
Qed.
Lemma sub_positions_length e sp n p : sub_positions e sp n = Ok p -> List.length p = n.
Proof.
  unfold sub_positions. destruct (sp_what sp).
  1,2: intros H; binds; injection H as <-; rewrite map_length; eapply render_xy_length; eauto.
  intros H; binds. apply mapM_length in H0. rewrite seq_length in H0.
  destruct x as [|q t]; [injection H as <-; exact H0|]. binds. injection H as <-. cbn in *. now rewrite map_length.
Qed.
Lemma sub_positions_r3d e sp n p : sub_positions e sp n = Ok p ->
  Forall (fun q => snd q = None <-> match sp_what sp with SpNfw _ _ _ _ _ => False | _ => True end) p.
Proof.
  unfold sub_positions. destruct (sp_what sp).
  1,2: intros H; binds; injection H as <-; apply Forall_map; apply Forall_forall; intros q _; cbn; tauto.
  intros H; binds. destruct x as [|q t]; [injection H as <-; constructor|]. binds. injection H as <-.
  constructor; [cbn; split; [discriminate|tauto]|].
  apply Forall_map; apply Forall_forall; intros q' _; cbn. split; [discriminate|tauto].
Qed.

(** positions lie in the region *)
Definition in_region_xy (e : renv) (sp : spatial) (z : R) (q : R * R) : Prop :=
  match sp_what sp with
  | SpUniform rmax => sep (fst q) (snd q) 0 0 <= Rabs rmax
  | SpCone angle => sep (fst q) (snd q) 0 0 <= Rabs (0.5 * angle * re_scale e z)
  | SpNfw _ _ _ _ _ => False
  end.
Lemma uniform_sep rmax k ua ur : 0 < k -> 0 <= ur <= 1 ->
  sep (fst (uniform_point rmax 0 0 k ua ur) * / k) (snd (uniform_point rmax 0 0 k ua ur) * / k) 0 0 <= Rabs rmax.
Proof.
  intros Hk Hu. pose proof (uniform_dist rmax 0 0 k ua ur Hk (proj1 Hu)) as D. cbn zeta in D.
  unfold sep. unfold SpaceSpec.dist2 in D. rewrite D.
  assert (sqrt ur <= 1) by (rewrite <- sqrt_1; apply sqrt_le_1_alt; lra). pose proof (Rabs_pos rmax). nra.
Qed.
Lemma render_xy_inside e sp i n z p : good_draws e sp -> render_xy e sp i n z = Ok p -> Forall (in_region_xy e sp z) p.
Proof.
  intros [HD HK] H. unfold render_xy, render_positions in H. binds. unfold draw_xy in H0. unfold in_region_xy.
  destruct (sp_what sp) as [rm|ang|]; [| |discriminate].
  - unfold uniform_draw in H0. remember (map _ (seq 0 n)) as devs eqn:E. destruct devs as [|d t]; [injection H0 as <-; injection H as <-; constructor|].
    binds. assert (DV : Forall (fun d => 0 <= snd d <= 1) (d :: t)).
    { rewrite E. apply Forall_map, Forall_forall. intros j _. apply HD. }
    clear E. revert H. injection H0 as <-. intros H. binds. replace x with x0 in * by congruence. injection H as <-.
    change (Forall (fun q => sep (fst q) (snd q) 0 0 <= Rabs rm) (map (fun p => (fst p * / x0, snd p * / x0)) (map (fun d => uniform_point (rm * 1) 0 0 x0 (fst d) (snd d)) (d :: t)))).
    rewrite map_map. apply Forall_map. eapply Forall_impl; [|exact DV]. intros d' Hd'. cbn [fst snd].
    replace (Rabs rm) with (Rabs (rm * 1)) by (f_equal; ring). apply uniform_sep; [eapply HK; eauto|exact Hd'].
  - unfold lens_cone_draw, uniform_draw in H0. remember (map _ (seq 0 n)) as devs eqn:E. destruct devs as [|d t]; [injection H0 as <-; injection H as <-; constructor|].
    binds. assert (DV : Forall (fun d => 0 <= snd d <= 1) (d :: t)).
    { rewrite E. apply Forall_map, Forall_forall. intros j _. apply HD. }
    clear E. revert H. injection H0 as <-. intros H. binds. replace x with x0 in * by congruence. injection H as <-.
    change (Forall (fun q => sep (fst q) (snd q) 0 0 <= Rabs (0.5 * ang * re_scale e z)) (map (fun p => (fst p * / x0, snd p * / x0)) (map (fun d => uniform_point (0.5 * ang * re_scale e z) 0 0 x0 (fst d) (snd d)) (d :: t)))).
    rewrite map_map. apply Forall_map. eapply Forall_impl; [|exact DV]. intros d' Hd'. cbn [fst snd].
    apply uniform_sep; [eapply HK; eauto|exact Hd'].
Qed.
Definition sub_inside (e : renv) (sp : spatial) (q : R * R * option R) : Prop :=
  match sp_what sp with
  | SpNfw rmax2d rmax3d a2k rho2d rho3d => nfw_ok sp rmax2d rmax3d a2k rho2d rho3d ->
      exists k r3, re_kpc e (re_zlens e) = Ok k /\ snd q = Some r3 /\
        1e-3 * rmax2d * a2k <= sep (fst (fst q) * k) (snd (fst q) * k) 0 0 <= rmax2d * a2k /\ 1e-3 * rmax2d * a2k <= r3 <= rmax3d * a2k
  | _ => in_region_xy e sp (re_zlens e) (fst q)
  end.
Lemma sub_positions_inside e sp n p : good_draws e sp -> sub_positions e sp n = Ok p -> Forall (sub_inside e sp) p.
Proof.
  intros G H. destruct (sp_what sp) as [| |rmax2d rmax3d a2k rho2d rho3d] eqn:ES; unfold sub_positions in H; rewrite ES in H.
  1,2: binds; pose proof (render_xy_inside _ _ _ _ _ _ G H0) as F; injection H as <-; apply Forall_map; eapply Forall_impl; [|exact F];
    intros [a b] K; unfold sub_inside; rewrite ES; exact K.
  binds. rename x into pts. assert (HP : nfw_ok sp rmax2d rmax3d a2k rho2d rho3d -> Forall (fun q => 1e-3 * rmax2d * a2k <= sep (fst (fst q)) (snd (fst q)) 0 0 <= rmax2d * a2k /\ 1e-3 * rmax2d * a2k <= snd q <= rmax3d * a2k) pts).
  { intros (H1 & H2 & H3 & H4 & H5 & H6). apply mapM_Forall2 in H0. clear - H0 H1 H2 H3 H4 H5 H6.
    induction H0 as [|j q js pts Hj HF IH]; constructor; [|exact IH]. specialize (H6 j). destruct (sp_devs sp 0 j) as [[u2 ut] u3]. cbn [fst snd] in H6.
    destruct (SpaceProps.C31_nfw_bounds rmax2d rmax3d a2k rho2d rho3d u2 ut u3 H1 H2 H3 H4 H5 (proj1 H6) (proj2 H6)) as (x & y & r3 & E & B1 & B2).
    rewrite E in Hj. injection Hj as <-. cbn [fst snd]. split; [exact B1|exact B2]. }
  destruct pts as [|q0 t]; [injection H as <-; constructor|]. binds. injection H as <-. rename x into k.
  pose proof (proj2 G _ _ H1) as Hk. rewrite <- (map_cons (fun p0 : R * R * R => (fst (fst p0) * / k, snd (fst p0) * / k, Some (snd p0))) q0 t).
  apply Forall_map, Forall_forall. intros q Hq. unfold sub_inside. rewrite ES. intro N. specialize (HP N).
  rewrite Forall_forall in HP. specialize (HP q Hq). exists k, (snd q). cbn [fst snd]. split; [exact H1|]. split; [reflexivity|].
  replace (fst (fst q) * / k * k) with (fst (fst q)) by (field; lra). replace (snd (fst q) * / k * k) with (snd (fst q)) by (field; lra). exact HP.
Qed.

(** building the table from aligned columns *)
Definition mkrows (m : list R) (p : list (R * R * option R)) (z : R) (s : bool) : list row :=
  map (fun q => {| r_m := fst q; r_x := fst (fst (snd q)); r_y := snd (fst (snd q)); r_r3d := snd (snd q); r_z := z; r_sub := s |})
      (combine m p).
Lemma map_combine_fst {A B C} (f : A -> C) (l : list A) (l' : list B) : List.length l = List.length l' ->
  map (fun q => f (fst q)) (combine l l') = map f l.
Proof. revert l'; induction l as [|a l IH]; intros [|b l'] E; cbn in *; try discriminate; [reflexivity|]. f_equal. apply IH. lia. Qed.
Lemma map_combine_snd {A B C} (f : B -> C) (l : list A) (l' : list B) : List.length l = List.length l' ->
  map (fun q => f (snd q)) (combine l l') = map f l'.
Proof. revert l'; induction l as [|a l IH]; intros [|b l'] E; cbn in *; try discriminate; [reflexivity|]. f_equal. apply IH. lia. Qed.
Lemma map_const {A B} (b : B) (l : list A) : map (fun _ => b) l = repeat b (List.length l).
Proof. induction l; cbn; congruence. Qed.
Lemma mkrows_columns m p z s : List.length m = List.length p ->
  map r_m (mkrows m p z s) = m /\ map r_x (mkrows m p z s) = map (fun q => fst (fst q)) p /\
  map r_y (mkrows m p z s) = map (fun q => snd (fst q)) p /\ map r_r3d (mkrows m p z s) = map snd p /\
  map r_z (mkrows m p z s) = repeat z (List.length m) /\ map r_sub (mkrows m p z s) = repeat s (List.length m).
Proof.
  intros E. unfold mkrows. rewrite !map_map. cbn.
  split; [rewrite (map_combine_fst (fun a => a)) by exact E; apply map_id|].
  split; [now rewrite (map_combine_snd (fun a => fst (fst a)))|].
  split; [now rewrite (map_combine_snd (fun a => snd (fst a)))|].
  split; [now rewrite (map_combine_snd snd)|].
  rewrite !map_const, combine_length, E, Nat.min_id. split; reflexivity.
Qed.
Lemma mkrows_In m p z s r : In r (mkrows m p z s) -> r_z r = z /\ r_sub r = s /\ exists q, In q p /\ r_r3d r = snd q /\ (r_x r, r_y r) = fst q.
Proof.
  unfold mkrows. intros H. apply in_map_iff in H as ([a q] & <- & H). cbn. split; [reflexivity|]. split; [reflexivity|].
  exists q. split; [eapply in_combine_r; eauto|]. split; [reflexivity|now destruct q as [[? ?] ?]].
Qed.

Lemma los_loop_rows e a sp planes : forall i ms xs ys zs,
  los_loop e (pa_from_redshift a) (los_init (pa_los a)) sp i planes = Ok (ms, xs, ys, zs) ->
  exists blocks, ms = map r_m (List.concat blocks) /\ xs = map r_x (List.concat blocks) /\ ys = map r_y (List.concat blocks) /\
    zs = map r_z (List.concat blocks) /\ Forall (fun r => r_sub r = false /\ r_r3d r = None) (List.concat blocks) /\
    List.length blocks = List.length planes /\
    forall j z dz blk, nth_error planes j = Some (z, dz) -> nth_error blocks j = Some blk ->
      exists lo hi norm,
        lk_log_mlow (pa_los a) = Some lo /\ lk_log_mhigh (pa_los a) = Some hi /\ lk_norm (pa_los a) = Some norm /\
        mf_draw (pa_from_redshift a z dz (at_redshift z lo) (at_redshift z hi) (at_redshift z norm)
                   (poisson_default (lk_poisson (pa_los a)))) (i + j) = Ok (map r_m blk) /\
        Forall (field_at z) blk /\ (good_draws e sp -> Forall (in_region e sp) blk).
Proof.
  induction planes as [|[z dz] t IH]; intros i ms xs ys zs H; cbn [los_loop] in H.
  - injection H as <- <- <- <-. exists []. cbn. repeat split; auto. intros [|j] *; discriminate.
  - binds. destruct x2 as [[[ms' xs'] ys'] zs']. injection H as <- <- <- <-.
    rename x into mf, x0 into m, x1 into p.
    destruct (IH _ _ _ _ _ H3) as (bl & -> & -> & -> & -> & HF & HL & HB).
    pose proof (render_xy_length _ _ _ _ _ _ H2) as LP.
    set (rows := mkrows m (map (fun q => (fst q, snd q, None)) p) z false).
    assert (E : List.length m = List.length (map (fun q : R * R => (fst q, snd q, @None R)) p)) by (rewrite map_length; congruence).
    destruct (mkrows_columns m _ z false E) as (C1 & C2 & C3 & C4 & C5 & C6). fold rows in C1, C2, C3, C4, C5, C6.
    rewrite map_map in C2, C3. cbn in C2, C3.
    assert (FR : Forall (field_at z) rows).
    { apply Forall_forall. intros r Hr. apply mkrows_In in Hr as (Z & S & q & Hq & D & XY).
      apply in_map_iff in Hq as (q' & <- & _). split; [exact Z|]. split; [exact S|exact D]. }
    assert (IR : good_draws e sp -> Forall (in_region e sp) rows).
    { intros G. pose proof (render_xy_inside _ _ _ _ _ _ G H2) as FI. apply Forall_forall. intros r Hr.
      apply mkrows_In in Hr as (Z & S & q & Hq & D & XY). apply in_map_iff in Hq as (q' & <- & Hq'). cbn in XY.
      rewrite Forall_forall in FI. specialize (FI q' Hq'). unfold in_region, in_region_xy in *. rewrite Z.
      injection XY as -> ->. destruct (sp_what sp); [exact FI|exact FI|contradiction]. }
    exists (rows :: bl). cbn [List.concat]. rewrite !map_app, C1, C2, C3, C5.
    replace (List.length p) with (List.length m) by congruence.
    split; [reflexivity|]. split; [reflexivity|]. split; [reflexivity|]. split; [reflexivity|].
    split. { apply Forall_app. split; [|exact HF]. eapply Forall_impl; [|exact FR]. intros r (_ & ? & ?); auto. }
    split; [cbn; congruence|].
    intros [|j] z' dz' blk E1 E2; cbn in E1, E2.
    + injection E1 as <- <-. injection E2 as <-. unfold los_mass_fn in H0. cbn [orelse] in H0. binds.
      apply need_Ok in H, H4, H5, H6. cbn in H, H4, H5, H6. injection H0 as <-.
      exists x, x0, x1. rewrite Nat.add_0_r, C1. split; [exact H|]. split; [exact H4|]. split; [exact H5|]. split; [|split; [exact FR|exact IR]].
      replace (poisson_default (lk_poisson (pa_los a))) with x2; [exact H1|].
      destruct (lk_poisson (pa_los a)); injection H6 as <-; reflexivity.
    + destruct (HB j z' dz' blk E1 E2) as (lo & hi & norm & ? & ? & ? & D & F). exists lo, hi, norm.
      rewrite <- Nat.add_succ_comm. auto.
Qed.

Lemma repeat_map {A B} (f : A -> B) (b : B) l : Forall (fun a => f a = b) l -> repeat b (List.length l) = map f l.
Proof. induction 1 as [|a l H _ IH]; cbn; [reflexivity|]. now rewrite H, <- IH. Qed.
Lemma los_render_rows e a sp planes dzs out :
  los_render e (pa_from_redshift a) (los_init (pa_los a)) sp planes dzs = Ok out ->
  exists rows, columns out rows /\ los_rows a (zipped planes dzs) rows /\ (good_draws e sp -> Forall (in_region e sp) rows).
Proof.
  unfold los_render, zipped. destruct planes as [zs|], dzs as [ds|]; try discriminate. intros H; binds.
  destruct x as [[[ms xs] ys] rs]. injection H as <-.
  destruct (los_loop_rows _ _ _ _ _ _ _ _ _ H0) as (bl & -> & -> & -> & -> & HF & HL & HB).
  exists (List.concat bl). split.
  - unfold columns; cbn. split; [reflexivity|]. split; [reflexivity|]. split; [reflexivity|].
    rewrite map_length. split; [|split; [reflexivity|]].
    + apply repeat_map. eapply Forall_impl; [|exact HF]. intros r [? ?]; assumption.
    + apply repeat_map. eapply Forall_impl; [|exact HF]. intros r [? ?]; assumption.
  - split.
    + exists bl. split; [reflexivity|]. split; [exact HL|]. intros i z dz blk E1 E2.
      destruct (HB i z dz blk E1 E2) as (lo & hi & norm & ? & ? & ? & ? & ? & _). exists lo, hi, norm. auto.
    + intros G. apply Forall_concat, Forall_forall. intros blk Hb. apply In_nth_error in Hb as (j & Hj).
      destruct (nth_error (combine zs ds) j) as [[z dz]|] eqn:EJ.
      * destruct (HB j z dz blk EJ Hj) as (_ & _ & _ & _ & _ & _ & _ & _ & IR). now apply IR.
      * apply nth_error_None in EJ. assert (j < List.length bl)%nat by (apply nth_error_Some; congruence). lia.
Qed.

Lemma sub_render_rows e a out :
  sub_render e (pa_construct a) (sub_init (pa_sub a)) (pa_spatial a) = Ok out ->
  exists rows, columns out rows /\ sub_rows (re_zlens e) a rows /\ (good_draws e (pa_spatial a) -> Forall (in_region e (pa_spatial a)) rows).
Proof.
  unfold sub_render. intros H; binds. injection H as <-. rename x into mf, x0 into m, x1 into p.
  pose proof (sub_positions_length _ _ _ _ H2) as LP. pose proof (sub_positions_r3d _ _ _ _ H2) as R3.
  exists (mkrows m p (re_zlens e) true).
  destruct (mkrows_columns m p (re_zlens e) true (eq_sym LP)) as (C1 & C2 & C3 & C4 & C5 & C6).
  split; [|split].
  - unfold columns; cbn. rewrite C1, C2, C3, C4, C5, C6. repeat split; reflexivity.
  - unfold sub_mass_fn in H0. binds. destruct x0 as [[[[lo hi] index] ps] norm]. injection H0 as <-.
    unfold sub_mass_function_args in H3. binds. injection H3 as <- <- <- <- <-. apply need_Ok in H4. cbn in H4.
    exists (sk_power_law_index (pa_sub a) + sk_delta_power_law_index (pa_sub a)), x0. split.
    + rewrite C1. cbn in H1. destruct (sk_draw_poisson (pa_sub a)); injection H4 as <-; exact H1.
    + apply Forall_forall. intros r Hr. apply mkrows_In in Hr as (Z & S & q & Hq & D & XY).
      split; [exact Z|]. split; [exact S|]. rewrite D. rewrite Forall_forall in R3. apply R3, Hq.
  - intros G. pose proof (sub_positions_inside _ _ _ _ G H2) as FI. apply Forall_forall. intros r Hr.
    apply mkrows_In in Hr as (Z & S & q & Hq & D & XY). rewrite Forall_forall in FI. specialize (FI q Hq).
    unfold sub_inside, in_region, in_region_xy in *. rewrite Z. rewrite <- XY in FI. cbn [fst snd] in FI.
    destruct (sp_what (pa_spatial a)); [exact FI|exact FI|]. rewrite D. exact FI.
Qed.

Lemma two_halo_render_rows e a planes dzs lazar scale t out :
  two_halo_init e (pa_los a) planes dzs lazar scale = Ok t ->
  two_halo_render e (pa_from_redshift a) t (pa_spatial a) = Ok out ->
  exists rows, columns out rows /\ two_halo_rows (re_zlens e) a rows /\ (good_draws e (pa_spatial a) -> Forall (in_region e (pa_spatial a)) rows).
Proof.
  intros HI. unfold two_halo_render. destruct (th_kw t) as [k|] eqn:EK; [|discriminate]. intros H; binds. injection H as <-.
  rename x into mf, x0 into m, x1 into p. pose proof (render_xy_length _ _ _ _ _ _ H2) as LP.
  exists (mkrows m (map (fun q => (fst q, snd q, None)) p) (re_zlens e) false).
  assert (E : List.length m = List.length (map (fun q : R * R => (fst q, snd q, @None R)) p)) by (rewrite map_length; congruence).
  destruct (mkrows_columns m _ (re_zlens e) false E) as (C1 & C2 & C3 & C4 & C5 & C6).
  rewrite map_map in C2, C3, C4. cbn in C2, C3, C4.
  split; [|split].
  - unfold columns; cbn. rewrite C1, C2, C3, C4, C5, C6, map_const, LP. repeat split; reflexivity.
  - unfold two_halo_init in HI. binds. destruct planes as [zs|], dzs as [ds|]; try discriminate. binds.
    destruct (lk_norm (pa_los a)) as [[n|f]|]; try discriminate. injection HI as <-. cbn in EK.
    destruct (two_halo_enhancement_factor _ _ _ _ _ _ _) as [b|]; [|discriminate]. injection EK as <-.
    unfold los_mass_fn in H0. cbn [orelse los_init lk_log_mlow lk_log_mhigh lk_norm lk_poisson] in H0. binds.
    apply need_Ok in H5, H6, H7, H8. injection H0 as <-. injection H7 as <-.
    exists x2, x3, x1, (n * b). rewrite C1. split; [exact H5|]. split; [exact H6|]. split.
    + cbn in H1. destruct (lk_poisson (pa_los a)); injection H8 as <-; exact H1.
    + apply Forall_forall. intros r Hr. apply mkrows_In in Hr as (Z & S & q & Hq & D & XY).
      apply in_map_iff in Hq as (q' & <- & _). split; [exact Z|]. split; [exact S|exact D].
  - intros G. pose proof (render_xy_inside _ _ _ _ _ _ G H2) as FI. apply Forall_forall. intros r Hr.
    apply mkrows_In in Hr as (Z & S & q & Hq & D & XY). apply in_map_iff in Hq as (q' & <- & Hq'). cbn in XY.
    rewrite Forall_forall in FI. specialize (FI q' Hq'). unfold in_region, in_region_xy in *. rewrite Z. injection XY as -> ->. destruct (sp_what (pa_spatial a)); [exact FI|exact FI|contradiction].
Qed.

Lemma columns_app a b ra rb : columns a ra -> columns b rb -> columns (arrays_app a b) (app ra rb).
Proof.
  intros (A1 & A2 & A3 & A4 & A5 & A6) (B1 & B2 & B3 & B4 & B5 & B6). unfold columns, arrays_app; cbn.
  rewrite !map_app. repeat split; congruence.
Qed.

Lemma model_rows e planes dzs lazar scale2 name a m out :
  mk_model e planes dzs lazar scale2 name a = Ok m -> model_render e planes dzs m = Ok out ->
  exists rows, columns out rows /\ population_rows e (zipped planes dzs) (name, a) rows.
Proof.
  unfold mk_model, population_rows; cbn [fst snd].
  destruct (String.eqb_spec name "LINE_OF_SIGHT") as [N|N].
  { intros [= <-] H. cbn in H. apply los_render_rows in H as (r & ? & ? & ?). exists r. auto 8. }
  destruct (String.eqb_spec name "LINE_OF_SIGHT_NOSHEET") as [N'|N'].
  { intros [= <-] H. cbn in H. apply los_render_rows in H as (r & ? & ? & ?). exists r. auto 8. }
  destruct (String.eqb_spec name "SUBHALOS") as [N2|N2].
  { intros [= <-] H. cbn in H. apply sub_render_rows in H as (r & ? & ? & ?). exists r. auto 8. }
  destruct (String.eqb_spec name "TWO_HALO") as [N3|N3]; [|discriminate].
  intros HI H. binds. injection HI as <-. cbn in H.
  destruct (two_halo_render_rows _ _ _ _ _ _ _ _ H0 H) as (r & ? & ? & ?). exists r. auto 8.
Qed.

Lemma population_rows_all e planes dzs lazar scale2 : forall names args ms acc racc out,
  population_init e planes dzs lazar scale2 names args = Ok ms ->
  population_render e planes dzs ms acc = Ok out -> columns acc racc ->
  (List.length names <= List.length args)%nat /\
  exists blocks, columns out (app racc (List.concat blocks)) /\
    Forall2 (population_rows e (zipped planes dzs)) (combine names args) blocks.
Proof.
  induction names as [|n ns IH]; intros args ms acc racc out HI HR HC; cbn [population_init] in HI.
  - injection HI as <-. cbn in HR. injection HR as <-. split; [cbn; lia|]. exists []. cbn. rewrite app_nil_r. auto.
  - destruct args as [|a rest]; [discriminate|]. binds. injection HI as <-. cbn [population_render] in HR. binds.
    destruct (model_rows _ _ _ _ _ _ _ _ _ H H1) as (rows & Hc & Hr).
    destruct (IH rest x0 (arrays_app acc x1) (app racc rows) out H0 HR (columns_app _ _ _ _ HC Hc)) as (L & bl & Hcols & HF).
    split; [cbn; lia|]. exists (rows :: bl). cbn. rewrite app_assoc. split; [exact Hcols|]. constructor; assumption.
Qed.
