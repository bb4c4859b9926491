(** C51: bound masses from the tidal mass-loss models. *)
From Coquelicot Require Import Coquelicot.
From Verif Require Import Prelude Interp MassFnModel MassFnProofs InfallModel InfallSpec InfallProofs MassLossTables MassLossModel MassLossSpec MassLossProofs.
From Verif Require HaloStateModel.
Local Open Scope R_scope.
Local Open Scope list_scope.

(** the bound mass is positive and never above the infall mass *)
Theorem C51_bound_mass : forall m g logc t chost, 0 < m ->
  0 < bound_mass m (galacticus_loss g logc t chost) <= m
  /\ 0 < bound_mass m (zinfall_loss g logc t chost) <= m
  /\ (forall rmax tabs, mw_init rmax = Ok tabs -> 0 < bound_mass m (mw_loss tabs g logc t chost) <= m).
Proof.
  intros m g lc t ch M. split; [|split; [|intros rmax tabs _]]; apply bound_mass_range; auto; apply su_cap_le0.
Qed.
Example C51_bound_mass_nonvacuous : bound_mass 8 (galacticus_loss 100 1 2 5) = 8 /\ bound_mass 8 (galacticus_loss 0 1 2 5) < 8.
Proof.
  assert (C : 0 <= clip 0 8.1 2 <= 8.1) by (apply clip_in; lra).
  assert (D : 4 <= clip 4 8 5 <= 9) by (pose proof (clip_in 4 8 5 ltac:(lra)); lra).
  destruct (gal_range _ _ _ C (logc_clip 1) D) as [A B]. unfold galacticus_loss.
  set (a := gal_a _ _ _) in *. set (b := gal_b _ _ _) in *.
  destruct (su_cap_spec a b 100 ltac:(lra)) as [_ Q]. destruct (su_cap_spec a b 0 ltac:(lra)) as [P _].
  rewrite Q by lra. destruct (P ltac:(lra)) as [P' _]. unfold bound_mass. rewrite pow10_0. split; [ring|].
  assert (pow10 (su_cap a b 0) < 1) by (rewrite <- pow10_0; apply pow10_lt; auto). lra.
Qed.

(** the law of the logarithm of the bound fraction: Johnson's SU, capped at zero, with parameters inside the tables *)
Theorem C51_galacticus_law : forall logc t chost, exists a b, 2.016 <= a <= 8.202 /\ 1.555 <= b <= 27.189
  /\ forall g, capped_johnson_su a b g (galacticus_loss g logc t chost).
Proof.
  intros lc t ch.
  assert (C : 0 <= clip 0 8.1 t <= 8.1) by (apply clip_in; lra).
  assert (D : 4 <= clip 4 8 ch <= 9) by (pose proof (clip_in 4 8 ch ltac:(lra)); lra).
  destruct (gal_range _ _ _ C (logc_clip lc) D) as [A B]. eexists _, _. split; [exact A|]. split; [exact B|].
  intros g. apply su_cap_spec. lra.
Qed.
Theorem C51_zinfall_law : forall logc dz chost, exists a b, 0 < a /\ 0 < b
  /\ (dz <= 8.1 -> 2 <= a <= 7.167 /\ 1.502 <= b <= 20.455)
  /\ forall g, capped_johnson_su a b g (zinfall_loss g logc dz chost).
Proof.
  intros lc dz ch.
  assert (C : 0.001 <= clip 0.001 9.5 dz <= 9.5) by (apply clip_in; lra).
  assert (D : 4 <= clip 4 8 ch <= 9) by (pose proof (clip_in 4 8 ch ltac:(lra)); lra).
  destruct (zinf_pos (clip 0.001 9.5 dz) _ _ ltac:(lra) (logc_clip lc) D) as [A B]. eexists _, _. split; [exact A|]. split; [exact B|].
  split; [|intros g; apply su_cap_spec; exact B]. intros H.
  assert (E : clip 0.001 9.5 dz <= 8.1) by (unfold clip, Rmin, Rmax; destruct (Rle_dec 0.001 dz); destruct Rle_dec; lra).
  destruct (zinf_range (clip 0.001 9.5 dz) _ _ ltac:(lra) (logc_clip lc) D). auto.
Qed.
Theorem C51_milky_way_law : forall rmax,
  (rmax <> 30 -> rmax <> 50 -> rmax <> 200 -> mw_init rmax = Err EValueError)
  /\ (rmax = 30 \/ rmax = 50 \/ rmax = 200 -> exists tabs, mw_init rmax = Ok tabs)
  /\ (forall tabs logc t chost, mw_init rmax = Ok tabs -> exists a b, 2.101 <= a <= 7.858 /\ 1.842 <= b <= 16.234
       /\ forall g, capped_johnson_su a b g (mw_loss tabs g logc t chost)).
Proof.
  intros rmax. split; [|split].
  - intros A B C. unfold mw_init, Reqb. repeat destruct Req_EM_T; congruence.
  - intros H. unfold mw_init, Reqb. repeat destruct Req_EM_T; try (eexists; reflexivity). tauto.
  - intros tabs lc t ch I.
    assert (C : 0 <= clip 0 12.9 t <= 12.9) by (apply clip_in; lra).
    assert (D : 6 <= clip 6 12 ch <= 12) by (apply clip_in; lra).
    destruct (mw_range tabs rmax _ _ _ I C (mw_logc_clip lc) D) as [A B]. eexists _, _. split; [exact A|]. split; [exact B|].
    intros g. apply su_cap_spec. lra.
Qed.
Example C51_law_nonvacuous : exists tabs, mw_init 50 = Ok tabs /\ nth 0 (fst tabs) 0%Z <> nth 0 (snd tabs) 0%Z.
Proof.
  destruct (proj1 (proj2 (C51_milky_way_law 50)) (or_intror (or_introl eq_refl))) as [tabs H]. exists tabs. split; auto.
  unfold mw_init, Reqb in H. repeat destruct Req_EM_T; try lra; injection H as <-; vm_compute; discriminate.
Qed.

(** at the points of the evenly spaced grid the parameters are exactly the tabulated ones (first index: time or
    redshift, second: log10 concentration, third: host concentration) *)
Theorem C51_tabulated : forall i j k g, (i < 15)%nat -> (j < 15)%nat -> (k < 15)%nat ->
  let lc := evenly (log10 2) (log10 384) 15 j in
  let ch := evenly 4 9 15 k in
  let at_ (t : list Z) := IZR (nth (225 * i + 15 * j + k) t 0%Z) / 1000 in
  ((k < 12)%nat -> capped_johnson_su (at_ a_fit) (at_ b_fit) g (galacticus_loss g lc (evenly 0 8.1 15 i) ch))
  /\ ((1 <= i)%nat -> (k < 12)%nat ->
        capped_johnson_su (at_ a_fit_zinfall) (at_ b_fit_zinfall) g (zinfall_loss g lc (evenly 0 8.1 15 i) ch))
  /\ (forall rmax tabs, mw_init rmax = Ok tabs ->
        capped_johnson_su (at_ (fst tabs)) (at_ (snd tabs)) g
          (mw_loss tabs g (evenly (log10 2) (log10 128) 15 j) (evenly 0 12.9 15 i) (evenly 6 12 15 k))).
Proof.
  intros i j k g I J K lc ch at_.
  assert (AT : forall t, at_ t = entry t 15 i j k).
  { intros t. unfold at_, entry. replace (225 * i + 15 * j + k)%nat with (i * (15 * 15) + j * 15 + k)%nat by lia. reflexivity. }
  assert (NR : forall a n, good a -> (n < ax_n a)%nat -> ax_lo a <= node a n <= ax_hi a).
  { intros a n G N. split. rewrite <- node_0. apply node_le; auto; lia. rewrite <- (node_last a G). apply node_le; auto; lia. }
  assert (IR : forall n, (n < 15)%nat -> 0 <= INR n <= 14).
  { intros n N. split; [apply pos_INR|]. replace 14 with (INR 14) by (cbn; lra). apply le_INR. lia. }
  pose proof (node_evenly ax_logc j good_logc) as E2. cbn [ax_lo ax_hi ax_n ax_logc] in E2. fold lc in E2.
  pose proof (NR ax_logc j good_logc J) as R2. rewrite E2 in R2. cbn [ax_lo ax_hi ax_logc] in R2.
  pose proof (node_evenly ax_host k good_host) as E3. cbn [ax_lo ax_hi ax_n ax_host] in E3. fold ch in E3.
  pose proof (node_evenly ax_t i good_t) as E1. cbn [ax_lo ax_hi ax_n ax_t] in E1.
  pose proof (NR ax_t i good_t I) as R1. rewrite E1 in R1. cbn [ax_lo ax_hi ax_t] in R1.
  assert (CH : (k < 12)%nat -> 4 <= ch <= 8).
  { intros K'. unfold ch, evenly. pose proof (IR k K). assert (INR k <= 11) by (replace 11 with (INR 11) by (cbn; lra); apply le_INR; lia).
    replace (INR (15 - 1)) with 14 by (cbn; lra). lra. }
  split; [|split].
  - intros K'. specialize (CH K'). unfold galacticus_loss. rewrite !clip_id by (auto; lra). unfold gal_a, gal_b.
    rewrite <- E1, <- E2, <- E3. rewrite !rgi3_node; auto using good_logc, good_t, good_host. rewrite !AT. apply su_cap_spec.
    pose proof (entry_within b_fit _ _ 15 i j k (zrange_spec _ _ _ r_b_fit) (lens _ ltac:(cbn; tauto)) I J K). lra.
  - intros I' K'. specialize (CH K').
    assert (0.001 <= evenly 0 8.1 15 i).
    { unfold evenly. assert (1 <= INR i) by (replace 1 with (INR 1) by reflexivity; apply le_INR; lia).
      replace (INR (15 - 1)) with 14 by (cbn; lra). lra. }
    unfold zinfall_loss. rewrite !clip_id by (auto; lra). unfold zinf_a, zinf_b.
    rewrite <- E1, <- E2, <- E3. rewrite !rgi3_node; auto using good_logc, good_t, good_host. rewrite !AT. apply su_cap_spec.
    pose proof (entry_within b_fit_zinfall _ _ 15 i j k (zrange_spec _ _ _ r_b_zinf) (lens _ ltac:(cbn; tauto)) I J K). lra.
  - intros rmax tabs MI.
    pose proof (node_evenly mw_logc j good_mw_logc) as F2. cbn [ax_lo ax_hi ax_n mw_logc] in F2.
    pose proof (NR mw_logc j good_mw_logc J) as S2. rewrite F2 in S2. cbn [ax_lo ax_hi mw_logc] in S2.
    pose proof (node_evenly mw_host k good_mw_host) as F3. cbn [ax_lo ax_hi ax_n mw_host] in F3.
    pose proof (NR mw_host k good_mw_host K) as S3. rewrite F3 in S3. cbn [ax_lo ax_hi mw_host] in S3.
    pose proof (node_evenly mw_t i good_mw_t) as F1. cbn [ax_lo ax_hi ax_n mw_t] in F1.
    pose proof (NR mw_t i good_mw_t I) as S1. rewrite F1 in S1. cbn [ax_lo ax_hi mw_t] in S1.
    pose proof (mw_range tabs rmax _ _ _ MI S1 S2 S3) as [_ B].
    unfold mw_loss. rewrite !clip_id by auto.
    rewrite <- F1, <- F2, <- F3 in *. rewrite !rgi3_node in *; auto using good_mw_logc, good_mw_t, good_mw_host.
    rewrite !AT. apply su_cap_spec. lra.
Qed.
Example C51_tabulated_nonvacuous : (0 < 15)%nat /\ evenly 0 8.1 15 14 = 8.1 /\ nth (225 * 0 + 15 * 0 + 3) a_fit 0%Z = 3362%Z.
Proof. split; [lia|]. split; [unfold evenly; cbn; field|vm_compute; reflexivity]. Qed.

(** inputs outside the stated ranges give the value at the nearest end of the range *)
Theorem C51_clamped : forall g logc logc' t t' ch ch',
  limited (log10 2) (log10 384) logc logc' -> limited 4 8 ch ch' ->
  (limited 0 8.1 t t' -> galacticus_loss g logc t ch = galacticus_loss g logc' t' ch')
  /\ (limited 0.001 9.5 t t' -> zinfall_loss g logc t ch = zinfall_loss g logc' t' ch').
Proof.
  assert (U : forall lo hi x y, lo <= hi -> limited lo hi x y -> clip lo hi x = y /\ clip lo hi y = y).
  { intros lo hi x y L (A & B & C). unfold clip, Rmin, Rmax. destruct (Rlt_dec x lo) as [H|H].
    - rewrite (A H). repeat destruct Rle_dec; lra.
    - destruct (Rle_dec x hi) as [H'|H'].
      + rewrite (B ltac:(lra)). repeat destruct Rle_dec; lra.
      + rewrite (C ltac:(lra)). repeat destruct Rle_dec; lra. }
  intros g lc lc' t t' ch ch' L C.
  assert (LL : log10 2 <= log10 384) by (left; apply log10_inc; lra).
  destruct (U _ _ _ _ LL L) as [L1 L2]. destruct (U 4 8 ch ch' ltac:(lra) C) as [C1 C2]. split; intros T.
  - destruct (U 0 8.1 t t' ltac:(lra) T) as [T1 T2]. unfold galacticus_loss. rewrite L1, L2, C1, C2, T1, T2. reflexivity.
  - destruct (U 0.001 9.5 t t' ltac:(lra) T) as [T1 T2]. unfold zinfall_loss. rewrite L1, L2, C1, C2, T1, T2. reflexivity.
Qed.
Example C51_clamped_nonvacuous : limited 4 8 11 8 /\ limited 0 8.1 (-2) 0 /\ limited 0.001 9.5 3 3.
Proof. unfold limited. repeat split; intros; lra. Qed.

(** a larger normal draw never gives a smaller bound mass *)
Theorem C51_monotone : forall g g' logc t chost, g <= g' ->
  galacticus_loss g logc t chost <= galacticus_loss g' logc t chost /\ zinfall_loss g logc t chost <= zinfall_loss g' logc t chost.
Proof.
  intros g g' lc t ch H.
  assert (D : 4 <= clip 4 8 ch <= 9) by (pose proof (clip_in 4 8 ch ltac:(lra)); lra). split.
  - assert (C : 0 <= clip 0 8.1 t <= 8.1) by (apply clip_in; lra).
    destruct (gal_range _ _ _ C (logc_clip lc) D) as [A B]. apply su_cap_mono; auto. lra.
  - assert (C : 0.001 <= clip 0.001 9.5 t <= 9.5) by (apply clip_in; lra).
    destruct (zinf_pos (clip 0.001 9.5 t) _ _ ltac:(lra) (logc_clip lc) D) as [A B]. apply su_cap_mono; auto.
Qed.
Example C51_monotone_nonvacuous : galacticus_loss 0 1 2 5 < galacticus_loss 100 1 2 5.
Proof.
  destruct (C51_galacticus_law 1 2 5) as (a & b & A & B & L). destruct (L 0) as [P _]. destruct (L 100) as [_ Q].
  rewrite Q by lra. destruct (P ltac:(lra)). lra.
Qed.

(** the Zinfall model is not limited to its table: the accepted elapsed redshift goes up to 9.5, the table ends at 8.1 and is
    continued linearly; there the model leaves every tabulated value (all first parameters are at least 2) *)
Theorem C51_zinfall_range_refuted :
  table_within a_fit_zinfall 2 7.167
  /\ ~ (forall logc dz chost, exists a b, 2 <= a <= 7.167 /\ forall g, capped_johnson_su a b g (zinfall_loss g logc dz chost)).
Proof.
  split. { pose proof (zrange_spec _ _ _ r_a_zinf) as H. unfold table_within in *. eapply Forall_impl; [|exact H]. intros z Hz. cbn beta in Hz. lra. }
  intros H. destruct (H (log10 2) 9.5 4) as (a & b & A & L). destruct (L 1) as [P _]. specialize (P ltac:(lra)) as [P _].
  unfold zinfall_loss in P.
  assert (LL : log10 2 < log10 384) by (apply log10_inc; lra).
  rewrite !clip_id in P by lra.
  destruct (zinf_pos 9.5 (log10 2) 4 ltac:(lra) ltac:(lra) ltac:(lra)) as [_ B].
  destruct (su_cap_spec (zinf_a 9.5 (log10 2) 4) (zinf_b 9.5 (log10 2) 4) 1 B) as [_ Q].
  rewrite Q in P; [lra|]. unfold zinf_a, rgi3.
  destruct (cell_above ax_t 9.5 good_t ltac:(cbn; lra)) as [C _]. change (cell ax_t 9.5 = 13%nat) in C.
  unfold lin at 1. unfold weight at 1 2. rewrite C.
  assert (N2 : log10 2 = node ax_logc 0) by (rewrite node_0; reflexivity).
  assert (N3 : 4 = node ax_host 0) by (rewrite node_0; reflexivity).
  rewrite N2, N3. rewrite !(lin_node ax_logc _ 0 good_logc) by (cbn; lia). rewrite !(lin_node ax_host _ 0 good_host) by (cbn; lia).
  rewrite !entry_zat. replace (zat a_fit_zinfall 13 0 0) with 2578%Z by (vm_compute; reflexivity).
  replace (zat a_fit_zinfall 14 0 0) with 2000%Z by (vm_compute; reflexivity).
  assert (E1 : node ax_t 14 - node ax_t 13 = 8.1 / 14) by (unfold node; cbn; field).
  assert (E2 : node ax_t 13 = 8.1 * 13 / 14) by (unfold node; cbn; field).
  rewrite E1, E2. lra.
Qed.

(** the vectorised evaluation: same quantile function as the per-halo call *)
Theorem C51_batch : forall pts chost vs,
  batch_loss LZinfall pts chost vs = map (fun pv => zinfall_loss (ndtri (snd pv)) (fst (fst pv)) (snd (fst pv)) chost) (combine pts vs)
  /\ (chost <= 8 ->
      batch_loss LGalacticus pts chost vs = map (fun pv => galacticus_loss (ndtri (snd pv)) (fst (fst pv)) (snd (fst pv)) chost) (combine pts vs))
  /\ Forall (fun y => forall m, 0 < m -> 0 < bound_mass m y <= m) (batch_loss LGalacticus pts chost vs).
Proof.
  intros pts ch vs. split; [|split].
  - reflexivity.
  - intros H. unfold batch_loss, galacticus_loss, su_cap. apply map_ext. intros [[lc t] v]. cbn [fst snd].
    replace (clip 4 9 ch) with (clip 4 8 ch); [reflexivity|]. unfold clip, Rmin, Rmax. repeat destruct Rle_dec; lra.
  - unfold batch_loss. apply Forall_map, Forall_forall. intros pv _ m M. apply bound_mass_range; auto. apply Rmin_r.
Qed.
Example C51_batch_nonvacuous : List.length (batch_loss LGalacticus [(1, 2); (1.5, 3)] 6 [0.2; 0.7]) = 2%nat.
Proof. reflexivity. Qed.
Lemma ndtri_half : ndtri (1 / 2) = 0.
Proof.
  assert (E : ndtr 0 = 1 / 2) by (unfold ndtr; rewrite RInt_point; unfold zero; cbn; lra).
  pose proof (ndtri_range 0 0 (1 / 2)). lra.
Qed.
Lemma cell_between a x i : good a -> (S i < ax_n a)%nat -> node a i < x -> x < node a (S i) -> cell a x = i.
Proof.
  intros G N A B.
  assert (H : ax_lo a <= x <= ax_hi a).
  { pose proof (node_le a 0 i G ltac:(lia)). rewrite node_0 in H. pose proof (node_le a (S i) (ax_n a - 1) G ltac:(lia)).
    rewrite node_last in H0 by auto. lra. }
  pose proof (cell_in a x G H) as [C D]. set (c := cell a x) in *.
  destruct (Nat.lt_trichotomy c i) as [Q|[Q|Q]]; auto.
  - pose proof (node_le a (S c) i G Q). lra.
  - pose proof (node_le a (S i) c G Q). lra.
Qed.
(** for host concentrations between 8 and 9 the vectorised call uses the concentration, the per-halo call uses 8 *)
Theorem C51_batch_refuted : ~ (forall pts chost vs, 4 <= chost <= 9 ->
  batch_loss LGalacticus pts chost vs = map (fun pv => galacticus_loss (ndtri (snd pv)) (fst (fst pv)) (snd (fst pv)) chost) (combine pts vs)).
Proof.
  intros H. specialize (H [(log10 2, 0)] 9 [1 / 2] ltac:(lra)). cbn [batch_loss combine map fst snd] in H. rewrite ndtri_half in H.
  unfold galacticus_loss, su_cap, su in H.
  assert (LL : log10 2 < log10 384) by (apply log10_inc; lra).
  rewrite (clip_id (log10 2)), (clip_id 0 8.1), (clip_id 4 9) in H by lra.
  replace (clip 4 8 9) with 8 in H by (unfold clip, Rmin, Rmax; repeat destruct Rle_dec; lra).
  assert (N2 : log10 2 = node ax_logc 0) by (rewrite node_0; reflexivity).
  assert (N1 : 0 = node ax_t 0) by (rewrite node_0; reflexivity).
  assert (N3 : 9 = node ax_host 14) by (unfold node; cbn; field).
  assert (V : forall t ch, rgi3 ax_t ax_logc ax_host (entry t 15) 0 (log10 2) ch = lin ax_host (fun k => entry t 15 0 0 k) ch).
  { intros t ch. unfold rgi3. rewrite N1 at 1. rewrite (lin_node ax_t _ 0 good_t) by (cbn; lia). rewrite N2.
    rewrite (lin_node ax_logc _ 0 good_logc) by (cbn; lia). reflexivity. }
  assert (V9 : forall t, rgi3 ax_t ax_logc ax_host (entry t 15) 0 (log10 2) 9 = IZR (zat t 0 0 14) / 1000).
  { intros t. rewrite V, N3. rewrite (lin_node ax_host _ 14 good_host) by (cbn; lia). apply entry_zat. }
  assert (C8 : cell ax_host 8 = 11%nat). { apply cell_between; [apply good_host|cbn; lia| |]; unfold node; cbn; lra. }
  assert (V8 : forall t, rgi3 ax_t ax_logc ax_host (entry t 15) 0 (log10 2) 8 = (0.8 * IZR (zat t 0 0 11) + 0.2 * IZR (zat t 0 0 12)) / 1000).
  { intros t. rewrite V. unfold lin, weight. rewrite C8, !entry_zat.
    assert (E1 : node ax_host 12 - node ax_host 11 = 5 / 14) by (unfold node; cbn; field).
    assert (E2 : node ax_host 11 = 4 + 55 / 14) by (unfold node; cbn; field). rewrite E1, E2. lra. }
  unfold gal_a, gal_b in H. rewrite !V9, !V8 in H.
  replace (zat a_fit 0 0 14) with 3303%Z in H by (vm_compute; reflexivity).
  replace (zat a_fit 0 0 11) with 3347%Z in H by (vm_compute; reflexivity).
  replace (zat a_fit 0 0 12) with 3332%Z in H by (vm_compute; reflexivity).
  replace (zat b_fit 0 0 14) with 8528%Z in H by (vm_compute; reflexivity).
  replace (zat b_fit 0 0 11) with 8625%Z in H by (vm_compute; reflexivity).
  replace (zat b_fit 0 0 12) with 8593%Z in H by (vm_compute; reflexivity).
  set (x := (0 - 3303 / 1000) / (8528 / 1000)) in *.
  set (y := (0 - (0.8 * 3347 + 0.2 * 3332) / 1000) / ((0.8 * 8625 + 0.2 * 8593) / 1000)) in *.
  assert (XY : y < x) by (unfold x, y; lra). assert (X0 : x < 0) by (unfold x; lra).
  pose proof (sinh_lt _ _ XY). pose proof (sinh_lt _ _ X0). rewrite sinh_0 in *.
  assert (E : Rmin (sinh x) 0 = Rmin (sinh y) 0) by congruence.
  rewrite !Rmin_left in E by lra. lra.
Qed.

(** the Keeley (2024) model draws the logarithm from an unbounded normal law: every halo can be given more bound mass than
    it had at infall *)
Theorem C51_keeley_refuted : forall mean scatter logc t chost m, 0 < m ->
  (forall g, 0 < bound_mass m (keeley_loss mean scatter g logc t chost))
  /\ exists g, m < bound_mass m (keeley_loss mean scatter g logc t chost).
Proof.
  intros mean sc lc t ch m M. split. { intros g. unfold bound_mass. pose proof (pow10_pos (keeley_loss mean sc g lc t ch)). nra. }
  set (s := Rmax (sc t ch lc) 0.001). assert (S : 0 < s) by (pose proof (Rmax_r (sc t ch lc) 0.001); unfold s; lra).
  exists ((1 - mean t ch lc) / s). unfold bound_mass, keeley_loss. fold s.
  replace (mean t ch lc + s * ((1 - mean t ch lc) / s)) with 1 by (field; lra).
  pose proof (pow10_lt 0 1 ltac:(lra)) as L. rewrite pow10_0 in L. nra.
Qed.

(** the approximate CDM model: scale and location are interpolated in the lens redshift limited to [0.2, 1.2]; the
    logarithm of the bound fraction is the requested quantile of the normal law restricted to [-10, 0] *)
Theorem C51_approx_cdm : forall z, exists sc loc, approx_init z = Ok (sc, loc)
  /\ (z <= 0.2 -> sc = 2.5 /\ loc = -4)
  /\ (0.2 <= z <= 0.5 -> sc = 2.5 + (z - 0.2) / 0.3 * (1.8 - 2.5) /\ loc = -4 + (z - 0.2) / 0.3 * (-1.3 - -4))
  /\ (0.5 <= z <= 0.8 -> sc = 1.8 + (z - 0.5) / 0.3 * (1.2 - 1.8) /\ loc = -1.3 + (z - 0.5) / 0.3 * (-1 - -1.3))
  /\ (0.8 <= z <= 1.2 -> sc = 1.2 + (z - 0.8) / 0.4 * (0.6 - 1.2) /\ loc = -1)
  /\ (1.2 <= z -> sc = 0.6 /\ loc = -1)
  /\ forall v m, 0 <= v <= 1 -> 0 < m ->
       (exists q, quantile_between loc sc (-10) 0 v q /\ approx_mbound m sc loc v = m * Rpower 10 q)
       /\ m * Rpower 10 (-10) <= approx_mbound m sc loc v <= m.
Proof.
  intros z. set (zz := Rmin (Rmax z 0.2) 1.2).
  assert (Z : 0.2 <= zz <= 1.2) by (unfold zz, Rmin, Rmax; repeat destruct Rle_dec; lra).
  assert (Z1 : z <= 0.2 -> zz = 0.2) by (unfold zz, Rmin, Rmax; repeat destruct Rle_dec; lra).
  assert (Z2 : 0.2 <= z <= 1.2 -> zz = z) by (unfold zz, Rmin, Rmax; repeat destruct Rle_dec; lra).
  assert (Z3 : 1.2 <= z -> zz = 1.2) by (unfold zz, Rmin, Rmax; repeat destruct Rle_dec; lra).
  assert (I : forall y0 y1 y2 y3, interp1d [(0.2, y0); (0.5, y1); (0.8, y2); (1.2, y3)] zz = Ok (interp_from 0.2 y0 [(0.5, y1); (0.8, y2); (1.2, y3)] zz)).
  { intros. unfold interp1d. cbn [last fst]. unfold Rltb. destruct (Rlt_dec zz 0.2); [lra|]. destruct (Rlt_dec 1.2 zz); [lra|reflexivity]. }
  unfold approx_init. fold zz. rewrite !I. cbn [bind].
  set (sc := interp_from 0.2 2.5 _ zz). set (loc := interp_from 0.2 (-4) _ zz). exists sc, loc.
  assert (P : (zz <= 0.5 -> sc = 2.5 + (zz - 0.2) / 0.3 * (1.8 - 2.5) /\ loc = -4 + (zz - 0.2) / 0.3 * (-1.3 - -4))
    /\ (0.5 <= zz <= 0.8 -> sc = 1.8 + (zz - 0.5) / 0.3 * (1.2 - 1.8) /\ loc = -1.3 + (zz - 0.5) / 0.3 * (-1 - -1.3))
    /\ (0.8 <= zz <= 1.2 -> sc = 1.2 + (zz - 0.8) / 0.4 * (0.6 - 1.2) /\ loc = -1)).
  { unfold sc, loc. cbn [interp_from]. unfold Rleb.
    replace (0.5 - 0.2) with 0.3 by lra. replace (0.8 - 0.5) with 0.3 by lra. replace (1.2 - 0.8) with 0.4 by lra.
    destruct (Rle_dec zz 0.5); [|destruct (Rle_dec zz 0.8); [|destruct (Rle_dec zz 1.2)]]; repeat split; intros; try lra. }
  destruct P as (P1 & P2 & P3).
  assert (B : 0.6 <= sc <= 2.5).
  { destruct (Rle_dec zz 0.5); [destruct P1; lra|]. destruct (Rle_dec zz 0.8); [destruct P2; lra|destruct P3; lra]. }
  clearbody sc loc.
  split; [reflexivity|]. split; [|split; [|split; [|split; [|split]]]].
  - intros H. rewrite (Z1 H) in *. destruct P1; lra.
  - intros H. rewrite (Z2 ltac:(lra)) in *. apply P1; lra.
  - intros H. rewrite (Z2 ltac:(lra)) in *. apply P2; lra.
  - intros H. rewrite (Z2 ltac:(lra)) in *. apply P3; lra.
  - intros H. rewrite (Z3 H) in *. destruct P3; lra.
  - intros v m V M. pose proof (truncnorm_spec loc sc (-10) 0 v ltac:(lra) ltac:(lra) V) as Q. cbn zeta in Q.
    unfold approx_mbound, approx_fbound. split. { eexists. split; [exact Q|reflexivity]. }
    set (q := loc + _) in *. destruct Q as [[Q1 Q2] _].
    assert (X : pow10 (-10) <= pow10 q). { destruct Q1 as [Q1| <-]; [left; apply pow10_lt; auto|lra]. }
    assert (Y : pow10 q <= 1). { destruct Q2 as [Q2| ->]; [rewrite <- pow10_0; left; apply pow10_lt; auto|rewrite pow10_0; lra]. }
    unfold pow10 in *. split; nra.
Qed.
Example C51_approx_cdm_nonvacuous : approx_init 0.5 = Ok (1.8, -1.3).
Proof. destruct (C51_approx_cdm 0.5) as (s & l & E & _ & H & _). destruct (H ltac:(lra)). rewrite E. f_equal. f_equal; lra. Qed.

(** TruncationBoundMassPDF: strictly between zero and the infall mass *)
Theorem C51_bound_mass_pdf : forall m mean sd g, 0 < m ->
  0 < pdf_mbound m mean sd g < m
  /\ (mean + sd * g < 0 -> pdf_mbound m mean sd g = m * Rpower 10 (mean + sd * g))
  /\ (0 <= mean + sd * g -> pdf_mbound m mean sd g = 0.999 * m).
Proof.
  intros m mean sd g M. unfold pdf_mbound. set (x := mean + sd * g). pose proof (pow10_pos x) as P.
  destruct (Rlt_dec x 0) as [H|H].
  - assert (pow10 x < 1) by (rewrite <- pow10_0; apply pow10_lt; auto). rewrite (proj2 (Rleb_false _ _)) by lra.
    split; [split; nra|]. split; [intros _; unfold pow10; ring|lra].
  - assert (1 <= pow10 x). { destruct (Req_dec x 0) as [->|]; [rewrite pow10_0; lra|]. rewrite <- pow10_0. left; apply pow10_lt; lra. }
    rewrite (proj2 (Rleb_true _ _)) by lra. split; [split; nra|]. split; [lra|reflexivity].
Qed.
Example C51_bound_mass_pdf_nonvacuous : pdf_mbound 10 0.5 1 0 = 9.99.
Proof. destruct (C51_bound_mass_pdf 10 0.5 1 0 ltac:(lra)) as (_ & _ & H). rewrite H; lra. Qed.

(** The bound mass a subhalo object reports, when its mass-loss model is one of the two above: the value is in (0, m] *)
Theorem C51_reported : forall E H draws chost s mb s',
  (HaloStateModel.h_kind H = HaloStateModel.KGalacticus chost
     /\ (forall st n logc t ch, HaloStateModel.e_loss E st n logc t ch = galacticus_loss (draws st n) logc t ch))
  \/ (HaloStateModel.h_kind H = HaloStateModel.KZinfall chost
     /\ (forall st n logc dz ch, HaloStateModel.e_loss E st n logc dz ch = zinfall_loss (draws st n) logc dz ch)) ->
  0 < HaloStateModel.h_mass H -> HaloStateModel.s_mb s = None ->
  HaloStateModel.bound_mass_galacticus_definition E H s = (Ok mb, s') -> 0 < mb <= HaloStateModel.h_mass H.
Proof.
  intros E H draws chost s mb s' K M S0 B.
  assert (Q : exists y, y <= 0 /\ mb = HaloStateModel.h_mass H * HaloStateModel.pow10 y).
  { unfold HaloStateModel.bound_mass_galacticus_definition in B. destruct (negb (HaloStateModel.h_sub H)); [discriminate|].
    assert (B' : HaloStateModel.mbind (HaloStateModel.gets HaloStateModel.s_mb) (fun v =>
      match v with Some m => HaloStateModel.ret m
      | None => HaloStateModel.mbind (HaloStateModel.calculate_mbound E H) (fun m =>
          HaloStateModel.mbind (HaloStateModel.modify (HaloStateModel.set_mb m)) (fun _ => HaloStateModel.ret m)) end) s = (Ok mb, s')).
    { destruct K as [[K _]|[K _]]; rewrite K in B; exact B. }
    clear B. unfold HaloStateModel.mbind, HaloStateModel.gets in B'. cbn beta iota in B'. rewrite S0 in B'.
    destruct (HaloStateModel.calculate_mbound E H s) as [[m|e] s1] eqn:CM; [|discriminate].
    cbn in B'. injection B' as <- _. unfold HaloStateModel.calculate_mbound in CM.
    destruct K as [[K L]|[K L]]; rewrite K in CM; unfold HaloStateModel.mbind in CM.
    - destruct (HaloStateModel.conc E H s) as [[c|] s2]; [|discriminate].
      destruct (HaloStateModel.time_since_infall E H s2) as [[t|] s3]; [|discriminate].
      unfold HaloStateModel.mass_loss in CM. destruct t as [t|]; [|discriminate].
      unfold HaloStateModel.mbind, HaloStateModel.draw_number, HaloStateModel.gets, HaloStateModel.modify, HaloStateModel.ret in CM. cbn in CM.
      injection CM as <- _. rewrite L. eexists. split; [|reflexivity]. apply su_cap_le0.
    - destruct (HaloStateModel.conc E H s) as [[c|] s2]; [|discriminate].
      destruct (HaloStateModel.z_infall E H s2) as [[zi|] s3]; [|discriminate].
      unfold HaloStateModel.mass_loss in CM.
      unfold HaloStateModel.mbind, HaloStateModel.draw_number, HaloStateModel.gets, HaloStateModel.modify, HaloStateModel.ret in CM. cbn in CM.
      injection CM as <- _. rewrite L. eexists. split; [|reflexivity]. apply su_cap_le0. }
  destruct Q as (y & Y & ->). apply (bound_mass_range _ _ M Y).
Qed.
Example C51_reported_nonvacuous :
  let E := HaloStateModel.mkEnv (fun _ c _ => (4, 2, 2 * c)) (fun a b _ => (a, b)) (fun _ => 3) (fun _ v => v)
    (fun _ _ => 1) (fun _ _ _ _ => 1) (fun _ _ => 1 / 2) (fun _ _ => 2) (fun _ _ _ _ => (1, 1 / 2)) (fun _ _ => 1)
    (fun _ _ _ => 1) (fun _ _ => 10) (1 / 2) (fun _ _ => 1) (fun _ _ => 3) (fun _ _ _ => 10)
    (fun _ n logc t ch => zinfall_loss (INR n) logc t ch) (fun _ _ => -1) (fun _ _ _ => 1) in
  let H := HaloStateModel.mkStatic 8 50 (1 / 2) true (HaloStateModel.KZinfall 5) in
  exists mb s', HaloStateModel.bound_mass_galacticus_definition E H (HaloStateModel.fresh 1 2) = (Ok mb, s') /\ 0 < mb <= 8.
Proof.
  intros E H.
  assert (Q : exists mb s', HaloStateModel.bound_mass_galacticus_definition E H (HaloStateModel.fresh 1 2) = (Ok mb, s')).
  { eexists _, _. cbv -[Rmult Rplus Rdiv Rinv Rminus Ropp IZR INR zinfall_loss HaloStateModel.log10 HaloStateModel.pow10]. reflexivity. }
  destruct Q as (mb & s' & Q). exists mb, s'. split; auto.
  apply (C51_reported E H (fun _ n => INR n) 5 (HaloStateModel.fresh 1 2) mb s'); auto.
  cbn; lra.
Qed.

Print Assumptions C51_bound_mass.
Print Assumptions C51_galacticus_law.
Print Assumptions C51_zinfall_law.
Print Assumptions C51_milky_way_law.
Print Assumptions C51_tabulated.
Print Assumptions C51_clamped.
Print Assumptions C51_monotone.
Print Assumptions C51_zinfall_range_refuted.
Print Assumptions C51_batch.
Print Assumptions C51_batch_refuted.
Print Assumptions C51_keeley_refuted.
Print Assumptions C51_approx_cdm.
Print Assumptions C51_bound_mass_pdf.
Print Assumptions C51_reported.
