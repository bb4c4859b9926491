(** C116: the Keeley 2024 mass-loss model on the tables it ships. *)
From Verif Require Import Prelude Interp MassFnModel InfallModel MassLossTables MassLossModel MassLossSpec MassLossProofs KeeleyTables KeeleyModel.
Local Open Scope R_scope.
Local Open Scope list_scope.

(** * Specification *)
(** the ranges of the tables: time since infall (Gyr), concentration of the host, log10 of the concentration of the subhalo *)
Definition t_max : R := 7.658449372663094.
Definition covered_host (chost : R) : Prop := 2 <= chost <= 8.
Definition covered_logc (logc : R) : Prop := 0.3010299956639812 <= logc <= 2.3010299956639813.
(** number [i], [j], [k] of the list, which is a 20 x 20 x 20 array *)
Definition listed (l : list Z) (i j k : nat) : R := IZR (nth (400 * i + 20 * j + k) l 0%Z) / 1000.

(** * Proofs *)
Lemma good_kt : good k_time. Proof. unfold good, k_time; cbn [ax_lo ax_hi ax_n]. split; [lra|lia]. Qed.
Lemma good_kh : good k_host. Proof. unfold good, k_host; cbn [ax_lo ax_hi ax_n]. split; [lra|lia]. Qed.
Lemma good_kc : good k_logc. Proof. unfold good, k_logc; cbn [ax_lo ax_hi ax_n]. split; [lra|lia]. Qed.
Lemma len_m : List.length keeley_mean_table = (20 * 20 * 20)%nat. Proof. vm_compute; reflexivity. Qed.
Lemma len_s : List.length keeley_scatter_table = (20 * 20 * 20)%nat. Proof. vm_compute; reflexivity. Qed.
Lemma r_m : zrange (-2520) 0 keeley_mean_table = true. Proof. vm_compute; reflexivity. Qed.
Lemma r_s : zrange 0 790 keeley_scatter_table = true. Proof. vm_compute; reflexivity. Qed.
Lemma entry_listed l i j k : entry l 20 i j k = listed l i j k.
Proof. unfold entry, listed. do 3 f_equal. lia. Qed.
Lemma m_in i j k : (i < 20)%nat -> (j < 20)%nat -> (k < 20)%nat -> -2.52 <= entry keeley_mean_table 20 i j k <= 0.
Proof. intros. pose proof (entry_within _ _ _ 20 i j k (zrange_spec _ _ _ r_m) len_m ltac:(auto) ltac:(auto) ltac:(auto)). lra. Qed.
Lemma s_in i j k : (i < 20)%nat -> (j < 20)%nat -> (k < 20)%nat -> 0 <= entry keeley_scatter_table 20 i j k <= 0.79.
Proof. intros. pose proof (entry_within _ _ _ 20 i j k (zrange_spec _ _ _ r_s) len_s ltac:(auto) ltac:(auto) ltac:(auto)). lra. Qed.
(** facts read off the tables *)
Definition all_ijk (p : nat -> nat -> bool) : bool := forallb (fun j => forallb (p j) (seq 0 20)) (seq 0 20).
Lemma all_ijk_spec p : all_ijk p = true -> forall j k, (j < 20)%nat -> (k < 20)%nat -> p j k = true.
Proof.
  unfold all_ijk. intros H j k J K. rewrite forallb_forall in H. specialize (H j ltac:(apply in_seq; lia)). rewrite forallb_forall in H.
  apply H. apply in_seq. lia.
Qed.
Lemma start_m : all_ijk (fun j k => Z.eqb (nth (20 * j + k) keeley_mean_table 0%Z) 0) = true. Proof. vm_compute; reflexivity. Qed.
Lemma start_s : all_ijk (fun j k => Z.eqb (nth (20 * j + k) keeley_scatter_table 0%Z) 0) = true. Proof. vm_compute; reflexivity. Qed.
Lemma end_m : all_ijk (fun j k => Z.leb (nth (400 * 19 + 20 * j + k) keeley_mean_table 0%Z) (nth (400 * 18 + 20 * j + k) keeley_mean_table 0%Z)) = true.
Proof. vm_compute; reflexivity. Qed.
Lemma zero_start t j k : all_ijk (fun j k => Z.eqb (nth (20 * j + k) t 0%Z) 0) = true -> (j < 20)%nat -> (k < 20)%nat -> entry t 20 0 j k = 0.
Proof.
  intros H J K. apply (all_ijk_spec _ H j k J) in K. apply Z.eqb_eq in K. unfold entry. replace (0 * (20 * 20) + j * 20 + k)%nat with (20 * j + k)%nat by lia. rewrite K. lra.
Qed.
Lemma falling j k : (j < 20)%nat -> (k < 20)%nat -> entry keeley_mean_table 20 19 j k <= entry keeley_mean_table 20 18 j k.
Proof.
  intros J K. apply (all_ijk_spec _ end_m j k J) in K. apply Z.leb_le in K. unfold entry. set (T := keeley_mean_table) in *.
  replace (19 * (20 * 20) + j * 20 + k)%nat with (400 * 19 + 20 * j + k)%nat by lia. replace (18 * (20 * 20) + j * 20 + k)%nat with (400 * 18 + 20 * j + k)%nat by lia.
  apply IZR_le in K. lra.
Qed.
#[local] Opaque keeley_mean_table keeley_scatter_table.
Lemma lin_zero a f x : good a -> (forall i, (i < ax_n a)%nat -> f i = 0) -> lin a f x = 0.
Proof. intros G H. rewrite (lin_ext a f (fun _ => 0) x G H). unfold lin. ring. Qed.
Lemma at_start t x y : all_ijk (fun j k => Z.eqb (nth (20 * j + k) t 0%Z) 0) = true -> rgi3 k_time k_host k_logc (entry t 20) 0 x y = 0.
Proof.
  intros H. unfold rgi3. replace 0 with (node k_time 0) at 1 by (rewrite node_0; reflexivity). rewrite lin_node by (try exact good_kt; cbn; lia).
  apply lin_zero; [exact good_kh|]. intros j J. apply lin_zero; [exact good_kc|]. intros k K. now apply zero_start.
Qed.
Lemma mean_range t ch lc : 0 <= t <= t_max -> covered_host ch -> covered_logc lc -> -2.52 <= k_mean t ch lc <= 0.
Proof.
  intros T H C. unfold k_mean. apply rgi3_bounds; try exact good_kt; try exact good_kh; try exact good_kc; auto. intros; now apply m_in.
Qed.
Lemma scatter_range t ch lc : 0 <= t <= t_max -> covered_host ch -> covered_logc lc -> 0 <= k_scatter t ch lc <= 0.79.
Proof.
  intros T H C. unfold k_scatter. apply rgi3_bounds; try exact good_kt; try exact good_kh; try exact good_kc; auto. intros; now apply s_in.
Qed.
Definition plane (i : nat) (ch lc : R) : R := lin k_host (fun j => lin k_logc (fun k => entry keeley_mean_table 20 i j k) lc) ch.
Lemma plane_in i ch lc : (i < 20)%nat -> covered_host ch -> covered_logc lc -> -2.52 <= plane i ch lc <= 0.
Proof.
  intros I H C. apply lin_bounds; [exact good_kh|exact H|]. intros j J. apply lin_bounds; [exact good_kc|exact C|]. intros k K. now apply m_in.
Qed.
Lemma plane_falls ch lc : covered_host ch -> covered_logc lc -> plane 19 ch lc <= plane 18 ch lc.
Proof.
  intros H C. assert (D : -3 <= lin k_host (fun j => 1 * lin k_logc (fun k => entry keeley_mean_table 20 19 j k) lc + -1 * lin k_logc (fun k => entry keeley_mean_table 20 18 j k) lc) ch <= 0).
  { apply lin_bounds; [exact good_kh|exact H|]. intros j J. rewrite <- (lin_linear k_logc). apply lin_bounds; [exact good_kc|exact C|]. intros k K.
    pose proof (falling j k J K). pose proof (m_in 19 j k ltac:(lia) J K). pose proof (m_in 18 j k ltac:(lia) J K). lra. }
  rewrite (lin_linear k_host) in D. unfold plane. lra.
Qed.
Lemma late t ch lc : t_max < t -> exists w, w = (t - node k_time 18) / (node k_time 19 - node k_time 18) /\ 1 < w /\
  k_mean t ch lc = plane 19 ch lc + (w - 1) * (plane 19 ch lc - plane 18 ch lc).
Proof.
  intros T. destruct (cell_above k_time t good_kt) as [E W]. { exact T. } cbn [ax_n k_time Nat.sub] in E. exists (weight k_time t). split; [|split; [exact W|]].
  - unfold weight. rewrite E. reflexivity.
  - unfold k_mean, rgi3. unfold lin at 1. rewrite E. fold (plane 18 ch lc) (plane 19 ch lc). ring.
Qed.
Lemma at_tmax ch lc : k_mean t_max ch lc = plane 19 ch lc.
Proof.
  unfold k_mean, rgi3. replace t_max with (node k_time 19). { rewrite lin_node by (try exact good_kt; cbn; lia). reflexivity. }
  exact (node_last k_time good_kt).
Qed.

(** * Theorems *)
(** At the nodes of the grid the model returns the numbers of the tables, with a scatter of at least 0.001 dex. *)
Theorem C116_tabulated : forall i j k g, (i < 20)%nat -> (j < 20)%nat -> (k < 20)%nat ->
  keeley24 g (evenly 0.3010299956639812 2.3010299956639813 20 k) (evenly 0 t_max 20 i) (evenly 2 8 20 j) =
    listed keeley_mean_table i j k + Rmax (listed keeley_scatter_table i j k) 0.001 * g.
Proof.
  intros i j k g I J K. unfold keeley24, keeley_loss, k_mean, k_scatter.
  change (evenly 0.3010299956639812 2.3010299956639813 20 k) with (evenly (ax_lo k_logc) (ax_hi k_logc) (ax_n k_logc) k).
  change (evenly 0 t_max 20 i) with (evenly (ax_lo k_time) (ax_hi k_time) (ax_n k_time) i). change (evenly 2 8 20 j) with (evenly (ax_lo k_host) (ax_hi k_host) (ax_n k_host) j).
  rewrite <- (node_evenly k_logc k good_kc), <- (node_evenly k_time i good_kt), <- (node_evenly k_host j good_kh).
  rewrite !rgi3_node by (try exact good_kt; try exact good_kh; try exact good_kc; assumption). now rewrite !entry_listed.
Qed.
(** Inside the tables log10 of the bound fraction is normally distributed with a mean between -2.52 and 0 and a standard deviation
    between 0.001 and 0.79. *)
Theorem C116_range : forall t chost logc, 0 <= t <= t_max -> covered_host chost -> covered_logc logc ->
  exists mu sd, -2.52 <= mu <= 0 /\ 0.001 <= sd <= 0.79 /\ forall g, keeley24 g logc t chost = mu + sd * g.
Proof.
  intros * T H C. exists (k_mean t chost logc), (Rmax (k_scatter t chost logc) 0.001). split; [now apply mean_range|]. split; [|reflexivity].
  pose proof (scatter_range t chost logc T H C). pose proof (Rmax_r (k_scatter t chost logc) 0.001). split; [lra|]. apply Rmax_lub; lra.
Qed.
(** After the last tabulated time the median bound mass keeps falling: extrapolation never restores mass, and the median never
    exceeds the infall mass at any time. *)
Theorem C116_late : forall t t' chost logc, t_max <= t -> t <= t' -> covered_host chost -> covered_logc logc ->
  keeley24 0 logc t' chost <= keeley24 0 logc t chost <= 0.
Proof.
  intros * T L H C. unfold keeley24, keeley_loss. rewrite !Rmult_0_r, !Rplus_0_r.
  pose proof (plane_in 19 chost logc ltac:(lia) H C) as B. pose proof (plane_falls chost logc H C) as F.
  assert (ST : 0 < node k_time 19 - node k_time 18) by (pose proof (node_lt k_time 18 19 good_kt ltac:(lia)); lra).
  assert (Q : forall s, t_max <= s -> exists w, 1 <= w /\ w = (s - node k_time 18) / (node k_time 19 - node k_time 18) /\
    k_mean s chost logc = plane 19 chost logc + (w - 1) * (plane 19 chost logc - plane 18 chost logc)).
  { intros s [S | <-].
    - destruct (late s chost logc S) as (w & E & W & ->). exists w. repeat split; auto. lra.
    - exists 1. split; [lra|]. split; [|rewrite at_tmax; ring]. change t_max with (ax_hi k_time). rewrite <- (node_last k_time good_kt). change (ax_n k_time - 1)%nat with 19%nat. field. lra. }
  destruct (Q t T) as (w & W & E & ->). destruct (Q t' ltac:(lra)) as (w' & W' & E' & ->).
  assert (w <= w') by (rewrite E, E'; apply Rmult_le_compat_r; [left; now apply Rinv_0_lt_compat|lra]). split; nra.
Qed.
Theorem C116_median : forall m t chost logc, 0 < m -> 0 <= t -> covered_host chost -> covered_logc logc -> 0 < bound_mass m (keeley24 0 logc t chost) <= m.
Proof.
  intros * M T H C. apply bound_mass_range; [exact M|]. destruct (Rle_lt_dec t t_max) as [L|L].
  - unfold keeley24, keeley_loss. pose proof (mean_range t chost logc ltac:(split; auto) H C). lra.
  - apply (C116_late t t chost logc); auto; lra.
Qed.
(** A subhalo that has just fallen in: whatever the concentrations, also outside the tables, the mean is the infall mass and the scatter the floor of
    0.001 dex; half of the draws give a bound mass above the infall mass (refuted: the bound mass is at most the infall mass). *)
Theorem C116_new_subhalo_refuted : forall m g chost logc, 0 < m ->
  keeley24 g logc 0 chost = 0.001 * g /\ (m < bound_mass m (keeley24 g logc 0 chost) <-> 0 < g).
Proof.
  intros * M. assert (E : keeley24 g logc 0 chost = 0.001 * g).
  { unfold keeley24, keeley_loss, k_mean, k_scatter. rewrite (at_start _ _ _ start_m), (at_start _ _ _ start_s), Rmax_right by lra. lra. }
  split; [exact E|]. rewrite E. unfold bound_mass, pow10. split.
  - intros H. apply Rnot_le_lt. intros G. assert (Rpower 10 (0.001 * g) <= Rpower 10 0) by (apply Rle_Rpower; lra). rewrite Rpower_O in H0 by lra. nra.
  - intros G. assert (Rpower 10 0 < Rpower 10 (0.001 * g)) by (apply Rpower_lt; lra). rewrite Rpower_O in H by lra. nra.
Qed.
(** Inside the tables the median bound mass is not monotone in time (refuted: a subhalo loses mass as time goes by). *)
Theorem C116_time_refuted : exists t t' chost logc, 0 <= t < t' /\ t' <= t_max /\ covered_host chost /\ covered_logc logc /\
  keeley24 0 logc t chost < keeley24 0 logc t' chost.
Proof.
  exists (evenly 0 t_max 20 5), (evenly 0 t_max 20 6), (evenly 2 8 20 7), (evenly 0.3010299956639812 2.3010299956639813 20 3).
  assert (N5 := node_evenly k_time 5 good_kt). assert (N6 := node_evenly k_time 6 good_kt). assert (H7 := node_evenly k_host 7 good_kh). assert (C3 := node_evenly k_logc 3 good_kc).
  cbn [ax_lo ax_hi ax_n k_time k_host k_logc] in N5, N6, H7, C3. fold t_max in N5, N6.
  split; [|split; [|split; [|split]]].
  - rewrite <- N5, <- N6. split; [pose proof (node_le k_time 0 5 good_kt ltac:(lia)) as X; rewrite node_0 in X; exact X|apply node_lt; [exact good_kt|lia]].
  - rewrite <- N6. pose proof (node_le k_time 6 19 good_kt ltac:(lia)) as X. pose proof (node_last k_time good_kt) as Y. change (ax_n k_time - 1)%nat with 19%nat in Y. rewrite Y in X. exact X.
  - rewrite <- H7. split; [pose proof (node_le k_host 0 7 good_kh ltac:(lia)) as X; rewrite node_0 in X; exact X|].
    pose proof (node_le k_host 7 19 good_kh ltac:(lia)) as X. pose proof (node_last k_host good_kh) as Y. change (ax_n k_host - 1)%nat with 19%nat in Y. rewrite Y in X. exact X.
  - rewrite <- C3. split; [pose proof (node_le k_logc 0 3 good_kc ltac:(lia)) as X; rewrite node_0 in X; exact X|].
    pose proof (node_le k_logc 3 19 good_kc ltac:(lia)) as X. pose proof (node_last k_logc good_kc) as Y. change (ax_n k_logc - 1)%nat with 19%nat in Y. rewrite Y in X. exact X.
  - rewrite !C116_tabulated by lia. rewrite !Rmult_0_r, !Rplus_0_r. unfold listed.
    assert (Z1 : nth (400 * 5 + 20 * 7 + 3) keeley_mean_table 0%Z = (-380)%Z) by (vm_compute; reflexivity).
    assert (Z2 : nth (400 * 6 + 20 * 7 + 3) keeley_mean_table 0%Z = (-360)%Z) by (vm_compute; reflexivity). rewrite Z1, Z2. lra.
Qed.
(** Hosts more concentrated than the table (c > 8) are extrapolated too: the median bound mass of some subhalo of a host of concentration 12
    exceeds its infall mass. *)
Theorem C116_host_refuted : exists t logc, 0 <= t <= t_max /\ covered_logc logc /\ 0.03 < keeley24 0 logc t 12.
Proof.
  exists (node k_time 3), (node k_logc 10). split; [|split].
  - split; [pose proof (node_le k_time 0 3 good_kt ltac:(lia)) as X; rewrite node_0 in X; exact X|].
    pose proof (node_le k_time 3 19 good_kt ltac:(lia)) as X. pose proof (node_last k_time good_kt) as Y. change (ax_n k_time - 1)%nat with 19%nat in Y. rewrite Y in X. exact X.
  - split; [pose proof (node_le k_logc 0 10 good_kc ltac:(lia)) as X; rewrite node_0 in X; exact X|].
    pose proof (node_le k_logc 10 19 good_kc ltac:(lia)) as X. pose proof (node_last k_logc good_kc) as Y. change (ax_n k_logc - 1)%nat with 19%nat in Y. rewrite Y in X. exact X.
  - unfold keeley24, keeley_loss. rewrite Rmult_0_r, Rplus_0_r. unfold k_mean, rgi3. rewrite lin_node by (try exact good_kt; cbn; lia).
    destruct (cell_above k_host 12 good_kh) as [E _]. { cbn. lra. } cbn [ax_n k_host Nat.sub] in E. unfold lin at 1. unfold weight at 1 2. rewrite E.
    rewrite !lin_node by (try exact good_kc; cbn; lia). rewrite !entry_listed. unfold listed.
    assert (Z1 : nth (400 * 3 + 20 * 18 + 10) keeley_mean_table 0%Z = (-100)%Z) by (vm_compute; reflexivity).
    assert (Z2 : nth (400 * 3 + 20 * 19 + 10) keeley_mean_table 0%Z = (-90)%Z) by (vm_compute; reflexivity). rewrite Z1, Z2.
    rewrite !(node_evenly k_host _ good_kh). unfold evenly. cbn [ax_lo ax_hi ax_n k_host Nat.sub]. rewrite !INR_IZR_INZ. cbn [Z.of_nat Pos.of_succ_nat Pos.succ]. 
    set (w := (12 - _) / _). assert (Hw : w = 41 / 3) by (unfold w; field). rewrite Hw. lra.
Qed.

Example C116_nonvacuous : 0 <= 3 <= t_max /\ covered_host 5 /\ covered_logc 1 /\ t_max <= 9 /\ 9 <= 11 /\
  listed keeley_mean_table 5 7 3 = -0.38 /\ listed keeley_scatter_table 19 19 19 <> 0.
Proof.
  unfold t_max, covered_host, covered_logc. repeat split; try lra.
  - unfold listed. assert (Z1 : nth (400 * 5 + 20 * 7 + 3) keeley_mean_table 0%Z = (-380)%Z) by (vm_compute; reflexivity). rewrite Z1. lra.
  - unfold listed. assert (Z1 : (0 < nth (400 * 19 + 20 * 19 + 19) keeley_scatter_table 0)%Z) by (vm_compute; reflexivity). apply IZR_lt in Z1. lra.
Qed.

Print Assumptions C116_tabulated.
Print Assumptions C116_range.
Print Assumptions C116_late.
Print Assumptions C116_median.
Print Assumptions C116_new_subhalo_refuted.
Print Assumptions C116_time_refuted.
Print Assumptions C116_host_refuted.
