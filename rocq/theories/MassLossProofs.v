(** Lemmas about the interpolation and the mass-loss models. *)
From Coquelicot Require Import Coquelicot.
From Verif Require Import Prelude Interp MassFnModel MassFnProofs InfallModel InfallSpec InfallProofs MassLossTables MassLossModel MassLossSpec.
Local Open Scope R_scope.

Definition good (a : axis) : Prop := ax_lo a < ax_hi a /\ (2 <= ax_n a)%nat.
Lemma step_pos a : good a -> 0 < (ax_hi a - ax_lo a) / INR (ax_n a - 1).
Proof. intros [H N]. apply Rdiv_lt_0_compat; [lra|]. apply (lt_INR 0). lia. Qed.
Lemma node_0 a : node a 0 = ax_lo a.
Proof. unfold node; cbn; lra. Qed.
Lemma node_last a : good a -> node a (ax_n a - 1) = ax_hi a.
Proof. intros [H N]. unfold node. field. apply not_0_INR. lia. Qed.
Lemma node_S a i : node a (S i) = node a i + (ax_hi a - ax_lo a) / INR (ax_n a - 1).
Proof. unfold node. rewrite S_INR. ring. Qed.
Lemma node_lt a i j : good a -> (i < j)%nat -> node a i < node a j.
Proof.
  intros G L. unfold node. apply Rplus_lt_compat_l, Rmult_lt_compat_r; [apply step_pos; auto|apply lt_INR; auto].
Qed.
Lemma node_le a i j : good a -> (i <= j)%nat -> node a i <= node a j.
Proof. intros G L. destruct (Nat.eq_dec i j) as [->|]; [lra|]. left. apply node_lt; auto; lia. Qed.
Lemma node_evenly a i : good a -> node a i = evenly (ax_lo a) (ax_hi a) (ax_n a) i.
Proof. intros [H N]. unfold node, evenly. field. apply not_0_INR. lia. Qed.

(** number of nodes below [x] *)
Lemma count_spec a n x : good a ->
  (count_below a n x <= n)%nat /\ (forall i, (i < count_below a n x)%nat -> node a i < x)
  /\ (forall i, (count_below a n x <= i < n)%nat -> x <= node a i).
Proof.
  intros G. induction n as [|n (I1 & I2 & I3)]; cbn.
  - repeat split; intros; lia.
  - destruct (Rltb (node a n) x) eqn:E.
    + apply Rltb_true in E.
      assert (C : count_below a n x = n).
      { destruct (Nat.eq_dec (count_below a n x) n) as [|D]; auto.
        assert (Q : (count_below a n x <= count_below a n x < n)%nat) by lia.
        pose proof (I3 _ Q). pose proof (node_lt a (count_below a n x) n G ltac:(lia)). lra. }
      rewrite C. split; [lia|]. split.
      * intros i Hi. pose proof (node_le a i n G ltac:(lia)). lra.
      * intros i Hi. lia.
    + apply Rltb_false in E. cbn. split; [lia|]. split; auto.
      intros i Hi. destruct (Nat.eq_dec i n) as [->|]; [auto|]. apply I3. lia.
Qed.
Lemma cell_range a x : good a -> (S (cell a x) < ax_n a)%nat.
Proof. intros [_ N]. unfold cell. lia. Qed.
Lemma cell_in a x : good a -> ax_lo a <= x <= ax_hi a -> node a (cell a x) <= x <= node a (S (cell a x)).
Proof.
  intros G [L H]. destruct (count_spec a (ax_n a) x G) as (C1 & C2 & C3). destruct G as [G1 G2].
  unfold cell. set (c := count_below a (ax_n a) x) in *. split.
  - destruct (Nat.eq_dec c 0) as [E|E].
    + rewrite E. cbn [Nat.sub Nat.min]. rewrite node_0. auto.
    + left. apply C2. lia.
  - destruct (Nat.le_gt_cases (ax_n a) c) as [Q|Q].
    + replace (S (Nat.min (c - 1) (ax_n a - 2))) with (ax_n a - 1)%nat by lia. rewrite node_last by (split; auto). auto.
    + destruct (Nat.eq_dec c 0) as [E|E].
      * rewrite E. replace (S (Nat.min (0 - 1) (ax_n a - 2))) with 1%nat by lia.
        pose proof (node_lt a 0 1 (conj G1 G2) ltac:(lia)).
        assert (x <= node a 0) by (apply C3; lia). lra.
      * replace (S (Nat.min (c - 1) (ax_n a - 2))) with c by lia. apply C3. lia.
Qed.
Lemma weight_in a x : good a -> ax_lo a <= x <= ax_hi a -> 0 <= weight a x <= 1.
Proof.
  intros G H. pose proof (cell_in a x G H) as [A B]. unfold weight.
  pose proof (node_lt a _ _ G (Nat.lt_succ_diag_r (cell a x))) as L. split.
  - apply Rmult_le_pos; [lra|]. left; apply Rinv_0_lt_compat; lra.
  - apply (Rmult_le_reg_r (node a (S (cell a x)) - node a (cell a x))); [lra|]. field_simplify; lra.
Qed.
Lemma lin_bounds a f x lo hi : good a -> ax_lo a <= x <= ax_hi a ->
  (forall i, (i < ax_n a)%nat -> lo <= f i <= hi) -> lo <= lin a f x <= hi.
Proof.
  intros G H F. pose proof (weight_in a x G H) as W. pose proof (cell_range a x G) as C. unfold lin.
  pose proof (F (cell a x) ltac:(lia)). pose proof (F (S (cell a x)) C). split; nra.
Qed.
Lemma lin_node a f i : good a -> (i < ax_n a)%nat -> lin a f (node a i) = f i.
Proof.
  intros G I.
  assert (R : ax_lo a <= node a i <= ax_hi a).
  { split. rewrite <- node_0. apply node_le; auto; lia. rewrite <- (node_last a G). apply node_le; auto; lia. }
  pose proof (cell_in a _ G R) as [A B]. pose proof (cell_range a (node a i) G) as C.
  set (c := cell a (node a i)) in *.
  assert (D : i = c \/ i = S c).
  { destruct (Nat.lt_ge_cases i c) as [Q|Q]. { pose proof (node_lt a i c G Q). lra. }
    destruct (Nat.lt_ge_cases (S c) i) as [Q'|Q']. { pose proof (node_lt a (S c) i G Q'). lra. } lia. }
  pose proof (node_lt a _ _ G (Nat.lt_succ_diag_r c)) as L.
  unfold lin, weight. fold c. clearbody c. destruct D as [->| ->].
  - replace (node a c - node a c) with 0 by ring. unfold Rdiv. ring.
  - replace ((node a (S c) - node a c) / (node a (S c) - node a c)) with 1 by (field; lra). ring.
Qed.
Lemma lin_ext a f g x : good a -> (forall i, (i < ax_n a)%nat -> f i = g i) -> lin a f x = lin a g x.
Proof. intros G E. pose proof (cell_range a x G). unfold lin. rewrite !E by lia. reflexivity. Qed.
Lemma lin_linear a f g x s t : lin a (fun i => s * f i + t * g i) x = s * lin a f x + t * lin a g x.
Proof. unfold lin. ring. Qed.
(** beyond the last node the last cell is used *)
Lemma cell_above a x : good a -> ax_hi a < x -> cell a x = (ax_n a - 2)%nat /\ 1 < weight a x.
Proof.
  intros G H. destruct (count_spec a (ax_n a) x G) as (C1 & C2 & C3).
  assert (E : cell a x = (ax_n a - 2)%nat).
  { unfold cell. destruct (Nat.eq_dec (count_below a (ax_n a) x) (ax_n a)) as [->|D]; [destruct G; lia|].
    assert (Q : (count_below a (ax_n a) x <= ax_n a - 1 < ax_n a)%nat) by (destruct G; lia).
    pose proof (C3 _ Q). rewrite node_last in H0 by auto. lra. }
  split; auto. unfold weight. rewrite E. replace (S (ax_n a - 2)) with (ax_n a - 1)%nat by (destruct G; lia).
  rewrite node_last by auto. pose proof (node_lt a (ax_n a - 2) (ax_n a - 1) G ltac:(destruct G; lia)) as L.
  rewrite node_last in L by auto. apply (Rmult_lt_reg_r (ax_hi a - node a (ax_n a - 2))); [lra|]. field_simplify; lra.
Qed.

Lemma rgi3_bounds a1 a2 a3 f x y z lo hi : good a1 -> good a2 -> good a3 ->
  ax_lo a1 <= x <= ax_hi a1 -> ax_lo a2 <= y <= ax_hi a2 -> ax_lo a3 <= z <= ax_hi a3 ->
  (forall i j k, (i < ax_n a1)%nat -> (j < ax_n a2)%nat -> (k < ax_n a3)%nat -> lo <= f i j k <= hi) ->
  lo <= rgi3 a1 a2 a3 f x y z <= hi.
Proof.
  intros G1 G2 G3 X Y Z F. unfold rgi3. apply lin_bounds; auto. intros i Hi. apply lin_bounds; auto.
  intros j Hj. apply lin_bounds; auto.
Qed.
Lemma rgi3_node a1 a2 a3 f i j k : good a1 -> good a2 -> good a3 ->
  (i < ax_n a1)%nat -> (j < ax_n a2)%nat -> (k < ax_n a3)%nat ->
  rgi3 a1 a2 a3 f (node a1 i) (node a2 j) (node a3 k) = f i j k.
Proof. intros. unfold rgi3. rewrite !lin_node; auto. Qed.

(** limits *)
Lemma log10_inc x y : 0 < x -> x < y -> log10 x < log10 y.
Proof. intros; apply log10_lt; auto. Qed.
Lemma clip_in lo hi x : lo <= hi -> lo <= clip lo hi x <= hi.
Proof. intros; unfold clip, Rmin, Rmax; destruct (Rle_dec lo x); destruct Rle_dec; lra. Qed.
Lemma clip_id lo hi x : lo <= x <= hi -> clip lo hi x = x.
Proof. intros; unfold clip, Rmin, Rmax; destruct (Rle_dec lo x); destruct Rle_dec; lra. Qed.
Lemma clip_limited lo hi x : lo <= hi -> limited lo hi x (clip lo hi x).
Proof. intros; unfold limited, clip, Rmin, Rmax; destruct (Rle_dec lo x); destruct Rle_dec; repeat split; intros; lra. Qed.

(** Johnson's law *)
Lemma sinh_incr x y : x < y -> sinh x < sinh y.
Proof. intros; apply sinh_lt; auto. Qed.
Lemma su_cap_spec a b g : 0 < b -> capped_johnson_su a b g (su_cap a b g).
Proof.
  intros B. unfold su_cap, su. split; intros H.
  - assert (L : (g - a) / b < 0).
    { replace ((g - a) / b) with (- ((a - g) / b)) by (field; lra).
      assert (0 < (a - g) / b) by (apply Rdiv_lt_0_compat; lra). lra. }
    assert (S : sinh ((g - a) / b) < 0) by (rewrite <- sinh_0; apply sinh_incr; auto).
    rewrite Rmin_left by lra. split; auto. unfold johnson_su. rewrite arcsinh_sinh. field; lra.
  - assert (L : 0 <= (g - a) / b) by (apply Rmult_le_pos; [lra|left; apply Rinv_0_lt_compat; auto]).
    apply Rmin_right. rewrite <- sinh_0. destruct L as [L|L]; [left; apply sinh_incr; auto|rewrite <- L; lra].
Qed.
Lemma su_cap_le0 a b g : su_cap a b g <= 0.
Proof. unfold su_cap. apply Rmin_r. Qed.
Lemma su_cap_mono a b g g' : 0 < b -> g <= g' -> su_cap a b g <= su_cap a b g'.
Proof.
  intros B [H|H]; [|subst; lra]. unfold su_cap, su.
  assert (sinh ((g - a) / b) < sinh ((g' - a) / b)).
  { apply sinh_incr. apply Rmult_lt_compat_r; [apply Rinv_0_lt_compat; auto|lra]. }
  unfold Rmin. destruct Rle_dec; destruct Rle_dec; lra.
Qed.
Lemma bound_mass_range m y : 0 < m -> y <= 0 -> 0 < bound_mass m y <= m.
Proof.
  intros M Y. unfold bound_mass. pose proof (pow10_pos y).
  assert (pow10 y <= 1). { destruct Y as [Y| ->]; [|rewrite pow10_0; lra]. rewrite <- pow10_0. left; apply pow10_lt; auto. }
  split; nra.
Qed.

(** the shipped tables *)
Definition zrange (lo hi : Z) (l : list Z) : bool := forallb (fun z => (lo <=? z)%Z && (z <=? hi)%Z) l.
Lemma zrange_spec lo hi l : zrange lo hi l = true -> table_within l (IZR lo / 1000) (IZR hi / 1000).
Proof.
  intros H. unfold zrange in H. rewrite forallb_forall in H. apply Forall_forall. intros z Hz.
  specialize (H z Hz). apply andb_true_iff in H as [A B]. apply Z.leb_le, IZR_le in A. apply Z.leb_le, IZR_le in B. lra.
Qed.
Lemma entry_within t lo hi n i j k : table_within t lo hi -> List.length t = (n * n * n)%nat ->
  (i < n)%nat -> (j < n)%nat -> (k < n)%nat -> lo <= entry t n i j k <= hi.
Proof.
  intros W L I J K. unfold entry. unfold table_within in W. rewrite Forall_forall in W. apply W, nth_In. rewrite L.
  assert (i * (n * n) <= (n - 1) * (n * n))%nat by (apply Nat.mul_le_mono_r; lia).
  assert (j * n <= (n - 1) * n)%nat by (apply Nat.mul_le_mono_r; lia).
  assert (n * n * n = (n - 1) * (n * n) + n * n)%nat by (destruct n; [lia|]; cbn [Nat.sub]; rewrite Nat.sub_0_r; ring).
  assert (n * n = (n - 1) * n + n)%nat by (destruct n; [lia|]; cbn [Nat.sub]; rewrite Nat.sub_0_r; ring).
  lia.
Qed.
Lemma len_tabs : Forall (fun t => List.length t = (15 * 15 * 15)%nat)
  [a_fit; b_fit; a_fit_zinfall; b_fit_zinfall; a_fit_MW30; b_fit_MW30; a_fit_MW50; b_fit_MW50; a_fit_MW200; b_fit_MW200].
Proof. repeat (apply Forall_cons; [vm_compute; reflexivity|]). apply Forall_nil. Qed.
Lemma r_a_fit : zrange 2016 8202 a_fit = true. Proof. vm_compute; reflexivity. Qed.
Lemma r_b_fit : zrange 1555 27189 b_fit = true. Proof. vm_compute; reflexivity. Qed.
Lemma r_a_zinf : zrange 2000 7167 a_fit_zinfall = true. Proof. vm_compute; reflexivity. Qed.
Lemma r_b_zinf : zrange 1502 20455 b_fit_zinfall = true. Proof. vm_compute; reflexivity. Qed.
Lemma r_a30 : zrange 2101 7858 a_fit_MW30 = true. Proof. vm_compute; reflexivity. Qed.
Lemma r_a50 : zrange 2101 7858 a_fit_MW50 = true. Proof. vm_compute; reflexivity. Qed.
Lemma r_a200 : zrange 2101 7858 a_fit_MW200 = true. Proof. vm_compute; reflexivity. Qed.
Lemma r_b30 : zrange 1842 16234 b_fit_MW30 = true. Proof. vm_compute; reflexivity. Qed.
Lemma r_b50 : zrange 1842 16234 b_fit_MW50 = true. Proof. vm_compute; reflexivity. Qed.
Lemma r_b200 : zrange 1842 16234 b_fit_MW200 = true. Proof. vm_compute; reflexivity. Qed.

Lemma good_logc : good ax_logc.
Proof. split; cbn; [apply log10_inc; lra|lia]. Qed.
Lemma good_t : good ax_t.
Proof. split; cbn; [lra|lia]. Qed.
Lemma good_host : good ax_host.
Proof. split; cbn; [lra|lia]. Qed.
Lemma good_mw_logc : good mw_logc.
Proof. split; cbn; [apply log10_inc; lra|lia]. Qed.
Lemma good_mw_t : good mw_t.
Proof. split; cbn; [lra|lia]. Qed.
Lemma good_mw_host : good mw_host.
Proof. split; cbn; [lra|lia]. Qed.

Lemma table_range t lo hi a1 a2 a3 x y z : List.length t = (15 * 15 * 15)%nat -> zrange lo hi t = true ->
  good a1 -> good a2 -> good a3 -> ax_n a1 = 15%nat -> ax_n a2 = 15%nat -> ax_n a3 = 15%nat ->
  ax_lo a1 <= x <= ax_hi a1 -> ax_lo a2 <= y <= ax_hi a2 -> ax_lo a3 <= z <= ax_hi a3 ->
  IZR lo / 1000 <= rgi3 a1 a2 a3 (entry t 15) x y z <= IZR hi / 1000.
Proof.
  intros L Z G1 G2 G3 N1 N2 N3 X Y W. apply rgi3_bounds; auto. rewrite N1, N2, N3. intros i j k I J K.
  apply entry_within; auto. apply zrange_spec; auto.
Qed.
Lemma lens t : In t [a_fit; b_fit; a_fit_zinfall; b_fit_zinfall; a_fit_MW30; b_fit_MW30; a_fit_MW50; b_fit_MW50; a_fit_MW200; b_fit_MW200]
  -> List.length t = (15 * 15 * 15)%nat.
Proof. intros H. pose proof len_tabs as F. rewrite Forall_forall in F. auto. Qed.

Lemma logc_clip x : log10 2 <= clip (log10 2) (log10 384) x <= log10 384.
Proof. apply clip_in. left; apply log10_inc; lra. Qed.
Lemma mw_logc_clip x : log10 2 <= clip (log10 2) (log10 128) x <= log10 128.
Proof. apply clip_in. left; apply log10_inc; lra. Qed.

Lemma gal_range t lc ch : 0 <= t <= 8.1 -> log10 2 <= lc <= log10 384 -> 4 <= ch <= 9 ->
  (2.016 <= gal_a t lc ch <= 8.202) /\ (1.555 <= gal_b t lc ch <= 27.189).
Proof.
  intros T L C. split; unfold gal_a, gal_b.
  - pose proof (table_range a_fit _ _ ax_t ax_logc ax_host t lc ch (lens _ ltac:(cbn; tauto)) r_a_fit good_t good_logc good_host
      eq_refl eq_refl eq_refl T L C). lra.
  - pose proof (table_range b_fit _ _ ax_t ax_logc ax_host t lc ch (lens _ ltac:(cbn; tauto)) r_b_fit good_t good_logc good_host
      eq_refl eq_refl eq_refl T L C). lra.
Qed.
Lemma zinf_range dz lc ch : 0 <= dz <= 8.1 -> log10 2 <= lc <= log10 384 -> 4 <= ch <= 9 ->
  (2 <= zinf_a dz lc ch <= 7.167) /\ (1.502 <= zinf_b dz lc ch <= 20.455).
Proof.
  intros T L C. split; unfold zinf_a, zinf_b.
  - pose proof (table_range a_fit_zinfall _ _ ax_t ax_logc ax_host dz lc ch (lens _ ltac:(cbn; tauto)) r_a_zinf good_t good_logc good_host
      eq_refl eq_refl eq_refl T L C). lra.
  - pose proof (table_range b_fit_zinfall _ _ ax_t ax_logc ax_host dz lc ch (lens _ ltac:(cbn; tauto)) r_b_zinf good_t good_logc good_host
      eq_refl eq_refl eq_refl T L C). lra.
Qed.

(** beyond the table in elapsed redshift: the scale [b] stays positive *)
Definition zat (t : list Z) (i j k : nat) : Z := nth (i * (15 * 15) + j * 15 + k) t 0%Z.
Lemma entry_zat t i j k : entry t 15 i j k = IZR (zat t i j k) / 1000.
Proof. reflexivity. Qed.
Definition extra_ok (t : list Z) : bool :=
  forallb (fun j => forallb (fun k => (0 <? zat t 14 j k)%Z
    && (0 <? 100 * zat t 13 j k + 342 * (zat t 14 j k - zat t 13 j k))%Z) (seq 0 15)) (seq 0 15).
Lemma extra_a : extra_ok a_fit_zinfall = true. Proof. vm_compute; reflexivity. Qed.
Lemma extra_b : extra_ok b_fit_zinfall = true. Proof. vm_compute; reflexivity. Qed.
Definition extra_cond (t : list Z) : Prop := forall j k, (j < 15)%nat -> (k < 15)%nat ->
  0 < entry t 15 14 j k /\ 0 < 100 * entry t 15 13 j k + 342 * (entry t 15 14 j k - entry t 15 13 j k).
Lemma extra_fact t : extra_ok t = true -> extra_cond t.
Proof.
  intros H j k J K. unfold extra_ok in H. rewrite forallb_forall in H.
  specialize (H j ltac:(apply in_seq; lia)). rewrite forallb_forall in H. specialize (H k ltac:(apply in_seq; lia)).
  apply andb_true_iff in H. destruct H as (A & B).
  apply Z.ltb_lt, IZR_lt in A. apply Z.ltb_lt, IZR_lt in B.
  rewrite plus_IZR, !mult_IZR, minus_IZR in B. rewrite !entry_zat. lra.
Qed.
Lemma weight_t dz : 8.1 < dz <= 9.5 -> cell ax_t dz = 13%nat /\ 1 < weight ax_t dz <= 3.42.
Proof.
  intros H. destruct (cell_above ax_t dz good_t ltac:(cbn; lra)) as [C W]. change (cell ax_t dz = 13%nat) in C.
  split; auto. split; auto. unfold weight. rewrite C.
  assert (E1 : node ax_t 14 - node ax_t 13 = 8.1 / 14) by (unfold node; cbn; field).
  assert (E2 : node ax_t 13 = 8.1 * 13 / 14) by (unfold node; cbn; field).
  rewrite E1, E2. lra.
Qed.
Lemma lin_pos a f x : good a -> ax_lo a <= x <= ax_hi a -> (forall i, (i < ax_n a)%nat -> 0 < f i) -> 0 < lin a f x.
Proof.
  intros G H F. pose proof (weight_in a x G H) as W. pose proof (cell_range a x G) as C. unfold lin.
  pose proof (F (cell a x) ltac:(lia)). pose proof (F (S (cell a x)) C). nra.
Qed.
Lemma extra_pos t dz lc ch : 8.1 < dz <= 9.5 -> log10 2 <= lc <= log10 384 -> 4 <= ch <= 9 ->
  extra_cond t ->
  0 < rgi3 ax_t ax_logc ax_host (entry t 15) dz lc ch.
Proof.
  intros D L C F. destruct (weight_t dz D) as [E W]. unfold rgi3. unfold lin at 1. rewrite E. set (w := weight ax_t dz) in *.
  rewrite <- lin_linear. apply lin_pos; [apply good_logc|cbn; auto|]. intros j J. rewrite <- lin_linear.
  apply lin_pos; [apply good_host|cbn; auto|]. intros k K. cbn in J, K. destruct (F j k J K) as [P Q].
  set (p := entry t 15 13 j k) in *. set (q := entry t 15 14 j k) in *.
  destruct (Rle_dec p q); nra.
Qed.
Lemma zinf_pos dz lc ch : 0 <= dz <= 9.5 -> log10 2 <= lc <= log10 384 -> 4 <= ch <= 9 -> 0 < zinf_a dz lc ch /\ 0 < zinf_b dz lc ch.
Proof.
  intros D L C. destruct (Rle_dec dz 8.1).
  - destruct (zinf_range dz lc ch ltac:(lra) L C). lra.
  - split; (apply extra_pos; [lra|exact L|exact C|apply extra_fact]); [exact extra_a|exact extra_b].
Qed.
Lemma mw_range tabs rmax t lc ch : mw_init rmax = Ok tabs -> 0 <= t <= 12.9 -> log10 2 <= lc <= log10 128 -> 6 <= ch <= 12 ->
  (2.101 <= rgi3 mw_t mw_logc mw_host (entry (fst tabs) 15) t lc ch <= 7.858)
  /\ (1.842 <= rgi3 mw_t mw_logc mw_host (entry (snd tabs) 15) t lc ch <= 16.234).
Proof.
  intros I T L C. unfold mw_init in I.
  assert (Q : List.length (fst tabs) = (15 * 15 * 15)%nat /\ List.length (snd tabs) = (15 * 15 * 15)%nat
    /\ zrange 2101 7858 (fst tabs) = true /\ zrange 1842 16234 (snd tabs) = true).
  { destruct (Reqb rmax 30); [|destruct (Reqb rmax 50); [|destruct (Reqb rmax 200); [|discriminate]]]; injection I as <-;
      cbn [fst snd]; (split; [apply lens; cbn; tauto|split; [apply lens; cbn; tauto|split; vm_compute; reflexivity]]). }
  destruct Q as (L1 & L2 & R1 & R2). split.
  - pose proof (table_range _ _ _ mw_t mw_logc mw_host t lc ch L1 R1 good_mw_t good_mw_logc good_mw_host eq_refl eq_refl eq_refl T L C). lra.
  - pose proof (table_range _ _ _ mw_t mw_logc mw_host t lc ch L2 R2 good_mw_t good_mw_logc good_mw_host eq_refl eq_refl eq_refl T L C). lra.
Qed.

(** truncated normal between arbitrary limits *)
Lemma truncnorm_spec mu s lo hi v : 0 < s -> lo < hi -> 0 <= v <= 1 ->
  let a := (lo - mu) / s in let b := (hi - mu) / s in
  quantile_between mu s lo hi v (mu + s * ndtri (ndtr a + (ndtr b - ndtr a) * v)).
Proof.
  intros S LH V a b. unfold quantile_between. rewrite !normal_mass_ndtr by auto. fold a b.
  assert (AB : a < b). { unfold a, b, Rdiv. apply Rmult_lt_compat_r; [now apply Rinv_0_lt_compat|lra]. }
  pose proof (ndtr_lt a b AB) as L. set (u := ndtr a + (ndtr b - ndtr a) * v).
  assert (U : ndtr a <= u <= ndtr b) by (unfold u; split; nra).
  pose proof (ndtri_range a b u U) as G.
  assert (EA : mu + s * a = lo) by (unfold a; field; lra). assert (EB : mu + s * b = hi) by (unfold b; field; lra).
  split. { split; nra. }
  intros t Ht. rewrite normal_mass_ndtr by auto. fold a. set (c := (t - mu) / s).
  assert (C : a <= c <= b). { unfold a, b, c. split; apply div_le_iff; lra. }
  assert (EC : mu + s * c = t) by (unfold c; field; lra).
  transitivity (ndtri u <= c). { rewrite <- EC. split; intros; nra. }
  rewrite (ndtri_le_iff a b u c U C). unfold u. split; lra.
Qed.
