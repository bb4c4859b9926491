(** Lemmas about the truncation-radius tables (C103). *)
From Coquelicot Require Import Coquelicot.
From Verif Require Import Prelude MassFnModel MassFnProofs MassLossModel MassLossProofs TnfwModel TnfwSpec TnfwProofs TnfwProps TauModel.
From Coq Require Import Psatz.
Local Open Scope R_scope.

(** ** Linear interpolation on increasing nodes *)
Section Ext.
  Variables (x y : nat -> R) (n : nat).
  Hypothesis N2 : (2 <= n)%nat.
  Hypothesis incr_x : forall i, (S i < n)%nat -> x i < x (S i).

  Lemma x_lt i j : (i < j)%nat -> (j < n)%nat -> x i < x j.
  Proof.
    intros L. induction j as [|j IH]; intros B; [lia|].
    destruct (Nat.eq_dec i j) as [->|]; [apply incr_x; lia|].
    pose proof (IH ltac:(lia) ltac:(lia)). pose proof (incr_x j B). lra.
  Qed.
  Lemma below_spec u : forall m, (m <= n)%nat ->
    (nodes_below x m u <= m)%nat /\ (forall i, (i < nodes_below x m u)%nat -> x i < u)
    /\ (forall i, (nodes_below x m u <= i < m)%nat -> u <= x i).
  Proof.
    induction m as [|m IH]; intros B; cbn [nodes_below].
    - repeat split; intros; lia.
    - destruct (IH ltac:(lia)) as (I1 & I2 & I3). destruct (Rltb (x m) u) eqn:E.
      + apply Rltb_true in E.
        assert (C : nodes_below x m u = m).
        { destruct (Nat.eq_dec (nodes_below x m u) m) as [|D]; auto.
          assert (Q : (nodes_below x m u <= nodes_below x m u < m)%nat) by lia.
          pose proof (I3 _ Q). pose proof (x_lt (nodes_below x m u) m ltac:(lia) ltac:(lia)). lra. }
        rewrite C. split; [lia|]. split.
        * intros i Hi. destruct (Nat.eq_dec i m) as [->|]; [lra|]. pose proof (x_lt i m ltac:(lia) ltac:(lia)). lra.
        * intros i Hi. lia.
      + apply Rltb_false in E. split; [lia|]. split; auto.
        intros i Hi. destruct (Nat.eq_dec i m) as [->|]; [auto|]. apply I3. lia.
  Qed.
  Lemma interval_range u : (S (interval x n u) < n)%nat.
  Proof. unfold interval. lia. Qed.
  Lemma interval_low u : interval x n u = 0%nat \/ x (interval x n u) < u.
  Proof.
    destruct (below_spec u n (le_n _)) as (A & B & C). unfold interval.
    destruct (Nat.eq_dec (nodes_below x n u) 0) as [E|E]; [left; lia|]. right. apply B. lia.
  Qed.
  Lemma interval_high u : interval x n u = (n - 2)%nat \/ u <= x (S (interval x n u)).
  Proof.
    destruct (below_spec u n (le_n _)) as (A & B & C). unfold interval.
    destruct (Nat.le_gt_cases n (nodes_below x n u)) as [Q|Q]; [left; lia|].
    destruct (Nat.eq_dec (nodes_below x n u) 0) as [E|E].
    - right. rewrite E. replace (S (Nat.min (0 - 1) (n - 2))) with 1%nat by lia.
      pose proof (C 0%nat ltac:(lia)). pose proof (x_lt 0 1 ltac:(lia) ltac:(lia)). lra.
    - right. apply C. lia.
  Qed.
  Lemma interval_mono u v : u <= v -> (interval x n u <= interval x n v)%nat.
  Proof.
    intros L. destruct (interval_low u) as [E|E]; [lia|]. destruct (interval_high v) as [F|F].
    - pose proof (interval_range u). lia.
    - destruct (Nat.le_gt_cases (interval x n u) (interval x n v)) as [Q|Q]; [exact Q|].
      pose proof (interval_range u).
      assert (x (S (interval x n v)) <= x (interval x n u)).
      { destruct (Nat.eq_dec (S (interval x n v)) (interval x n u)) as [->|]; [lra|]. left. apply x_lt; lia. }
      lra.
  Qed.
  Lemma interval_in u : x 0 <= u <= x (n - 1)%nat -> x (interval x n u) <= u <= x (S (interval x n u)).
  Proof.
    intros [A B]. split.
    - destruct (interval_low u) as [->|E]; [exact A|lra].
    - destruct (interval_high u) as [E|E]; [|exact E]. rewrite E. replace (S (n - 2)) with (n - 1)%nat by lia. exact B.
  Qed.

  Hypothesis incr_y : forall i, (S i < n)%nat -> y i <= y (S i).
  Lemma y_le i j : (i <= j)%nat -> (j < n)%nat -> y i <= y j.
  Proof.
    intros L. induction j as [|j IH]; intros B.
    - replace i with 0%nat by lia. lra.
    - destruct (Nat.eq_dec i (S j)) as [->|]; [lra|].
      pose proof (IH ltac:(lia) ltac:(lia)). pose proof (incr_y j B). lra.
  Qed.
  Lemma slope_nonneg i : (S i < n)%nat -> 0 <= (y (S i) - y i) / (x (S i) - x i).
  Proof.
    intros B. pose proof (incr_x i B). pose proof (incr_y i B). apply Rmult_le_pos; [lra|]. left. apply Rinv_0_lt_compat. lra.
  Qed.
  Lemma line_end i : (S i < n)%nat -> (y (S i) - y i) / (x (S i) - x i) * (x (S i) - x i) + y i = y (S i).
  Proof. intros B. pose proof (incr_x i B). field. lra. Qed.
  Lemma ext_mono u v : u <= v -> interp_extrapolate x y n u <= interp_extrapolate x y n v.
  Proof.
    intros L. unfold interp_extrapolate. pose proof (interval_mono u v L) as M.
    pose proof (interval_range u) as Ru. pose proof (interval_range v) as Rv.
    destruct (Nat.eq_dec (interval x n u) (interval x n v)) as [E|E].
    - rewrite E. pose proof (slope_nonneg _ Rv). nra.
    - set (i := interval x n u) in *. set (j := interval x n v) in *.
      assert (A : (y (S i) - y i) / (x (S i) - x i) * (u - x i) + y i <= y (S i)).
      { pose proof (line_end i Ru) as LE. pose proof (slope_nonneg i Ru).
        destruct (interval_high u) as [Q|Q]; fold i in Q; [lia|].
        set (s := (y (S i) - y i) / (x (S i) - x i)) in *. nra. }
      assert (B : y j <= (y (S j) - y j) / (x (S j) - x j) * (v - x j) + y j).
      { pose proof (slope_nonneg j Rv). destruct (interval_low v) as [Q|Q]; fold j in Q; [lia|]. nra. }
      pose proof (y_le (S i) j ltac:(lia) ltac:(lia)). lra.
  Qed.
  (** inside the table the value stays in the interval of the argument *)
  Lemma ext_in u : x 0 <= u <= x (n - 1)%nat ->
    y (interval x n u) <= interp_extrapolate x y n u <= y (S (interval x n u)).
  Proof.
    intros B. pose proof (interval_in u B) as [A C]. unfold interp_extrapolate. set (i := interval x n u) in *.
    pose proof (interval_range u) as Ru. fold i in Ru. pose proof (slope_nonneg i Ru). split; [nra|].
    pose proof (line_end i Ru) as LE. set (s := (y (S i) - y i) / (x (S i) - x i)) in *. nra.
  Qed.
  Lemma ext_below u : u <= x 0 -> interp_extrapolate x y n u <= y 0%nat.
  Proof.
    intros B. assert (E : interval x n u = 0%nat).
    { destruct (interval_low u) as [E|E]; [exact E|]. destruct (interval x n u) as [|k] eqn:I; [reflexivity|].
      pose proof (interval_range u). pose proof (x_lt 0 (S k) ltac:(lia) ltac:(lia)). lra. }
    unfold interp_extrapolate. rewrite E. pose proof (slope_nonneg 0 ltac:(lia)). nra.
  Qed.
  Lemma ext_above u : x (n - 1)%nat <= u -> y (n - 1)%nat <= interp_extrapolate x y n u.
  Proof.
    intros B. destruct (Req_dec u (x (n - 1)%nat)) as [E|E].
    - assert (Q : x 0 <= u <= x (n - 1)%nat) by (split; [pose proof (x_lt 0 (n - 1) ltac:(lia) ltac:(lia))|]; lra).
      unfold interp_extrapolate. pose proof (interval_in u Q) as [A C]. set (i := interval x n u) in *.
      pose proof (interval_range u) as Ru. fold i in Ru.
      assert (S i = n - 1)%nat.
      { destruct (Nat.eq_dec (S i) (n - 1)) as [|D]; [assumption|]. pose proof (x_lt (S i) (n - 1) ltac:(lia) ltac:(lia)). lra. }
      rewrite E, <- H, (line_end i Ru). lra.
    - assert (I : interval x n u = (n - 2)%nat).
      { destruct (interval_high u) as [I|I]; [exact I|]. pose proof (interval_range u).
        destruct (Nat.eq_dec (S (interval x n u)) (n - 1)) as [D|D]; [lia|].
        pose proof (x_lt (S (interval x n u)) (n - 1) ltac:(lia) ltac:(lia)). lra. }
      unfold interp_extrapolate. rewrite I. replace (n - 1)%nat with (S (n - 2)) in * by lia.
      pose proof (slope_nonneg (n - 2) ltac:(lia)). rewrite <- (line_end (n - 2) ltac:(lia)) at 1.
      apply Rplus_le_compat_r, Rmult_le_compat_l; [assumption|]. lra.
  Qed.
End Ext.

(** smaller nodes give larger values, where the argument is inside the range of the two tables *)
Lemma ext_shift (x x' y : nat -> R) n u : (2 <= n)%nat -> (forall i, (S i < n)%nat -> x i < x (S i)) ->
  (forall i, (S i < n)%nat -> x' i < x' (S i)) -> (forall i, (S i < n)%nat -> y i <= y (S i)) ->
  (forall i, (i < n)%nat -> x' i <= x i) -> x' 0%nat <= u <= x (n - 1)%nat ->
  interp_extrapolate x y n u <= interp_extrapolate x' y n u.
Proof.
  intros N2 Ix Ix' Iy D [Lo Hi].
  destruct (Rle_lt_dec u (x 0%nat)) as [A|A].
  { pose proof (ext_below x y n N2 Ix Iy u A).
    destruct (Rle_lt_dec u (x' (n - 1)%nat)) as [B|B].
    - pose proof (ext_in x' y n N2 Ix' Iy u (conj Lo B)) as [C _].
      pose proof (y_le y n N2 Iy 0 (interval x' n u) ltac:(lia)). pose proof (interval_range x' n N2 u). specialize (H0 ltac:(lia)); lra.
    - pose proof (ext_above x' y n N2 Ix' Iy u ltac:(lra)). pose proof (y_le y n N2 Iy 0 (n - 1) ltac:(lia) ltac:(lia)). lra. }
  destruct (Rle_lt_dec u (x' (n - 1)%nat)) as [B|B].
  2:{ pose proof (ext_above x' y n N2 Ix' Iy u ltac:(lra)).
      pose proof (ext_in x y n N2 Ix Iy u (conj (Rlt_le _ _ A) Hi)) as [_ C].
      pose proof (interval_range x n N2 u). pose proof (y_le y n N2 Iy (S (interval x n u)) (n - 1) ltac:(lia) ltac:(lia)). lra. }
  pose proof (ext_in x y n N2 Ix Iy u (conj (Rlt_le _ _ A) Hi)) as [_ C].
  pose proof (ext_in x' y n N2 Ix' Iy u (conj Lo B)) as [C' _].
  pose proof (interval_in x n N2 Ix u (conj (Rlt_le _ _ A) Hi)) as [P Q].
  pose proof (interval_in x' n N2 Ix' u (conj Lo B)) as [P' Q'].
  pose proof (interval_range x n N2 u) as Rx. pose proof (interval_range x' n N2 u) as Rx'.
  set (i := interval x n u) in *. set (j := interval x' n u) in *.
  destruct (Nat.le_gt_cases (S i) j) as [L|L].
  { pose proof (y_le y n N2 Iy (S i) j L ltac:(lia)). lra. }
  assert (i <= j)%nat.
  { destruct (Nat.le_gt_cases i j) as [M|M]; [exact M|].
    (* S j <= i: u <= x' (S j) <= x (S j) <= x i <= u *)
    pose proof (D (S j) ltac:(lia)).
    assert (x (S j) <= x i) by (destruct (Nat.eq_dec (S j) i) as [->|]; [lra|]; left; apply (x_lt x n N2 Ix); lia).
    assert (x i = u) by lra.
    destruct (interval_low x n N2 Ix u) as [Z|Z]; fold i in Z; [lia|lra]. }
  assert (E : i = j) by lia. unfold interp_extrapolate. fold i j. rewrite <- E.
  pose proof (Ix i Rx). pose proof (Ix' i ltac:(lia)). pose proof (Iy i Rx). pose proof (D i ltac:(lia)). pose proof (D (S i) ltac:(lia)).
  rewrite <- E in P', Q'. apply Rplus_le_compat_r. set (dy := y (S i) - y i) in *.
  unfold Rdiv. rewrite !Rmult_assoc. apply Rmult_le_compat_l; [unfold dy; lra|].
  apply (Rmult_le_reg_r (x (S i) - x i)); [lra|]. apply (Rmult_le_reg_r (x' (S i) - x' i)); [lra|].
  replace (/ (x (S i) - x i) * (u - x i) * (x (S i) - x i) * (x' (S i) - x' i)) with ((u - x i) * (x' (S i) - x' i)) by (field; lra).
  replace (/ (x' (S i) - x' i) * (u - x' i) * (x (S i) - x i) * (x' (S i) - x' i)) with ((u - x' i) * (x (S i) - x i)) by (field; lra).
  nra.
Qed.

(** [lin] is the same interpolation *)
Lemma below_axis a u m : count_below a m u = nodes_below (node a) m u.
Proof. induction m as [|m IH]; [reflexivity|]. cbn [count_below nodes_below]. now rewrite IH. Qed.
Lemma lin_ext1 a f u : good a -> lin a f u = interp_extrapolate (node a) f (ax_n a) u.
Proof.
  intros G. unfold lin, weight, interp_extrapolate, cell, interval. rewrite below_axis.
  set (i := Nat.min _ _). pose proof (node_lt a i (S i) G ltac:(lia)). field. lra.
Qed.
Lemma lin_mono a f u v : good a -> (forall i, (S i < ax_n a)%nat -> f i <= f (S i)) -> u <= v -> lin a f u <= lin a f v.
Proof.
  intros G F L. rewrite !lin_ext1 by assumption. pose proof G as [_ N].
  apply ext_mono; auto. intros i Hi. apply node_lt; auto.
Qed.
Lemma lin_le a f g u : good a -> ax_lo a <= u <= ax_hi a -> (forall i, (i < ax_n a)%nat -> f i <= g i) -> lin a f u <= lin a g u.
Proof.
  intros G H L. pose proof (weight_in a u G H). pose proof (cell_range a u G). unfold lin.
  pose proof (L (cell a u) ltac:(lia)). pose proof (L (S (cell a u)) ltac:(lia)). nra.
Qed.

(** ** The mass fraction decreases with the concentration *)
Definition wgt (tau x : R) : R := tau ^ 2 / (x ^ 2 + tau ^ 2).
Lemma wgt_dec tau x y : 0 < tau -> 0 <= x -> x <= y -> wgt tau y <= wgt tau x.
Proof.
  intros Ht Hx L. unfold wgt. pose proof (sq_pos tau Ht). pose proof (pow2_ge_0 x). unfold Rdiv.
  apply Rmult_le_compat_l; [lra|]. apply Rinv_le_contravar; [lra|]. simpl. nra.
Qed.
Lemma nu_wgt tau x : 0 < tau -> 0 <= x -> nu tau x = wgt tau x * nu0 x.
Proof.
  intros Ht Hx. unfold nu, wgt, nu0. pose proof (sq_pos tau Ht). pose proof (pow2_ge_0 x). field. split; simpl in *; nra || lra.
Qed.
Lemma nu0_nonneg x : 0 <= x -> 0 <= nu0 x.
Proof. intros H. unfold nu0. apply Rmult_le_pos; [lra|]. left. apply Rinv_0_lt_compat, sq_pos. lra. Qed.
Lemma diff_mvt tau k a b : 0 < tau -> 0 <= a -> a <= b ->
  exists t, a <= t <= b /\ (Func tau b - k * Func0 b) - (Func tau a - k * Func0 a) = (wgt tau t - k) * nu0 t * (b - a).
Proof.
  intros Ht Ha L.
  assert (D : forall x, 0 <= x -> is_derive (fun x => Func tau x - k * Func0 x) x ((wgt tau x - k) * nu0 x)).
  { intros x Hx. replace ((wgt tau x - k) * nu0 x) with (minus (nu tau x) (k * nu0 x)).
    2:{ rewrite nu_wgt by assumption. unfold minus, plus, opp; simpl. ring. }
    apply (is_derive_minus (V := R_NormedModule) (Func tau) (fun x => k * Func0 x)); [apply Func_derive; assumption|].
    apply (is_derive_scal Func0 x k (nu0 x)). apply Func0_derive; assumption. }
  destruct (MVT_gen (fun x => Func tau x - k * Func0 x) a b (fun x => (wgt tau x - k) * nu0 x)) as (t & T & E).
  - intros x Hx. apply D. rewrite Rmin_left in Hx by lra. lra.
  - intros x Hx. apply derivable_continuous_pt. exists ((wgt tau x - k) * nu0 x). apply is_derive_Reals. apply D.
    rewrite Rmin_left in Hx by lra. lra.
  - exists t. rewrite Rmin_left, Rmax_right in T by lra. split; [lra|exact E].
Qed.
Lemma frac_decreasing tau c c' : 0 < tau -> 0 < c -> c <= c' -> tnfw_mass_fraction tau c' <= tnfw_mass_fraction tau c.
Proof.
  intros Ht Hc L. rewrite !frac_unfold by lra. pose proof (Func0_pos c Hc) as P. pose proof (Func0_pos c' ltac:(lra)) as P'.
  set (k := wgt tau c).
  destruct (diff_mvt tau k 0 c Ht ltac:(lra) ltac:(lra)) as (t & T & E). rewrite Func_0, Func0_0 in E by assumption.
  destruct (diff_mvt tau k c c' Ht ltac:(lra) L) as (s & S & F).
  assert (A : 0 <= (wgt tau t - k) * nu0 t * (c - 0)).
  { apply Rmult_le_pos; [|lra]. apply Rmult_le_pos; [|apply nu0_nonneg; lra]. pose proof (wgt_dec tau t c Ht ltac:(lra) ltac:(lra)). unfold k. lra. }
  assert (B : 0 <= (k - wgt tau s) * nu0 s * (c' - c)).
  { apply Rmult_le_pos; [|lra]. apply Rmult_le_pos; [|apply nu0_nonneg; lra]. pose proof (wgt_dec tau c s Ht ltac:(lra) ltac:(lra)). unfold k. lra. }
  assert (G : 0 <= Func0 c' - Func0 c).
  { assert (M : exists t, c <= t <= c' /\ Func0 c' - Func0 c = nu0 t * (c' - c)).
    { destruct (MVT_gen Func0 c c' nu0) as (q & Q & Eq).
      - intros x Hx. apply Func0_derive. rewrite Rmin_left in Hx by lra. lra.
      - intros x Hx. apply derivable_continuous_pt. exists (nu0 x). apply is_derive_Reals. apply Func0_derive.
        rewrite Rmin_left in Hx by lra. lra.
      - rewrite Rmin_left, Rmax_right in Q by lra. exists q. split; [lra|exact Eq]. }
    destruct M as (q & Q & ->). apply Rmult_le_pos; [apply nu0_nonneg|]; lra. }
  assert (H1 : k * Func0 c <= Func tau c) by lra.
  assert (H2 : Func tau c' - Func tau c <= k * (Func0 c' - Func0 c)) by lra.
  apply (Rmult_le_reg_r (Func0 c * Func0 c')); [apply Rmult_lt_0_compat; assumption|].
  replace (Func tau c' / Func0 c' * (Func0 c * Func0 c')) with (Func tau c' * Func0 c) by (field; lra).
  replace (Func tau c / Func0 c * (Func0 c * Func0 c')) with (Func tau c * Func0 c') by (field; lra).
  nra.
Qed.

(** interpolation in any cell that contains the point *)
Lemma lin_cell a f u i : good a -> (S i < ax_n a)%nat -> node a i <= u <= node a (S i) ->
  exists w, 0 <= w <= 1 /\ lin a f u = (1 - w) * f i + w * f (S i).
Proof.
  intros G L [A B]. pose proof (node_lt a i (S i) G ltac:(lia)) as Q.
  destruct (Req_dec u (node a i)) as [->|Na].
  { exists 0. split; [lra|]. rewrite lin_node by (auto; lia). ring. }
  destruct (Req_dec u (node a (S i))) as [->|Nb].
  { exists 1. split; [lra|]. rewrite lin_node by auto. ring. }
  assert (Rg : ax_lo a <= u <= ax_hi a).
  { rewrite <- (node_0 a), <- (node_last a) by auto. pose proof (node_le a 0 i G ltac:(lia)). pose proof (node_le a (S i) (ax_n a - 1) G ltac:(lia)). lra. }
  pose proof (cell_in a u G Rg) as [C D]. pose proof (cell_range a u G) as Cr.
  assert (E : cell a u = i).
  { destruct (Nat.lt_trichotomy (cell a u) i) as [T|[T|T]]; [|exact T|].
    - pose proof (node_le a (S (cell a u)) i G ltac:(lia)). lra.
    - pose proof (node_le a (S i) (cell a u) G ltac:(lia)). lra. }
  exists (weight a u). split; [apply weight_in; auto|]. unfold lin. now rewrite E.
Qed.

(** ** Tables *)
Record wf_grid (g : tau_grid) : Prop := {
  wf_tau : good (tg_tau g); wf_x : good (tg_x g); wf_mf : good (tg_mf g);
  wf_pos : forall x, ax_lo (tg_x g) <= x -> 0 < tg_conc g x;
  wf_inc : forall x x', x <= x' -> tg_conc g x <= tg_conc g x' }.
Lemma pow10_pos x : 0 < pow10 x.
Proof. apply exp_pos. Qed.
Lemma pow10_le' x y : x <= y -> pow10 x <= pow10 y.
Proof. intros L. unfold pow10, Rpower. destruct (Req_dec x y) as [->|]; [lra|]. left. apply exp_increasing, Rmult_lt_compat_r; [|lra]. rewrite <- ln_1. apply ln_increasing; lra. Qed.
Lemma wf_util : wf_grid grid_util.
Proof.
  constructor; cbn; try (split; cbn; [lra|lia]).
  - split; cbn; [|lia]. apply Rlt_le_trans with (log10 (pow10 (-6)) + 1); [rewrite log10_pow10; lra|].
    assert (log10 (pow10 (-1)) <= log10 0.9999).
    { left. apply MassFnProofs.log10_lt; [apply pow10_pos|]. unfold pow10. replace (-1) with (- (1)) by lra. rewrite Rpower_Ropp, Rpower_1 by lra. lra. }
    rewrite log10_pow10 in *. lra.
  - intros; apply pow10_pos.
  - apply pow10_le'.
Qed.
Lemma wf_emulator : wf_grid grid_emulator.
Proof. constructor; cbn; try (split; cbn; [lra|lia]); intros; lra. Qed.

Section Tab.
  Variables (frac : R -> R -> R) (g : tau_grid).
  Hypothesis W : wf_grid g.
  Hypothesis F : forall tau c, 0 < tau -> 0 < c -> frac tau c = tnfw_mass_fraction tau c.
  Definition cc (i : nat) : R := tg_conc g (node (tg_x g) i).
  Definition XX (i k : nat) : R := log10 (frac (pow10 (node (tg_tau g) k)) (cc i)).
  Definition YY (k : nat) : R := log10 (pow10 (node (tg_tau g) k)).
  Lemma cc_pos i : 0 < cc i.
  Proof. apply (wf_pos g W). rewrite <- (node_0 (tg_x g)). apply node_le; [apply (wf_x g W)|lia]. Qed.
  Lemma cc_le i i' : (i <= i')%nat -> cc i <= cc i'.
  Proof. intros L. apply (wf_inc g W). apply node_le; [apply (wf_x g W)|exact L]. Qed.
  Lemma nt2 : (2 <= ax_n (tg_tau g))%nat.
  Proof. apply (wf_tau g W). Qed.
  Lemma frac_pos tau c : 0 < tau -> 0 < c -> 0 < frac tau c.
  Proof. intros. rewrite F by assumption. apply C25_bounds; assumption. Qed.
  Lemma pow10_lt x y : x < y -> pow10 x < pow10 y.
  Proof. intros L. apply Rnot_le_lt. intros H. assert (log10 (pow10 y) <= log10 (pow10 x)).
    { destruct (Req_dec (pow10 y) (pow10 x)) as [->|]; [lra|]. left. apply MassFnProofs.log10_lt; [apply pow10_pos|lra]. }
    rewrite !log10_pow10 in *. lra. Qed.
  Lemma XX_incr i k : XX i k < XX i (S k).
  Proof.
    unfold XX. pose proof (cc_pos i). pose proof (pow10_pos (node (tg_tau g) k)). pose proof (pow10_pos (node (tg_tau g) (S k))).
    apply MassFnProofs.log10_lt; [apply frac_pos; assumption|]. rewrite !F by assumption. apply C25_monotone; try assumption.
    apply pow10_lt, node_lt; [apply (wf_tau g W)|lia].
  Qed.
  Lemma YY_incr k : YY k <= YY (S k).
  Proof. unfold YY. rewrite !log10_pow10. left. apply node_lt; [apply (wf_tau g W)|lia]. Qed.
  Lemma T_eq i j : log10tau_2d frac g i j = interp_extrapolate (XX i) YY (ax_n (tg_tau g)) (node (tg_mf g) j).
  Proof. reflexivity. Qed.
  Lemma T_j i j j' : (j <= j')%nat -> log10tau_2d frac g i j <= log10tau_2d frac g i j'.
  Proof.
    intros L. rewrite !T_eq. apply ext_mono; [apply nt2|intros; apply XX_incr|intros; apply YY_incr|].
    apply node_le; [apply (wf_mf g W)|exact L].
  Qed.
  Lemma log10_le' x y : 0 < x -> x <= y -> log10 x <= log10 y.
  Proof. intros P L. destruct (Req_dec x y) as [->|]; [lra|]. left. apply MassFnProofs.log10_lt; lra. Qed.
  Lemma XX_dec i i' k : (i <= i')%nat -> XX i' k <= XX i k.
  Proof.
    intros L. unfold XX. pose proof (cc_pos i). pose proof (cc_pos i'). pose proof (pow10_pos (node (tg_tau g) k)).
    apply log10_le'; [apply frac_pos; assumption|]. rewrite !F by assumption. apply frac_decreasing; try assumption. apply cc_le, L.
  Qed.
  Lemma T_i i i' j : (i <= i')%nat -> XX i' 0 <= node (tg_mf g) j <= XX i (ax_n (tg_tau g) - 1) ->
    log10tau_2d frac g i j <= log10tau_2d frac g i' j.
  Proof.
    intros L B. rewrite !T_eq. apply ext_shift; [apply nt2| | | | |exact B]; intros; try apply XX_incr; try apply YY_incr.
    apply XX_dec, L.
  Qed.
  Definition step_ratio : R := pow10 ((ax_hi (tg_tau g) - ax_lo (tg_tau g)) / INR (ax_n (tg_tau g) - 1)).
  Lemma exact_in_range i j t : frac t (cc i) = pow10 (node (tg_mf g) j) ->
    pow10 (ax_lo (tg_tau g)) <= t <= pow10 (ax_hi (tg_tau g)) ->
    XX i 0 <= node (tg_mf g) j <= XX i (ax_n (tg_tau g) - 1).
  Proof.
    intros E [A B]. assert (Tp : 0 < t) by (pose proof (pow10_pos (ax_lo (tg_tau g))); lra). pose proof (cc_pos i) as Cp.
    unfold XX. rewrite node_0, (node_last _ (wf_tau g W)). pose proof (pow10_pos (ax_lo (tg_tau g))). pose proof (pow10_pos (ax_hi (tg_tau g))).
    rewrite F in E by assumption. rewrite <- (log10_pow10 (node (tg_mf g) j)), <- E, !F by assumption.
    split; (apply log10_le'; [apply C25_bounds; assumption|]).
    - destruct (Req_dec (pow10 (ax_lo (tg_tau g))) t) as [->|]; [lra|]. left. apply C25_monotone; try assumption; lra.
    - destruct (Req_dec t (pow10 (ax_hi (tg_tau g)))) as [->|]; [lra|]. left. apply C25_monotone; try assumption; lra.
  Qed.
  Lemma frac_inj_le t t' c : 0 < t -> 0 < t' -> 0 < c -> tnfw_mass_fraction t c <= tnfw_mass_fraction t' c -> t <= t'.
  Proof. intros A B C L. apply Rnot_lt_le. intros H. pose proof (C25_monotone t' t c B H C). lra. Qed.
  Lemma log10_inj_le x y : 0 < x -> 0 < y -> log10 x <= log10 y -> x <= y.
  Proof. intros A B L. apply Rnot_lt_le. intros H. pose proof (MassFnProofs.log10_lt y x B H). lra. Qed.
  Lemma T_node i j t : frac t (cc i) = pow10 (node (tg_mf g) j) ->
    pow10 (ax_lo (tg_tau g)) <= t <= pow10 (ax_hi (tg_tau g)) ->
    t / step_ratio <= pow10 (log10tau_2d frac g i j) <= t * step_ratio.
  Proof.
    intros E B. pose proof (exact_in_range i j t E B) as Rg. assert (Tp : 0 < t) by (pose proof (pow10_pos (ax_lo (tg_tau g))); lra).
    pose proof (cc_pos i) as Cp.
    assert (IX : forall k, (S k < ax_n (tg_tau g))%nat -> XX i k < XX i (S k)) by (intros; apply XX_incr).
    assert (IY : forall k, (S k < ax_n (tg_tau g))%nat -> YY k <= YY (S k)) by (intros; apply YY_incr).
    pose proof (interval_in (XX i) _ nt2 IX _ Rg) as [P Q]. pose proof (ext_in (XX i) YY _ nt2 IX IY _ Rg) as [P' Q'].
    rewrite <- T_eq in P', Q'. set (k := interval _ _ _) in *. clearbody k. unfold YY in P', Q'. rewrite log10_pow10 in P', Q'.
    assert (A1 : pow10 (node (tg_tau g) k) <= t).
    { apply (frac_inj_le _ _ (cc i)); try assumption; [apply pow10_pos|]. rewrite <- !F by (try assumption; apply pow10_pos).
      apply log10_inj_le; [apply frac_pos; [apply pow10_pos|assumption]|apply frac_pos; assumption|].
      rewrite E, log10_pow10. exact P. }
    assert (A2 : t <= pow10 (node (tg_tau g) (S k))).
    { apply (frac_inj_le _ _ (cc i)); try assumption; [apply pow10_pos|]. rewrite <- !F by (try assumption; apply pow10_pos).
      apply log10_inj_le; [apply frac_pos; assumption|apply frac_pos; [apply pow10_pos|assumption]|].
      rewrite E, log10_pow10. exact Q. }
    apply pow10_le' in P'. apply pow10_le' in Q'. rewrite node_S in *.
    assert (E2 : pow10 (node (tg_tau g) k + (ax_hi (tg_tau g) - ax_lo (tg_tau g)) / INR (ax_n (tg_tau g) - 1)) = pow10 (node (tg_tau g) k) * step_ratio)
      by apply Rpower_plus.
    rewrite E2 in *. assert (Sp : 0 < step_ratio) by apply pow10_pos. split.
    - apply (Rmult_le_reg_r step_ratio); [exact Sp|]. unfold Rdiv. rewrite Rmult_assoc, Rinv_l by lra. nra.
    - nra.
  Qed.
  Lemma look_node i j : (i < ax_n (tg_x g))%nat -> (j < ax_n (tg_mf g))%nat ->
    tau_lookup frac g (node (tg_x g) i) (node (tg_mf g) j) = log10tau_2d frac g i j.
  Proof.
    intros I J. unfold tau_lookup. rewrite lin_node by (auto; apply (wf_x g W)). apply lin_node; [apply (wf_mf g W)|exact J].
  Qed.
  Lemma look_mono x y y' : ax_lo (tg_x g) <= x <= ax_hi (tg_x g) -> y <= y' -> tau_lookup frac g x y <= tau_lookup frac g x y'.
  Proof.
    intros Hx L. unfold tau_lookup. apply lin_le; [apply (wf_x g W)|exact Hx|]. intros i Hi.
    apply lin_mono; [apply (wf_mf g W)| |exact L]. intros j Hj. apply T_j. lia.
  Qed.
  Lemma look_cell x y i j : (S i < ax_n (tg_x g))%nat -> (S j < ax_n (tg_mf g))%nat ->
    node (tg_x g) i <= x <= node (tg_x g) (S i) -> node (tg_mf g) j <= y <= node (tg_mf g) (S j) ->
    XX i 0 <= node (tg_mf g) j -> node (tg_mf g) (S j) <= XX (S i) (ax_n (tg_tau g) - 1) ->
    log10tau_2d frac g i j <= tau_lookup frac g x y <= log10tau_2d frac g (S i) (S j).
  Proof.
    intros I J Hx Hy Lo Hi. unfold tau_lookup.
    destruct (lin_cell (tg_x g) (fun i => lin (tg_mf g) (fun j => log10tau_2d frac g i j) y) x i (wf_x g W) I Hx) as (w & Bw & ->).
    destruct (lin_cell (tg_mf g) (fun j => log10tau_2d frac g i j) y j (wf_mf g W) J Hy) as (v & Bv & ->).
    destruct (lin_cell (tg_mf g) (fun j => log10tau_2d frac g (S i) j) y j (wf_mf g W) J Hy) as (v' & Bv' & ->).
    pose proof (T_j i j (S j) ltac:(lia)) as T1. pose proof (T_j (S i) j (S j) ltac:(lia)) as T2.
    pose proof (node_lt (tg_mf g) j (S j) (wf_mf g W) ltac:(lia)) as Nl.
    pose proof (XX_dec i (S i) 0 ltac:(lia)). pose proof (XX_dec i (S i) (ax_n (tg_tau g) - 1) ltac:(lia)).
    assert (T3 : log10tau_2d frac g i j <= log10tau_2d frac g (S i) j) by (apply T_i; [lia|lra]).
    assert (T4 : log10tau_2d frac g i (S j) <= log10tau_2d frac g (S i) (S j)) by (apply T_i; [lia|lra]).
    set (a := log10tau_2d frac g i j) in *. set (b := log10tau_2d frac g i (S j)) in *.
    set (c := log10tau_2d frac g (S i) j) in *. set (d := log10tau_2d frac g (S i) (S j)) in *. clearbody a b c d.
    assert (a <= (1 - v) * a + v * b <= d) by nra. assert (a <= (1 - v') * c + v' * d <= d) by nra. nra.
  Qed.
  Lemma look_conc x x' y j : (S j < ax_n (tg_mf g))%nat -> x <= x' -> node (tg_mf g) j <= y <= node (tg_mf g) (S j) ->
    XX 0 0 <= node (tg_mf g) j -> node (tg_mf g) (S j) <= XX (ax_n (tg_x g) - 1) (ax_n (tg_tau g) - 1) ->
    tau_lookup frac g x y <= tau_lookup frac g x' y.
  Proof.
    intros J L Hy Lo Hi. unfold tau_lookup. apply lin_mono; [apply (wf_x g W)| |exact L]. intros i Hi'.
    assert (Yr : ax_lo (tg_mf g) <= y <= ax_hi (tg_mf g)).
    { rewrite <- (node_0 (tg_mf g)), <- (node_last (tg_mf g)) by apply (wf_mf g W).
      pose proof (node_le (tg_mf g) 0 j (wf_mf g W) ltac:(lia)). pose proof (node_le (tg_mf g) (S j) (ax_n (tg_mf g) - 1) (wf_mf g W) ltac:(lia)). lra. }
    pose proof (node_lt (tg_mf g) j (S j) (wf_mf g W) ltac:(lia)) as Nl.
    pose proof (XX_dec 0 (S i) 0 ltac:(lia)). pose proof (XX_dec i (ax_n (tg_x g) - 1) (ax_n (tg_tau g) - 1) ltac:(lia)).
    assert (T3 : forall k, (k = j \/ k = S j) -> log10tau_2d frac g i k <= log10tau_2d frac g (S i) k).
    { intros k [-> | ->]; apply T_i; try lia; split; lra. }
    set (P := fun k => log10tau_2d frac g i k) in *. set (Q := fun k => log10tau_2d frac g (S i) k) in *.
    destruct (lin_cell (tg_mf g) (fun k => P k - Q k) y j (wf_mf g W) J Hy) as (w & Bw & Ew).
    assert (E : lin (tg_mf g) (fun k => P k - Q k) y = lin (tg_mf g) P y - lin (tg_mf g) Q y) by (unfold lin; ring).
    pose proof (T3 j (or_introl eq_refl)). pose proof (T3 (S j) (or_intror eq_refl)). fold (P j) (Q j) (P (S j)) (Q (S j)) in *.
    clearbody P Q. assert ((1 - w) * (P j - Q j) <= 0) by nra. assert (w * (P (S j) - Q (S j)) <= 0) by nra. lra.
  Qed.
End Tab.
