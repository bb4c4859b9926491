(** C95: projected masses. *)
From Verif Require Import Prelude SpaceModel SlopeModel SlopeProps TwoPointProofs.
From Coq Require Import Lra Psatz.
From Coquelicot Require Import Coquelicot.
Local Open Scope R_scope.

(** ** Specification *)
Definition sigma_kpc (sigma_mpc : R) : R := sigma_mpc / 1000000.
(** mass of a uniform sheet of convergence c in the ring between radii a and b, both in kpc *)
Definition ring_mass (sigma_mpc c a b : R) : R := c * sigma_kpc sigma_mpc * (PI * b ^ 2 - PI * a ^ 2).
(** the inner edge of the integration, relative to the outer one, and the ratio of neighbouring radii *)
Definition inner : R := Rpower 10 (- (35 / 10)).
Definition step (n : nat) : R := Rpower 10 (35 / 10 / INR (n - 1)).

(** ** Proofs *)
Definition ring (kappa : R -> R) (xs : list R) : R := np_trapz (map (fun x => (x, kappa x * 2 * PI * x)) xs).

Lemma ring_cons kappa x y l : ring kappa (x :: y :: l) = PI * (y - x) * (kappa x * x + kappa y * y) + ring kappa (y :: l).
Proof. unfold ring. cbn [map np_trapz fst snd]. field. Qed.
Lemma ring_uniform c x l : ring (fun _ => c) (x :: l) = c * (PI * last (x :: l) 0 ^ 2 - PI * x ^ 2).
Proof.
  revert x. induction l as [|y l IH]; intros x; [unfold ring; cbn; lra|]. rewrite ring_cons, IH. change (last (x :: y :: l) 0) with (last (y :: l) 0). ring_simplify. lra.
Qed.
Lemma ring_mono kappa kappa' xs : StronglySorted Rlt (0 :: xs) -> (forall x, In x xs -> kappa x <= kappa' x) -> ring kappa xs <= ring kappa' xs.
Proof.
  induction xs as [|x [|y l] IH]; intros S H; try (unfold ring; cbn; lra). rewrite !ring_cons. pose proof PI_RGT_0.
  apply StronglySorted_inv in S as [S F]. assert (Px : 0 < x) by now apply Forall_inv in F. assert (L : x < y) by (apply StronglySorted_inv in S as [_ F2]; now apply Forall_inv in F2).
  assert (IHH : ring kappa (y :: l) <= ring kappa' (y :: l)).
  { apply IH; [|intros; apply H; now right]. apply StronglySorted_inv in S as [S _]. constructor; [exact S|]. now apply Forall_inv_tail in F. }
  assert (kappa x * x + kappa y * y <= kappa' x * x + kappa' y * y).
  { apply Rplus_le_compat; apply Rmult_le_compat_r; try lra; apply H; [now left|right; now left]. }
  apply Rplus_le_compat; [|exact IHH]. apply Rmult_le_compat_l; [|assumption]. apply Rmult_le_pos; lra.
Qed.
Lemma ring_linear u v f g xs : ring (fun x => u * f x + v * g x) xs = u * ring f xs + v * ring g xs.
Proof. induction xs as [|x [|y l] IH]; try (unfold ring; cbn; lra). rewrite !ring_cons, IH. ring. Qed.
Lemma ring_scale kappa k xs : k <> 0 -> ring kappa (map (fun r => r / k) xs) = ring (fun r => kappa (r / k)) xs / k ^ 2.
Proof.
  intros N. induction xs as [|x [|y l] IH]; try (unfold ring; cbn; field; assumption). cbn [map] in *. rewrite !ring_cons, IH. field. assumption.
Qed.

(** the grid in kpc *)
Definition kpc_grid (rm : R) (n : nat) : list R := map (fun s => s * rm) (np_logspace (- (35 / 10)) 0 n).
Lemma mass_2d_kpc kappa k sigma r200 rmax n : k <> 0 ->
  mass_2d kappa k sigma r200 rmax n = ring (fun r => kappa (r / k)) (kpc_grid (rmax_value r200 rmax) n) * sigma_kpc sigma.
Proof.
  intros N. unfold mass_2d. cbv zeta. unfold kpc_grid, sigma_kpc. set (rm := rmax_value r200 rmax).
  assert (E : map (fun s => s * rm / k) (np_logspace (- (35 / 10)) 0 n) = map (fun r => r / k) (map (fun s => s * rm) (np_logspace (- (35 / 10)) 0 n))) by now rewrite map_map.
  rewrite E. fold (ring kappa (map (fun r => r / k) (map (fun s => s * rm) (np_logspace (- (35 / 10)) 0 n)))). rewrite ring_scale by assumption. field. assumption.
Qed.

Lemma log_grid a rm n : 0 < rm -> (2 <= n)%nat -> a < 0 ->
  let g := map (fun s => s * rm) (np_logspace a 0 n) in
  StronglySorted Rlt (0 :: g) /\ hd 0 g = Rpower 10 a * rm /\ last g 0 = rm /\ List.length g = n /\
  (forall i, (S i < n)%nat -> nth (S i) g 0 = Rpower 10 (- a / INR (n - 1)) * nth i g 0) /\ (forall x, In x g -> Rpower 10 a * rm <= x <= rm).
Proof.
  intros P N Ha. cbv zeta. unfold np_logspace, np_linspace. rewrite !map_map.
  assert (NI : 0 < INR (n - 1)) by (apply lt_0_INR; lia).
  set (f := fun i => Rpower 10 (a + INR i * ((0 - a) / INR (n - 1))) * rm).
  assert (Q : 0 < (0 - a) / INR (n - 1)) by (apply Rdiv_lt_0_compat; lra).
  assert (Pf : forall i, 0 < f i) by (intros; unfold f; apply Rmult_lt_0_compat; [apply exp_pos|assumption]).
  assert (Mf : forall i j, (i < j)%nat -> f i < f j).
  { intros i j L. unfold f. apply Rmult_lt_compat_r; [assumption|]. apply Rpower_lt; [lra|]. apply lt_INR in L. assert (INR i * ((0 - a) / INR (n - 1)) < INR j * ((0 - a) / INR (n - 1))) by (apply Rmult_lt_compat_r; assumption). lra. }
  assert (Mf' : forall i j, (i <= j)%nat -> f i <= f j) by (intros i j L; destruct (Nat.eq_dec i j) as [->|]; [lra|left; apply Mf; lia]).
  assert (F0 : f 0%nat = Rpower 10 a * rm) by (unfold f; cbn [INR]; do 2 f_equal; ring).
  assert (F1 : f (n - 1)%nat = rm).
  { unfold f. replace (a + INR (n - 1) * ((0 - a) / INR (n - 1))) with 0 by (field; lra). rewrite Rpower_O by lra. ring. }
  split; [|split; [|split; [|split; [|split]]]].
  - constructor; [|apply Forall_forall; intros x I; apply in_map_iff in I as (i & <- & _); apply Pf].
    fold f. change (fun i : nat => _) with f. generalize 0%nat at 1. clearbody f. clear -Mf. induction n as [|n IH]; intros k; [constructor|]. cbn [seq map]. constructor; [apply IH|].
    apply Forall_forall. intros x I. apply in_map_iff in I as (i & <- & I). apply in_seq in I. apply Mf. lia.
  - destruct n; [lia|]. cbn [seq map hd]. exact F0.
  - replace (seq 0 n) with (seq 0 ((n - 1) + 1)) by (f_equal; lia). rewrite seq_app, map_app. cbn [seq map]. rewrite last_last. exact F1.
  - now rewrite map_length, seq_length.
  - intros i Hi. assert (NT : forall j, (j < n)%nat -> nth j (map f (seq 0 n)) 0 = f j).
    { intros j Hj. rewrite (nth_indep _ 0 (f 0%nat)) by (rewrite map_length, seq_length; lia). rewrite map_nth, seq_nth by lia. reflexivity. }
    change (map _ (seq 0 n)) with (map f (seq 0 n)). rewrite !NT by lia. unfold f. rewrite <- Rmult_assoc, <- Rpower_plus. do 2 f_equal. rewrite S_INR. field. lra.
  - intros x I. apply in_map_iff in I as (i & <- & I). apply in_seq in I. fold (f i). assert (A1 := Mf' 0%nat i ltac:(lia)). assert (A2 := Mf' i (n - 1)%nat ltac:(lia)). rewrite F0 in A1. rewrite F1 in A2. split; assumption.
Qed.

(** the outer radius asked for: r_200 (the default) or the given number of kpc *)
Definition outer_radius (r200 : R) (rmax : option R) : R := match rmax with None => r200 | Some r => r end.
(** The projected mass of a halo whose convergence lies between c1 and c2 is between those of uniform sheets in the ring
    from 10^-3.5 rmax to rmax; the angular units drop out. *)
Theorem C95_bounds kappa k sigma r200 rmax n c1 c2 : let rm := outer_radius r200 rmax in
  0 < k -> 0 <= sigma -> 0 < rm -> (2 <= n)%nat -> (forall x, inner * rm / k <= x <= rm / k -> c1 <= kappa x <= c2) ->
  ring_mass sigma c1 (inner * rm) rm <= mass_2d kappa k sigma r200 rmax n <= ring_mass sigma c2 (inner * rm) rm.
Proof.
  cbv zeta. change (outer_radius r200 rmax) with (rmax_value r200 rmax). set (rm := rmax_value r200 rmax). intros Pk Ps Pr N B. rewrite mass_2d_kpc by lra. fold rm. destruct (log_grid (- (35 / 10)) rm n Pr N ltac:(lra)) as (S & H0 & H1 & L & _ & In_).
  fold (kpc_grid rm n) in *. fold inner in *. unfold ring_mass.
  assert (U : forall c, ring (fun _ => c) (kpc_grid rm n) = c * (PI * rm ^ 2 - PI * (inner * rm) ^ 2)).
  { intros c. destruct (kpc_grid rm n) as [|x l]; [cbn in L; lia|]. rewrite ring_uniform, H1. cbn [hd] in H0. now rewrite H0. }
  assert (Sg : 0 <= sigma_kpc sigma) by (unfold sigma_kpc; lra).
  assert (BB : forall x, In x (kpc_grid rm n) -> c1 <= kappa (x / k) <= c2).
  { intros x I. apply In_ in I. apply B. unfold Rdiv. split; apply Rmult_le_compat_r; try lra; left; now apply Rinv_0_lt_compat. }
  assert (Q1 : ring (fun _ => c1) (kpc_grid rm n) <= ring (fun r => kappa (r / k)) (kpc_grid rm n)) by (apply ring_mono; [exact S|intros; now apply BB]).
  assert (Q2 : ring (fun r => kappa (r / k)) (kpc_grid rm n) <= ring (fun _ => c2) (kpc_grid rm n)) by (apply ring_mono; [exact S|intros; now apply BB]).
  rewrite U in Q1, Q2. apply (Rmult_le_compat_r _ _ _ Sg) in Q1, Q2. lra.
Qed.
Theorem C95_uniform kappa k sigma r200 rmax n c : let rm := outer_radius r200 rmax in
  0 < k -> 0 <= sigma -> 0 < rm -> (2 <= n)%nat -> (forall x, inner * rm / k <= x <= rm / k -> kappa x = c) ->
  mass_2d kappa k sigma r200 rmax n = ring_mass sigma c (inner * rm) rm.
Proof.
  cbv zeta. intros Pk Ps Pr N B. destruct (C95_bounds kappa k sigma r200 rmax n c c Pk Ps Pr N) as [H1 H2]; [|lra]. intros x Hx. rewrite B by exact Hx. lra.
Qed.
Theorem C95_linear f g u v k sigma r200 rmax n : k <> 0 ->
  mass_2d (fun x => u * f x + v * g x) k sigma r200 rmax n = u * mass_2d f k sigma r200 rmax n + v * mass_2d g k sigma r200 rmax n.
Proof. intros N. rewrite !mass_2d_kpc by assumption. rewrite (ring_linear u v (fun r => f (r / k)) (fun r => g (r / k))). ring. Qed.
Theorem C95_monotone f g k sigma r200 rmax n : let rm := outer_radius r200 rmax in
  0 < k -> 0 <= sigma -> 0 < rm -> (2 <= n)%nat -> (forall x, inner * rm / k <= x <= rm / k -> f x <= g x) ->
  mass_2d f k sigma r200 rmax n <= mass_2d g k sigma r200 rmax n.
Proof.
  cbv zeta. change (outer_radius r200 rmax) with (rmax_value r200 rmax). set (rm := rmax_value r200 rmax). intros Pk Ps Pr N B. rewrite !mass_2d_kpc by lra. fold rm. destruct (log_grid (- (35 / 10)) rm n Pr N ltac:(lra)) as (S & _ & _ & _ & _ & In_).
  fold (kpc_grid rm n) in *. fold inner in *. apply Rmult_le_compat_r; [unfold sigma_kpc; lra|]. apply ring_mono; [exact S|]. intros x I. apply In_ in I. apply B.
  unfold Rdiv. split; apply Rmult_le_compat_r; try lra; left; now apply Rinv_0_lt_compat.
Qed.

Lemma int_lin c a b : is_RInt (V:=R_NormedModule) (fun x => c * 2 * PI * x) a b (c * PI * (b ^ 2 - a ^ 2)).
Proof.
  replace (c * PI * (b ^ 2 - a ^ 2)) with (minus (c * PI * b ^ 2) (c * PI * a ^ 2)) by (unfold minus, plus, opp; cbn; ring).
  apply (is_RInt_derive (V:=R_CompleteNormedModule) (fun x => c * PI * x ^ 2)).
  - intros x _. auto_derive; [trivial|ring].
  - intros x _. apply (ex_derive_continuous (V:=R_NormedModule)). auto_derive. trivial.
Qed.

Lemma is_RInt_same (f g : R -> R) (a b I J : R) : is_RInt f a b I -> (forall x, f x = g x) -> I = J -> is_RInt g a b J.
Proof. intros H E <-. apply (is_RInt_ext f); [intros; apply E|exact H]. Qed.

Lemma trapz_error kappa D : forall xs x (I : R), StronglySorted Rlt (0 :: x :: xs) ->
  (forall a b, x <= a -> a <= b -> b <= last (x :: xs) 0 -> kappa b <= kappa a) ->
  (forall i, (S i < List.length (x :: xs))%nat -> nth (S i) (x :: xs) 0 ^ 2 - nth i (x :: xs) 0 ^ 2 <= D) ->
  is_RInt (V:=R_NormedModule) (fun x => kappa x * 2 * PI * x) x (last (x :: xs) 0) I ->
  Rabs (ring kappa (x :: xs) - I) <= (kappa x - kappa (last (x :: xs) 0)) * PI * D.
Proof.
  induction xs as [|y l IH]; intros x I S M C H.
  - cbn [last] in *. assert (I = 0) by (apply (is_RInt_unique (V:=R_CompleteNormedModule)) in H; rewrite <- H; apply (RInt_point (V:=R_CompleteNormedModule))).
    subst. unfold ring. cbn [map np_trapz]. rewrite Rminus_0_r, Rabs_R0. replace (kappa x - kappa x) with 0 by ring. lra.
  - change (last (x :: y :: l) 0) with (last (y :: l) 0) in *. set (e := last (y :: l) 0) in *.
    apply StronglySorted_inv in S as [S F]. pose proof (Forall_inv F) as Px. cbv beta in Px. apply Forall_inv_tail in F.
    pose proof S as S'. apply StronglySorted_inv in S as [S F2]. pose proof (Forall_inv F2) as Lxy. cbv beta in Lxy.
    assert (Lye : y <= e).
    { unfold e. assert (J : In (last (y :: l) 0) (y :: l)) by (clear; revert y; induction l as [|z l IH]; intros y; [now left|right; apply IH]).
      destruct J as [J|J]; [rewrite <- J; lra|]. apply StronglySorted_inv in S as [_ F3]. rewrite Forall_forall in F3. left. now apply F3. }
    assert (EX : ex_RInt (V:=R_NormedModule) (fun x => kappa x * 2 * PI * x) x e) by (exists I; exact H).
    destruct (ex_RInt_Chasles_1 (V:=R_CompleteNormedModule) _ x y e ltac:(lra) EX) as [I1 H1]. destruct (ex_RInt_Chasles_2 (V:=R_CompleteNormedModule) _ x y e ltac:(lra) EX) as [I2 H2].
    assert (EI : I = I1 + I2).
    { pose proof (is_RInt_Chasles (V:=R_NormedModule) _ x y e I1 I2 H1 H2) as HC. apply (is_RInt_unique (V:=R_CompleteNormedModule)) in HC, H. rewrite <- H, HC. reflexivity. }
    assert (SS : StronglySorted Rlt (0 :: y :: l)) by (constructor; assumption).
    assert (A2 : Rabs (ring kappa (y :: l) - I2) <= (kappa y - kappa e) * PI * D).
    { apply IH; [exact SS| | |exact H2].
      - intros a b Q1 Q2 Q3. fold e in Q3; apply M; lra.
      - intros i Hi. apply (C (Datatypes.S i)). cbn [List.length] in *. lia. }
    pose proof PI_RGT_0 as HP. assert (Kxy : kappa y <= kappa x) by (apply M; lra).
    assert (B1 : kappa y * PI * (y ^ 2 - x ^ 2) <= I1 <= kappa x * PI * (y ^ 2 - x ^ 2)).
    { split; [apply (is_RInt_le (fun t => kappa y * 2 * PI * t) (fun t => kappa t * 2 * PI * t) x y)|apply (is_RInt_le (fun t => kappa t * 2 * PI * t) (fun t => kappa x * 2 * PI * t) x y)];
        try exact H1; try apply int_lin; try lra; intros t Ht; (apply Rmult_le_compat_r; [lra|]); (apply Rmult_le_compat_r; [lra|]); (apply Rmult_le_compat_r; [lra|]); apply M; lra. }
    assert (B2 : kappa y * PI * (y ^ 2 - x ^ 2) <= PI * (y - x) * (kappa x * x + kappa y * y) <= kappa x * PI * (y ^ 2 - x ^ 2)).
    { assert (Z : 0 <= PI * (y - x)) by (apply Rmult_le_pos; lra). replace (kappa y * PI * (y ^ 2 - x ^ 2)) with (PI * (y - x) * (kappa y * x + kappa y * y)) by ring.
      replace (kappa x * PI * (y ^ 2 - x ^ 2)) with (PI * (y - x) * (kappa x * x + kappa x * y)) by ring. split; apply Rmult_le_compat_l; try assumption; nra. }
    assert (CD : y ^ 2 - x ^ 2 <= D) by (apply (C 0%nat); cbn; lia).
    assert (A1 : Rabs (PI * (y - x) * (kappa x * x + kappa y * y) - I1) <= (kappa x - kappa y) * PI * D).
    { apply Rle_trans with ((kappa x - kappa y) * PI * (y ^ 2 - x ^ 2)); [apply Rabs_le; lra|]. apply Rmult_le_compat_l; [apply Rmult_le_pos; lra|assumption]. }
    rewrite ring_cons, EI. replace (PI * (y - x) * (kappa x * x + kappa y * y) + ring kappa (y :: l) - (I1 + I2)) with
      ((PI * (y - x) * (kappa x * x + kappa y * y) - I1) + (ring kappa (y :: l) - I2)) by ring.
    eapply Rle_trans; [apply Rabs_triang|]. lra.
Qed.

(** For a convergence that falls with radius, the number returned differs from the true projected mass M of the ring by at
    most the mass of a sheet with the convergence drop of the whole ring, in the outermost cell of the grid. *)
Theorem C95_accuracy kappa k sigma r200 rmax n M : let rm := outer_radius r200 rmax in
  0 < k -> 0 <= sigma -> 0 < rm -> (2 <= n)%nat ->
  (forall a b, inner * rm / k <= a -> a <= b -> b <= rm / k -> kappa b <= kappa a) ->
  is_RInt (V:=R_NormedModule) (fun r => sigma_kpc sigma * kappa (r / k) * 2 * PI * r) (inner * rm) rm M ->
  Rabs (mass_2d kappa k sigma r200 rmax n - M) <= ring_mass sigma (kappa (inner * rm / k) - kappa (rm / k)) (rm / step n) rm.
Proof.
  cbv zeta. change (outer_radius r200 rmax) with (rmax_value r200 rmax). set (rm := rmax_value r200 rmax). intros Pk Ps Pr N Mo H. rewrite mass_2d_kpc by lra. fold rm.
  destruct (log_grid (- (35 / 10)) rm n Pr N ltac:(lra)) as (S & H0 & H1 & L & Rt & In_). fold (kpc_grid rm n) in *. fold inner in *.
  rewrite Ropp_involutive in Rt. fold (step n) in Rt.
  assert (P1 : 1 < step n). { unfold step. rewrite <- (Rpower_O 10) by lra. apply Rpower_lt; [lra|]. apply Rdiv_lt_0_compat; [lra|]. apply lt_0_INR. lia. }
  destruct (Req_dec (sigma_kpc sigma) 0) as [Z|NZ].
  - assert (M = 0).
    { assert (E0 : is_RInt (V:=R_NormedModule) (fun r => sigma_kpc sigma * kappa (r / k) * 2 * PI * r) (inner * rm) rm 0).
      { apply (is_RInt_same (fun _ => 0) _ _ _ ((rm - inner * rm) * 0)); [apply (is_RInt_const (V:=R_NormedModule))|intros; rewrite Z; ring|ring]. }
      apply (is_RInt_unique (V:=R_CompleteNormedModule)) in E0, H. rewrite <- H. exact E0. }
    subst. unfold ring_mass. rewrite Z. rewrite !Rmult_0_r, Rmult_0_l, Rminus_0_r, Rabs_R0. lra.
  - assert (Sg : 0 < sigma_kpc sigma) by (unfold sigma_kpc in *; lra). pose proof PI_RGT_0 as HP.
    destruct (kpc_grid rm n) as [|x l] eqn:EG; [cbn in L; lia|]. cbn [hd] in H0. subst x.
    assert (HI : is_RInt (V:=R_NormedModule) (fun r => kappa (r / k) * 2 * PI * r) (inner * rm) (last (inner * rm :: l) 0) (M / sigma_kpc sigma)).
    { rewrite H1. apply (is_RInt_same (fun r => / sigma_kpc sigma * (sigma_kpc sigma * kappa (r / k) * 2 * PI * r)) _ _ _ (/ sigma_kpc sigma * M)).
      - now apply (is_RInt_scal (V:=R_NormedModule)).
      - intros r. field. assumption.
      - field. assumption. }
    apply (trapz_error (fun r => kappa (r / k)) (rm ^ 2 - (rm / step n) ^ 2)) in HI; [|exact S| |].
    + rewrite H1 in HI. cbv beta in HI. unfold ring_mass.
      replace (ring (fun r => kappa (r / k)) (inner * rm :: l) * sigma_kpc sigma - M) with (sigma_kpc sigma * (ring (fun r => kappa (r / k)) (inner * rm :: l) - M / sigma_kpc sigma)) by (field; assumption).
      rewrite Rabs_mult, (Rabs_right (sigma_kpc sigma)) by lra.
      replace ((kappa (inner * rm / k) - kappa (rm / k)) * sigma_kpc sigma * (PI * rm ^ 2 - PI * (rm / step n) ^ 2)) with (sigma_kpc sigma * ((kappa (inner * rm / k) - kappa (rm / k)) * PI * (rm ^ 2 - (rm / step n) ^ 2))) by ring.
      apply Rmult_le_compat_l; [lra|exact HI].
    + intros a b Q1 Q2 Q3. rewrite H1 in Q3. apply Mo; unfold Rdiv; apply Rmult_le_compat_r; try assumption; left; now apply Rinv_0_lt_compat.
    + intros i Hi. rewrite L in Hi. rewrite (Rt i Hi). assert (IN : In (nth (Datatypes.S i) (inner * rm :: l) 0) (inner * rm :: l)) by (apply nth_In; lia).
      pose proof IN as IN'. apply In_ in IN. rewrite (Rt i Hi) in IN. set (w := nth i (inner * rm :: l) 0) in *.
      assert (Pw : 0 < w). { apply StronglySorted_inv in S as [_ FF]. rewrite Forall_forall in FF. apply FF. apply nth_In. lia. }
      clearbody w. set (q := step n) in *. clearbody q.
      replace ((q * w) ^ 2 - w ^ 2) with ((q * w) ^ 2 * (1 - / q ^ 2)) by (field; lra). replace (rm ^ 2 - (rm / q) ^ 2) with (rm ^ 2 * (1 - / q ^ 2)) by (field; lra).
      apply Rmult_le_compat_r.
      * assert (Q2 : / q ^ 2 <= / 1) by (apply Rinv_le_contravar; nra). rewrite Rinv_1 in Q2. lra.
      * apply pow_incr. split; [apply Rmult_le_pos; lra|lra].
Qed.

(** ** Core-collapsed halos: the convergence is differentiated numerically from the deflection *)
Lemma grid_scaled k rs : 0 < k -> radii rs -> radii (map (fun r => r / k) rs).
Proof.
  intros P S. unfold radii in *. apply StronglySorted_inv in S as [S F]. pose proof (Rinv_0_lt_compat k P) as PI'.
  constructor.
  - induction rs as [|r rs IH]; [constructor|]. apply StronglySorted_inv in S as [S F2]. cbn [map]. constructor; [apply IH; [exact S|now apply Forall_inv_tail in F]|].
    rewrite Forall_forall in *. intros x I. apply in_map_iff in I as (y & <- & I). unfold Rdiv. apply Rmult_lt_compat_r; auto.
  - rewrite Forall_forall in *. intros x I. apply in_map_iff in I as (y & <- & I). apply Rdiv_lt_0_compat; auto.
Qed.

(** A deflection that is a quadratic polynomial of the radius gives the exact convergence at all radii but the two ends;
    one that is proportional to the radius (a uniform sheet) gives it at all radii. *)
Theorem C95_collapsed_kappa a b d k rs ks i : 0 < k -> radii rs -> collapsed_kappa (fun x => a + b * x + d * x ^ 2) k rs = Ok ks ->
  List.length ks = List.length rs /\
  ((0 < i)%nat -> (S i < List.length rs)%nat -> let x := nth i rs 0 / k in nth i ks 0 = 1 / 2 * ((a + b * x + d * x ^ 2) / x + (b + 2 * d * x))).
Proof.
  intros P S. apply (grid_scaled k) in S; [|exact P]. unfold collapsed_kappa. cbv zeta. remember (map (fun r => r / k) rs) as xs eqn:Exs.
  assert (Lx : List.length xs = List.length rs) by (subst; apply map_length).
  destruct (np_gradient _) as [g|] eqn:EG; [|discriminate]. cbn [bind]. intros H. injection H as <-.
  pose proof (proj1 (gradient_local _ _ EG)) as Lg. rewrite map_length in Lg. split; [rewrite map_length, combine_length; lia|]. intros Hi Hn. rewrite <- Lx in Hn.
  set (f := fun x : R => (x, a + b * x + d * x ^ 2)) in *.
  assert (Ni : nth i rs 0 / k = nth i xs 0) by (subst xs; rewrite (nth_indep (map (fun r => r / k) rs) 0 (0 / k)) by lia; now rewrite (map_nth (fun r => r / k))).
  rewrite Ni. set (F := fun p : R * R => 1 / 2 * (_ / fst p + snd p)).
  rewrite (nth_indep _ 0 (F (0, 0))) by (rewrite map_length, combine_length; lia). rewrite map_nth, combine_nth by lia. unfold F. cbn [fst snd]. do 2 f_equal.
  unfold np_gradient in EG. destruct (map f xs) as [|p0 [|p1 l]] eqn:EM; try discriminate. injection EG as <-. destruct i as [|i]; [lia|]. cbn [nth].
  assert (Ll : List.length xs = Datatypes.S (Datatypes.S (List.length l))) by (rewrite <- (map_length f xs), EM; reflexivity).
  rewrite (gradient_from_nth (f 0)) by lia. cbv zeta. rewrite <- EM. replace (i =? List.length l)%nat with false by (symmetry; apply Nat.eqb_neq; lia).
  rewrite !map_nth. apply StronglySorted_inv in S as [S _]. assert (O1 : nth i xs 0 < nth (Datatypes.S i) xs 0) by (apply SlopeProps.sorted_nth; [exact S|lia]).
  assert (O2 : nth (Datatypes.S i) xs 0 < nth (Datatypes.S (Datatypes.S i)) xs 0) by (apply SlopeProps.sorted_nth; [exact S|lia]).
  unfold mid, f. cbv zeta. cbn [fst snd]. field. repeat split; lra.
Qed.

Lemma collapsed_sheet c k rs : 0 < k -> radii rs -> (2 <= List.length rs)%nat -> collapsed_kappa (fun x => c * x) k rs = Ok (repeat c (List.length rs)).
Proof.
  intros P S L2. apply (grid_scaled k) in S; [|exact P]. unfold collapsed_kappa. cbv zeta. remember (map (fun r => r / k) rs) as xs eqn:Exs.
  assert (Lx : List.length xs = List.length rs) by (subst; apply map_length). rewrite <- Lx. clear Exs.
  destruct (np_gradient _) as [g|] eqn:EG; [|exfalso; destruct xs as [|? [|? ?]]; cbn in *; try lia; discriminate]. cbn [bind]. f_equal.
  apply gradient_local in EG as [Lg H]. rewrite map_length in Lg, H. rewrite map_map in H. cbn [fst] in H. rewrite map_id in H.
  pose proof S as SP. apply StronglySorted_inv in S as [S F]. rewrite Forall_forall in F.
  assert (Nt : forall i, (i < List.length xs)%nat -> nth i g 0 = c).
  { intros i Hi. apply Rle_antisym; apply (H S i (0, c * 0) Hi c c); intros j _ Hj; rewrite !(map_nth (fun r => (r, c * r)) xs 0);
      (assert (O : nth j xs 0 < nth (Datatypes.S j) xs 0) by (apply SlopeProps.sorted_nth; [exact S|lia])); unfold secant; cbn [fst snd];
      (replace ((c * nth (Datatypes.S j) xs 0 - c * nth j xs 0) / (nth (Datatypes.S j) xs 0 - nth j xs 0)) with c by (field; lra)); lra. }
  clear H SP S Lx L2. revert g Lg Nt. induction xs as [|x xs IH]; intros [|y g] Lg Nt; cbn in Lg; try discriminate; [reflexivity|]. cbn [combine map List.length repeat fst snd]. f_equal.
  - rewrite (Nt 0%nat ltac:(cbn; lia) : y = c). field. specialize (F x (or_introl eq_refl)). lra.
  - apply IH; [intros z Iz; apply F; now right|lia|]. intros i Hi. apply (Nt (Datatypes.S i)). cbn. lia.
Qed.

(** The mass of a core-collapsed halo is integrated in kpc but normalised per square arcsec: it comes out multiplied by
    (kpc per arcsec)^2. *)
Theorem C95_collapsed_factor alpha k sigma r200 rmax n m : collapsed_mass_2d alpha k sigma r200 rmax n = Ok m ->
  exists ks, let rs := map (fun s => s * rmax_value r200 rmax) (np_logspace (-3) 0 n) in collapsed_kappa alpha k rs = Ok ks /\
  m = k ^ 2 * (sigma_kpc sigma * np_trapz (map (fun p => (fst p, snd p * 2 * PI * fst p)) (combine rs ks))).
Proof.
  unfold collapsed_mass_2d. cbv zeta. destruct (collapsed_kappa _ _ _) as [ks|]; [|discriminate]. cbn [bind]. intros H. injection H as <-. exists ks. split; [reflexivity|].
  unfold sigma_kpc. field.
Qed.
Theorem C95_collapsed_sheet c k sigma r200 rmax n : let rm := outer_radius r200 rmax in 0 < k -> 0 < rm -> (2 <= n)%nat ->
  collapsed_mass_2d (fun x => c * x) k sigma r200 rmax n = Ok (k ^ 2 * ring_mass sigma c (rm / 1000) rm).
Proof.
  cbv zeta. change (outer_radius r200 rmax) with (rmax_value r200 rmax). intros Pk Pr N. set (rm := rmax_value r200 rmax) in *. unfold collapsed_mass_2d. cbv zeta. fold rm.
  destruct (log_grid (-3) rm n Pr N ltac:(lra)) as (S & H0 & H1 & L & _). set (g := map (fun s => s * rm) (np_logspace (-3) 0 n)) in *. clearbody g.
  rewrite collapsed_sheet; [|assumption|exact S|lia]. cbn [bind]. f_equal.
  assert (E : map (fun p => (fst p, snd p * 2 * PI * fst p)) (combine g (repeat c (List.length g))) = map (fun x => (x, c * 2 * PI * x)) g).
  { clear. induction g as [|x g IH]; [reflexivity|]. cbn. now rewrite IH. }
  rewrite E. change (np_trapz (map (fun x => (x, c * 2 * PI * x)) g)) with (ring (fun _ => c) g).
  destruct g as [|x l]; [cbn in L; lia|]. rewrite ring_uniform, H1. cbn [hd] in H0. subst x.
  assert (T : Rpower 10 (-3) = 1 / 1000).
  { replace (-3) with (- INR 3) by (cbn; ring). rewrite Rpower_Ropp, Rpower_pow by lra. field. }
  rewrite T. unfold ring_mass, sigma_kpc. field.
Qed.
Theorem C95_collapsed_refuted : exists c k sigma r200 rmax n m, let rm := outer_radius r200 rmax in 0 < k /\ 0 < rm /\ (2 <= n)%nat /\
  collapsed_mass_2d (fun x => c * x) k sigma r200 rmax n = Ok m /\ m <> ring_mass sigma c (rm / 1000) rm.
Proof.
  exists 1, 2, 1000000, 1, None, 1000%nat. eexists. cbv zeta. cbn [outer_radius]. split; [lra|]. split; [lra|]. split; [lia|].
  split; [apply C95_collapsed_sheet; cbn [outer_radius]; try lra; lia|]. cbn [outer_radius]. unfold ring_mass, sigma_kpc. pose proof PI_RGT_0. nra.
Qed.

(* ---------- non-vacuity ---------- *)
Example C95_nonvacuous : 0 < outer_radius 100 (Some 5) /\ (2 <= 1000)%nat /\
  (forall x, inner * 5 / 6 <= x <= 5 / 6 -> 0 <= 1 - x <= 1) /\
  (forall a b, inner * 5 / 6 <= a -> a <= b -> b <= 5 / 6 -> 1 - b <= 1 - a) /\
  exists M, is_RInt (V:=R_NormedModule) (fun r => sigma_kpc 1000000 * (1 - r / 6) * 2 * PI * r) (inner * 5) 5 M.
Proof.
  assert (0 < inner) by apply exp_pos. cbn [outer_radius]. split; [lra|]. split; [lia|]. split; [intros; lra|]. split; [intros; lra|].
  apply (ex_RInt_continuous (V:=R_CompleteNormedModule)). intros z _. apply (ex_derive_continuous (V:=R_NormedModule)). auto_derive. trivial.
Qed.
Example C95_collapsed_nonvacuous : radii [1; 2; 4] /\ exists ks, collapsed_kappa (fun x => 0 + 1 * x + 0 * x ^ 2) 2 [1; 2; 4] = Ok ks.
Proof. split; [unfold radii; repeat constructor; lra|]. eexists. reflexivity. Qed.

Print Assumptions C95_bounds.
Print Assumptions C95_uniform.
Print Assumptions C95_linear.
Print Assumptions C95_monotone.
Print Assumptions C95_accuracy.
Print Assumptions C95_collapsed_kappa.
Print Assumptions C95_collapsed_factor.
Print Assumptions C95_collapsed_sheet.
Print Assumptions C95_collapsed_refuted.
