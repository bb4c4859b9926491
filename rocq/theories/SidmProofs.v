(** Bounds on the parametric SIDM evolution, and the batch replica. *)
From Verif Require Import Prelude MassFnModel MassFnProofs NfwModel NfwProofs3 SidmModel.
Local Open Scope R_scope.
Local Open Scope list_scope.

(** ** Numbers *)
Lemma ln_mono x y : 0 < x -> x <= y -> ln x <= ln y.
Proof. intros Hx [H| ->]; [left; apply ln_increasing; assumption|lra]. Qed.
Lemma ln001 : ln 0.001 < - 1.
Proof.
  assert (H : exp (- 1) > 0.001).
  { replace (- 1) with (- (1)) by lra. rewrite exp_Ropp. pose proof exp_le_3. pose proof (exp_pos 1). apply Rlt_gt. apply Rlt_le_trans with (/ 3); [lra|]. apply Rinv_le_contravar; lra. }
  rewrite <- (ln_exp (- 1)). apply ln_increasing; lra.
Qed.
Lemma ratio_le1 t : 0 <= t -> ln (0.001 + t) / ln 0.001 <= 1.
Proof.
  intros Ht. pose proof ln001. assert (ln 0.001 <= ln (0.001 + t)) by (apply ln_mono; lra).
  apply Rmult_le_reg_r with (- ln 0.001); [lra|].
  replace (ln (0.001 + t) / ln 0.001 * - ln 0.001) with (- ln (0.001 + t)) by (field; lra). lra.
Qed.
Lemma ratio_ge t : 0 <= t -> - t <= ln (0.001 + t) / ln 0.001.
Proof.
  intros Ht. pose proof ln001. assert (L : ln (0.001 + t) <= t).
  { pose proof (exp_ineq1_le t). rewrite <- (ln_exp t) at 2. apply ln_mono; [lra|].
    destruct (Rle_lt_dec t 0) as [Z|Z]; [replace t with 0 by lra; rewrite exp_0; lra|].
    pose proof (exp_ineq1 t). lra. }
  apply Rmult_le_reg_r with (- ln 0.001); [lra|].
  replace (ln (0.001 + t) / ln 0.001 * - ln 0.001) with (- ln (0.001 + t)) by (field; lra). nra.
Qed.

Lemma rs_poly_low t : 0 <= t -> 1 - 0.518186 * t + 0.30265 * t ^ 2 - 0.400463 * t ^ 3 <= rs_poly t.
Proof.
  intros Ht. unfold rs_poly. pose proof (ratio_le1 t Ht).
  replace ((1 - 1.13293) * ln (0.001 + t) / ln 0.001) with (- 0.13293 * (ln (0.001 + t) / ln 0.001)) by (unfold Rdiv; lra). lra.
Qed.
Lemma rs_poly_high t : 0 <= t <= 1 -> rs_poly t <= 1.14.
Proof.
  intros Ht. unfold rs_poly. pose proof ln001 as L.
  assert (B : 0 <= 1 <= 1) by lra.
  assert (H : - 0.001 <= ln (0.001 + t) / ln 0.001).
  { assert (ln (0.001 + t) <= 0.001).
    { apply Rle_trans with (ln 1.001); [apply ln_mono; lra|]. rewrite <- (ln_exp 0.001). apply ln_mono; [lra|]. pose proof (exp_ineq1_le 0.001). lra. }
    apply Rmult_le_reg_r with (- ln 0.001); [lra|].
    replace (ln (0.001 + t) / ln 0.001 * - ln 0.001) with (- ln (0.001 + t)) by (field; lra). lra. }
  replace ((1 - 1.13293) * ln (0.001 + t) / ln 0.001) with (- 0.13293 * (ln (0.001 + t) / ln 0.001)) by (unfold Rdiv; lra).
  assert (0 <= t ^ 3) by (apply pow_le; lra). assert (t ^ 2 <= t) by nra. lra.
Qed.
Lemma rs_poly_0 : rs_poly 0 = 1.
Proof. unfold rs_poly. pose proof ln001. replace (0.001 + 0) with 0.001 by lra.
  replace ((1 - 1.13293) * ln 0.001 / ln 0.001) with (1 - 1.13293) by (field; lra). lra. Qed.
Lemma rc_poly_0 : rc_poly 0 = 0.
Proof. unfold rc_poly. rewrite sqrt_0. lra. Qed.

Lemma pow_le1 x n : 0 <= x <= 1 -> 0 <= x ^ n <= 1.
Proof. intros H. split; [apply pow_le; lra|]. rewrite <- (pow1 n). apply pow_incr. lra. Qed.

Lemma rc_lt_rs_poly t : 0 <= t <= 1 -> rc_poly t < rs_poly t.
Proof.
  intros Ht. eapply Rlt_le_trans; [|apply rs_poly_low; lra]. unfold rc_poly.
  assert (S0 : 0 <= sqrt t) by apply sqrt_pos. assert (S2 : t = sqrt t ^ 2) by (rewrite pow2_sqrt; lra).
  set (s := sqrt t) in *. clearbody s. assert (s <= 1) by nra. rewrite S2.
  pose proof (pow_le1 s 4 ltac:(lra)). pose proof (pow_le1 s 6 ltac:(lra)). pose proof (pow_le1 s 8 ltac:(lra)).
  replace ((s ^ 2) ^ 2) with (s ^ 4) by ring. replace ((s ^ 2) ^ 3) with (s ^ 6) by ring. replace ((s ^ 2) ^ 4) with (s ^ 8) by ring.
  pose proof (pow2_ge_0 (s - 0.65)) as SQ. assert (0.6 < 1 - 1.06419 * s + 0.813884 * s ^ 2) by nra. lra.
Qed.

Lemma rc_half : 0.1 < rc_poly 0.5 < 0.1779.
Proof.
  unfold rc_poly. assert (0.7071 < sqrt 0.5 < 0.7072).
  { split.
    - rewrite <- (sqrt_pow2 0.7071) by lra. apply sqrt_lt_1; lra.
    - rewrite <- (sqrt_pow2 0.7072) by lra. apply sqrt_lt_1; lra. }
  lra.
Qed.
Lemma rs_half : 0.766 < rs_poly 0.5 <= 1.14.
Proof. split; [|apply rs_poly_high; lra]. eapply Rlt_le_trans; [|apply rs_poly_low; lra]. lra. Qed.

Lemma exp_m1 : / 3 <= exp (- 1).
Proof. replace (- 1) with (- (1)) by lra. rewrite exp_Ropp. apply Rinv_le_contravar; [apply exp_pos|apply exp_le_3]. Qed.
Lemma exp_m4 : / 81 <= exp (- 4).
Proof.
  replace (- 4) with (- 1 + - 1 + - 1 + - 1) by lra. rewrite !exp_plus. pose proof exp_m1 as H. set (e := exp (- 1)) in *. clearbody e.
  assert (/ 9 <= e * e) by nra. replace (e * e * e * e) with ((e * e) * (e * e)) by ring. nra.
Qed.
Lemma exp_le_mono x y : x <= y -> exp x <= exp y.
Proof. intros [H| ->]; [left; apply exp_increasing; exact H|lra]. Qed.

Lemma extrapolation t : 1 < t <= 1.6 -> 0 < rc_extrapolation t < rs_extrapolation t /\ rs_extrapolation t <= 1.14.
Proof.
  intros Ht. unfold rc_extrapolation, rs_extrapolation. pose proof rc_half as A. pose proof rs_half as B.
  set (a := rc_poly 0.5) in *. clearbody a. set (b := rs_poly 0.5) in *. clearbody b. cbv zeta.
  set (u := t - 0.5). assert (Hu : 0.5 < u <= 1.1) by (unfold u; lra). clearbody u. clear Ht.
  set (E := exp (- 0.47 * u - 2.4 * u ^ 3)).
  assert (P3 : 0 <= u ^ 3) by (apply pow_le; lra).
  assert (U : E <= 1) by (unfold E; rewrite <- exp_0; apply exp_le_mono; lra).
  assert (Eu : 0 < E) by apply exp_pos.
  split; [|nra].
  destruct (Rle_lt_dec u 0.637) as [L|L].
  - assert (u ^ 3 <= 0.637 ^ 3) by (apply pow_incr; lra).
    assert (/ 3 <= E) by (eapply Rle_trans; [apply exp_m1|]; apply exp_le_mono; lra).
    destruct (Rltb (a - 0.28 * u) 0.0001) eqn:Q; [apply Rltb_true in Q|apply Rltb_false in Q]; split; try lra; nra.
  - assert (u ^ 3 <= 1.1 ^ 3) by (apply pow_incr; lra).
    assert (/ 81 <= E) by (eapply Rle_trans; [apply exp_m4|]; apply exp_le_mono; lra).
    assert (Q : Rltb (a - 0.28 * u) 0.0001 = true) by (apply Rltb_true; lra).
    rewrite Q. split; [lra|nra].
Qed.

Lemma evolution_bounds t : 0 <= t <= 1.6 -> 0 < rs_evolution t <= 1.14 /\ rc_evolution t < rs_evolution t.
Proof.
  intros Ht. unfold rs_evolution, rc_evolution. destruct (Rleb t 1) eqn:L; [apply Rleb_true in L|apply Rleb_false in L].
  - split; [split|].
    + eapply Rlt_le_trans; [|apply rs_poly_low; lra]. assert (0 <= t ^ 3 <= 1) by (apply pow_le1; lra). nra.
    + apply rs_poly_high; lra.
    + apply rc_lt_rs_poly. lra.
  - destruct (extrapolation t ltac:(lra)). lra.
Qed.

Lemma rho_s_pos t : 0 <= t -> 0 < rho_s_evolution t.
Proof.
  intros Ht. unfold rho_s_evolution. pose proof (ratio_ge t Ht) as R1.
  replace ((1 - 0.692896) / ln 0.001 * ln (0.001 + t)) with (0.307104 * (ln (0.001 + t) / ln 0.001)) by (unfold Rdiv; lra).
  assert (P : 0 <= t ^ 5) by (apply pow_le; lra).
  assert (Q : 0 <= t ^ 5 * (4.08729 - 5.78038 * t ^ 2 + 5.30498 * (t ^ 2) ^ 2)) by (apply Rmult_le_pos; [exact P|]; set (w := t ^ 2); nra).
  replace (t ^ 7) with (t ^ 5 * t ^ 2) by ring. replace (t ^ 9) with (t ^ 5 * (t ^ 2) ^ 2) by ring. lra.
Qed.

(** ** Trapezoids *)
Lemma trapezoid_scale k (f : R -> R) l :
  trapezoid (map (fun r => (r, k * f r)) l) = k * trapezoid (map (fun r => (r, f r)) l).
Proof.
  induction l as [|a l IH]; cbn [map trapezoid]; [ring|]. destruct l as [|b l]; cbn [map trapezoid] in *; [ring|]. rewrite IH. field.
Qed.
Lemma trapezoid_ext (f g : R -> R) l : (forall r, In r l -> f r = g r) -> trapezoid (map (fun r => (r, f r)) l) = trapezoid (map (fun r => (r, g r)) l).
Proof. intros H. f_equal. apply map_ext_in. intros a Ha. rewrite H by exact Ha. reflexivity. Qed.

(** ** Vectorised evolution *)
Lemma zip_with_map {A B D E} (f : B -> D -> E) (g : A -> B) (h : A -> D) l : zip_with f (map g l) (map h l) = map (fun a => f (g a) (h a)) l.
Proof. induction l as [|a l IH]; cbn; [reflexivity|]. f_equal. exact IH. Qed.

Lemma evolve_elt t rs0 : evolve_profile t rs0 =
  let u := Rmin 1.6 t in
  let e := if Rleb u 1 then rs_poly u else rs_poly 0.5 * exp (- 0.47 * (u - 0.5) - 2.4 * (u - 0.5) ^ 3) in
  let c := if Rleb u 1 then rc_poly u else Rmax (rc_poly 0.5 - 0.28 * (u - 0.5)) 0.0001 in
  (rs0 * e, Rmax (rs0 * c) (/ 10 ^ 7 * (rs0 * e))).
Proof.
  unfold evolve_profile, rs_evolution, rc_evolution, rs_extrapolation, rc_extrapolation. cbv zeta.
  rewrite (Rmax_comm (/ 10 ^ 7 * _)). destruct (Rleb (Rmin 1.6 t) 1); [reflexivity|].
  destruct (Rltb _ _) eqn:Q; [apply Rltb_true in Q; rewrite (Rmax_right (rc_poly 0.5 - 0.28 * (Rmin 1.6 t - 0.5))) by lra|
    apply Rltb_false in Q; rewrite (Rmax_left (rc_poly 0.5 - 0.28 * (Rmin 1.6 t - 0.5))) by lra]; reflexivity.
Qed.

Lemma evolve_vectorized_spec (l : list (R * R)) :
  evolve_profile_vectorized (map fst l) (map snd l) =
  (map (fun p => fst (evolve_profile (fst p) (snd p))) l, map (fun p => snd (evolve_profile (fst p) (snd p))) l).
Proof.
  unfold evolve_profile_vectorized, where_. rewrite !map_map, !zip_with_map, !map_map, !zip_with_map.
  apply f_equal2; apply map_ext; intros [t rs0]; cbn [fst snd]; rewrite evolve_elt; reflexivity.
Qed.

(** ** The grid of radii *)
Definition grid (c : R) (i : nat) : R := pow10 (- 4 + INR i * ((log10 c - - 4) / INR 249)).
Lemma grid_0 c : grid c 0 = / 10 ^ 4.
Proof.
  unfold grid. replace (- 4 + INR 0 * ((log10 c - - 4) / INR 249)) with (- INR 4) by (cbn [INR]; unfold Rdiv; lra).
  unfold pow10. rewrite Rpower_Ropp, Rpower_pow by lra. reflexivity.
Qed.
Lemma grid_249 c : 0 < c -> grid c 249 = c.
Proof.
  intros Hc. unfold grid. replace (- 4 + INR 249 * ((log10 c - - 4) / INR 249)) with (log10 c); [apply pow10_log10; exact Hc|].
  field. apply not_0_INR. discriminate.
Qed.
Lemma grid_step c : / 10 ^ 4 < c -> 0 < (log10 c - - 4) / INR 249.
Proof.
  intros Hc. apply Rdiv_lt_0_compat; [|apply lt_0_INR; lia].
  assert (log10 (/ 10 ^ 4) < log10 c) by (apply log10_lt; lra).
  replace (log10 (/ 10 ^ 4)) with (- 4) in H; [lra|].
  replace (/ 10 ^ 4) with (pow10 (- 4)); [symmetry; apply log10_pow10|].
  replace (- 4) with (- INR 4) by (cbn [INR]; lra). unfold pow10. rewrite Rpower_Ropp, Rpower_pow by lra. reflexivity.
Qed.
Lemma grid_lt c i j : / 10 ^ 4 < c -> (i < j)%nat -> grid c i < grid c j.
Proof.
  intros Hc H. unfold grid. apply pow10_lt. apply Rplus_lt_compat_l. apply Rmult_lt_compat_r; [apply grid_step; exact Hc|apply lt_INR; exact H].
Qed.
Lemma grid_pos c i : 0 < grid c i.
Proof. apply pow10_pos. Qed.
Lemma grid_list c r0 : map (fun x => x * r0) (logspace (- 4) (log10 c) 250) = map (fun i => grid c i * r0) (seq 0 250).
Proof. unfold logspace. rewrite map_map. reflexivity. Qed.
Lemma nth_map_seq (f : nat -> R) n i : (i < n)%nat -> nth i (map f (seq 0 n)) 0 = f i.
Proof.
  intros H. rewrite (nth_indep _ 0 (f 0%nat)) by (rewrite map_length, seq_length; exact H). rewrite map_nth, seq_nth by exact H. reflexivity.
Qed.

Lemma trapezoid_pos (f : nat -> R * R) : (forall i, fst (f i) < fst (f (S i))) -> (forall i, 0 < snd (f i)) ->
  forall n k, 0 <= trapezoid (map f (seq k n)) /\ ((2 <= n)%nat -> 0 < trapezoid (map f (seq k n))).
Proof.
  intros Hx Hy. induction n as [|n IH]; intros k; [split; [cbn; lra|lia]|].
  destruct n as [|n]; [split; [cbn; destruct (f k); lra|lia]|].
  destruct (IH (S k)) as [A _]. specialize (Hx k). pose proof (Hy k) as H1. pose proof (Hy (S k)) as H2.
  assert (E : forall (p q : R * R) t, trapezoid (p :: q :: t) = (fst q - fst p) * ((snd p + snd q) / 2) + trapezoid (q :: t)) by (intros [? ?] [? ?] t; reflexivity).
  change (map f (seq k (S (S n)))) with (f k :: f (S k) :: map f (seq (S (S k)) n)).
  change (map f (seq (S k) (S n))) with (f (S k) :: map f (seq (S (S k)) n)) in A. rewrite E.
  assert (0 < (fst (f (S k)) - fst (f k)) * ((snd (f k) + snd (f (S k))) / 2)) by (apply Rmult_lt_0_compat; lra). split; [lra|intros _; lra].
Qed.
