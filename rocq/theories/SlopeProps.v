(** C94: numerical logarithmic slopes. C95: projected masses. *)
From Verif Require Import Prelude SpaceModel SlopeModel.
From Coq Require Import Lra Psatz.

(** ** Specification *)
(** positive radii in increasing order *)
Definition radii (rs : list R) : Prop := StronglySorted Rlt (0 :: rs).
(** the density is positive and has derivative [rho'] between a and b *)
Definition smooth_on (rho rho' : R -> R) (a b : R) : Prop := forall s, a <= s <= b -> 0 < rho s /\ derivable_pt_lim rho s (rho' s).
(** d log rho / d log r *)
Definition true_slope (rho rho' : R -> R) (s : R) : R := s * rho' s / rho s.
(** the neighbours of radius i on the grid (itself at an end) *)
Definition left_of (rs : list R) (i : nat) : R := nth (pred i) rs 0.
Definition right_of (rs : list R) (i : nat) : R := nth (Nat.min (S i) (pred (List.length rs))) rs 0.

(** ** Proofs *)
Lemma mid_secants p0 p1 p2 : fst p0 < fst p1 -> fst p1 < fst p2 ->
  mid p0 p1 p2 = (fst p2 - fst p1) / (fst p2 - fst p0) * secant p0 p1 + (fst p1 - fst p0) / (fst p2 - fst p0) * secant p1 p2.
Proof. intros. unfold mid, secant. cbv zeta. field. repeat split; lra. Qed.
Lemma mid_uniform p0 p1 p2 : fst p0 < fst p1 -> fst p2 - fst p1 = fst p1 - fst p0 -> mid p0 p1 p2 = (snd p2 - snd p0) / (2 * (fst p1 - fst p0)).
Proof. intros H E. unfold mid. cbv zeta. rewrite E. field. lra. Qed.

Lemma sorted_nth (l : list R) i j d : StronglySorted Rlt l -> (i < j < List.length l)%nat -> nth i l d < nth j l d.
Proof.
  revert i j. induction l as [|a l IH]; intros i j S H; [cbn in H; lia|]. apply StronglySorted_inv in S as [S F]. rewrite Forall_forall in F. cbn [List.length] in H.
  destruct i, j; try lia; cbn [nth]; [apply F, nth_In; lia|apply IH; [assumption|lia]].
Qed.

Lemma gradient_from_length p0 p1 l : List.length (gradient_from p0 p1 l) = S (List.length l).
Proof. revert p0 p1. induction l as [|p l IH]; intros; [reflexivity|]. cbn. now rewrite IH. Qed.
Lemma gradient_from_nth d p0 p1 l i : (i <= List.length l)%nat ->
  nth i (gradient_from p0 p1 l) 0 = let q := p0 :: p1 :: l in
    if (i =? List.length l)%nat then secant (nth i q d) (nth (S i) q d) else mid (nth i q d) (nth (S i) q d) (nth (S (S i)) q d).
Proof.
  cbv zeta. revert p0 p1 i. induction l as [|p l IH]; intros p0 p1 i H; cbn [List.length] in *.
  - assert (i = 0%nat) by lia. subst. reflexivity.
  - destruct i; [reflexivity|]. cbn [gradient_from nth]. rewrite IH by lia. reflexivity.
Qed.

(** every entry is a weighted mean of the secants on the two sides *)
Lemma gradient_local pts gs : np_gradient pts = Ok gs -> List.length gs = List.length pts /\
  (StronglySorted Rlt (map fst pts) -> forall i d, (i < List.length pts)%nat ->
   forall a b, (forall j, (i = j \/ i = S j) -> (S j < List.length pts)%nat -> a <= secant (nth j pts d) (nth (S j) pts d) <= b) -> a <= nth i gs 0 <= b).
Proof.
  destruct pts as [|p0 [|p1 l]]; try discriminate. intros H. injection H as <-. split; [cbn; now rewrite gradient_from_length|].
  intros St i d Hi a b B. destruct i as [|i].
  - cbn [nth]. apply (B 0%nat); [now left|cbn; lia].
  - cbn [nth]. cbn [List.length] in *. rewrite (gradient_from_nth d) by lia. cbv zeta.
    destruct (i =? List.length l)%nat eqn:E.
    + apply (B i); [now right|lia].
    + apply Nat.eqb_neq in E. assert (Q1 := B i (or_intror eq_refl) ltac:(lia)). assert (Q2 := B (S i) (or_introl eq_refl) ltac:(lia)).
      set (q := p0 :: p1 :: l) in *. assert (L : List.length q = S (S (List.length l))) by reflexivity.
      assert (N : forall j, nth j (map fst q) (fst d) = fst (nth j q d)) by (intros; apply map_nth).
      assert (O1 : fst (nth i q d) < fst (nth (S i) q d)) by (rewrite <- !N; apply sorted_nth; [assumption|rewrite map_length; lia]).
      assert (O2 : fst (nth (S i) q d) < fst (nth (S (S i)) q d)) by (rewrite <- !N; apply sorted_nth; [assumption|rewrite map_length; lia]).
      rewrite mid_secants by assumption. set (s1 := secant _ _) in *. set (s2 := secant _ _) in *. clearbody s1 s2.
      set (x0 := fst (nth i q d)) in *. set (x1 := fst (nth (S i) q d)) in *. set (x2 := fst (nth (S (S i)) q d)) in *. clearbody x0 x1 x2.
      assert (W : (x2 - x1) / (x2 - x0) = 1 - (x1 - x0) / (x2 - x0)) by (field; lra). rewrite W.
      assert (W0 : 0 <= (x1 - x0) / (x2 - x0)) by (apply Rle_mult_inv_pos; lra).
      assert (W1 : 0 <= (x2 - x1) / (x2 - x0)) by (apply Rle_mult_inv_pos; lra). rewrite W in W1.
      set (w := (x1 - x0) / (x2 - x0)) in *. clearbody w. split; nra.
Qed.

Lemma ln_sorted rs : radii rs -> StronglySorted Rlt (map ln rs).
Proof.
  unfold radii. intros S. apply StronglySorted_inv in S as [S P]. induction rs as [|r rs IH]; [constructor|]. apply StronglySorted_inv in S as [S F].
  cbn [map]. constructor; [apply IH; [assumption|now apply Forall_inv_tail in P]|]. apply Forall_inv in P. rewrite Forall_forall in *. intros x I. apply in_map_iff in I as (y & <- & I).
  apply ln_increasing; auto.
Qed.
Lemma radii_pos rs r : radii rs -> In r rs -> 0 < r.
Proof. intros S I. apply StronglySorted_inv in S as [_ F]. rewrite Forall_forall in F. auto. Qed.

Lemma secant_true rho rho' a b : 0 < a -> a < b -> smooth_on rho rho' a b ->
  exists s, a < s < b /\ secant (ln a, ln (rho a)) (ln b, ln (rho b)) = true_slope rho rho' s.
Proof.
  intros P L Sm. unfold secant. cbn [fst snd].
  assert (La : ln a < ln b) by now apply ln_increasing.
  destruct (MVT_cor2 (fun t => ln (rho (exp t))) (fun t => / rho (exp t) * (rho' (exp t) * exp t)) (ln a) (ln b) La) as (c & E & B).
  - intros t Bt. assert (Rg : a <= exp t <= b).
    { rewrite <- (exp_ln a P), <- (exp_ln b ltac:(lra)). destruct Bt as [B1 B2]. split; [destruct B1 as [B1| ->]|destruct B2 as [B2| ->]]; try lra; left; now apply exp_increasing. }
    destruct (Sm (exp t) Rg) as [Pr D].
    apply (derivable_pt_lim_comp (fun t => rho (exp t)) ln); [|now apply derivable_pt_lim_ln].
    apply (derivable_pt_lim_comp exp rho); [apply derivable_pt_lim_exp|exact D].
  - exists (exp c). assert (Rg : a < exp c < b).
    { rewrite <- (exp_ln a P) at 1. rewrite <- (exp_ln b) by lra. split; now apply exp_increasing. }
    split; [exact Rg|]. rewrite !exp_ln in E by lra. rewrite E. destruct (Sm (exp c) ltac:(lra)) as [Pr _]. unfold true_slope. field. split; lra.
Qed.

(** Every number returned for a grid of radii lies between the smallest and the largest true slope on the cells next to that
    radius; in particular one number is returned per radius. *)
Theorem C94_local rho rho' rs gs : radii rs -> (2 <= List.length rs)%nat -> smooth_on rho rho' (nth 0 rs 0) (last rs 0) ->
  log_slope_array rho rs = Ok gs -> List.length gs = List.length rs /\
  forall i a b, (i < List.length rs)%nat -> (forall s, left_of rs i < s < right_of rs i -> a <= true_slope rho rho' s <= b) -> a <= nth i gs 0 <= b.
Proof.
  intros Rd L2 Sm H. apply gradient_local in H as [L H]. rewrite map_length in L. split; [exact L|]. intros i a b Hi B.
  rewrite map_map in H. cbn [fst] in H. specialize (H (ln_sorted rs Rd) i (ln 0, ln (rho 0))). rewrite map_length in H. apply H; [exact Hi|]. clear H.
  intros j Ij Hj. rewrite !(map_nth (fun r => (ln r, ln (rho r))) rs 0). set (x0 := nth j rs 0). set (x1 := nth (S j) rs 0).
  assert (S0 : StronglySorted Rlt rs) by (now apply StronglySorted_inv in Rd as [? _]).
  assert (O : x0 < x1) by (apply sorted_nth; [assumption|lia]). assert (P0 : 0 < x0) by (apply (radii_pos rs); [assumption|apply nth_In; lia]).
  assert (LL : last rs 0 = nth (pred (List.length rs)) rs 0).
  { clear. induction rs as [|x [|y l] IH]; try reflexivity. change (last (y :: l) 0 = nth (pred (List.length (x :: y :: l))) (x :: y :: l) 0). rewrite IH. reflexivity. }
  assert (Mono : forall k m, (k <= m < List.length rs)%nat -> nth k rs 0 <= nth m rs 0).
  { intros k m Hk. destruct (Nat.eq_dec k m) as [->|N]; [lra|]. left. apply sorted_nth; [assumption|lia]. }
  destruct (secant_true rho rho' x0 x1 P0 O) as (s & Rs & E).
  - intros s Hs. apply Sm. assert (nth 0 rs 0 <= x0) by (apply Mono; lia). assert (x1 <= last rs 0) by (rewrite LL; apply Mono; lia). lra.
  - rewrite E. apply B. unfold left_of, right_of. destruct Ij as [->|Ij].
    + rewrite Nat.min_l by lia. fold x1. assert (nth (pred j) rs 0 <= x0) by (apply Mono; lia). lra.
    + subst i. cbn [pred]. fold x0. assert (x1 <= nth (Nat.min (S (S j)) (pred (List.length rs))) rs 0) by (apply Mono; lia). lra.
Qed.

(** For a single radius the number returned is the true slope somewhere within 0.1 per cent above it. *)
Theorem C94_single rho rho' r : 0 < r -> smooth_on rho rho' r (r + r / 1000) ->
  exists s, r < s < r + r / 1000 /\ log_slope_scalar rho r = Ok (true_slope rho rho' s).
Proof.
  intros P Sm. destruct (secant_true rho rho' r (r + r / 1000) P ltac:(lra) Sm) as (s & Rs & E). exists s. split; [exact Rs|].
  unfold log_slope_scalar, log_slope_array. cbn. replace (r + 1 / 1000 * r) with (r + r / 1000) by field. now rewrite E.
Qed.

(** Power laws are recovered exactly, on every grid and for single radii. *)
Theorem C94_power_law A g rs rho : 0 < A -> radii rs -> (2 <= List.length rs)%nat -> (forall r, In r rs -> rho r = A * Rpower r g) ->
  log_slope_array rho rs = Ok (repeat g (List.length rs)).
Proof.
  intros PA Rd L2 E. assert (Ok1 : exists gs, log_slope_array rho rs = Ok gs).
  { unfold log_slope_array. destruct rs as [|x [|y l]]; cbn in L2; try lia. cbn. eauto. }
  destruct Ok1 as [gs Hg]. rewrite Hg. f_equal. apply gradient_local in Hg as [L H]. rewrite map_length in L. rewrite map_map in H. cbn [fst] in H.
  specialize (H (ln_sorted rs Rd)). rewrite map_length in H. rewrite <- L.
  assert (Nt : forall i, (i < List.length gs)%nat -> nth i gs 0 = g).
  { intros i Hi. apply Rle_antisym; apply (H i (ln 0, ln (rho 0)) ltac:(lia) g g); intros j _ Hj;
      rewrite !(map_nth (fun r => (ln r, ln (rho r))) rs 0); 
      (assert (S0 : StronglySorted Rlt rs) by (now apply StronglySorted_inv in Rd as [? _]));
      assert (O : nth j rs 0 < nth (S j) rs 0) by (apply sorted_nth; [assumption|lia]);
      assert (I0 : In (nth j rs 0) rs) by (apply nth_In; lia); assert (I1 : In (nth (S j) rs 0) rs) by (apply nth_In; lia);
      pose proof (radii_pos rs _ Rd I0) as P0; assert (LO : ln (nth j rs 0) < ln (nth (S j) rs 0)) by (apply ln_increasing; assumption);
      unfold secant; cbn [fst snd]; rewrite !E by assumption; rewrite !ln_mult by (try assumption; apply exp_pos); unfold Rpower; rewrite !ln_exp;
      (replace ((ln A + g * ln (nth (S j) rs 0) - (ln A + g * ln (nth j rs 0))) / (ln (nth (S j) rs 0) - ln (nth j rs 0))) with g by (field; lra)); lra. }
  clear -Nt. induction gs as [|x gs IH]; [reflexivity|]. cbn [List.length repeat]. f_equal; [apply (Nt 0%nat); cbn; lia|]. apply IH. intros i Hi. apply (Nt (S i)). cbn; lia.
Qed.
Theorem C94_power_law_single A g r rho : 0 < A -> 0 < r -> (forall s, 0 < s -> rho s = A * Rpower s g) -> log_slope_scalar rho r = Ok g.
Proof.
  intros PA P E. unfold log_slope_scalar. rewrite (C94_power_law A g); [reflexivity|assumption| |cbn; lia|].
  - unfold radii. repeat constructor; lra.
  - intros s [<-|[<-|[]]]; apply E; lra.
Qed.

Lemma gradient_shift u v pts : StronglySorted Rlt (map fst pts) -> np_gradient (map (fun p => (fst p - u, v + snd p)) pts) = np_gradient pts.
Proof.
  assert (Sc : forall p q, secant (fst p - u, v + snd p) (fst q - u, v + snd q) = secant p q).
  { intros p q. unfold secant. cbn [fst snd]. replace (fst q - u - (fst p - u)) with (fst q - fst p) by ring. f_equal. ring. }
  intros S. destruct pts as [|p0 [|p1 l]]; try reflexivity. cbn [map np_gradient]. rewrite Sc. do 2 f_equal.
  revert p0 p1 S. induction l as [|p2 l IH]; intros p0 p1 S; cbn [map gradient_from]; [now rewrite Sc|]. cbn [map] in S.
  apply StronglySorted_inv in S as [S F]. rewrite IH by exact S. f_equal.
  apply Forall_inv in F. apply StronglySorted_inv in S as [_ F2]. apply Forall_inv in F2.
  rewrite !mid_secants; cbn [fst snd]; try lra. rewrite !Sc. replace (fst p2 - u - (fst p1 - u)) with (fst p2 - fst p1) by ring.
  replace (fst p2 - u - (fst p0 - u)) with (fst p2 - fst p0) by ring. replace (fst p1 - u - (fst p0 - u)) with (fst p1 - fst p0) by ring. reflexivity.
Qed.

(** The slope does not depend on the normalisation of the profile. *)
Theorem C94_normalisation k rho rs : 0 < k -> radii rs -> (forall r, In r rs -> 0 < rho r) ->
  log_slope_array (fun r => k * rho r) rs = log_slope_array rho rs.
Proof.
  intros Pk Rd Pr. unfold log_slope_array. rewrite <- (gradient_shift 0 (ln k) (map (fun r => (ln r, ln (rho r))) rs)).
  - f_equal. rewrite map_map. apply map_ext_in. intros r I. cbn [fst snd]. rewrite ln_mult by auto. f_equal. ring.
  - rewrite map_map. cbn [fst]. now apply ln_sorted.
Qed.

(** The slope of the projected profile is the same whether radii are measured in kpc or in arcsec. *)
Theorem C94_projected kappa k rs : 0 < k -> radii rs -> log_slope_2d kappa k rs = log_slope_array (fun r => kappa (r / k)) rs.
Proof.
  intros Pk Rd. unfold log_slope_2d, log_slope_array. rewrite <- (gradient_shift (ln k) 0 (map (fun r => (ln r, ln (kappa (r / k)))) rs)).
  - f_equal. rewrite map_map. apply map_ext_in. intros r I. cbn [fst snd]. pose proof (radii_pos rs r Rd I). unfold Rdiv at 1. rewrite ln_mult, ln_Rinv by (try assumption; now apply Rinv_0_lt_compat).
    f_equal; ring.
  - rewrite map_map. cbn [fst]. now apply ln_sorted.
Qed.

(** Arrays with fewer than two radii are refused. *)
Theorem C94_short rho rs : log_slope_array rho rs = Err EValueError <-> (List.length rs < 2)%nat.
Proof. unfold log_slope_array. destruct rs as [|x [|y l]]; cbn; split; intros H; try lia; try discriminate; reflexivity. Qed.

(** An NFW profile: every number returned lies between the slopes -(1 + 3x) / (1 + x) at the neighbouring radii, hence
    strictly between -3 and -1. *)
Definition nfw_density (rhos rs : R) (r : R) : R := rhos / ((r / rs) * (1 + r / rs) ^ 2).
Definition nfw_slope (rs r : R) : R := - (1 + 3 * (r / rs)) / (1 + r / rs).
Lemma nfw_slope_decr rs a b : 0 < rs -> 0 < a -> a <= b -> nfw_slope rs b <= nfw_slope rs a.
Proof.
  intros P Pa L. unfold nfw_slope. assert (X : 0 < a / rs) by (apply Rdiv_lt_0_compat; lra).
  assert (Y : a / rs <= b / rs) by (apply Rmult_le_compat_r; [left; now apply Rinv_0_lt_compat|lra]).
  set (x := a / rs) in *. set (y := b / rs) in *. clearbody x y.
  replace (- (1 + 3 * y) / (1 + y)) with (-3 + 2 * / (1 + y)) by (field; lra). replace (- (1 + 3 * x) / (1 + x)) with (-3 + 2 * / (1 + x)) by (field; lra).
  assert (/ (1 + y) <= / (1 + x)) by (apply Rinv_le_contravar; lra). lra.
Qed.
Lemma nfw_slope_range rs a : 0 < rs -> 0 < a -> -3 < nfw_slope rs a < -1.
Proof.
  intros P Pa. unfold nfw_slope. assert (X : 0 < a / rs) by (apply Rdiv_lt_0_compat; lra). set (x := a / rs) in *. clearbody x.
  replace (- (1 + 3 * x) / (1 + x)) with (-3 + 2 * / (1 + x)) by (field; lra).
  assert (0 < / (1 + x)) by (apply Rinv_0_lt_compat; lra). assert (/ (1 + x) < 1) by (rewrite <- Rinv_1; apply Rinv_lt_contravar; lra). lra.
Qed.
Lemma nfw_smooth rhos rs a b : 0 < rhos -> 0 < rs -> 0 < a ->
  smooth_on (nfw_density rhos rs) (fun r => - (rhos / rs) * (1 + 3 * (r / rs)) / ((r / rs) ^ 2 * (1 + r / rs) ^ 3)) a b.
Proof.
  intros P1 P2 Pa s Hs. assert (X : 0 < s / rs) by (apply Rdiv_lt_0_compat; lra). split.
  - unfold nfw_density. apply Rdiv_lt_0_compat; [assumption|]. apply Rmult_lt_0_compat; [assumption|]. apply pow_lt. lra.
  - assert (D : derivable_pt_lim (mult_real_fct rhos (inv_fct (fun r => (r / rs) * (1 + r / rs) ^ 2))) s
      (rhos * (- (/ rs * (1 + s / rs) ^ 2 + (s / rs) * (2 * (1 + s / rs) * / rs)) / Rsqr ((s / rs) * (1 + s / rs) ^ 2)))).
    { apply derivable_pt_lim_scal. unfold inv_fct.
      assert (L1 : derivable_pt_lim (fun r => r / rs) s (/ rs)).
      { replace (/ rs) with (1 * / rs + s * 0) by ring. apply (derivable_pt_lim_mult id (fct_cte (/ rs))); [apply derivable_pt_lim_id|apply derivable_pt_lim_const]. }
      assert (L2 : derivable_pt_lim (fun r => 1 + r / rs) s (/ rs)).
      { replace (/ rs) with (0 + / rs) by ring. apply (derivable_pt_lim_plus (fct_cte 1) (fun r => r / rs)); [apply derivable_pt_lim_const|exact L1]. }
      assert (L3 : derivable_pt_lim (fun r => (1 + r / rs) ^ 2) s (2 * (1 + s / rs) * / rs)).
      { replace (2 * (1 + s / rs)) with (INR 2 * (1 + s / rs) ^ pred 2) by (cbn; ring). apply (derivable_pt_lim_comp (fun r => 1 + r / rs) (fun y => y ^ 2)); [exact L2|apply derivable_pt_lim_pow]. }
      pose proof (derivable_pt_lim_mult _ _ s _ _ L1 L3) as L4. unfold mult_fct in L4.
      assert (NZ : (s / rs) * (1 + s / rs) ^ 2 <> 0) by (apply Rgt_not_eq; apply Rmult_lt_0_compat; [assumption|apply pow_lt; lra]).
      pose proof (derivable_pt_lim_div (fct_cte 1) (fun r => (r / rs) * (1 + r / rs) ^ 2) s 0 _ (derivable_pt_lim_const 1 s) L4 NZ) as L5.
      unfold div_fct, fct_cte in L5. intros eps He. destruct (L5 eps He) as [dl Hd]. exists dl. intros h H1 H2. specialize (Hd h H1 H2).
      cbv beta in Hd |- *. unfold Rdiv in Hd |- *. rewrite !Rmult_1_l in Hd.
      match goal with |- Rabs (?A - ?B) < _ => match type of Hd with Rabs (?A' - ?B') < _ => replace (A - B) with (A' - B'); [exact Hd|] end end.
      f_equal. f_equal. ring. }
    match goal with |- derivable_pt_lim _ _ ?v => match type of D with derivable_pt_lim _ _ ?w => replace v with w end end.
    + exact D.
    + unfold Rsqr. assert (rs <> 0) by lra. assert (s <> 0) by lra. assert (rs + s <> 0) by lra. field. repeat split; lra.
Qed.
Theorem C94_nfw rhos rs0 rs gs : 0 < rhos -> 0 < rs0 -> radii rs -> (2 <= List.length rs)%nat ->
  log_slope_array (nfw_density rhos rs0) rs = Ok gs -> List.length gs = List.length rs /\
  forall i, (i < List.length rs)%nat -> nfw_slope rs0 (right_of rs i) <= nth i gs 0 <= nfw_slope rs0 (left_of rs i) /\ -3 < nth i gs 0 < -1.
Proof.
  intros P1 P2 Rd L2 H. assert (P0 : 0 < nth 0 rs 0) by (apply (radii_pos rs); [assumption|apply nth_In; lia]).
  destruct (C94_local _ _ rs gs Rd L2 (nfw_smooth rhos rs0 (nth 0 rs 0) (last rs 0) P1 P2 P0) H) as [L B]. split; [exact L|]. intros i Hi.
  assert (PL : 0 < left_of rs i) by (apply (radii_pos rs); [assumption|apply nth_In; lia]).
  assert (PR : 0 < right_of rs i) by (apply (radii_pos rs); [assumption|apply nth_In; lia]).
  assert (Q : nfw_slope rs0 (right_of rs i) <= nth i gs 0 <= nfw_slope rs0 (left_of rs i)).
  { apply B; [exact Hi|]. intros s Hs. 
    match goal with |- _ <= ?t <= _ => replace t with (nfw_slope rs0 s) end.
    - split; apply nfw_slope_decr; lra.
    - unfold true_slope, nfw_density, nfw_slope. field. repeat split; lra. }
  split; [exact Q|]. pose proof (nfw_slope_range rs0 _ P2 PL). pose proof (nfw_slope_range rs0 _ P2 PR). lra.
Qed.

(* ---------- non-vacuity ---------- *)
Example C94_nonvacuous : radii [1; 2; 5] /\ smooth_on (nfw_density 1 1) (fun r => - (1 / 1) * (1 + 3 * (r / 1)) / ((r / 1) ^ 2 * (1 + r / 1) ^ 3)) 1 5 /\
  exists gs, log_slope_array (nfw_density 1 1) [1; 2; 5] = Ok gs /\ List.length gs = 3%nat.
Proof.
  split; [repeat constructor; lra|]. split; [apply nfw_smooth; lra|]. eexists. split; [reflexivity|reflexivity].
Qed.

Print Assumptions C94_local.
Print Assumptions C94_single.
Print Assumptions C94_power_law.
Print Assumptions C94_power_law_single.
Print Assumptions C94_normalisation.
Print Assumptions C94_projected.
Print Assumptions C94_short.
Print Assumptions C94_nfw.
