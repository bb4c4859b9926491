(** C117. The suppression of the mass function from the slope of the transfer function. *)
From Verif Require Import Prelude MassFnModel MassFnSpec MassFnProofs MassFnProofs2 MassFnProps StuckerModel.
From Coq Require Import Psatz MVT Ranalysis5.
Local Open Scope R_scope.

(** * Specification *)
(** the transfer function of arXiv:2109.09760 *)
Definition transfer (alpha beta gamma k : R) : R := Rpower (1 + Rpower (alpha * k) beta) (- gamma).
(** [s] is the slope d log f / d log x at [k] *)
Definition log_slope (f : R -> R) (k s : R) : Prop := derivable_pt_lim (fun u => ln (f (exp u))) (ln k) s.
(** the number of halos relative to cold dark matter; [m] in units of the half-mode mass *)
Definition suppression (a b c m : R) : R := Rpower (1 + Rpower (a / m) b) c.
(** the three masses at which 20, 50 and 80 per cent of the halos are left *)
Definition has_scales (a b c m20 m50 m80 : R) : Prop :=
  0 < a /\ 0 < b /\ c < 0 /\ 0 < m20 /\ 0 < m50 /\ 0 < m80 /\
  suppression a b c m20 = 0.2 /\ suppression a b c m50 = 0.5 /\ suppression a b c m80 = 0.8.

(** * Proofs *)
Lemma Rpower_pos' x y : 0 < Rpower x y. Proof. apply exp_pos. Qed.
Lemma half_pow g : 0 < g -> 1 < Rpower 0.5 (-1 / g).
Proof.
  intros H. replace 1 with (exp 0) by apply exp_0. unfold Rpower. apply exp_increasing.
  assert (ln 0.5 < 0) by (rewrite <- ln_1; apply ln_increasing; lra).
  assert (0 < / g) by now apply Rinv_0_lt_compat. unfold Rdiv. nra.
Qed.
Lemma beta_sign s g : 0 < g -> (0 < beta_from_slope s g <-> s < 0) /\ (beta_from_slope s g < 0 <-> 0 < s).
Proof.
  intros H. unfold beta_from_slope. pose proof (half_pow g H). set (q := Rpower 0.5 (-1 / g)) in *. cbv zeta.
  assert (K : - s * (1 + (-1 + q)) / (-1 + q) / g = - s * (q / (q - 1) / g)) by (field; lra). rewrite K.
  assert (P : 0 < q / (q - 1) / g) by (repeat apply Rdiv_lt_0_compat; lra). repeat split; intros; nra.
Qed.
Lemma transfer_slope alpha beta gamma k : 0 < alpha -> 0 < k ->
  log_slope (transfer alpha beta gamma) k (- gamma * (beta * (Rpower (alpha * k) beta / (1 + Rpower (alpha * k) beta)))).
Proof.
  intros Ha Hk. unfold log_slope, transfer.
  assert (E : forall u, ln (Rpower (1 + Rpower (alpha * exp u) beta) (- gamma)) = - gamma * ln (1 + exp (beta * (ln alpha + u)))).
  { intros u. unfold Rpower. rewrite ln_exp. f_equal. f_equal. f_equal. f_equal. rewrite ln_mult by (try apply exp_pos; lra). now rewrite ln_exp. }
  apply (derivable_pt_lim_ext (fun u => - gamma * ln (1 + exp (beta * (ln alpha + u))))); [intros; symmetry; apply E|].
  assert (X : Rpower (alpha * k) beta = exp (beta * (ln alpha + ln k))) by (unfold Rpower; now rewrite ln_mult by lra).
  rewrite X. set (y := exp (beta * (ln alpha + ln k))).
  apply derivable_pt_lim_scal. replace (beta * (y / (1 + y))) with (/ (1 + y) * (y * beta)).
  2:{ unfold y. field. pose proof (exp_pos (beta * (ln alpha + ln k))). lra. }
  apply (derivable_pt_lim_comp (fun u => 1 + exp (beta * (ln alpha + u))) ln).
  - replace (y * beta) with (0 + y * beta) by ring. apply derivable_pt_lim_plus; [apply derivable_pt_lim_const|].
    apply (derivable_pt_lim_comp (fun u => beta * (ln alpha + u)) exp); [|unfold y; apply derivable_pt_lim_exp].
    cut (derivable_pt_lim (fun u => beta * (ln alpha + u)) (ln k) (beta * (0 + 1))); [now rewrite Rplus_0_l, Rmult_1_r|]. apply derivable_pt_lim_scal. apply derivable_pt_lim_plus; [apply derivable_pt_lim_const|apply derivable_pt_lim_id].
  - apply derivable_pt_lim_ln. pose proof (exp_pos (beta * (ln alpha + ln k))). unfold y. lra.
Qed.

(** * Theorems *)
(** beta_from_slope: the transfer function with this beta falls to one half at exactly one wave number, and has the requested slope there. *)
Theorem C117_transfer : forall slope gamma alpha, slope < 0 -> 0 < gamma -> 0 < alpha ->
  exists k, 0 < k /\ (forall k', 0 < k' -> (transfer alpha (beta_from_slope slope gamma) gamma k' = 1 / 2 <-> k' = k)) /\
    log_slope (transfer alpha (beta_from_slope slope gamma) gamma) k slope.
Proof.
  intros s g al Hs Hg Ha. pose proof (proj2 (proj1 (beta_sign s g Hg)) Hs) as Pb. pose proof (half_pow g Hg) as Q.
  set (beta := beta_from_slope s g) in *. set (q := Rpower 0.5 (-1 / g)) in *.
  exists (Rpower (q - 1) (/ beta) / al). set (k := Rpower (q - 1) (/ beta) / al).
  assert (Pk : 0 < k) by (apply Rdiv_lt_0_compat; [apply Rpower_pos'|exact Ha]).
  assert (V : Rpower (al * k) beta = q - 1).
  { unfold k. replace (al * (Rpower (q - 1) (/ beta) / al)) with (Rpower (q - 1) (/ beta)) by (field; lra).
    rewrite Rpower_mult, Rinv_l, Rpower_1; lra. }
  assert (T : transfer al beta g k = 1 / 2).
  { unfold transfer. rewrite V. replace (1 + (q - 1)) with q by ring. unfold q. rewrite Rpower_mult.
    replace (-1 / g * - g) with 1 by (field; lra). rewrite Rpower_1; lra. }
  assert (D : forall x y, 0 < x -> x < y -> transfer al beta g y < transfer al beta g x).
  { intros x y X L. unfold transfer. rewrite !Rpower_Ropp. apply Rinv_lt_contravar.
    - apply Rmult_lt_0_compat; apply Rpower_pos'.
    - apply Rlt_Rpower_l; [exact Hg|]. split; [pose proof (Rpower_pos' (al * x) beta); lra|]. apply Rplus_lt_compat_l. apply Rlt_Rpower_l; [exact Pb|]. nra. }
  split; [exact Pk|]. split.
  - intros k' Hk'. split; [|intros ->; exact T]. intros E. destruct (Rtotal_order k' k) as [L|[L|L]]; auto; exfalso.
    + pose proof (D k' k Hk' L). lra.
    + pose proof (D k k' Pk L). lra.
  - pose proof (transfer_slope al beta g k Ha Pk) as S. rewrite V in S.
    replace (- g * (beta * ((q - 1) / (1 + (q - 1))))) with s in S; [exact S|].
    unfold beta, beta_from_slope. fold q. cbv zeta. field. lra.
Qed.

(** ** Uniqueness *)
Lemma cauchy (f g f' g' : R -> R) a b : a < b ->
  (forall x, a <= x <= b -> derivable_pt_lim f x (f' x)) -> (forall x, a <= x <= b -> derivable_pt_lim g x (g' x)) ->
  exists c, a < c < b /\ (g b - g a) * f' c = (f b - f a) * g' c.
Proof.
  intros L F G.
  assert (pf : forall c, a < c < b -> derivable_pt f c) by (intros c C; exists (f' c); apply F; lra).
  assert (pg : forall c, a < c < b -> derivable_pt g c) by (intros c C; exists (g' c); apply G; lra).
  assert (cf : forall c, a <= c <= b -> continuity_pt f c) by (intros c C; apply derivable_continuous_pt; exists (f' c); apply F; lra).
  assert (cg : forall c, a <= c <= b -> continuity_pt g c) by (intros c C; apply derivable_continuous_pt; exists (g' c); apply G; lra).
  destruct (MVT f g a b pf pg L cf cg) as (c & P & E). exists c. split; [exact P|].
  rewrite (derive_pt_eq_0 f c (f' c) (pf c P)) in E by (apply F; lra). rewrite (derive_pt_eq_0 g c (g' c) (pg c P)) in E by (apply G; lra). exact E.
Qed.
Lemma d_expm t x : derivable_pt_lim (fun L => 1 - exp (- t * L)) x (t * exp (- t * x)).
Proof.
  replace (t * exp (- t * x)) with (0 - exp (- t * x) * (- t * 1)) by ring. apply derivable_pt_lim_minus; [apply derivable_pt_lim_const|].
  apply (derivable_pt_lim_comp (fun L => - t * L) exp); [apply derivable_pt_lim_scal, derivable_pt_lim_id|apply derivable_pt_lim_exp].
Qed.
Lemma expm_pos t x : 0 < t -> 0 < x -> 0 < 1 - exp (- t * x).
Proof. intros. assert (exp (- t * x) < exp 0) by (apply exp_increasing; nra). rewrite exp_0 in *. lra. Qed.
Lemma ratio_decreasing t t' x y : 0 < t -> t < t' -> 0 < x -> x < y ->
  (1 - exp (- t' * y)) * (1 - exp (- t * x)) < (1 - exp (- t' * x)) * (1 - exp (- t * y)).
Proof.
  intros P L X Y.
  destruct (cauchy (fun L => 1 - exp (- t' * L)) (fun L => 1 - exp (- t * L)) (fun L => t' * exp (- t' * L)) (fun L => t * exp (- t * L)) 0 x X)
    as (u & U & EU); [intros; apply d_expm|intros; apply d_expm|].
  destruct (cauchy (fun L => 1 - exp (- t' * L)) (fun L => 1 - exp (- t * L)) (fun L => t' * exp (- t' * L)) (fun L => t * exp (- t * L)) x y Y)
    as (v & V & EV); [intros; apply d_expm|intros; apply d_expm|].
  cbv beta in EU, EV. rewrite !Rmult_0_r, exp_0 in EU.
  pose proof (expm_pos t x P X) as A0. pose proof (expm_pos t y P ltac:(lra)) as B0.
  assert (A1 : exp (- t * y) < exp (- t * x)) by (apply exp_increasing; nra).
  (* slope at v is below the slope at u *)
  assert (S : exp (- t' * v) * exp (- t * u) < exp (- t' * u) * exp (- t * v)).
  { rewrite <- !exp_plus. apply exp_increasing. nra. }
  set (a := 1 - exp (- t' * x)) in *. set (b := 1 - exp (- t * x)) in *. set (a2 := 1 - exp (- t' * y)) in *. set (b2 := 1 - exp (- t * y)) in *.
  replace (1 - 1) with 0 in EU by ring. rewrite !Rminus_0_r in EU.
  pose proof (exp_pos (- t * u)) as e1. pose proof (exp_pos (- t * v)) as e2. pose proof (exp_pos (- t' * u)) as e3. pose proof (exp_pos (- t' * v)) as e4.
  assert (b < b2) by (unfold b, b2; lra).
  assert (EU' : a = b * (t' * exp (- t' * u)) / (t * exp (- t * u))) by (rewrite EU; field; lra).
  assert (EV' : a2 - a = (b2 - b) * (t' * exp (- t' * v)) / (t * exp (- t * v))) by (rewrite EV; field; lra).
  assert (K : (a2 - a) * b < (b2 - b) * a).
  { rewrite EV'. rewrite EU' at 1.
    replace ((b2 - b) * (t' * exp (- t' * v)) / (t * exp (- t * v)) * b) with (((b2 - b) * b * t' / t) * (exp (- t' * v) / exp (- t * v))) by (field; lra).
    replace ((b2 - b) * (b * (t' * exp (- t' * u)) / (t * exp (- t * u)))) with (((b2 - b) * b * t' / t) * (exp (- t' * u) / exp (- t * u))) by (field; lra).
    apply Rmult_lt_compat_l.
    - repeat apply Rmult_lt_0_compat; try lra. now apply Rinv_0_lt_compat.
    - apply Rmult_lt_reg_r with (exp (- t * v) * exp (- t * u)); [now apply Rmult_lt_0_compat|].
      replace (exp (- t' * v) / exp (- t * v) * (exp (- t * v) * exp (- t * u))) with (exp (- t' * v) * exp (- t * u)) by (field; lra).
      replace (exp (- t' * u) / exp (- t * u) * (exp (- t * v) * exp (- t * u))) with (exp (- t' * u) * exp (- t * v)) by (field; lra). exact S. }
  nra.
Qed.
Definition gg (t L : R) : R := ln (exp (t * L) - 1).
Lemma gg_arg t L : 0 < t -> 0 < L -> 0 < exp (t * L) - 1.
Proof. intros. assert (exp 0 < exp (t * L)) by (apply exp_increasing; nra). rewrite exp_0 in *. lra. Qed.
Lemma d_gg t x : 0 < t -> 0 < x -> derivable_pt_lim (gg t) x (t / (1 - exp (- t * x))).
Proof.
  intros P X. unfold gg. pose proof (gg_arg t x P X).
  replace (t / (1 - exp (- t * x))) with (/ (exp (t * x) - 1) * (exp (t * x) * (t * 1) - 0)).
  2:{ replace (- t * x) with (- (t * x)) by ring. rewrite exp_Ropp. pose proof (exp_pos (t * x)). field. split; lra. }
  apply (derivable_pt_lim_comp (fun L => exp (t * L) - 1) ln); [|now apply derivable_pt_lim_ln].
  apply derivable_pt_lim_minus; [|apply derivable_pt_lim_const].
  apply (derivable_pt_lim_comp (fun L => t * L) exp); [apply derivable_pt_lim_scal, derivable_pt_lim_id|apply derivable_pt_lim_exp].
Qed.
Lemma gg_inc t x y : 0 < t -> 0 < x -> x < y -> gg t x < gg t y.
Proof. intros P X L. unfold gg. apply ln_increasing; [now apply gg_arg|]. assert (exp (t * x) < exp (t * y)) by (apply exp_increasing; nra). lra. Qed.
Lemma scale_log a b c m f : 0 < a -> 0 < b -> c < 0 -> 0 < m -> 0 < f < 1 -> suppression a b c m = f ->
  b * (ln a - ln m) = gg (- / c) (- ln f).
Proof.
  intros Ha Hb Hc Hm Hf E. unfold suppression in E. unfold gg. replace (- / c * - ln f) with (/ c * ln f) by ring.
  assert (X : exp (/ c * ln f) - 1 = Rpower (a / m) b).
  { rewrite <- E. unfold Rpower at 1. rewrite ln_exp, <- Rmult_assoc, Rinv_l, Rmult_1_l, exp_ln by (pose proof (Rpower_pos' (a / m) b); lra). ring. }
  rewrite X. unfold Rpower. rewrite ln_exp. f_equal. unfold Rdiv. rewrite ln_mult, ln_Rinv by (try apply Rinv_0_lt_compat; lra). ring.
Qed.
Lemma shapes_cross t t' b b' x y z : 0 < t -> t < t' -> 0 < x -> x < y -> y < z ->
  b' * (gg t z - gg t y) = b * (gg t' z - gg t' y) -> b' * (gg t y - gg t x) = b * (gg t' y - gg t' x) -> 0 < b -> 0 < b' -> False.
Proof.
  intros P L X Y Z E1 E2 B B'.
  destruct (cauchy (gg t) (gg t') (fun L => t / (1 - exp (- t * L))) (fun L => t' / (1 - exp (- t' * L))) y z Z) as (u & U & EU);
    [intros; apply d_gg; lra|intros; apply d_gg; lra|].
  destruct (cauchy (gg t) (gg t') (fun L => t / (1 - exp (- t * L))) (fun L => t' / (1 - exp (- t' * L))) x y Y) as (v & V & EV);
    [intros; apply d_gg; lra|intros; apply d_gg; lra|].
  cbv beta in EU, EV.
  pose proof (gg_inc t y z P ltac:(lra) Z). pose proof (gg_inc t x y P X Y).
  pose proof (gg_inc t' y z ltac:(lra) ltac:(lra) Z). pose proof (gg_inc t' x y ltac:(lra) X Y).
  pose proof (expm_pos t u P ltac:(lra)). pose proof (expm_pos t v P ltac:(lra)). pose proof (expm_pos t' u ltac:(lra) ltac:(lra)). pose proof (expm_pos t' v ltac:(lra) ltac:(lra)).
  pose proof (ratio_decreasing t t' v u P L ltac:(lra) ltac:(lra)) as RD.
  set (a1 := 1 - exp (- t * u)) in *. set (a2 := 1 - exp (- t' * u)) in *. set (c1 := 1 - exp (- t * v)) in *. set (c2 := 1 - exp (- t' * v)) in *.
  assert (F : forall Gd Hd p q, 0 < Hd -> 0 < p -> 0 < q -> b' * Gd = b * Hd -> Hd * (t / p) = Gd * (t' / q) -> b' * t * q = b * t' * p).
  { intros Gd Hd p q PH Pp Pq E M.
    assert (M' : Hd * (b' * t * q) = Hd * (b * t' * p)).
    { assert (N : Hd * (t / p) * (p * q) = Gd * (t' / q) * (p * q)) by now rewrite M.
      replace (Hd * (t / p) * (p * q)) with (Hd * t * q) in N by (field; lra). replace (Gd * (t' / q) * (p * q)) with (Gd * t' * p) in N by (field; lra).
      replace (Hd * (b' * t * q)) with (b' * (Hd * t * q)) by ring. rewrite N. replace (b' * (Gd * t' * p)) with ((b' * Gd) * t' * p) by ring. rewrite E. ring. }
    apply Rmult_eq_reg_l in M'; [exact M'|now apply Rgt_not_eq]. }
  assert (F1 : b' * t * a2 = b * t' * a1) by (apply (F _ _ _ _) with (4 := E1) (5 := EU); lra). assert (F2 : b' * t * c2 = b * t' * c1) by (apply (F _ _ _ _) with (4 := E2) (5 := EV); lra).
  assert (W : b * t' * (a2 * c1) = b * t' * (c2 * a1)).
  { replace (b * t' * (a2 * c1)) with (a2 * (b * t' * c1)) by ring. rewrite <- F2. replace (b * t' * (c2 * a1)) with (c2 * (b * t' * a1)) by ring. rewrite <- F1. ring. }
  apply Rmult_eq_reg_l in W; [lra|]. apply Rgt_not_eq. apply Rmult_lt_0_compat; lra.
Qed.
(** The three scales determine the parameters. *)
Theorem C117_unique : forall a b c a' b' c' m20 m50 m80, has_scales a b c m20 m50 m80 -> has_scales a' b' c' m20 m50 m80 -> a = a' /\ b = b' /\ c = c'.
Proof.
  intros a b c a' b' c' m20 m50 m80 (A & B & C & M2 & M5 & M8 & S2 & S5 & S8) (A' & B' & C' & _ & _ & _ & S2' & S5' & S8').
  apply scale_log in S2, S5, S8, S2', S5', S8'; try lra.
  assert (L2 : ln 0.2 < ln 0.5) by (apply ln_increasing; lra). assert (L5 : ln 0.5 < ln 0.8) by (apply ln_increasing; lra).
  assert (L8 : ln 0.8 < 0) by (rewrite <- ln_1; apply ln_increasing; lra).
  assert (T : 0 < - / c) by (pose proof (Rinv_lt_0_compat c C); lra). assert (T' : 0 < - / c') by (pose proof (Rinv_lt_0_compat c' C'); lra).
  assert (E1 : forall f g, b' * (f - g) * b = b * (f - g) * b') by (intros; ring).
  assert (EQ : - / c = - / c').
  { destruct (Rtotal_order (- / c) (- / c')) as [L|[L|L]]; [exfalso|exact L|exfalso].
    - apply (shapes_cross (- / c) (- / c') b b' (- ln 0.8) (- ln 0.5) (- ln 0.2)); try lra; rewrite <- ?S2, <- S5, <- ?S8, <- ?S2', <- S5', <- ?S8'; ring.
    - apply (shapes_cross (- / c') (- / c) b' b (- ln 0.8) (- ln 0.5) (- ln 0.2)); try lra; rewrite <- ?S2, <- S5, <- ?S8, <- ?S2', <- S5', <- ?S8'; ring. }
  assert (CC : / c = / c') by lra. apply (f_equal Rinv) in CC. rewrite !Rinv_inv in CC. subst c'.
  pose proof (gg_inc (- / c) (- ln 0.5) (- ln 0.2) T ltac:(lra) ltac:(lra)) as I.
  assert (D : ln m50 - ln m20 <> 0) by (intros D; assert (ln m50 = ln m20) by lra; nra).
  assert (BB : b * (ln m50 - ln m20) = b' * (ln m50 - ln m20)) by lra.
  apply Rmult_eq_reg_r in BB; [|exact D]. subst b'. split; [|auto].
  apply ln_inv; [exact A|exact A'|]. assert (b * (ln a - ln m20) = b * (ln a' - ln m20)) by lra.
  apply Rmult_eq_reg_l in H; [lra|now apply Rgt_not_eq].
Qed.
(** Parameters exist only for ordered scales. *)
Theorem C117_ordered : forall a b c m20 m50 m80, has_scales a b c m20 m50 m80 -> m20 < m50 < m80.
Proof.
  intros a b c m20 m50 m80 (A & B & C & M2 & M5 & M8 & S2 & S5 & S8). apply scale_log in S2, S5, S8; try lra.
  assert (L2 : ln 0.2 < ln 0.5) by (apply ln_increasing; lra). assert (L5 : ln 0.5 < ln 0.8) by (apply ln_increasing; lra).
  assert (L8 : ln 0.8 < 0) by (rewrite <- ln_1; apply ln_increasing; lra).
  assert (T : 0 < - / c) by (pose proof (Rinv_lt_0_compat c C); lra).
  pose proof (gg_inc (- / c) (- ln 0.5) (- ln 0.2) T ltac:(lra) ltac:(lra)). pose proof (gg_inc (- / c) (- ln 0.8) (- ln 0.5) T ltac:(lra) ltac:(lra)).
  split; apply ln_lt_inv; try lra; nra.
Qed.

(** ** The whole conversion *)
(** the root finder stopped at a solution with the signs the routine asks for *)
Definition converged (root : (R * R * R -> option (R * R * R)) -> R * R * R -> R * R * R) (beta : R) : Prop :=
  let '(m20, m50, m80) := mass_scales beta in
  let '(la, b, c) := root (equations m20 m50 m80) (log10 m50, 2, -1) in
  equations m20 m50 m80 (la, b, c) = Some (0, 0, 0) /\ 0 < b /\ c < 0.
Lemma log10_inj x y : 0 < x -> 0 < y -> log10 x = log10 y -> x = y.
Proof. intros X Y E. destruct (Rtotal_order x y) as [L|[L|L]]; auto; apply log10_lt in L; lra. Qed.
Lemma residual_zero a b c f m : 0 < a -> 0 < b -> c < 0 -> 0 < f < 1 -> 0 < m ->
  match supp_mscale a b c f with Some M => Some (Rabs (log10 M - log10 m) / 0.01) | None => None end = Some 0 -> suppression a b c m = f /\
  (forall log_mc x, 0 < x -> (wdm_turnover log_mc (stucker_a a b) b c x = f <-> x = m * ten_to log_mc)).
Proof.
  intros A B C F M E. destruct (C62_mscale a b c f A B C F) as (M' & E' & P & V & U). rewrite E' in E. injection E as E.
  assert (X : log10 M' = log10 m).
  { destruct (Req_dec (log10 M' - log10 m) 0) as [Z|Z]; [lra|]. apply Rabs_pos_lt in Z. lra. }
  apply log10_inj in X; auto. subst M'. split; [exact V|exact U].
Qed.
Lemma scales_pos beta : forall m20 m50 m80, mass_scales beta = (m20, m50, m80) -> 0 < m20 /\ 0 < m50 /\ 0 < m80.
Proof. intros ? ? ? E. injection E as <- <- <-. repeat split; (apply Rmult_lt_0_compat; [lra|apply Rpower_pos']). Qed.
Lemma converged_scales root beta : converged root beta ->
  exists a b c m20 m50 m80, mass_scales beta = (m20, m50, m80) /\ mscales_to_abc root m20 m50 m80 = (a, b, c) /\ has_scales a b c m20 m50 m80 /\
    forall log_mc x, 0 < x -> (wdm_turnover log_mc (stucker_a a b) b c x = 0.2 <-> x = m20 * ten_to log_mc) /\
      (wdm_turnover log_mc (stucker_a a b) b c x = 0.5 <-> x = m50 * ten_to log_mc) /\ (wdm_turnover log_mc (stucker_a a b) b c x = 0.8 <-> x = m80 * ten_to log_mc).
Proof.
  unfold converged, mscales_to_abc. pose proof (scales_pos beta) as SP. destruct (mass_scales beta) as [[m20 m50] m80]. destruct (SP _ _ _ eq_refl) as (P2 & P5 & P8).
  destruct (root (equations m20 m50 m80) (log10 m50, 2, -1)) as [[la b] c] eqn:Er. intros (E & B & C).
  exists (pow10 la), b, c, m20, m50, m80. split; [reflexivity|]. rewrite Er. split; [reflexivity|].
  pose proof (pow10_pos la) as A. unfold equations in E.
  destruct (supp_mscale (pow10 la) b c 0.2) as [x2|] eqn:E2; [|discriminate]. destruct (supp_mscale (pow10 la) b c 0.5) as [x5|] eqn:E5; [|discriminate].
  destruct (supp_mscale (pow10 la) b c 0.8) as [x8|] eqn:E8; [|discriminate]. injection E as Q2 Q5 Q8.
  destruct (residual_zero (pow10 la) b c 0.2 m20 A B C ltac:(lra) P2) as [V2 U2]; [rewrite E2; f_equal; exact Q2|].
  destruct (residual_zero (pow10 la) b c 0.5 m50 A B C ltac:(lra) P5) as [V5 U5]; [rewrite E5; f_equal; exact Q5|].
  destruct (residual_zero (pow10 la) b c 0.8 m80 A B C ltac:(lra) P8) as [V8 U8]; [rewrite E8; f_equal; exact Q8|].
  split; [repeat split; auto|]. intros; auto.
Qed.
(** When the root finder converges, the mass function built from the returned parameters is suppressed to 20, 50 and 80 per cent at exactly
    the calibrated masses 0.2651 beta^0.3656, 1.638 beta^-0.0994 and 16.51 beta^-0.9466 half-mode masses. *)
Theorem C117_calibrated : forall root slope gamma, slope < 0 -> 0 < gamma ->
  let beta := beta_from_slope slope gamma in converged root beta ->
  exists w a b c, stucker_suppression_params root slope gamma = (w, Some (a, b, c)) /\ 0 < a /\ 0 < b /\ c < 0 /\
    forall log_mc m, 0 < m ->
      (wdm_turnover log_mc a b c m = 0.2 <-> m = 0.2651 * Rpower beta 0.3656 * ten_to log_mc) /\
      (wdm_turnover log_mc a b c m = 0.5 <-> m = 1.638 * Rpower beta (-0.0994) * ten_to log_mc) /\
      (wdm_turnover log_mc a b c m = 0.8 <-> m = 16.51 * Rpower beta (-0.9466) * ten_to log_mc).
Proof.
  intros root s g Hs Hg beta H. pose proof (proj2 (proj1 (beta_sign s g Hg)) Hs) as Pb. fold beta in Pb.
  destruct (converged_scales root beta H) as (a & b & c & m20 & m50 & m80 & M & E & S & U).
  exists (orb (Rltb 6 beta) (Rltb beta 1.5)), (stucker_a a b), b, c. split.
  - unfold stucker_suppression_params. fold beta. rewrite (proj2 (Rleb_false beta 0)) by lra. cbv zeta. rewrite M, E. reflexivity.
  - destruct S as (A & B & C & _). split; [apply Rpower_pos'|]. split; [exact B|]. split; [exact C|].
    unfold mass_scales in M. injection M as <- <- <-. exact U.
Qed.
(** Whichever solver is used: two that converge return the same parameters. *)
Theorem C117_any_solver : forall root root' slope gamma, slope < 0 -> 0 < gamma ->
  converged root (beta_from_slope slope gamma) -> converged root' (beta_from_slope slope gamma) ->
  stucker_suppression_params root slope gamma = stucker_suppression_params root' slope gamma.
Proof.
  intros root root' s g Hs Hg H H'. pose proof (proj2 (proj1 (beta_sign s g Hg)) Hs) as Pb.
  destruct (converged_scales _ _ H) as (a & b & c & m20 & m50 & m80 & M & E & S & _).
  destruct (converged_scales _ _ H') as (a' & b' & c' & n20 & n50 & n80 & M' & E' & S' & _).
  rewrite M in M'. injection M' as <- <- <-. destruct (C117_unique _ _ _ _ _ _ _ _ _ S S') as (<- & <- & <-).
  unfold stucker_suppression_params. rewrite (proj2 (Rleb_false _ 0)) by lra. cbv zeta. rewrite M, E, E'. reflexivity.
Qed.
(** The warning is printed exactly outside the validated range. *)
Theorem C117_warning : forall root slope gamma,
  fst (stucker_suppression_params root slope gamma) = true <-> ~ (1.5 <= beta_from_slope slope gamma <= 6).
Proof.
  intros root s g. unfold stucker_suppression_params. set (beta := beta_from_slope s g). cbv zeta.
  assert (W : orb (Rltb 6 beta) (Rltb beta 1.5) = true <-> ~ (1.5 <= beta <= 6)).
  { rewrite Bool.orb_true_iff, !Rltb_true. split; lra. }
  destruct (Rleb beta 0); [exact W|]. destruct (mass_scales beta) as [[? ?] ?]. destruct (mscales_to_abc root r r0 r1) as [[? ?] ?]. exact W.
Qed.
(** The error message of preset_mass_function_models asks for the absolute value of the slope; a positive slope gives no parameters. *)
Theorem C117_absolute_value_refuted : forall root slope gamma, 0 < gamma -> 0 < slope ->
  stucker_suppression_params root slope gamma = (true, None).
Proof.
  intros root s g Hg Hs. pose proof (proj2 (proj2 (beta_sign s g Hg)) Hs) as B. unfold stucker_suppression_params. cbv zeta.
  rewrite (proj2 (Rleb_true _ 0)) by lra. rewrite (proj2 (Rltb_true (beta_from_slope s g) 1.5)) by lra. now rewrite Bool.orb_true_r.
Qed.
Lemma big_power b : 16 <= b -> 10.08 < Rpower b 0.8472.
Proof.
  intros H. apply Rlt_le_trans with (Rpower 16 (27 / 32)).
  - replace (Rpower 16 (27 / 32)) with (8 * Rpower 2 (3 / 8)).
    2:{ assert (E16 : Rpower 2 4 = 16) by (replace 4 with (INR 4) by (simpl; lra); rewrite Rpower_pow by lra; simpl; lra). rewrite <- E16, Rpower_mult.
        replace (4 * (27 / 32)) with (3 + 3 / 8) by lra. rewrite Rpower_plus. f_equal. assert (E3 : Rpower 2 3 = 8) by (replace 3 with (INR 3) by (simpl; lra); rewrite Rpower_pow by lra; simpl; lra). now rewrite E3. }
    assert (K : 1.28 < Rpower 2 (3 / 8)); [|lra].
    apply Rnot_le_lt. intros L.
    assert (P : Rpower (Rpower 2 (3 / 8)) 8 <= Rpower 1.28 8) by (apply Rle_Rpower_l; [lra|split; [apply Rpower_pos'|exact L]]).
    rewrite Rpower_mult in P. replace (3 / 8 * 8) with (INR 3) in P by (simpl; lra). rewrite Rpower_pow in P by lra.
    replace 8 with (INR 8) in P by (simpl; lra). rewrite Rpower_pow in P by lra. simpl in P. lra.
  - apply Rle_trans with (Rpower 16 0.8472); [left; apply Rpower_lt; lra|]. apply Rle_Rpower_l; lra.
Qed.
(** A steep cutoff (slope below -11): no parameters reproduce the calibrated masses, although parameters are returned. *)
Theorem C117_steep_refuted : forall root slope, slope <= -11 ->
  (exists p, stucker_suppression_params root slope 5 = (true, Some p)) /\
  forall a b c m20 m50 m80, mass_scales (beta_from_slope slope 5) = (m20, m50, m80) -> ~ has_scales a b c m20 m50 m80.
Proof.
  intros root s Hs. pose proof (half_pow 5 ltac:(lra)) as Q1.
  assert (Q2 : Rpower 0.5 (-1 / 5) <= 1.15).
  { apply Rnot_lt_le. intros L.
    assert (P : Rpower 1.15 5 < Rpower (Rpower 0.5 (-1 / 5)) 5) by (apply Rlt_Rpower_l; lra).
    rewrite Rpower_mult in P. replace (-1 / 5 * 5) with (- (1)) in P by lra. rewrite Rpower_Ropp, Rpower_1 in P by lra.
    replace 5 with (INR 5) in P by (simpl; lra). rewrite Rpower_pow in P by lra. simpl in P. lra. }
  assert (B : 16 <= beta_from_slope s 5).
  { unfold beta_from_slope. set (q := Rpower 0.5 (-1 / 5)) in *. cbv zeta.
    replace (- s * (1 + (-1 + q)) / (-1 + q) / 5) with ((- s / 5) * (q / (q - 1))) by (field; lra).
    assert (7.6 <= q / (q - 1)) by (apply Rmult_le_reg_r with (q - 1); [lra|]; unfold Rdiv; rewrite Rmult_assoc, Rinv_l by lra; lra). nra. }
  set (beta := beta_from_slope s 5) in *. split.
  - unfold stucker_suppression_params. fold beta. cbv zeta. rewrite (proj2 (Rleb_false beta 0)) by lra. rewrite (proj2 (Rltb_true 6 beta)) by lra.
    destruct (mass_scales beta) as [[? ?] ?]. destruct (mscales_to_abc root r r0 r1) as [[? ?] ?]. eexists. reflexivity.
  - intros a b c m20 m50 m80 M H. pose proof (C117_ordered _ _ _ _ _ _ H) as [_ O]. unfold mass_scales in M. injection M as _ <- <-.
    pose proof (big_power beta B) as P.
    replace (-0.0994) with (0.8472 + -0.9466) in O by lra. rewrite Rpower_plus in O. pose proof (Rpower_pos' beta (-0.9466)). nra.
Qed.
(** Not vacuous: three scales that a = 1, b = 1, c = -1 has, and a converging solver for them. *)
Example C117_nonvacuous : has_scales 1 1 (-1) 0.25 1 4 /\ (exists k, 0 < k /\ log_slope (transfer 2 (beta_from_slope (-2) 5) 5) k (-2)).
Proof.
  assert (P : forall x y, 0 < x -> y = / x -> Rpower x (-1) = y) by (intros x y X ->; rewrite <- (Rpower_1 x X) at 2; rewrite <- Rpower_Ropp; reflexivity).
  split.
  - repeat split; try lra; unfold suppression; rewrite Rpower_1 by lra; apply P; lra.
  - destruct (C117_transfer (-2) 5 2) as (k & A & _ & B); try lra. eauto.
Qed.

(** Not vacuous: for one slope the parameters are known in closed form (c = -1), and a solver that returns them has converged. *)
Example C117_converged_nonvacuous : exists root slope, slope < 0 /\ converged root (beta_from_slope slope 5).
Proof.
  set (beta := Rpower (0.2651 * 16.51 / 1.638 ^ 2) (/ 0.3822)).
  assert (Pb : 0 < beta) by apply Rpower_pos'.
  set (q := Rpower 0.5 (-1 / 5)). pose proof (half_pow 5 ltac:(lra)) as Q. fold q in Q.
  set (slope := - (beta * (5 * (q - 1) / q))).
  assert (PS : 0 < beta * (5 * (q - 1) / q)) by (apply Rmult_lt_0_compat; [exact Pb|apply Rdiv_lt_0_compat; lra]).
  assert (E : beta_from_slope slope 5 = beta). { unfold beta_from_slope, slope. fold q. cbv zeta. field. lra. }
  assert (B38 : Rpower beta 0.3822 = 0.2651 * 16.51 / 1.638 ^ 2) by (unfold beta; rewrite Rpower_mult, Rinv_l, Rpower_1; lra).
  set (u := Rpower beta (-0.0994)). assert (Pu : 0 < u) by apply Rpower_pos'.
  set (w := Rpower beta (-0.9466)). assert (Pw : 0 < w) by apply Rpower_pos'.
  set (v := Rpower beta 0.3656). assert (Pv : 0 < v) by apply Rpower_pos'.
  assert (VW : u * u = v * w * (0.2651 * 16.51 / 1.638 ^ 2)).
  { rewrite <- B38. unfold u, v, w. rewrite <- !Rpower_plus. f_equal. lra. }
  set (m20 := 0.2651 * v). set (m50 := 1.638 * u). set (m80 := 16.51 * w).
  assert (SQ : m50 * m50 = m20 * m80).
  { unfold m20, m50, m80. replace (1.638 * u * (1.638 * u)) with (1.638 ^ 2 * (u * u)) by ring. rewrite VW. field. lra. }
  assert (P2 : 0 < m20) by (unfold m20; lra). assert (P5 : 0 < m50) by (unfold m50; lra). assert (P8 : 0 < m80) by (unfold m80; lra).
  assert (LT : m20 < m50).
  { (* beta lies between 1 and 2^8 *)
    assert (Bx : beta < 16).
    { unfold beta. apply Rlt_le_trans with (Rpower 2 (/ 0.3822)); [apply Rlt_Rpower_l; [apply Rinv_0_lt_compat; lra|split; lra]|].
      apply Rle_trans with (Rpower 2 4); [apply Rle_Rpower; [lra|]|].
      - apply Rmult_le_reg_r with 0.3822; [lra|]. rewrite Rinv_l; lra.
      - replace 4 with (INR 4) by (simpl; lra). rewrite Rpower_pow by lra. simpl. lra. }
    assert (Y : v = u * Rpower beta 0.465) by (unfold u, v; rewrite <- Rpower_plus; f_equal; lra).
    assert (Z : Rpower beta 0.465 < 4).
    { apply Rlt_trans with (Rpower 16 0.465); [apply Rlt_Rpower_l; lra|]. apply Rlt_le_trans with (Rpower 16 (/ 2)); [apply Rpower_lt; lra|].
      rewrite Rpower_sqrt by lra. right. replace 16 with (4 * 4) by lra. rewrite sqrt_square; lra. }
    unfold m20, m50. rewrite Y. nra. }
  assert (LN : 0 < ln m50 - ln m20) by (pose proof (ln_increasing _ _ P2 LT); lra).
  assert (L4 : 0 < ln 4) by (rewrite <- ln_1; apply ln_increasing; lra).
  set (b := ln 4 / (ln m50 - ln m20)). assert (Hb : 0 < b) by (apply Rdiv_lt_0_compat; lra).
  exists (fun _ _ => (log10 m50, b, -1)), slope. split; [unfold slope; lra|]. rewrite E. unfold converged, mass_scales. fold u v w. fold m20 m50 m80.
  split; [|split; [exact Hb|lra]].
  assert (I : forall f, 0 < f -> Rpower f (1 / -1) = / f).
  { intros f F. replace (1 / -1) with (- (1)) by lra. rewrite Rpower_Ropp, Rpower_1; auto. }
  assert (F4 : Rpower 4 (1 / b) = m50 / m20).
  { unfold Rpower, b. replace (1 / (ln 4 / (ln m50 - ln m20)) * ln 4) with (ln m50 - ln m20) by (field; lra).
    unfold Rminus. rewrite exp_plus, exp_Ropp, !exp_ln by assumption. reflexivity. }
  assert (S : forall f, 0 < f -> supp_mscale (pow10 (log10 m50)) b (-1) f = Some (m50 / Rpower (/ f - 1) (1 / b))).
  { intros f F. unfold supp_mscale. rewrite pow10_log10 by exact P5. rewrite (proj2 (Rltb_false m50 0)), (proj2 (Rltb_false b 0)), (proj2 (Rltb_false 0 (-1))) by lra.
    cbn [orb]. rewrite I by exact F. reflexivity. }
  unfold equations. rewrite !S by lra.
  replace (/ 0.2 - 1) with 4 by lra. replace (/ 0.5 - 1) with 1 by lra. replace (/ 0.8 - 1) with (/ 4) by lra.
  assert (FI : Rpower (/ 4) (1 / b) = m20 / m50).
  { unfold Rpower. rewrite ln_Rinv by lra. replace (1 / b * - ln 4) with (- (1 / b * ln 4)) by ring. rewrite exp_Ropp.
    change (exp (1 / b * ln 4)) with (Rpower 4 (1 / b)). rewrite F4. field. lra. }
  assert (F1 : Rpower 1 (1 / b) = 1) by (unfold Rpower; rewrite ln_1, Rmult_0_r; apply exp_0).
  rewrite F4, FI, F1. replace (m50 / (m50 / m20)) with m20 by (field; lra). replace (m50 / (m20 / m50)) with m80 by (apply Rmult_eq_reg_r with m20; [|lra]; replace (m50 / (m20 / m50) * m20) with (m50 * m50) by (field; lra); lra).
  replace (m50 / 1) with m50 by lra. unfold Rminus. rewrite !Rplus_opp_r, Rabs_R0. unfold Rdiv. now rewrite !Rmult_0_l.
Qed.

Print Assumptions C117_transfer.
Print Assumptions C117_unique.
Print Assumptions C117_ordered.
Print Assumptions C117_calibrated.
Print Assumptions C117_any_solver.
Print Assumptions C117_warning.
Print Assumptions C117_absolute_value_refuted.
Print Assumptions C117_steep_refuted.
