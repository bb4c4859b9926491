(** C61: the composite cored NFW and soliton profile of ultra-light dark matter halos. *)
From Verif Require Import Prelude TnfwSpec TnfwProofs MassFnModel MassFnProofs NfwModel NfwSpec NfwProofs NfwProps SidmModel SidmProps CompositeModel ProfileModel JaffeProps.
From Coquelicot Require Import Coquelicot.
Local Open Scope string_scope.
Local Open Scope R_scope.
Local Open Scope list_scope.
Local Ltac pos := first [assumption | lra | lazymatch goal with |- 0 < _ * _ => apply Rmult_lt_0_compat; pos | |- 0 < _ / _ => apply Rdiv_lt_0_compat; pos | |- 0 < _ ^ _ => apply pow_lt; pos | |- 0 < _ + _ => apply Rplus_lt_0_compat; pos | |- 0 < / _ => apply Rinv_0_lt_compat; pos end].

(** ** Specification *)
(** The masses of the two lenstronomy profiles are proportional to their amplitudes, and positive. *)
Record uldm_ok (U : uldm) : Prop := {
  uo_cnfw : forall r Rs k a rc, ul_cnfw U r Rs (k * a) rc = k * ul_cnfw U r Rs a rc;
  uo_core : forall r k a th, ul_core U r (k * a) th = k * ul_core U r a th;
  uo_cpos : forall r Rs a rc, 0 < r -> 0 < Rs -> 0 < a -> 0 < rc -> 0 < ul_cnfw U r Rs a rc;
  uo_upos : forall r a th, 0 < r -> 0 < a -> 0 < th -> 0 < ul_core U r a th }.
(** Mass inside c Rs of the composite lens model. *)
Definition total (U : uldm) (sigmacrit c Rs theta_c : R) (p : R * R * R) : R :=
  ul_cnfw U (c * Rs) Rs (fst (fst p) * sigmacrit) (snd (fst p)) + ul_core U (c * Rs) (snd p * sigmacrit) theta_c.
(** The soliton: a core of radius [rc]. *)
Definition soliton (rho0 rc r : R) : R := rho0 / (1 + 0.091 * (r / rc) ^ 2) ^ 8.

(** ** Mass of the composite profile *)
(** The parameters are returned unless the minimiser gives a negative beta or q. *)
Theorem C61_uldm_raises_iff : forall U sg mass c sc Rs a rc k th beta q,
  rescaled_cnfw U sg mass c sc Rs a rc k th beta q = Err EValueError <-> beta < 0 \/ q < 0.
Proof.
  intros. unfold rescaled_cnfw. unfold Rltb. destruct (Rlt_dec beta 0) as [B|B]; [split; [left; exact B|reflexivity]|].
  destruct (Rlt_dec q 0) as [Q|Q]; [split; [right; exact Q|reflexivity]|]. split; [discriminate|]. intros [|]; lra.
Qed.
Example C61_uldm_raises_nonvacuous : (- 1 < 0) /\ ~ (0.9 < 0 \/ 1.1 < 0).
Proof. lra. Qed.

(** With scale_nfw the error of the total mass shrinks by the fraction of the mass that the soliton holds: it never grows,
    and the mass is exact only if it was exact before. *)
Theorem C61_uldm_mass : forall U sg mass c Rs a rc k th beta q, uldm_ok U -> 0 < sg -> 0 < mass -> 0 < c -> 0 < Rs -> 0 < a -> 0 < rc -> 0 < k -> 0 < th -> 0 < beta -> 0 < q ->
  exists p p', rescaled_cnfw U sg mass c false Rs a rc k th beta q = Ok p /\ rescaled_cnfw U sg mass c true Rs a rc k th beta q = Ok p' /\
    p = (a, rc / beta, k / q) /\
    let core := ul_core U (c * Rs) (k / q * sg) th in
    let T := total U sg c Rs th p in let T' := total U sg c Rs th p' in
    0 < core < T /\ T' - mass = (T - mass) * (core / T) /\ Rabs (T' - mass) <= Rabs (T - mass) /\ (T' = mass <-> T = mass).
Proof.
  intros U sg mass c Rs a rc k th beta q [L1 L2 P1 P2] S M Hc HR Ha Hrc Hk Ht B Q. unfold rescaled_cnfw.
  assert (B1 : Rltb beta 0 = false) by (apply Rltb_false; lra). assert (B2 : Rltb q 0 = false) by (apply Rltb_false; lra). rewrite B1, B2.
  eexists _, _. split; [reflexivity|]. split; [reflexivity|]. split; [reflexivity|]. cbv zeta. unfold total. cbn [fst snd].
  pose proof (P2 (c * Rs) (k / q * sg) th ltac:(pos) ltac:(pos) Ht) as PU. set (u := ul_core U _ _ _) in *.
  pose proof (P1 (c * Rs) Rs (a * sg) (rc / beta) ltac:(pos) HR ltac:(pos) ltac:(pos)) as PN. set (n := ul_cnfw U _ _ (a * sg) _) in *.
  replace (a * (mass / (n + u)) * sg) with (mass / (n + u) * (a * sg)) by ring. rewrite L1. fold n. clearbody n u.
  assert (E : mass / (n + u) * n + u - mass = (n + u - mass) * (u / (n + u))) by (field; lra).
  assert (F : 0 < u / (n + u) < 1). { split; [pos|]. apply (Rmult_lt_reg_r (n + u)); [lra|]. replace (u / (n + u) * (n + u)) with u by (field; lra). lra. }
  split; [lra|]. split; [exact E|]. split.
  - rewrite E, Rabs_mult, (Rabs_pos_eq (u / (n + u))) by lra. pose proof (Rabs_pos (n + u - mass)). nra.
  - split; intro H.
    + assert (Z : (n + u - mass) * (u / (n + u)) = 0) by lra. apply Rmult_integral in Z. destruct Z; lra.
    + assert (Z : n + u - mass = 0) by lra. rewrite Z, Rmult_0_l in E. lra.
Qed.
Definition demo_uldm : uldm := {| ul_cnfw := fun r Rs a rc => a * (r / (r + rc)); ul_core := fun r a th => a * (r / (r + th)) |}.
Lemma demo_uldm_ok : uldm_ok demo_uldm.
Proof. split; cbn; intros; [ring|ring|pos|pos]. Qed.
Example C61_uldm_mass_nonvacuous : uldm_ok demo_uldm /\ total demo_uldm 1 10 1 10 (3, 10, 4) = 7 / 2.
Proof. split; [exact demo_uldm_ok|]. unfold total. cbn [fst snd ul_core ul_cnfw demo_uldm]. field. Qed.

(** The documented purpose, "such that the composite profile has the inputted virial mass", is not met, whatever point the
    minimiser returns: there are halos whose total mass after the rescaling is twice their mass. *)
Theorem C61_uldm_mass_refuted : exists U, uldm_ok U /\ forall beta q, 0.5 <= beta <= 10 -> 0.5 <= q <= 1.5 ->
  exists p, rescaled_cnfw U 1 1 10 true 1 1 1 10 1 beta q = Ok p /\ 2 < total U 1 10 1 1 p.
Proof.
  exists demo_uldm. split; [exact demo_uldm_ok|]. intros b q B Q.
  destruct (C61_uldm_mass demo_uldm 1 1 10 1 1 1 10 1 b q demo_uldm_ok) as (p & p' & _ & E & Ep & H & _); try lra.
  exists p'. split; [exact E|]. cbv zeta in H. unfold rescaled_cnfw in E.
  assert (B1 : Rltb b 0 = false) by (apply Rltb_false; lra). assert (B2 : Rltb q 0 = false) by (apply Rltb_false; lra). rewrite B1, B2 in E.
  injection E as <-. unfold total. cbn [fst snd ul_core ul_cnfw demo_uldm] in *.
  assert (IQ : 10 / q >= 10 / 1.5). { apply Rle_ge. unfold Rdiv. apply Rmult_le_compat_l; [lra|]. apply Rinv_le_contravar; lra. }
  match goal with |- 2 < ?a + ?b => assert (PA : 0 < a) by pos; assert (PB : b = 10 / q * (10 / 11)) by (field; lra) end. lra.
Qed.

(** The function handed to the minimiser is never negative and vanishes exactly where both of its conditions hold. *)
Theorem C61_uldm_penalty : forall U sg beta q r m Rs a k th rho0 rhos, 0 < m ->
  0 <= function_to_minimize U sg beta q r m Rs a k th rho0 rhos /\
  (function_to_minimize U sg beta q r m Rs a k th rho0 rhos = 0 <->
   ul_cnfw U r Rs (a * sg) (beta * Rs) + q * ul_core U r (k * sg) th = m /\ rhos = beta * rho0 * (q - 1)).
Proof.
  intros U sg beta q r m Rs a k th rho0 rhos M. unfold function_to_minimize, constraint_mass, constraint_density. cbv zeta.
  set (n := ul_cnfw _ _ _ _ _). set (u := ul_core _ _ _ _).
  assert (E : n / m + q * u / m - 1 = (n + q * u - m) / m) by (field; lra). rewrite E.
  pose proof (Rabs_pos ((n + q * u - m) / m)). pose proof (Rabs_pos (rhos - beta * rho0 * (q - 1))). split; [lra|]. split.
  - intros Z. assert (Z1 : Rabs ((n + q * u - m) / m) = 0) by lra. assert (Z2 : Rabs (rhos - beta * rho0 * (q - 1)) = 0) by lra.
    apply Rabs_eq_0 in Z2. split; [|lra]. destruct (Req_dec (n + q * u - m) 0) as [X|X]; [lra|]. exfalso.
    assert (N : (n + q * u - m) / m <> 0) by (apply Rmult_integral_contrapositive; split; [exact X|apply Rinv_neq_0_compat; lra]).
    now apply Rabs_no_R0 in N.
  - intros [Z1 Z2]. rewrite Z2, Z1. replace ((m - m) / m) with 0 by (field; lra). unfold Rminus. rewrite Rplus_opp_r, Rabs_R0. ring.
Qed.
Example C61_uldm_penalty_nonvacuous : function_to_minimize demo_uldm 1 2 3 2 3.5 1 1 2 2 1 4 = 0.
Proof.
  apply (C61_uldm_penalty demo_uldm 1 2 3 2 3.5 1 1 2 2 1 4 ltac:(lra)). cbn. lra.
Qed.

(** The mass penalty that the minimiser drives to zero is about other parameters than the ones returned: a point with zero
    mass penalty whose unscaled and scaled composite both miss the mass. *)
Theorem C61_uldm_penalty_refuted : exists U sg mass c Rs a rc k th beta q p p', uldm_ok U /\ 0 < sg /\ 0 < mass /\ 0 < c /\ 0 < Rs /\ 0 < a /\ 0 < rc /\ 0 < k /\ 0 < th /\
  0.5 <= beta <= 10 /\ 0.5 <= q <= 1.5 /\ constraint_mass U sg beta q (c * Rs) mass Rs a k th = 0 /\
  rescaled_cnfw U sg mass c false Rs a rc k th beta q = Ok p /\ rescaled_cnfw U sg mass c true Rs a rc k th beta q = Ok p' /\
  total U sg c Rs th p <> mass /\ total U sg c Rs th p' <> mass.
Proof.
  (* r = 10, Rs = 1, beta = 10: r_core 10 -> cnfw = a/2; q = 0.5, core = k/2 with th = 10; a = 2, k = 4: mass = 1 + 1 = 2 *)
  destruct (C61_uldm_mass demo_uldm 1 2 10 1 2 1 4 10 10 0.5 demo_uldm_ok) as (p & p' & E & E' & Ep & H & _ & _ & I); try lra.
  exists demo_uldm, 1, 2, 10, 1, 2, 1, 4, 10, 10, 0.5, p, p'. split; [exact demo_uldm_ok|]. do 8 (split; [lra|]). split; [lra|]. split; [lra|].
  split. { unfold constraint_mass. cbn [ul_core ul_cnfw demo_uldm]. replace 0.5 with (1 / 2) by lra. match goal with |- Rabs ?x = 0 => replace x with 0 by field end. apply Rabs_R0. }
  split; [exact E|]. split; [exact E'|]. cbv zeta in I.
  assert (N : total demo_uldm 1 10 1 10 p <> 2). { rewrite Ep. unfold total. cbn [fst snd ul_core ul_cnfw demo_uldm]. replace 0.5 with (1 / 2) by lra. match goal with |- ?x <> 2 => replace x with (200 / 101 + 4) by field end. lra. }
  split; [exact N|]. rewrite I. exact N.
Qed.

(** ** Core radius and central density *)
Lemma zeta_pos Om z : 0 < Om z <= 1 -> 0 < zeta Om z.
Proof.
  intros O. unfold zeta. apply Rdiv_lt_0_compat; [|lra]. pose proof PI2_3_2 as P. unfold PI2 in P. assert (3 < PI) by lra. assert (9 < PI ^ 2) by nra. nra.
Qed.
Lemma core_radius_pos Om z m M plaw : 0 < core_radius Om z m M plaw.
Proof.
  unfold core_radius. cbv zeta. pose proof (pow10_pos (m + 22)). unfold Rpower.
  repeat match goal with |- context [exp ?x] => lazymatch goal with H : 0 < exp x |- _ => fail | _ => pose proof (exp_pos x); set (exp x) in * end end. pos.
Qed.
(** The core shrinks with the particle mass and with the halo mass (plaw > 0), as the given power of each. *)
Theorem C61_core_radius : forall Om z m M plaw, 0 < M ->
  0 < core_radius Om z m M plaw /\
  (forall m', core_radius Om z m' M plaw = core_radius Om z m M plaw * (pow10 m / pow10 m')) /\
  (forall M', 0 < M' -> core_radius Om z m M' plaw = core_radius Om z m M plaw * Rpower (M / M') plaw) /\
  (forall M', 0 < plaw -> M < M' -> core_radius Om z m M' plaw < core_radius Om z m M plaw).
Proof.
  intros Om z m M plaw HM. pose proof (core_radius_pos Om z m M plaw) as P.
  assert (S : forall M', 0 < M' -> core_radius Om z m M' plaw = core_radius Om z m M plaw * Rpower (M / M') plaw).
  { intros M' HM'. unfold core_radius. cbv zeta. set (A := 1.6 * / _ * _ * _). rewrite Rmult_assoc. f_equal.
    unfold Rpower at 1 2 3. rewrite <- exp_plus. f_equal. unfold pow10, Rpower. rewrite !ln_exp. unfold log10, Rdiv. rewrite ln_mult, ln_Rinv by (try apply Rinv_0_lt_compat; lra).
    assert (ln 10 <> 0) by (pose proof ln10_pos; lra). field. assumption. }
  split; [exact P|]. split; [|split; [exact S|]].
  - intros m'. unfold core_radius. cbv zeta. rewrite !pow10_plus. pose proof (pow10_pos m). pose proof (pow10_pos m'). pose proof (pow10_pos 22). field. repeat split; lra.
  - intros M' Hp HMM. rewrite (S M') by lra. rewrite <- (Rmult_1_r (core_radius Om z m M plaw)) at 2. apply Rmult_lt_compat_l; [exact P|].
    unfold Rpower. rewrite <- exp_0. apply exp_increasing. assert (L : ln (M / M') < 0). { rewrite <- ln_1. apply ln_increasing; [pos|]. apply (Rmult_lt_reg_r M'); [lra|]. replace (M / M' * M') with M by (field; lra). lra. }
    nra.
Qed.
Example C61_core_radius_nonvacuous : core_radius (fun _ => 0.3) 0.5 (-22) (10 ^ 9) (1 / 3) < core_radius (fun _ => 0.3) 0.5 (-22) (10 ^ 8) (1 / 3).
Proof. apply (C61_core_radius (fun _ => 0.3) 0.5 (-22) (10 ^ 8) (1 / 3) ltac:(lra)); lra. Qed.

(** ** The soliton's lens parameters *)
(** The recursion for the integral of (1 + t^2)^-n: [A n] is an antiderivative of (1 + t^2)^-(n+1). *)
Fixpoint anti (n : nat) (t : R) : R :=
  match n with
  | O => atan t
  | S n' => t / (2 * INR n * (1 + t ^ 2) ^ n) + (2 * INR n - 1) / (2 * INR n) * anti n' t
  end.
Fixpoint wallis (n : nat) : R := match n with O => 1 | S n' => (2 * INR n - 1) / (2 * INR n) * wallis n' end.
Lemma one_sq t : 0 < 1 + t ^ 2. Proof. pose proof (pow2_ge_0 t). lra. Qed.
Lemma anti_derive n t : is_derive (anti n) t (/ (1 + t ^ 2) ^ S n).
Proof.
  induction n as [|n IH].
  - evar_last; [apply is_derive_atan|]. cbn [anti]. unfold Rsqr. f_equal. ring.
  - cbn [anti]. set (N := INR (S n)). assert (PN : 0 < N) by (apply lt_0_INR; lia). pose proof (one_sq t) as P. pose proof (pow_lt _ (S n) P) as Pn.
    evar_last.
    + apply (is_derive_plus (fun t => t / (2 * N * (1 + t ^ 2) ^ S n)) (fun t => (2 * N - 1) / (2 * N) * anti n t)); [|apply is_derive_scal; exact IH].
      assert (D : is_derive (fun t => (1 + t ^ 2) ^ S n) t (N * (2 * t) * (1 + t ^ 2) ^ n)).
      { evar_last; [apply (is_derive_pow (fun t => 1 + t ^ 2) (S n)); auto_derive; [exact I|reflexivity]|]. fold N. cbn [Nat.pred]. ring. }
      apply (is_derive_div (fun t => t) (fun t => 2 * N * (1 + t ^ 2) ^ S n)); [apply is_derive_id|apply is_derive_scal; exact D|]. apply Rgt_not_eq. change (0 < 2 * N * (1 + t ^ 2) ^ S n). pos.
    + change one with 1. match goal with |- plus ?a ?b = ?c => change (@eq R (a + b) c) end.
      replace (t * (2 * N * (N * (2 * t) * (1 + t ^ 2) ^ n))) with (4 * N ^ 2 * (1 + t ^ 2 - 1) * (1 + t ^ 2) ^ n) by ring.
      pose proof (pow_lt _ n P) as Pn'. set (s := 1 + t ^ 2) in *. clearbody s. change (s ^ S (S n)) with (s * (s * s ^ n)). change (s ^ S n) with (s * s ^ n) in *.
      set (y := s ^ n) in *. clearbody y N. field. repeat split; lra.
Qed.
Lemma anti_0 n : anti n 0 = 0.
Proof. induction n as [|n IH]; cbn [anti]; [apply atan_0|]. rewrite IH. unfold Rdiv. ring. Qed.
(** t / (1 + t^2)^n tends to 0 *)
Lemma tail_lim c n : (0 < n)%nat -> 0 < c -> filterlim (fun t => t / (c * (1 + t ^ 2) ^ n)) (Rbar_locally p_infty) (locally 0).
Proof.
  intros Hn Hc P [eps H]. exists (Rmax 1 (/ (c * eps))). intros t T. apply H. pose proof (cond_pos eps) as PE.
  assert (T1 : 1 < t) by (pose proof (Rmax_l 1 (/ (c * eps))); lra). assert (T2 : / (c * eps) < t) by (pose proof (Rmax_r 1 (/ (c * eps))); lra).
  pose proof (one_sq t) as S. assert (B : 1 + t ^ 2 <= (1 + t ^ 2) ^ n).
  { rewrite <- (pow_1 (1 + t ^ 2)) at 1. apply Rle_pow; [nra|lia]. }
  set (y := (1 + t ^ 2) ^ n) in *. clearbody y. unfold ball; cbn. unfold AbsRing_ball, abs, minus, plus, opp; cbn.
  rewrite Ropp_0, Rplus_0_r. rewrite Rabs_pos_eq by (apply Rlt_le; pos).
  apply (Rmult_lt_reg_r (c * y)); [pos|]. replace (t / (c * y) * (c * y)) with t by (field; lra).
  assert (1 < t * (c * eps)). { apply (Rmult_lt_reg_l (/ (c * eps))); [pos|]. replace (/ (c * eps) * (t * (c * eps))) with t by (field; lra). lra. }
  assert (0 < c * eps) by pos. assert (t * (1 + t ^ 2) * (c * eps) <= y * (t * (c * eps))) by nra. nra.
Qed.
Lemma anti_lim n : filterlim (anti n) (Rbar_locally p_infty) (locally (wallis n * (PI / 2))).
Proof.
  induction n as [|n IH].
  - cbn [anti wallis]. rewrite Rmult_1_l. apply (filterlim_ext (fun x => atan (x / 1))); [intros x; f_equal; field|]. apply atan_lim. lra.
  - cbn [anti wallis]. set (N := INR (S n)). assert (PN : 0 < N) by (apply lt_0_INR; lia).
    replace ((2 * N - 1) / (2 * N) * wallis n * (PI / 2)) with (plus 0 ((2 * N - 1) / (2 * N) * (wallis n * (PI / 2)))) by (unfold plus; cbn; ring).
    apply (filterlim_comp_2 (fun t => t / (2 * N * (1 + t ^ 2) ^ S n)) (fun t => (2 * N - 1) / (2 * N) * anti n t) plus (G := locally 0) (H := locally ((2 * N - 1) / (2 * N) * (wallis n * (PI / 2))))).
    + apply tail_lim; [lia|lra].
    + apply (filterlim_comp _ _ _ (anti n) (fun y => (2 * N - 1) / (2 * N) * y) _ _ _ IH). apply (filterlim_scal_r (K := R_AbsRing) (V := R_NormedModule)).
    + apply (filterlim_plus (K := R_AbsRing) (V := R_NormedModule)).
Qed.
Lemma wallis7 : wallis 7 = 429 / 2048.
Proof. cbn [wallis]. cbn [INR]. field. Qed.

(** The central surface density of the soliton. *)
Lemma soliton_central rho0 rc : 0 < rc -> central_surface_density (soliton rho0 rc) (429 * PI * rho0 * rc / (2048 * sqrt 0.091)).
Proof.
  intros P. set (b := sqrt 0.091). assert (Pb : 0 < b) by (apply sqrt_lt_R0; lra). assert (Eb : b ^ 2 = 0.091) by (unfold b; rewrite <- Rsqr_pow2; apply Rsqr_sqrt; lra).
  assert (I : forall c, RInt (soliton rho0 rc) 0 c = rho0 * rc / b * anti 7 (c * (b / rc))).
  { intros c. apply is_RInt_unique.
    apply (is_RInt_ext (fun r => rho0 * rc / b * ((b / rc) * / (1 + (r * (b / rc)) ^ 2) ^ 8))).
    { intros r _. unfold soliton. rewrite <- Eb. replace (b ^ 2 * (r / rc) ^ 2) with ((r * (b / rc)) ^ 2) by (field; lra).
      pose proof (pow_lt _ 8 (one_sq (r * (b / rc)))). set (y := (1 + (r * (b / rc)) ^ 2) ^ 8) in *. clearbody y.
      lazymatch goal with |- ?a = ?b => change (@eq R a b) end. field. repeat split; lra. }
    evar_last; [apply (ftc (fun r => rho0 * rc / b * anti 7 (r * (b / rc))))|].
    - intros x. apply is_derive_scal. evar_last; [apply (is_derive_comp (anti 7) (fun r => r * (b / rc))); [apply anti_derive|auto_derive; [exact I|reflexivity]]|].
      unfold scal; cbn -[pow]. unfold mult; cbn -[pow]. ring.
    - intros x. pose proof (one_sq (x * (b / rc))) as Q. pose proof (pow_lt _ 8 Q) as Q8. apply ex_derive_scal.
      apply (ex_derive_mult (fun _ => b / rc) (fun r => / (1 + (r * (b / rc)) ^ 2) ^ 8)); [apply ex_derive_const|].
      apply (ex_derive_inv (fun r => (1 + (r * (b / rc)) ^ 2) ^ 8)); [|lra]. apply ex_derive_pow. auto_derive. exact I.
    - cbv beta. rewrite Rmult_0_l, anti_0. lazymatch goal with |- ?a = ?b => change (@eq R a b) end. ring. }
  unfold central_surface_density. apply (filterlim_ext (fun c => 2 * (rho0 * rc / b) * anti 7 (c * (b / rc)))); [intros c; rewrite I; ring|].
  replace (429 * PI * rho0 * rc / (2048 * b)) with (2 * (rho0 * rc / b) * (wallis 7 * (PI / 2))) by (rewrite wallis7; field; lra).
  apply (filterlim_comp _ _ _ (fun c => anti 7 (c * (b / rc))) (fun y => 2 * (rho0 * rc / b) * y) _ (locally (wallis 7 * (PI / 2)))).
  - apply (filterlim_comp _ _ _ (fun c => c * (b / rc)) (anti 7) _ (Rbar_locally p_infty)); [|apply anti_lim].
    intros Q [M HM]. exists (M / (b / rc)). intros x X. apply HM. assert (0 < b / rc) by pos. apply (Rmult_lt_reg_r (/ (b / rc))); [pos|].
    replace (x * (b / rc) * / (b / rc)) with x by (field; lra). exact X.
  - apply (filterlim_scal_r (K := R_AbsRing) (V := R_NormedModule)).
Qed.

(** theta_c is the angle under which the core radius appears at the lens redshift, and kappa_0 the central surface density of
    the soliton (radii in pc) in units of the critical surface density of the lens redshift. *)
Theorem C61_soliton_lens : forall C Om zl zs z m M plaw, distances_ok C zl zs -> 0 < M -> 0 <= z ->
  let rc := core_radius Om z m M plaw in let rho0 := central_density z m rc in
  let p := uldm_args C Om zl zs z m M plaw in
  fst p * arcsec * (co_DAz C zl * 1000) = rc /\
  central_surface_density (soliton rho0 (rc * 1000)) (snd p * (get_sigma_crit_lensing C zl zs / 10 ^ 12)).
Proof.
  intros C Om zl zs z m M plaw D HM Hz rc rho0 p. destruct D as (D1 & D2 & D3 & D4).
  assert (PA : 0 < arcsec) by (unfold arcsec; pose proof PI_RGT_0; lra). pose proof (core_radius_pos Om z m M plaw) as Prc. fold rc in Prc.
  pose proof (sigma_pos C zl zs (conj D1 (conj D2 (conj D3 D4)))) as S.
  unfold p, uldm_args. cbn [fst snd]. fold rc. fold rho0. split; [field; split; lra|].
  pose proof (soliton_central rho0 (rc * 1000) ltac:(lra)) as CS. assert (Pb : 0 < sqrt 0.091) by (apply sqrt_lt_R0; lra).
  replace (429 * PI * rho0 * (rc * 10 ^ 3) / (2048 * sqrt 0.091 * (get_sigma_crit_lensing C zl zs * / 10 ^ 12)) * (get_sigma_crit_lensing C zl zs / 10 ^ 12))
    with (429 * PI * rho0 * (rc * 1000) / (2048 * sqrt 0.091)); [exact CS|]. field. repeat split; lra.
Qed.
Example C61_soliton_lens_nonvacuous : distances_ok demo 0.5 2.
Proof. exact demo_distances. Qed.

(** For a halo along the line of sight the angle is that of the lens plane: seen at the halo's own distance it is the core
    radius only if both distances agree. *)
Theorem C61_soliton_line_of_sight_refuted : forall C Om zl zs z m M plaw, distances_ok C zl zs -> 0 < M -> 0 <= z -> 0 < co_DAz C z -> co_DAz C z <> co_DAz C zl ->
  fst (uldm_args C Om zl zs z m M plaw) * arcsec * (co_DAz C z * 1000) <> core_radius Om z m M plaw.
Proof.
  intros C Om zl zs z m M plaw D HM Hz Dz N E. pose proof (proj1 (C61_soliton_lens C Om zl zs z m M plaw D HM Hz)) as F. cbv zeta in F. destruct D as (D1 & _).
  pose proof (core_radius_pos Om z m M plaw) as Prc. set (t := fst _ * arcsec) in *. set (rc := core_radius _ _ _ _ _) in *. clearbody t rc. apply N. rewrite <- F in E.
  assert (t <> 0) by (intro Z; rewrite Z in F; lra). apply (Rmult_eq_reg_l (t * 1000)); [|lra]. lra.
Qed.
Example C61_soliton_line_of_sight_nonvacuous : exists C, distances_ok C 0.5 2 /\ 0 < co_DAz C 1 /\ co_DAz C 1 <> co_DAz C 0.5.
Proof.
  exists {| co_h := 0.7; co_rhoc := 1; co_E := fun _ => 1; co_DA := fun a b => 100 * (1 + b); co_DAz := fun z => 100 * (1 + z); co_age := fun _ => 1; co_kpc := fun _ => 1; co_Om0 := 0.3; co_rhoc_astropy := 1 |}.
  split; [repeat split; cbn; lra|]. split; cbn; lra.
Qed.

Print Assumptions C61_uldm_raises_iff.
Print Assumptions C61_uldm_mass.
Print Assumptions C61_uldm_penalty.
Print Assumptions C61_uldm_mass_refuted.
Print Assumptions C61_uldm_penalty_refuted.
Print Assumptions C61_core_radius.
Print Assumptions C61_soliton_lens.
Print Assumptions C61_soliton_line_of_sight_refuted.
