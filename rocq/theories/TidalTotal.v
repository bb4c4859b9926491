(** Total masses of the truncated profiles (C53). *)
From Verif Require Import Prelude MassFnModel TidalModel TidalSpec TidalProofs TidalInt.
From Coquelicot Require Import Coquelicot.
Local Open Scope R_scope.
Local Open Scope list_scope.

Lemma gen_total (F f : R -> R) (l0 l1 : R) :
  (forall x, 0 < x -> is_derive F x (f x)) -> (forall x, 0 < x -> ex_derive f x) ->
  filterlim F (at_right 0) (locally l0) -> filterlim F (Rbar_locally p_infty) (locally l1) ->
  is_RInt_gen f (at_right 0) (Rbar_locally p_infty) (l1 - l0).
Proof.
  intros HF Hf H0 H1. apply (gen_ftc (Rbar_locally p_infty) F f l0 l1 pinf_pos HF); [|exact H0|exact H1].
  intros x Hx. apply (ex_derive_continuous f x), Hf, Hx.
Qed.
Lemma total_by (F f : R -> R) alpha beta gamma delta tau (l0 l1 M : R) :
  (forall x, 0 < x -> is_derive F x (f x)) -> (forall x, 0 < x -> ex_derive f x) ->
  filterlim F (at_right 0) (locally l0) -> filterlim F (Rbar_locally p_infty) (locally l1) ->
  (forall x, 0 < x -> f x = x ^ 2 * truncated alpha beta gamma delta tau x) -> M = 4 * PI * (l1 - l0) ->
  total_mass alpha beta gamma delta tau M.
Proof.
  intros HF Hf H0 H1 Heq ->. unfold total_mass.
  apply (gen_ext_pos (Rbar_locally p_infty) (fun x => scal (4 * PI) (f x)) _ _ pinf_pos).
  { intros x Hx. rewrite Heq by exact Hx. unfold scal; cbn; unfold mult; cbn. ring. }
  apply (is_RInt_gen_scal f (4 * PI) (l1 - l0)). apply (gen_total F f); assumption.
Qed.
Lemma trunc_2 alpha beta gamma tau x : 0 < tau -> 0 < x ->
  truncated alpha beta gamma 2 tau x = density alpha beta gamma x * (tau ^ 2 / (x ^ 2 + tau ^ 2)).
Proof.
  intros Ht Hx. unfold truncated. rewrite rpow_2 by (apply Rdiv_lt_0_compat; assumption).
  pose proof (pow_lt x 2 Hx). pose proof (pow_lt tau 2 Ht). field. split; lra.
Qed.
Lemma trunc_3 alpha beta gamma tau x : 0 < tau -> 0 < x ->
  truncated alpha beta gamma 3 tau x = density alpha beta gamma x * (tau ^ 3 / (x ^ 3 + tau ^ 3)).
Proof.
  intros Ht Hx. unfold truncated. rewrite rpow_3 by (apply Rdiv_lt_0_compat; assumption).
  pose proof (pow_lt x 3 Hx). pose proof (pow_lt tau 3 Ht). field. split; lra.
Qed.

(** ** rational integrands A/(1+x) + B/(1+x)^2 + C/(1+x)^3 + (E - A x)/(x^2 + tau^2) *)
Definition Frat (tau A B C E x : R) : R :=
  A * ln (1 + x) - A / 2 * ln (x ^ 2 + tau ^ 2) - B / (1 + x) - C / (2 * (1 + x) ^ 2) + E / tau * atan (x / tau).
Definition frat (tau A B C E x : R) : R :=
  A / (1 + x) + B / (1 + x) ^ 2 + C / (1 + x) ^ 3 + (E - A * x) / (x ^ 2 + tau ^ 2).
Lemma Frat_derive tau A B C E x : 0 < tau -> 0 < x -> is_derive (Frat tau A B C E) x (frat tau A B C E x).
Proof.
  intros Ht Hx. unfold Frat, frat. pose proof (pow_lt x 2 Hx) as H1. pose proof (pow_lt tau 2 Ht) as H2. cbn [pow] in H1, H2.
  auto_derive; [repeat split; nra|]. field. repeat split; nra.
Qed.
Lemma frat_ex tau A B C E x : 0 < tau -> 0 < x -> ex_derive (frat tau A B C E) x.
Proof.
  intros Ht Hx. unfold frat. pose proof (pow_lt x 2 Hx) as H1. pose proof (pow_lt tau 2 Ht) as H2.
  pose proof (pow_lt (1 + x) 3 ltac:(lra)) as H3. pose proof (pow_lt (1 + x) 2 ltac:(lra)) as H4. cbn [pow] in *.
  auto_derive. repeat split; lra.
Qed.
Lemma Frat_zero tau A B C E : 0 < tau -> filterlim (Frat tau A B C E) (at_right 0) (locally (- A * ln tau - B - C / 2)).
Proof.
  intros Ht. pose proof (pow_lt tau 2 Ht) as H2. apply right_lim.
  - unfold Frat. apply (ex_derive_continuous (V := R_NormedModule)). cbn [pow] in H2. auto_derive. repeat split; lra.
  - unfold Frat. replace (0 ^ 2 + tau ^ 2) with (tau * tau) by ring. rewrite ln_mult by exact Ht.
    replace (0 / tau) with 0 by (field; lra). rewrite atan_0, Rplus_0_r, ln_1. field. lra.
Qed.
Lemma atan_recip t x : 0 < t -> 0 < x -> atan (x / t) = PI / 2 - atan (t * / x).
Proof.
  intros Ht Hx. replace (x / t) with (/ (t * / x)) by (field; lra). apply atan_inv.
  apply Rmult_lt_0_compat; [exact Ht|apply Rinv_0_lt_compat, Hx].
Qed.
Lemma Frat_inf tau A B C E : 0 < tau -> filterlim (Frat tau A B C E) (Rbar_locally p_infty) (locally (E / tau * (PI / 2))).
Proof.
  intros Ht. pose proof (pow_lt tau 2 Ht) as H2.
  apply (inf_lim _ (fun y => A * ln (1 + y) - A / 2 * ln (1 + tau ^ 2 * y ^ 2) - B * y / (1 + y) - C * y ^ 2 / (2 * (1 + y) ^ 2)
                      + E / tau * (PI / 2 - atan (tau * y)))).
  - intros x Hx. unfold Frat. rewrite atan_recip by assumption.
    pose proof (Rinv_0_lt_compat x Hx) as Hi. set (y := / x) in *.
    assert (Hxy : x = / y) by (unfold y; rewrite Rinv_inv; reflexivity).
    assert (Hl1 : ln (1 + x) = ln x + ln (1 + y)).
    { rewrite <- ln_mult by lra. f_equal. unfold y. field. lra. }
    assert (Hl2 : ln (x ^ 2 + tau ^ 2) = ln x + ln x + ln (1 + tau ^ 2 * y ^ 2)).
    { rewrite <- ln_mult by lra. rewrite <- ln_mult; [f_equal; unfold y; field; lra|nra|].
      pose proof (pow2_ge_0 y). nra. }
    rewrite Hl1, Hl2. rewrite Hxy. field. repeat split; try lra. 
  - apply (ex_derive_continuous (V := R_NormedModule)). auto_derive. repeat split; lra.
  - replace (1 + tau ^ 2 * 0 ^ 2) with 1 by ring. replace (tau * 0) with 0 by ring. rewrite Rplus_0_r, ln_1, atan_0. field. lra.
Qed.
Lemma total_130 tau : 0 < tau -> total_mass 1 3 0 2 tau (tot_130 tau).
Proof.
  intro Ht. pose proof (pow_lt tau 2 Ht) as H2.
  set (A := tau ^ 4 * (tau ^ 2 - 3) / (1 + tau ^ 2) ^ 3).
  set (B := - 2 * tau ^ 4 / (1 + tau ^ 2) ^ 2).
  set (C := tau ^ 2 / (1 + tau ^ 2)).
  set (E := - tau ^ 2 * (A + B + C)).
  apply (total_by (Frat tau A B C E) (frat tau A B C E) 1 3 0 2 tau (- A * ln tau - B - C / 2) (E / tau * (PI / 2))).
  - intros. apply Frat_derive; assumption.
  - intros. apply frat_ex; assumption.
  - apply Frat_zero, Ht.
  - apply Frat_inf, Ht.
  - intros x Hx. rewrite trunc_2, den_130 by assumption. unfold frat, E, A, B, C.
    pose proof (pow_lt x 2 Hx). field. repeat split; lra.
  - unfold tot_130, E, A, B, C. replace 0.5 with (/ 2) by lra. field. repeat split; lra.
Qed.
Lemma total_131 tau : 0 < tau -> total_mass 1 3 1 2 tau (tot_131 tau).
Proof.
  intro Ht. pose proof (pow_lt tau 2 Ht) as H2.
  set (A := tau ^ 2 * (tau ^ 2 - 1) / (1 + tau ^ 2) ^ 2).
  set (B := - tau ^ 2 / (1 + tau ^ 2)).
  set (E := - tau ^ 2 * (A + B)).
  apply (total_by (Frat tau A B 0 E) (frat tau A B 0 E) 1 3 1 2 tau (- A * ln tau - B - 0 / 2) (E / tau * (PI / 2))).
  - intros. apply Frat_derive; assumption.
  - intros. apply frat_ex; assumption.
  - apply Frat_zero, Ht.
  - apply Frat_inf, Ht.
  - intros x Hx. rewrite trunc_2, den_131 by assumption. unfold frat, E, A, B.
    pose proof (pow_lt x 2 Hx). field. repeat split; lra.
  - unfold tot_131, E, A, B. field. repeat split; lra.
Qed.

(** ** alpha = 2, beta = 4, gamma = 0 *)
Lemma total_240 tau : 0 < tau -> total_mass 2 4 0 2 tau (tot_240 tau).
Proof.
  intro Ht. pose proof (pow_lt tau 2 Ht) as H2. destruct (Req_dec tau 1) as [->|Hne].
  - apply (total_by (fun x => (x ^ 3 - x) / (8 * (1 + x ^ 2) ^ 2) + atan x / 8)
             (fun x => x ^ 2 / (1 + x ^ 2) ^ 3) 2 4 0 2 1 0 (PI / 16)).
    + intros x Hx. pose proof (one_sq x) as H. auto_derive; [cbn [pow] in *; nra|]. field. lra.
    + intros x Hx. pose proof (pow_lt _ 3 (one_sq x)) as H. auto_derive. cbn [pow] in *. lra.
    + cont0; [auto_derive; repeat split; lra|]. rewrite atan_0. field.
    + apply (inf_lim _ (fun y => (y - y ^ 3) / (8 * (1 + y ^ 2) ^ 2) + (PI / 2 - atan (1 * y)) / 8)).
      * intros x Hx. pose proof (atan_recip 1 x ltac:(lra) Hx) as Ha. replace (x / 1) with x in Ha by field. rewrite Ha.
        pose proof (one_sq x). pose proof (one_sq (/ x)). f_equal. field. repeat split; try lra. 
      * apply (ex_derive_continuous (V := R_NormedModule)). auto_derive. repeat split; lra.
      * replace (1 * 0) with 0 by ring. rewrite atan_0. field.
    + intros x Hx. rewrite trunc_2, den_240 by lra. pose proof (one_sq x). field. repeat split; lra.
    + unfold tot_240. field.
  - set (a := tau ^ 4 / (tau ^ 2 - 1) ^ 2). set (b := - tau ^ 2 / (tau ^ 2 - 1)).
    assert (Hn : tau ^ 2 - 1 <> 0) by nra.
    apply (total_by (fun x => (a + b / 2) * atan x + b / 2 * (x / (1 + x ^ 2)) - a / tau * atan (x / tau))
             (fun x => a / (1 + x ^ 2) + b / (1 + x ^ 2) ^ 2 - a / (x ^ 2 + tau ^ 2)) 2 4 0 2 tau 0
             ((a + b / 2) * (PI / 2) - a / tau * (PI / 2))).
    + intros x Hx. pose proof (one_sq x) as H. pose proof (pow_lt x 2 Hx). auto_derive; [cbn [pow] in *; repeat split; nra|].
      field. repeat split; lra.
    + intros x Hx. pose proof (one_sq x) as H. pose proof (pow_lt _ 2 H) as H'. pose proof (pow_lt x 2 Hx). cbn [pow] in *.
      auto_derive. repeat split; lra.
    + cont0; [auto_derive; repeat split; lra|]. replace (0 / tau) with 0 by (field; lra). rewrite atan_0. field. lra.
    + apply (inf_lim _ (fun y => (a + b / 2) * (PI / 2 - atan (1 * y)) + b / 2 * (y / (1 + y ^ 2)) - a / tau * (PI / 2 - atan (tau * y)))).
      * intros x Hx. pose proof (atan_recip 1 x ltac:(lra) Hx) as Ha. replace (x / 1) with x in Ha by field. rewrite Ha.
        rewrite atan_recip by assumption.
        pose proof (one_sq x). pose proof (one_sq (/ x)). do 3 f_equal. field. repeat split; try lra.
      * apply (ex_derive_continuous (V := R_NormedModule)). auto_derive. repeat split; lra.
      * replace (1 * 0) with 0 by ring. replace (tau * 0) with 0 by ring. rewrite atan_0. field. lra.
    + intros x Hx. rewrite trunc_2, den_240 by lra. pose proof (one_sq x). pose proof (pow_lt x 2 Hx). unfold a, b.
      field. repeat split; lra.
    + unfold tot_240, a, b. field. repeat split; nra.
Qed.

(** ** delta = 3 *)
Lemma inf_lim' (F g : R -> R) (X l : R) : 0 <= X -> (forall x, X < x -> F x = g (/ x)) -> continuous g 0 -> g 0 = l ->
  filterlim F (Rbar_locally p_infty) (locally l).
Proof.
  intros HX H Hg <-.
  apply (filterlim_ext_loc (fun x => g (/ x))).
  { exists X. intros x Hx. symmetry. apply H, Hx. }
  apply (filterlim_comp _ _ _ Rinv g _ (locally 0)); [|exact Hg].
  apply (filterlim_Rbar_inv p_infty). discriminate.
Qed.
Lemma q3_pos tau x : 0 < tau -> 0 < x ^ 2 - tau * x + tau ^ 2.
Proof. intros. pose proof (pow2_ge_0 (x - tau / 2)). assert (0 < tau ^ 2) by (apply pow_lt; assumption). nra. Qed.
Lemma atan_third : atan (- (/ sqrt 3)) = - (PI / 6).
Proof.
  rewrite atan_opp. f_equal. rewrite <- (atan_tan (PI / 6)).
  - f_equal. rewrite tan_PI6. field. apply Rgt_not_eq, sqrt_lt_R0. lra.
  - pose proof PI_RGT_0. lra.
Qed.
Lemma total_131d3 tau : 0 < tau -> tau <> 1 -> total_mass 1 3 1 3 tau (tot_131d3 tau).
Proof.
  intros Ht Hne. pose proof (pow_lt tau 2 Ht) as H2. pose proof (pow_lt tau 3 Ht) as H3.
  assert (Hn3 : tau ^ 3 - 1 <> 0).
  { intro h. replace (tau ^ 3 - 1) with ((tau - 1) * (tau ^ 2 + tau + 1)) in h by ring.
    apply Rmult_integral in h. destruct h; nra. }
  set (A := tau ^ 3 * (tau ^ 3 + 2) / (tau ^ 3 - 1) ^ 2).
  set (B := - tau ^ 3 / (tau ^ 3 - 1)).
  set (C := - tau ^ 2 / (3 * (1 - tau) ^ 2)).
  set (D := - A - C).
  set (E := - tau ^ 2 * (A + B + C / tau)).
  assert (Hs : 0 < sqrt 3) by (apply sqrt_lt_R0; lra).
  assert (Hs3 : sqrt 3 * sqrt 3 = 3) by (apply sqrt_sqrt; lra).
  set (K := (E + D * tau / 2) * (2 / (sqrt 3 * tau))).
  apply (total_by (fun x => A * ln (1 + x) + C * ln (x + tau) + D / 2 * ln (x ^ 2 - tau * x + tau ^ 2) - B / (1 + x)
                            + K * atan ((2 * x - tau) / (sqrt 3 * tau)))
                  (fun x => A / (1 + x) + C / (x + tau) + B / (1 + x) ^ 2 + (D * x + E) / (x ^ 2 - tau * x + tau ^ 2))
                  1 3 1 3 tau (C * ln tau + D * ln tau - B - K * (PI / 6)) (K * (PI / 2))).
  - intros x Hx. pose proof (q3_pos tau x Ht) as Hq. cbn [pow] in Hq.
    auto_derive; [repeat split; nra|].
    replace (1 + (2 * x + - tau) * / (sqrt 3 * tau) * ((2 * x + - tau) * / (sqrt 3 * tau) * 1)) with
      (4 * (x ^ 2 - tau * x + tau ^ 2) / (3 * tau ^ 2)).
    2: { replace (3 * tau ^ 2) with (sqrt 3 * sqrt 3 * tau ^ 2) by (rewrite Hs3; ring). replace (4 * (x ^ 2 - tau * x + tau ^ 2)) with (sqrt 3 * sqrt 3 * tau ^ 2 + (2 * x - tau) ^ 2) by (rewrite Hs3; ring).
         field. lra. }
    unfold K. 
    replace (3 * tau ^ 2) with (sqrt 3 * sqrt 3 * tau ^ 2) by (rewrite Hs3; ring).
    generalize dependent E. intros E K. clear K. generalize dependent D. intro D. clearbody A B C.
    field. cbn [pow]. repeat split; nra.
  - intros x Hx. pose proof (q3_pos tau x Ht) as Hq. pose proof (pow_lt (1 + x) 2 ltac:(lra)) as H4. cbn [pow] in Hq, H4. auto_derive. repeat split; lra.
  - apply right_lim.
    + apply (ex_derive_continuous (V := R_NormedModule)). auto_derive. cbn [pow] in *. repeat split; lra.
    + replace (1 + 0) with 1 by ring. rewrite ln_1. replace (0 ^ 2 - tau * 0 + tau ^ 2) with (tau * tau) by ring.
      rewrite ln_mult by exact Ht. rewrite Rplus_0_l.
      replace ((2 * 0 - tau) / (sqrt 3 * tau)) with (- (/ sqrt 3)) by (field; lra).
      rewrite atan_third. field.
  - apply (inf_lim' _ (fun y => A * ln (1 + y) + C * ln (1 + tau * y) + D / 2 * ln (1 - tau * y + tau ^ 2 * y ^ 2) - B * y / (1 + y)
                        + K * (PI / 2 - atan (sqrt 3 * tau * y / (2 - tau * y)))) tau); [lra| | |].
    + intros x Hx. assert (Hx0 : 0 < x) by lra. pose proof (Rinv_0_lt_compat x Hx0) as Hi.
      assert (Hq : 0 < 1 - tau * / x + tau ^ 2 * (/ x) ^ 2).
      { replace (1 - tau * / x + tau ^ 2 * (/ x) ^ 2) with ((x ^ 2 - tau * x + tau ^ 2) * (/ x) ^ 2) by (field; lra).
        apply Rmult_lt_0_compat; [apply q3_pos, Ht|apply pow_lt, Hi]. }
      assert (Hy : 0 < 1 + tau * / x) by (pose proof (Rmult_lt_0_compat _ _ Ht Hi); lra).
      assert (Hl1 : ln (1 + x) = ln x + ln (1 + / x)) by (rewrite <- ln_mult by lra; f_equal; field; lra).
      assert (Hl2 : ln (x + tau) = ln x + ln (1 + tau * / x)) by (rewrite <- ln_mult by lra; f_equal; field; lra).
      assert (Hl3 : ln (x ^ 2 - tau * x + tau ^ 2) = ln x + ln x + ln (1 - tau * / x + tau ^ 2 * (/ x) ^ 2)).
      { rewrite <- ln_mult by lra. rewrite <- ln_mult; [f_equal; field; lra|nra|exact Hq]. }
      assert (Ha : atan ((2 * x - tau) / (sqrt 3 * tau)) = PI / 2 - atan (sqrt 3 * tau * / x / (2 - tau * / x))).
      { rewrite atan_recip; [|nra|lra]. do 2 f_equal. field. lra. }
      rewrite Hl1, Hl2, Hl3, Ha. unfold D. field. lra.
    + apply (ex_derive_continuous (V := R_NormedModule)). auto_derive. repeat split; lra.
    + replace (1 + tau * 0) with 1 by ring. replace (1 - tau * 0 + tau ^ 2 * 0 ^ 2) with 1 by ring. replace (1 + 0) with 1 by ring.
      rewrite ln_1. replace (sqrt 3 * tau * 0 / (2 - tau * 0)) with 0 by (field; lra). rewrite atan_0. field.
  - intros x Hx. rewrite trunc_3, den_131 by assumption. pose proof (q3_pos tau x Ht) as Hq.
    replace (x ^ 3 + tau ^ 3) with ((x + tau) * (x ^ 2 - tau * x + tau ^ 2)) by ring.
    unfold D, E, A, B, C.
    replace (tau ^ 3 - 1) with ((tau - 1) * (tau ^ 2 + tau + 1)) by ring.
    field. repeat split; try lra; nra.
  - unfold tot_131d3, K, D, E, A, B, C. 
    replace (2 * sqrt 3 * PI / 9) with (2 * PI / (3 * sqrt 3)).
    2: { replace 9 with (3 * (sqrt 3 * sqrt 3)) by lra. field. lra. }
    replace (tau ^ 3 - 1) with ((tau - 1) * (tau ^ 2 + tau + 1)) by ring.
    field. repeat split; try lra; nra.
Qed.
