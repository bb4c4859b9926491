(** Total masses for the half-integer inner slopes (C53). *)
From Verif Require Import Prelude MassFnModel TidalModel TidalSpec TidalProofs TidalInt TidalTotal.
From Coquelicot Require Import Coquelicot.
Local Open Scope R_scope.
Local Open Scope list_scope.

Lemma sqrt_is x y : 0 <= y -> y * y = x -> sqrt x = y.
Proof. intros H <-. apply sqrt_square, H. Qed.
(** the roots appearing in the closed forms *)
Definition ss (tau : R) : R := sqrt (tau ^ 2 + 1).
Definition aa (tau : R) : R := sqrt (2 * tau * (tau + ss tau)).
Definition bb (tau : R) : R := sqrt (2 * tau * (ss tau - tau)).
Lemma ss_facts tau : 0 < tau -> 0 < ss tau /\ tau < ss tau /\ ss tau * ss tau = tau ^ 2 + 1 /\ 1 < ss tau /\ ss tau < 1 + tau.
Proof.
  intro H. pose proof (pow2_ge_0 tau) as H2. assert (Hs : ss tau * ss tau = tau ^ 2 + 1) by (apply sqrt_sqrt; lra).
  assert (Hp : 0 < ss tau) by (apply sqrt_lt_R0; lra). repeat split; try assumption; nra.
Qed.
Lemma ab_facts tau : 0 < tau -> 0 < aa tau /\ 0 < bb tau /\ aa tau * aa tau = 2 * tau * (tau + ss tau)
  /\ bb tau * bb tau = 2 * tau * (ss tau - tau) /\ aa tau * bb tau = 2 * tau /\ aa tau < 2 * ss tau.
Proof.
  intro H. destruct (ss_facts tau H) as (H1 & H2 & H3 & H4 & H5).
  assert (Ha : aa tau * aa tau = 2 * tau * (tau + ss tau)) by (apply sqrt_sqrt; nra).
  assert (Hb : bb tau * bb tau = 2 * tau * (ss tau - tau)) by (apply sqrt_sqrt; nra).
  assert (Hpa : 0 < aa tau) by (apply sqrt_lt_R0; nra). assert (Hpb : 0 < bb tau) by (apply sqrt_lt_R0; nra).
  repeat split; try assumption.
  - unfold aa, bb. rewrite <- sqrt_mult by nra. apply sqrt_is; [lra|].
    replace (2 * tau * (tau + ss tau) * (2 * tau * (ss tau - tau))) with (4 * tau ^ 2 * (ss tau * ss tau - tau ^ 2)) by ring.
    rewrite H3. ring.
  - apply Rsqr_incrst_0; unfold Rsqr; [rewrite Ha; nra|lra|lra].
Qed.
Definition qp (tau u : R) : R := ss tau * u ^ 2 + aa tau * u + tau.
Definition qm (tau u : R) : R := ss tau * u ^ 2 - aa tau * u + tau.
Lemma qp_sq tau u : 0 < tau -> 4 * ss tau * qp tau u = (2 * ss tau * u + aa tau) ^ 2 + bb tau ^ 2.
Proof. intro H. destruct (ab_facts tau H) as (_ & _ & Ha & Hb & _). unfold qp. ring_simplify. nra. Qed.
Lemma qm_sq tau u : 0 < tau -> 4 * ss tau * qm tau u = (2 * ss tau * u - aa tau) ^ 2 + bb tau ^ 2.
Proof. intro H. destruct (ab_facts tau H) as (_ & _ & Ha & Hb & _). unfold qm. ring_simplify. nra. Qed.
Lemma q_pos tau u : 0 < tau -> 0 < qp tau u /\ 0 < qm tau u.
Proof.
  intro H. destruct (ss_facts tau H) as (H1 & _). destruct (ab_facts tau H) as (_ & Hb & _). pose proof (pow_lt _ 2 Hb).
  pose proof (qp_sq tau u H). pose proof (qm_sq tau u H). pose proof (pow2_ge_0 (2 * ss tau * u + aa tau)).
  pose proof (pow2_ge_0 (2 * ss tau * u - aa tau)). split; nra.
Qed.
Lemma q_prod tau u : 0 < tau -> qp tau u * qm tau u = ss tau ^ 2 * u ^ 4 - 2 * tau ^ 2 * u ^ 2 + tau ^ 2.
Proof.
  intro H. destruct (ab_facts tau H) as (_ & _ & Ha & _). unfold qp, qm.
  replace ((ss tau * u ^ 2 + aa tau * u + tau) * (ss tau * u ^ 2 - aa tau * u + tau)) with
    (ss tau ^ 2 * u ^ 4 + (2 * ss tau * tau - aa tau * aa tau) * u ^ 2 + tau ^ 2) by ring. rewrite Ha. ring.
Qed.
Definition cp (tau n2 n0 : R) : R := (n0 * ss tau / (2 * tau) - n2 / 2) / aa tau.
Definition ck (tau n2 n0 : R) : R := n0 / (4 * tau) + n2 / (4 * ss tau).
Definition HH (tau n2 n0 u : R) : R :=
  cp tau n2 n0 / (2 * ss tau) * (ln (qp tau u) - ln (qm tau u))
  + ck tau n2 n0 * (2 / bb tau) * (atan ((2 * ss tau * u + aa tau) / bb tau) + atan ((2 * ss tau * u - aa tau) / bb tau)).
Lemma HH_derive tau n2 n0 u : 0 < tau -> is_derive (HH tau n2 n0) u ((n2 * u ^ 2 + n0) / (qp tau u * qm tau u)).
Proof.
  intro Ht. destruct (ss_facts tau Ht) as (Hs & _). destruct (ab_facts tau Ht) as (Ha & Hb & _).
  pose proof (q_pos tau u Ht) as [Hp Hm]. pose proof (qp_sq tau u Ht) as Ep. pose proof (qm_sq tau u Ht) as Em.
  unfold HH. unfold qp, qm in Hp, Hm. unfold qp, qm at 1. unfold qm at 1.
  auto_derive.
  { cbn [pow] in Hp, Hm. repeat split; lra. }
  replace (1 + (2 * ss tau * u + aa tau) * / bb tau * ((2 * ss tau * u + aa tau) * / bb tau * 1)) with (4 * ss tau * qp tau u / bb tau ^ 2)
    by (rewrite Ep; field; lra).
  replace (1 + (2 * ss tau * u + - aa tau) * / bb tau * ((2 * ss tau * u + - aa tau) * / bb tau * 1)) with (4 * ss tau * qm tau u / bb tau ^ 2)
    by (rewrite Em; field; lra).
  unfold cp, ck, qp, qm. field. cbn [pow] in *. repeat split; lra.
Qed.
Lemma HH_cont tau n2 n0 u : 0 < tau -> continuous (HH tau n2 n0) u.
Proof. intro H. apply (ex_derive_continuous (V := R_NormedModule)). eexists. apply HH_derive, H. Qed.
Lemma HH_0 tau n2 n0 : 0 < tau -> HH tau n2 n0 0 = 0.
Proof.
  intro Ht. destruct (ab_facts tau Ht) as (Ha & Hb & _). unfold HH, qp, qm.
  replace (ss tau * 0 ^ 2 + aa tau * 0 + tau) with tau by ring. replace (ss tau * 0 ^ 2 - aa tau * 0 + tau) with tau by ring.
  replace ((2 * ss tau * 0 - aa tau) / bb tau) with (- ((2 * ss tau * 0 + aa tau) / bb tau)) by (field; lra).
  rewrite atan_opp. ring.
Qed.
(** the two special values of the closed forms *)
Definition lgv (tau : R) : R := ln (tau + ss tau + aa tau).
Definition asv (tau : R) : R := asin (sqrt (0.5 * (1 + tau - ss tau))).
Lemma log_one tau : 0 < tau -> ln (qp tau 1) - ln (qm tau 1) = 2 * lgv tau.
Proof.
  intro Ht. pose proof (q_pos tau 1 Ht) as [Hp Hm]. pose proof (q_prod tau 1 Ht) as Hq.
  destruct (ss_facts tau Ht) as (Hs & _ & Hss & _).
  assert (Hone : qp tau 1 * qm tau 1 = 1) by (rewrite Hq; replace (ss tau ^ 2) with (ss tau * ss tau) by ring; rewrite Hss; ring).
  assert (Hm' : qm tau 1 = / qp tau 1) by (apply (Rmult_eq_reg_l (qp tau 1)); [rewrite Hone; field; lra|lra]).
  rewrite Hm', ln_Rinv by exact Hp. unfold lgv. replace (tau + ss tau + aa tau) with (qp tau 1) by (unfold qp; ring). ring.
Qed.
Lemma asv_facts tau : 0 < tau -> 0 <= asv tau <= PI / 2 /\ cos (2 * asv tau) = ss tau - tau.
Proof.
  intro Ht. destruct (ss_facts tau Ht) as (Hs & H2 & H3 & H4 & H5).
  set (z := sqrt (0.5 * (1 + tau - ss tau))).
  assert (Hz : z * z = 0.5 * (1 + tau - ss tau)) by (apply sqrt_sqrt; lra).
  assert (Hz0 : 0 <= z) by apply sqrt_pos. assert (Hz1 : z <= 1) by nra.
  assert (Hsin : sin (asv tau) = z) by (unfold asv; fold z; apply sin_asin; lra).
  pose proof (asin_bound z) as Hb. change (asin z) with (asv tau) in Hb.
  repeat split; [|lra|].
  - apply Rnot_lt_le. intro Hn. assert (sin (asv tau) < 0); [|lra].
    rewrite <- (Ropp_involutive (asv tau)), sin_neg. apply Ropp_lt_gt_0_contravar. apply sin_gt_0; pose proof PI_RGT_0; lra.
  - rewrite cos_2a_sin, Hsin. rewrite Rmult_assoc, Hz. lra.
Qed.
Lemma atan_pos x : 0 < x -> 0 < atan x < PI / 2.
Proof. intro H. split; [rewrite <- atan_0; apply atan_increasing, H|apply atan_bound]. Qed.
Lemma atan_one tau : 0 < tau ->
  atan ((2 * ss tau * 1 + aa tau) / bb tau) + atan ((2 * ss tau * 1 - aa tau) / bb tau) = PI - 2 * asv tau.
Proof.
  intro Ht. destruct (ss_facts tau Ht) as (Hs & H2 & H3 & H4 & H5).
  destruct (ab_facts tau Ht) as (Ha & Hb & Haa & Hbb & Hab & Hlt). destruct (asv_facts tau Ht) as [Hv Hc].
  set (z1 := (2 * ss tau * 1 + aa tau) / bb tau). set (z2 := (2 * ss tau * 1 - aa tau) / bb tau).
  assert (Hz1 : 0 < z1) by (apply Rdiv_lt_0_compat; lra). assert (Hz2 : 0 < z2) by (apply Rdiv_lt_0_compat; lra).
  pose proof (atan_pos z1 Hz1). pose proof (atan_pos z2 Hz2).
  rewrite <- (acos_cos (atan z1 + atan z2)) by lra. rewrite <- (acos_cos (PI - 2 * asv tau)) by lra. f_equal.
  replace (PI - 2 * asv tau) with (- (2 * asv tau) + PI) by ring. rewrite neg_cos, cos_neg, Hc.
  rewrite cos_plus, !cos_atan, !sin_atan.
  pose proof (qp_sq tau 1 Ht) as Ep. pose proof (qm_sq tau 1 Ht) as Em. pose proof (q_prod tau 1 Ht) as Hq.
  pose proof (q_pos tau 1 Ht) as [Hp Hm].
  assert (E1 : 1 + Rsqr z1 = 4 * ss tau * qp tau 1 / bb tau ^ 2) by (rewrite Ep; unfold Rsqr, z1; field; lra).
  assert (E2 : 1 + Rsqr z2 = 4 * ss tau * qm tau 1 / bb tau ^ 2) by (rewrite Em; unfold Rsqr, z2; field; lra).
  assert (Hone : qp tau 1 * qm tau 1 = 1) by (rewrite Hq; replace (ss tau ^ 2) with (ss tau * ss tau) by ring; rewrite H3; ring).
  assert (P1 : 0 < 1 + Rsqr z1) by (pose proof (Rle_0_sqr z1); lra). assert (P2 : 0 < 1 + Rsqr z2) by (pose proof (Rle_0_sqr z2); lra).
  assert (Hr : sqrt (1 + Rsqr z1) * sqrt (1 + Rsqr z2) = 4 * ss tau / bb tau ^ 2).
  { rewrite <- sqrt_mult by lra. apply sqrt_is.
    - left. apply Rdiv_lt_0_compat; [lra|apply pow_lt, Hb].
    - rewrite E1, E2. replace (4 * ss tau * qp tau 1 / bb tau ^ 2 * (4 * ss tau * qm tau 1 / bb tau ^ 2)) with
        (16 * ss tau ^ 2 * (qp tau 1 * qm tau 1) / bb tau ^ 4) by (field; lra). rewrite Hone. field. lra. }
  pose proof (sqrt_lt_R0 _ P1) as S1. pose proof (sqrt_lt_R0 _ P2) as S2.
  replace (1 / sqrt (1 + Rsqr z1) * (1 / sqrt (1 + Rsqr z2)) - z1 / sqrt (1 + Rsqr z1) * (z2 / sqrt (1 + Rsqr z2)))
    with ((1 - z1 * z2) / (sqrt (1 + Rsqr z1) * sqrt (1 + Rsqr z2))) by (field; lra).
  rewrite Hr. unfold z1, z2.
  replace ((1 - (2 * ss tau * 1 + aa tau) / bb tau * ((2 * ss tau * 1 - aa tau) / bb tau)) / (4 * ss tau / bb tau ^ 2))
    with ((bb tau * bb tau - 4 * ss tau ^ 2 + aa tau * aa tau) / (4 * ss tau)) by (field; lra).
  rewrite Haa, Hbb. field. lra.
Qed.
Lemma HH_1 tau n2 n0 : 0 < tau ->
  HH tau n2 n0 1 = cp tau n2 n0 / ss tau * lgv tau + ck tau n2 n0 * (2 / bb tau) * (PI - 2 * asv tau).
Proof.
  intro Ht. destruct (ss_facts tau Ht) as (Hs & _). unfold HH. rewrite log_one, atan_one by exact Ht. field.
  split; [|lra]. destruct (ab_facts tau Ht) as (_ & Hb & _). lra.
Qed.

(** substitution u = sqrt (x / (1 + x)) *)
Definition uu (x : R) : R := sqrt x / sqrt (1 + x).
Lemma uu_sq x : 0 < x -> uu x * uu x = x / (1 + x).
Proof.
  intro H. destruct (sq_facts x H) as (H1 & H2 & H3 & H4). unfold uu.
  replace (sqrt x / sqrt (1 + x) * (sqrt x / sqrt (1 + x))) with (sqrt x * sqrt x / (sqrt (1 + x) * sqrt (1 + x))) by (field; lra).
  rewrite H3, H4. reflexivity.
Qed.
Lemma uu_pos x : 0 < x -> 0 < uu x.
Proof. intro H. destruct (sq_facts x H) as (H1 & H2 & _). unfold uu. apply Rdiv_lt_0_compat; assumption. Qed.
Lemma uu_derive x : 0 < x -> is_derive uu x (/ (2 * uu x * (1 + x) ^ 2)).
Proof.
  intro H. destruct (sq_facts x H) as (H1 & H2 & H3 & H4). unfold uu. auto_derive; [repeat split; lra|].
  set (r := sqrt x) in *. set (w := sqrt (1 + x)) in *. replace ((1 + x) ^ 2) with (w * w * w * w) by (rewrite H4, Rmult_assoc, H4; ring).
  apply Rminus_diag_uniq.
  transitivity ((w * w - r * r - 1) / (2 * r * w ^ 3)); [field; lra|]. rewrite H3, H4. field. lra.
Qed.
Lemma uu_cont0 : continuous uu 0.
Proof.
  apply (continuous_mult (K := R_AbsRing) sqrt (fun x => / sqrt (1 + x))); [apply continuous_sqrt|].
  apply (continuous_comp (fun x => sqrt (1 + x)) Rinv); [apply (cont_sqrt_1p (fun x => x))|].
  apply (ex_derive_continuous (V := R_NormedModule) Rinv). auto_derive. rewrite Rplus_0_r, sqrt_1. lra.
Qed.
Lemma uu_0 : uu 0 = 0.
Proof. unfold uu. rewrite sqrt_0. unfold Rdiv. ring. Qed.
Lemma uu_Q tau x : 0 < tau -> 0 < x -> qp tau (uu x) * qm tau (uu x) = (x ^ 2 + tau ^ 2) / (1 + x) ^ 2.
Proof.
  intros Ht Hx. rewrite q_prod by exact Ht. pose proof (uu_sq x Hx) as Hu.
  replace (uu x ^ 4) with ((uu x * uu x) * (uu x * uu x)) by ring. replace (uu x ^ 2) with (uu x * uu x) by ring.
  rewrite Hu. destruct (ss_facts tau Ht) as (_ & _ & Hs & _). replace (ss tau ^ 2) with (ss tau * ss tau) by ring. rewrite Hs.
  field. lra.
Qed.
(** an integral in x from a primitive in u *)
Lemma total_half (P p f : R -> R) tau gamma n2 n0 M : 0 < tau ->
  (forall u, is_derive P u (p u)) -> P 0 = 0 ->
  (forall x, 0 < x -> ex_derive f x) ->
  (forall x, 0 < x -> f x = x ^ 2 * truncated 1 3 gamma 2 tau x) ->
  (forall x, 0 < x -> f x = 2 * tau ^ 2 * (p (uu x) + (n2 * uu x ^ 2 + n0) / (qp tau (uu x) * qm tau (uu x))) / (2 * uu x * (1 + x) ^ 2)) ->
  M = 4 * PI * (2 * tau ^ 2 * (P 1 + HH tau n2 n0 1)) ->
  total_mass 1 3 gamma 2 tau M.
Proof.
  intros Ht HP HP0 Hf Heq Heq2 HM.
  set (G := fun u => 2 * tau ^ 2 * (P u + HH tau n2 n0 u)).
  assert (HG : forall u, is_derive G u (2 * tau ^ 2 * (p u + (n2 * u ^ 2 + n0) / (qp tau u * qm tau u)))).
  { intro u. apply (is_derive_scal (fun u => P u + HH tau n2 n0 u) u (2 * tau ^ 2)).
    apply (is_derive_plus (V := R_NormedModule)); [apply HP|apply HH_derive, Ht]. }
  assert (HGc : forall u, continuous G u).
  { intro u. apply (ex_derive_continuous (V := R_NormedModule)). eexists. apply HG. }
  apply (total_by (fun x => G (uu x)) f 1 3 gamma 2 tau 0 (G 1)).
  - intros x Hx. rewrite Heq2 by exact Hx.
    pose proof (is_derive_comp G uu x _ _ (HG (uu x)) (uu_derive x Hx)) as H.
    unfold scal in H; cbn in H; unfold mult in H; cbn in H.
    match goal with |- is_derive _ _ ?a => match type of H with is_derive _ _ ?b => replace a with b; [exact H|] end end.
    change (uu x * (uu x * 1)) with (uu x ^ 2). change ((1 + x) * ((1 + x) * 1)) with ((1 + x) ^ 2). change (tau * (tau * 1)) with (tau ^ 2).
    pose proof (uu_pos x Hx). pose proof (q_pos tau (uu x) Ht). field. repeat split; lra.
  - exact Hf.
  - apply right_lim.
    + apply (continuous_comp uu G); [exact uu_cont0|apply HGc].
    + rewrite uu_0. unfold G. rewrite HP0, HH_0 by exact Ht. ring.
  - apply (inf_lim _ (fun y => G (sqrt (/ (1 + y))))).
    + intros x Hx. f_equal. unfold uu. rewrite <- sqrt_div_alt by lra. f_equal. field.
      pose proof (Rinv_0_lt_compat x Hx). repeat split; lra.
    + apply (continuous_comp (fun y => sqrt (/ (1 + y))) G); [|apply HGc].
      apply (continuous_sqrt_comp (fun y => / (1 + y))). apply (ex_derive_continuous (V := R_NormedModule)). auto_derive. lra.
    + rewrite Rplus_0_r, Rinv_1, sqrt_1. reflexivity.
  - exact Heq.
  - rewrite HM. unfold G. ring.
Qed.

(** ** the trigonometric factors *)
Definition cv (tau : R) : R := cos (0.25 * (PI + 2 * atan tau)).
Definition sv (tau : R) : R := sin (0.25 * (PI + 2 * atan tau)).
Lemma sincos_at tau : 0 < tau -> sin (atan tau) = tau / ss tau /\ cos (atan tau) = 1 / ss tau.
Proof.
  intro H. rewrite sin_atan, cos_atan. replace (1 + Rsqr tau) with (tau ^ 2 + 1) by (unfold Rsqr; ring). split; reflexivity.
Qed.
Lemma cs_sq tau : 0 < tau -> 0 < cv tau /\ 0 < sv tau
  /\ cv tau * cv tau = (ss tau - tau) / (2 * ss tau) /\ sv tau * sv tau = (ss tau + tau) / (2 * ss tau).
Proof.
  intro Ht. destruct (ss_facts tau Ht) as (Hs & _). destruct (sincos_at tau Ht) as [Hsi Hco]. pose proof (atan_pos tau Ht) as Ha.
  set (ph := 0.25 * (PI + 2 * atan tau)). assert (Hph : 0 < ph < PI / 2) by (unfold ph; lra).
  assert (Hc2 : cos (2 * ph) = - (tau / ss tau)).
  { replace (2 * ph) with (PI / 2 + atan tau) by (unfold ph; lra). rewrite <- Hsi.
    rewrite cos_plus, cos_PI2, sin_PI2. ring. }
  unfold cv, sv. fold ph. repeat split.
  - apply cos_gt_0; lra.
  - apply sin_gt_0; lra.
  - pose proof (cos_2a_cos ph) as H. rewrite Hc2 in H. apply (Rmult_eq_reg_l 2); [|lra].
    replace (2 * (cos ph * cos ph)) with (1 - tau / ss tau) by lra. field. lra.
  - pose proof (cos_2a_sin ph) as H. rewrite Hc2 in H. apply (Rmult_eq_reg_l 2); [|lra].
    replace (2 * (sin ph * sin ph)) with (1 + tau / ss tau) by lra. field. lra.
Qed.
Lemma roots tau : 0 < tau -> 0 < sqrt tau /\ 0 < sqrt (ss tau) /\ sqrt tau * sqrt tau = tau /\ sqrt (ss tau) * sqrt (ss tau) = ss tau.
Proof.
  intro Ht. destruct (ss_facts tau Ht) as (Hs & _).
  repeat split; [apply sqrt_lt_R0; lra|apply sqrt_lt_R0; lra|apply sqrt_sqrt; lra|apply sqrt_sqrt; lra].
Qed.
Lemma sq_eq x y : 0 <= x -> 0 <= y -> x * x = y * y -> x = y.
Proof. intros. apply Rsqr_inj; assumption. Qed.
Lemma cs_val tau : 0 < tau -> cv tau = bb tau / (2 * sqrt tau * sqrt (ss tau)) /\ sv tau = aa tau / (2 * sqrt tau * sqrt (ss tau)).
Proof.
  intro Ht. destruct (cs_sq tau Ht) as (H1 & H2 & H3 & H4). destruct (roots tau Ht) as (R1 & R2 & R3 & R4).
  destruct (ab_facts tau Ht) as (Ha & Hb & Haa & Hbb & _). destruct (ss_facts tau Ht) as (Hs & _).
  assert (Hd : 0 < 2 * sqrt tau * sqrt (ss tau)) by (apply Rmult_lt_0_compat; lra).
  assert (Hdd : 2 * sqrt tau * sqrt (ss tau) * (2 * sqrt tau * sqrt (ss tau)) = 4 * tau * ss tau).
  { replace (2 * sqrt tau * sqrt (ss tau) * (2 * sqrt tau * sqrt (ss tau))) with (4 * (sqrt tau * sqrt tau) * (sqrt (ss tau) * sqrt (ss tau))) by ring.
    rewrite R3, R4. ring. }
  set (d := 2 * sqrt tau * sqrt (ss tau)) in *. clearbody d.
  split; apply sq_eq; try (left; assumption); try (left; apply Rdiv_lt_0_compat; assumption).
  - replace (bb tau / d * (bb tau / d)) with (bb tau * bb tau / (d * d)) by (field; lra). rewrite H3, Hbb, Hdd. field. lra.
  - replace (aa tau / d * (aa tau / d)) with (aa tau * aa tau / (d * d)) by (field; lra). rewrite H4, Haa, Hdd. field. lra.
Qed.
Lemma rt2 : 0 < sqrt 2 /\ sqrt 2 * sqrt 2 = 2.
Proof. split; [apply sqrt_lt_R0; lra|apply sqrt_sqrt; lra]. Qed.
Lemma ang15 tau : 0 < tau -> sqrt 2 * (cos (1.5 * atan tau) + sin (1.5 * atan tau)) = 2 * (tau * cv tau + sv tau) / ss tau.
Proof.
  intro Ht. destruct (sincos_at tau Ht) as [Hsi Hco]. destruct (ss_facts tau Ht) as (Hs & _). destruct rt2 as [Hr Hr2].
  assert (H : sin (1.5 * atan tau + PI / 4) = (tau * cv tau + sv tau) / ss tau).
  { replace (1.5 * atan tau + PI / 4) with (atan tau + 0.25 * (PI + 2 * atan tau)) by lra.
    rewrite sin_plus, Hsi, Hco. unfold cv, sv. field. lra. }
  rewrite sin_plus, cos_PI4, sin_PI4 in H.
  replace (2 * (tau * cv tau + sv tau) / ss tau) with (2 * ((tau * cv tau + sv tau) / ss tau)) by (field; lra). rewrite <- H.
  replace (2 * (sin (1.5 * atan tau) * (1 / sqrt 2) + cos (1.5 * atan tau) * (1 / sqrt 2))) with
    (2 / sqrt 2 * (cos (1.5 * atan tau) + sin (1.5 * atan tau))) by (field; lra).
  f_equal. rewrite <- Hr2 at 2. field. lra.
Qed.
Lemma ang25 tau : 0 < tau -> sqrt 2 * (sin (2.5 * atan tau) - cos (2.5 * atan tau))
  = - 2 * ((1 - tau ^ 2) * cv tau - 2 * tau * sv tau) / ss tau ^ 2.
Proof.
  intro Ht. destruct (sincos_at tau Ht) as [Hsi Hco]. destruct (ss_facts tau Ht) as (Hs & _). destruct rt2 as [Hr Hr2].
  assert (H : cos (2.5 * atan tau + PI / 4) = ((1 - tau ^ 2) * cv tau - 2 * tau * sv tau) / ss tau ^ 2).
  { replace (2.5 * atan tau + PI / 4) with (2 * atan tau + 0.25 * (PI + 2 * atan tau)) by lra.
    rewrite cos_plus, cos_2a, sin_2a, Hsi, Hco. unfold cv, sv. field. lra. }
  rewrite cos_plus, cos_PI4, sin_PI4 in H.
  replace (- 2 * ((1 - tau ^ 2) * cv tau - 2 * tau * sv tau) / ss tau ^ 2) with
    (- 2 * (((1 - tau ^ 2) * cv tau - 2 * tau * sv tau) / ss tau ^ 2)) by (field; lra). rewrite <- H.
  replace (- 2 * (cos (2.5 * atan tau) * (1 / sqrt 2) - sin (2.5 * atan tau) * (1 / sqrt 2))) with
    (2 / sqrt 2 * (sin (2.5 * atan tau) - cos (2.5 * atan tau))) by (field; lra).
  f_equal. rewrite <- Hr2 at 2. field. lra.
Qed.
