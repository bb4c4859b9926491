(** The closed forms for gamma = 0.5 and 1.5 (C53). *)
From Verif Require Import Prelude MassFnModel TidalModel TidalSpec TidalProofs TidalInt TidalTotal TidalHalf.
From Coquelicot Require Import Coquelicot.
Local Open Scope R_scope.
Local Open Scope list_scope.

Definition pv (tau : R) : R := sqrt (1 + sqrt (2 * tau) + tau).
Definition mv (tau : R) : R := sqrt (1 - sqrt (2 * tau) + tau).
Lemma pm_facts tau : 0 < tau -> 0 < pv tau + mv tau /\ 0 < pv tau - mv tau
  /\ (pv tau + mv tau) * (pv tau + mv tau) = 2 * (1 + tau + ss tau)
  /\ (pv tau - mv tau) * (pv tau - mv tau) = 2 * (1 + tau - ss tau).
Proof.
  intro Ht. assert (Hr : sqrt (2 * tau) * sqrt (2 * tau) = 2 * tau) by (apply sqrt_sqrt; lra).
  assert (Hr0 : 0 < sqrt (2 * tau)) by (apply sqrt_lt_R0; lra).
  assert (Hm0 : 0 < 1 - sqrt (2 * tau) + tau) by nra.
  assert (Hp : pv tau * pv tau = 1 + sqrt (2 * tau) + tau) by (apply sqrt_sqrt; lra).
  assert (Hm : mv tau * mv tau = 1 - sqrt (2 * tau) + tau) by (apply sqrt_sqrt; lra).
  assert (Hpp : 0 < pv tau) by (apply sqrt_lt_R0; lra). assert (Hmm : 0 < mv tau) by (apply sqrt_lt_R0; lra).
  assert (Hpm : pv tau * mv tau = ss tau).
  { unfold pv, mv, ss. rewrite <- sqrt_mult by lra. f_equal.
    replace ((1 + sqrt (2 * tau) + tau) * (1 - sqrt (2 * tau) + tau)) with ((1 + tau) ^ 2 - sqrt (2 * tau) * sqrt (2 * tau)) by ring.
    rewrite Hr. ring. }
  repeat split; try lra; nra.
Qed.
Lemma prod_roots x y v : 0 <= x -> 0 <= y -> 0 <= v -> (x * x) * (y * y) = v * v -> x * y = v.
Proof. intros. apply sq_eq; [apply Rmult_le_pos; assumption|assumption|]. rewrite <- H2. ring. Qed.
Definition x1 (tau : R) : R := sqrt (-1 + tau + ss tau).
Definition x2 (tau : R) : R := sqrt (1 - tau + ss tau).
Lemma x_facts tau : 0 < tau -> 0 <= x1 tau /\ 0 <= x2 tau /\ x1 tau * x1 tau = -1 + tau + ss tau /\ x2 tau * x2 tau = 1 - tau + ss tau.
Proof.
  intro Ht. destruct (ss_facts tau Ht) as (_ & H2 & _ & H4 & _).
  repeat split; [apply sqrt_pos|apply sqrt_pos|apply sqrt_sqrt; lra|apply sqrt_sqrt; lra].
Qed.
Lemma px1 tau : 0 < tau -> (pv tau + mv tau) * x1 tau = sqrt 2 * aa tau.
Proof.
  intro Ht. destruct (pm_facts tau Ht) as (P1 & P2 & P3 & P4). destruct (x_facts tau Ht) as (X1 & X2 & X3 & X4).
  destruct (ab_facts tau Ht) as (Ha & Hb & Haa & Hbb & _). destruct rt2 as [Hr Hr2]. destruct (ss_facts tau Ht) as (_ & _ & Hs & _).
  apply prod_roots; [lra|lra|apply Rmult_le_pos; lra|]. rewrite P3, X3.
  replace (sqrt 2 * aa tau * (sqrt 2 * aa tau)) with (sqrt 2 * sqrt 2 * (aa tau * aa tau)) by ring. rewrite Hr2, Haa.
  replace (2 * (1 + tau + ss tau) * (-1 + tau + ss tau)) with (2 * (tau ^ 2 + 2 * tau * ss tau + ss tau * ss tau - 1)) by ring.
  rewrite Hs. ring.
Qed.
Lemma mx2 tau : 0 < tau -> (pv tau - mv tau) * x2 tau = sqrt 2 * bb tau.
Proof.
  intro Ht. destruct (pm_facts tau Ht) as (P1 & P2 & P3 & P4). destruct (x_facts tau Ht) as (X1 & X2 & X3 & X4).
  destruct (ab_facts tau Ht) as (Ha & Hb & Haa & Hbb & _). destruct rt2 as [Hr Hr2]. destruct (ss_facts tau Ht) as (_ & _ & Hs & _).
  apply prod_roots; [lra|lra|apply Rmult_le_pos; lra|]. rewrite P4, X4.
  replace (sqrt 2 * bb tau * (sqrt 2 * bb tau)) with (sqrt 2 * sqrt 2 * (bb tau * bb tau)) by ring. rewrite Hr2, Hbb.
  replace (2 * (1 + tau - ss tau) * (1 - tau + ss tau)) with (2 * (1 - tau ^ 2 + 2 * tau * ss tau - ss tau * ss tau)) by ring.
  rewrite Hs. ring.
Qed.
Lemma mx1 tau : 0 < tau -> (pv tau - mv tau) * x1 tau = 2 * sqrt (ss tau - 1).
Proof.
  intro Ht. destruct (pm_facts tau Ht) as (P1 & P2 & P3 & P4). destruct (x_facts tau Ht) as (X1 & X2 & X3 & X4).
  destruct (ss_facts tau Ht) as (_ & _ & Hs & H1 & _). pose proof (sqrt_pos (ss tau - 1)).
  assert (Hq : sqrt (ss tau - 1) * sqrt (ss tau - 1) = ss tau - 1) by (apply sqrt_sqrt; lra).
  apply prod_roots; [lra|lra|lra|]. rewrite P4, X3.
  replace (2 * sqrt (ss tau - 1) * (2 * sqrt (ss tau - 1))) with (4 * (sqrt (ss tau - 1) * sqrt (ss tau - 1))) by ring. rewrite Hq.
  replace (2 * (1 + tau - ss tau) * (-1 + tau + ss tau)) with (2 * (tau ^ 2 - 1 + 2 * ss tau - ss tau * ss tau)) by ring.
  rewrite Hs. ring.
Qed.
Lemma px2 tau : 0 < tau -> (pv tau + mv tau) * x2 tau = 2 * sqrt (ss tau + 1).
Proof.
  intro Ht. destruct (pm_facts tau Ht) as (P1 & P2 & P3 & P4). destruct (x_facts tau Ht) as (X1 & X2 & X3 & X4).
  destruct (ss_facts tau Ht) as (_ & _ & Hs & H1 & _). pose proof (sqrt_pos (ss tau + 1)).
  assert (Hq : sqrt (ss tau + 1) * sqrt (ss tau + 1) = ss tau + 1) by (apply sqrt_sqrt; lra).
  apply prod_roots; [lra|lra|lra|]. rewrite P3, X4.
  replace (2 * sqrt (ss tau + 1) * (2 * sqrt (ss tau + 1))) with (4 * (sqrt (ss tau + 1) * sqrt (ss tau + 1))) by ring. rewrite Hq.
  replace (2 * (1 + tau + ss tau) * (1 - tau + ss tau)) with (2 * (1 - tau ^ 2 + 2 * ss tau + ss tau * ss tau)) by ring.
  rewrite Hs. ring.
Qed.
Lemma cross_roots tau : 0 < tau -> sqrt (ss tau + 1) * sv tau - sqrt (ss tau - 1) * cv tau = sqrt (ss tau).
Proof.
  intro Ht. destruct (ss_facts tau Ht) as (Hs0 & H2 & Hs & H1 & _). destruct (cs_sq tau Ht) as (C1 & C2 & C3 & C4).
  destruct (roots tau Ht) as (R1 & R2 & R3 & R4).
  set (y1 := sqrt (ss tau + 1)). set (y2 := sqrt (ss tau - 1)).
  assert (Y1 : y1 * y1 = ss tau + 1) by (apply sqrt_sqrt; lra). assert (Y2 : y2 * y2 = ss tau - 1) by (apply sqrt_sqrt; lra).
  assert (Y1p : 0 < y1) by (apply sqrt_lt_R0; lra). assert (Y2p : 0 < y2) by (apply sqrt_lt_R0; lra).
  assert (Hcs : cv tau * sv tau = / (2 * ss tau)).
  { apply prod_roots; [lra|lra|left; apply Rinv_0_lt_compat; lra|]. rewrite C3, C4.
    replace ((ss tau - tau) / (2 * ss tau) * ((ss tau + tau) / (2 * ss tau))) with ((ss tau * ss tau - tau ^ 2) / (4 * ss tau ^ 2)) by (field; lra).
    rewrite Hs. field. lra. }
  assert (Hy : y1 * y2 = tau) by (apply prod_roots; [lra|lra|lra|]; rewrite Y1, Y2; nra).
  apply sq_eq; [|lra|].
  - assert (y2 < y1) by nra. assert (cv tau < sv tau).
    { apply Rsqr_incrst_0; unfold Rsqr; [rewrite C3, C4|lra|lra]. unfold Rdiv. apply Rmult_lt_compat_r; [apply Rinv_0_lt_compat|]; lra. }
    nra.
  - rewrite R4. replace ((y1 * sv tau - y2 * cv tau) * (y1 * sv tau - y2 * cv tau)) with
      ((y1 * y1) * (sv tau * sv tau) + (y2 * y2) * (cv tau * cv tau) - 2 * (y1 * y2) * (cv tau * sv tau)) by ring.
    rewrite Y1, Y2, Hy, Hcs, C3, C4. field. lra.
Qed.
Lemma rpow_quarter tau n : 0 < tau -> Rpower (tau ^ 2 + 1) (INR n + / 4) = ss tau ^ (2 * n) * sqrt (ss tau).
Proof.
  intro Ht. destruct (ss_facts tau Ht) as (Hs & _ & Hss & _). rewrite <- Hss.
  replace (ss tau * ss tau) with (Rpower (ss tau) 2) by (rewrite rpow_2 by exact Hs; ring).
  rewrite Rpower_mult. replace (2 * (INR n + / 4)) with (INR (2 * n) + / 2) by (rewrite mult_INR; cbn [INR]; lra).
  rewrite Rpower_plus, rpow_nat, Rpower_sqrt by exact Hs. reflexivity.
Qed.

Lemma total_131h tau : 0 < tau -> total_mass 1 3 1.5 2 tau (tot_131h tau).
Proof.
  intro Ht. destruct (ss_facts tau Ht) as (Hs & _ & Hss & H1 & _). pose proof (pow_lt tau 2 Ht) as H2.
  apply (total_half (fun u => - u / ss tau ^ 2) (fun u => - / ss tau ^ 2)
    (fun x => sqrt x / ((1 + x) * sqrt (1 + x)) * (tau ^ 2 / (x ^ 2 + tau ^ 2))) tau 1.5 ((1 - tau ^ 2) / ss tau ^ 2) (tau ^ 2 / ss tau ^ 2)).
  - exact Ht.
  - intro u. auto_derive; [auto|]. field. lra.
  - field. lra.
  - intros x Hx. destruct (sq_facts x Hx) as (Q1 & Q2 & Q3 & Q4). pose proof (pow_lt x 2 Hx) as Hx2. cbn [pow] in *.
    auto_derive. repeat split; try lra; nra.
  - intros x Hx. rewrite trunc_2, den_131h by assumption. destruct (sq_facts x Hx) as (Q1 & Q2 & Q3 & Q4).
    pose proof (pow_lt x 2 Hx) as Hx2.
    replace (x ^ 2 * (/ (x * sqrt x) * / ((1 + x) * sqrt (1 + x)) * (tau ^ 2 / (x ^ 2 + tau ^ 2)))) with
      (x * / sqrt x * / ((1 + x) * sqrt (1 + x)) * (tau ^ 2 / (x ^ 2 + tau ^ 2))) by (field; repeat split; lra).
    replace (x * / sqrt x) with (sqrt x) by (rewrite <- Q3 at 2; field; lra). reflexivity.
  - intros x Hx. rewrite uu_Q by assumption. pose proof (uu_pos x Hx) as Hu. pose proof (uu_sq x Hx) as Huu.
    destruct (sq_facts x Hx) as (Q1 & Q2 & Q3 & Q4). pose proof (pow_lt x 2 Hx) as Hx2.
    replace (uu x ^ 2) with (uu x * uu x) by ring. rewrite Huu.
    replace (sqrt x / ((1 + x) * sqrt (1 + x))) with (uu x * uu x / (uu x * (1 + x))).
    2: { unfold uu. field. repeat split; lra. }
    rewrite Huu. replace (ss tau ^ 2) with (tau ^ 2 + 1) by (rewrite <- Hss; ring). field. repeat split; lra.
  - rewrite HH_1 by exact Ht. unfold tot_131h. fold (ss tau). fold (pv tau) (mv tau) (cv tau) (sv tau) (asv tau).
    destruct (roots tau Ht) as (R1 & R2 & R3 & R4). destruct (ab_facts tau Ht) as (Ha & Hb & Haa & Hbb & Hab & _).
    destruct (x_facts tau Ht) as (X1 & X2 & _). destruct rt2 as [Q2 Q22].
    change (sqrt (2 * tau * (tau + ss tau))) with (aa tau). change (ln (tau + ss tau + aa tau)) with (lgv tau).
    assert (E1 : sqrt ((tau ^ 2 + 1) * (-1 + tau + ss tau)) = ss tau * x1 tau).
    { rewrite <- Hss. rewrite sqrt_mult by nra. rewrite sqrt_square by lra. reflexivity. }
    assert (E2 : sqrt ((tau ^ 2 + 1) * (1 - tau + ss tau)) = ss tau * x2 tau).
    { rewrite <- Hss. rewrite sqrt_mult by nra. rewrite sqrt_square by lra. reflexivity. }
    rewrite E1, E2. replace (5 / 4) with (INR 1 + / 4) by (cbn; lra). rewrite rpow_quarter by exact Ht. rewrite rpow_32 by exact Ht.
    replace (sqrt 2 * PI * ss tau * (cos (1.5 * atan tau) + sin (1.5 * atan tau))) with
      (PI * ss tau * (sqrt 2 * (cos (1.5 * atan tau) + sin (1.5 * atan tau)))) by ring.
    rewrite ang15 by exact Ht.
    replace (sqrt 2 * (pv tau + mv tau) * (ss tau * x1 tau)) with (2 * ss tau * aa tau).
    2: { replace (sqrt 2 * (pv tau + mv tau) * (ss tau * x1 tau)) with (sqrt 2 * ss tau * ((pv tau + mv tau) * x1 tau)) by ring.
         rewrite px1 by exact Ht. transitivity (sqrt 2 * sqrt 2 * ss tau * aa tau); [rewrite Q22; ring|ring]. }
    replace (sqrt 2 * (pv tau - mv tau) * (ss tau * x2 tau)) with (2 * ss tau * bb tau).
    2: { replace (sqrt 2 * (pv tau - mv tau) * (ss tau * x2 tau)) with (sqrt 2 * ss tau * ((pv tau - mv tau) * x2 tau)) by ring.
         rewrite mx2 by exact Ht. transitivity (sqrt 2 * sqrt 2 * ss tau * bb tau); [rewrite Q22; ring|ring]. }
    destruct (cs_val tau Ht) as [-> ->]. unfold cp, ck.
    cbn [Nat.mul Nat.add].
    set (L := lgv tau). set (T := asv tau).
    assert (Hb' : bb tau = 2 * tau / aa tau) by (rewrite <- Hab; field; lra). rewrite Hb'.
    set (a := aa tau) in *. set (s := ss tau) in *. set (r := sqrt tau) in *. set (S := sqrt s) in *.
    transitivity (2 * PI * tau / (s ^ 2 * (S * S)) * ((PI - 2 * T) * (2 * tau ^ 2 + a * a) / a - 4 * s * tau - L * (2 * tau - tau * (a * a)) / a)).
    { field. repeat split; lra. }
    symmetry.
    transitivity (2 * PI * tau / (s ^ 2 * s) * ((PI - 2 * T) * ((a * a) * (s * tau + 1 - tau ^ 2)) / a - 4 * s * tau
        - L * (2 * tau * (1 - tau ^ 2 - tau * s)) / a)).
    { field. repeat split; lra. }
    rewrite R4, Haa.
    replace (2 * tau * (tau + s) * (s * tau + 1 - tau ^ 2)) with (2 * tau * (s * s * tau + s + tau - tau ^ 3)) by ring.
    rewrite Hss. field. repeat split; lra.
Qed.

Lemma total_130h tau : 0 < tau -> total_mass 1 3 0.5 2 tau (tot_130h tau).
Proof.
  intro Ht. destruct (ss_facts tau Ht) as (Hs & _ & Hss & H1 & _). pose proof (pow_lt tau 2 Ht) as H2.
  set (n2 := (1 - tau ^ 2) / ss tau ^ 2). set (n0 := tau ^ 2 / ss tau ^ 2).
  apply (total_half (fun u => - u ^ 3 / (3 * ss tau ^ 2) + n2 * u / ss tau ^ 2) (fun u => - u ^ 2 / ss tau ^ 2 + n2 / ss tau ^ 2)
    (fun x => x * sqrt x / ((1 + x) ^ 2 * sqrt (1 + x)) * (tau ^ 2 / (x ^ 2 + tau ^ 2))) tau 0.5
    (2 * tau ^ 2 * n2 / ss tau ^ 2 + n0) (- n2 * tau ^ 2 / ss tau ^ 2)).
  - exact Ht.
  - intro u. auto_derive; [auto|]. field. lra.
  - field. lra.
  - intros x Hx. destruct (sq_facts x Hx) as (Q1 & Q2 & Q3 & Q4). pose proof (pow_lt x 2 Hx) as Hx2.
    assert (Hd : 0 < (1 + x) ^ 2 * sqrt (1 + x)) by (apply Rmult_lt_0_compat; [apply pow_lt|]; lra). cbn [pow] in *.
    auto_derive. repeat split; try lra.
  - intros x Hx. rewrite trunc_2, den_130h by assumption. destruct (sq_facts x Hx) as (Q1 & Q2 & Q3 & Q4).
    pose proof (pow_lt x 2 Hx) as Hx2.
    replace (x ^ 2 * (/ sqrt x * / ((1 + x) ^ 2 * sqrt (1 + x)) * (tau ^ 2 / (x ^ 2 + tau ^ 2)))) with
      (x * (x * / sqrt x) * / ((1 + x) ^ 2 * sqrt (1 + x)) * (tau ^ 2 / (x ^ 2 + tau ^ 2))) by (field; repeat split; lra).
    replace (x * / sqrt x) with (sqrt x) by (rewrite <- Q3 at 2; field; lra). reflexivity.
  - intros x Hx. rewrite uu_Q by assumption. pose proof (uu_pos x Hx) as Hu. pose proof (uu_sq x Hx) as Huu.
    destruct (sq_facts x Hx) as (Q1 & Q2 & Q3 & Q4). pose proof (pow_lt x 2 Hx) as Hx2.
    replace (uu x ^ 2) with (uu x * uu x) by ring. rewrite Huu.
    replace (x * sqrt x / ((1 + x) ^ 2 * sqrt (1 + x))) with (x * (uu x * uu x) / (uu x * (1 + x) ^ 2)).
    2: { unfold uu. field. repeat split; lra. }
    rewrite Huu. unfold n2, n0. replace (ss tau ^ 2) with (tau ^ 2 + 1) by (rewrite <- Hss; ring). field. repeat split; lra.
  - rewrite HH_1 by exact Ht. unfold tot_130h. fold (ss tau). fold (pv tau) (mv tau) (cv tau) (sv tau) (asv tau).
    destruct (roots tau Ht) as (R1 & R2 & R3 & R4). destruct (ab_facts tau Ht) as (Ha & Hb & Haa & Hbb & Hab & _).
    destruct (x_facts tau Ht) as (X1 & X2 & _). destruct rt2 as [Q2 Q22].
    change (sqrt (2 * tau * (tau + ss tau))) with (aa tau). change (ln (tau + ss tau + aa tau)) with (lgv tau).
    destruct (ss_facts tau Ht) as (_ & Hts & _).
    assert (E1 : sqrt (tau * (tau ^ 2 + 1) * (-1 + tau + ss tau)) = sqrt tau * ss tau * x1 tau).
    { rewrite <- Hss. rewrite sqrt_mult, sqrt_mult by nra. rewrite sqrt_square by lra. reflexivity. }
    assert (E2 : sqrt (tau * (tau ^ 2 + 1) * (1 - tau + ss tau)) = sqrt tau * ss tau * x2 tau).
    { rewrite <- Hss. rewrite sqrt_mult, sqrt_mult by nra. rewrite sqrt_square by lra. reflexivity. }
    assert (E3 : sqrt ((-1 + tau + ss tau) / tau) = x1 tau / sqrt tau) by (apply sqrt_div_alt, Ht).
    assert (E4 : sqrt ((1 - tau + ss tau) / tau) = x2 tau / sqrt tau) by (apply sqrt_div_alt, Ht).
    rewrite E1, E2, E3, E4. replace (9 / 4) with (INR 2 + / 4) by (cbn; lra). rewrite rpow_quarter by exact Ht. rewrite rpow_52 by exact Ht.
    cbn [Nat.mul Nat.add].
    set (A := sqrt 2 * (2 + 3 * tau - 2 * tau ^ 2 - tau ^ 3)).
    set (B := 4 * sqrt tau - 4 * (tau ^ 2 * sqrt tau)).
    replace (2 * sqrt 2 + 4 * sqrt tau + 3 * sqrt 2 * tau - 2 * sqrt 2 * tau ^ 2 - 4 * (tau ^ 2 * sqrt tau) - sqrt 2 * tau ^ 3) with (A + B)
      by (unfold A, B; ring).
    replace (2 * sqrt 2 - 4 * sqrt tau + 3 * sqrt 2 * tau - 2 * sqrt 2 * tau ^ 2 + 4 * (tau ^ 2 * sqrt tau) - sqrt 2 * tau ^ 3) with (A - B)
      by (unfold A, B; ring).
    (* the seven terms *)
    assert (T1 : 3 * sqrt 2 * PI * sqrt tau * (tau ^ 2 + 1) * (sin (2.5 * atan tau) - cos (2.5 * atan tau))
      = - 6 * PI * sqrt tau * ((1 - tau ^ 2) * cv tau - 2 * tau * sv tau)).
    { replace (3 * sqrt 2 * PI * sqrt tau * (tau ^ 2 + 1) * (sin (2.5 * atan tau) - cos (2.5 * atan tau))) with
        (3 * PI * sqrt tau * (tau ^ 2 + 1) * (sqrt 2 * (sin (2.5 * atan tau) - cos (2.5 * atan tau)))) by ring.
      rewrite ang25 by exact Ht. rewrite <- Hss. field. lra. }
    assert (T2 : 2 * sqrt 2 * (pv tau - mv tau) * (sqrt tau * ss tau * x2 tau) * cv tau = 4 * sqrt tau * ss tau * bb tau * cv tau).
    { replace (2 * sqrt 2 * (pv tau - mv tau) * (sqrt tau * ss tau * x2 tau) * cv tau) with
        (2 * sqrt tau * ss tau * cv tau * (sqrt 2 * ((pv tau - mv tau) * x2 tau))) by ring.
      rewrite mx2 by exact Ht. rewrite <- (Rmult_assoc (sqrt 2)), Q22. ring. }
    assert (T3 : 2 * sqrt 2 * (pv tau + mv tau) * (sqrt tau * ss tau * x1 tau) * sv tau = 4 * sqrt tau * ss tau * aa tau * sv tau).
    { replace (2 * sqrt 2 * (pv tau + mv tau) * (sqrt tau * ss tau * x1 tau) * sv tau) with
        (2 * sqrt tau * ss tau * sv tau * (sqrt 2 * ((pv tau + mv tau) * x1 tau))) by ring.
      rewrite px1 by exact Ht. rewrite <- (Rmult_assoc (sqrt 2)), Q22. ring. }
    assert (T4 : ((A + B) * mv tau + (A - B) * pv tau) * (x1 tau / sqrt tau) * cv tau
               + ((A + B) * mv tau - (A - B) * pv tau) * (x2 tau / sqrt tau) * sv tau = 8 * (1 - tau ^ 2) * sqrt (ss tau)).
    { replace (((A + B) * mv tau + (A - B) * pv tau) * (x1 tau / sqrt tau) * cv tau
               + ((A + B) * mv tau - (A - B) * pv tau) * (x2 tau / sqrt tau) * sv tau) with
       ((A * ((pv tau + mv tau) * x1 tau * cv tau - (pv tau - mv tau) * x2 tau * sv tau)
         + B * ((pv tau + mv tau) * x2 tau * sv tau - (pv tau - mv tau) * x1 tau * cv tau)) / sqrt tau) by (field; lra).
      rewrite px1, mx2, px2, mx1 by exact Ht.
      replace (2 * sqrt (ss tau + 1) * sv tau - 2 * sqrt (ss tau - 1) * cv tau) with
        (2 * (sqrt (ss tau + 1) * sv tau - sqrt (ss tau - 1) * cv tau)) by ring.
      rewrite cross_roots by exact Ht. destruct (cs_val tau Ht) as [-> ->].
      unfold B. field. lra. }
    match goal with |- ?pre * (?t1 + ?t2 - ?t3 + ?t4 + ?t5 - ?t6 - ?t7) = _ =>
      transitivity (pre * (t1 + t2 - t3 + (t4 + t5) - t6 - t7)); [ring|] end.
    rewrite T1, T2, T3, T4. clear T1 T2 T3 T4 E1 E2 E3 E4. clear A B.
    destruct (cs_val tau Ht) as [-> ->]. unfold cp, ck, n2, n0. replace 0.5 with (/ 2) by lra.
    set (L := lgv tau). set (T := asv tau).
    assert (Hb' : bb tau = 2 * tau / aa tau) by (rewrite <- Hab; field; lra).
    set (a := aa tau) in *. set (s := ss tau) in *. set (r := sqrt tau) in *. set (S := sqrt s) in *.
    transitivity (4 * PI * tau ^ 2 / s ^ 4 / 6 *
       (- 3 / (S * S) * (PI - 2 * T) * ((1 - tau ^ 2) * bb tau - 2 * tau * a)
        + 2 * s / (S * S) * (bb tau * bb tau - a * a) + 8 * (1 - tau ^ 2)
        - 6 / (S * S) * L * (tau * bb tau - / 2 * (tau ^ 2 - 1) * a))).
    { field. repeat split; lra. }
    rewrite R4, Hbb, Haa, Hb'. 
    transitivity (4 * PI * tau ^ 2 / s ^ 4 / 6 *
       (- 3 / s * (PI - 2 * T) * (2 * tau * (1 - tau ^ 2) - 2 * tau * (a * a)) / a
        + 8 * (1 - 2 * tau ^ 2)
        - 6 / s * L * (2 * tau ^ 2 - / 2 * (tau ^ 2 - 1) * (a * a)) / a)).
    { field. repeat split; lra. }
    symmetry.
    transitivity (4 * PI * tau ^ 2 / s ^ 4 / 6 *
       ((PI - 2 * T) * (3 * (a * a) * s / tau * ((2 * tau ^ 2 * (1 - tau ^ 2) + tau ^ 2 * (s * s)) / (s * s) - (1 - tau ^ 2) * tau / s)) / a
        + 4 * (3 * (1 - tau ^ 2) - s * s)
        + 6 * L * s * ((- (1 - tau ^ 2) * tau / s) - (2 * tau ^ 2 * (1 - tau ^ 2) + tau ^ 2 * (s * s)) / (s * s)) / a)).
    { field. repeat split; lra. }
    rewrite Hss, Haa.
    assert (Hs2 : s ^ 2 = tau ^ 2 + 1) by (rewrite <- Hss; ring).
    field_simplify_eq; [|repeat split; nra].
    replace (s ^ 3) with (s * (tau ^ 2 + 1)) by (rewrite <- Hs2; ring). rewrite Hs2. ring.
Qed.
