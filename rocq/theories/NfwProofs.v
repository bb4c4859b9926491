(** Proofs for C55 and C74-C76. *)
From Coq Require Import Nsatz Reals.
From Verif Require Import Prelude TnfwSpec TnfwProofs MassFnProofs TidalInt TidalTotal NfwModel NfwSpec.
From Coquelicot Require Import Coquelicot.
Local Open Scope R_scope.
Local Open Scope list_scope.

(** ** Enclosed masses *)
Definition nup (x : R) : R := x / (1 + x ^ 2).
Definition Funcp (x : R) : R := ln (1 + x ^ 2) / 2.
Lemma osq x : 0 < 1 + x ^ 2.
Proof. pose proof (pow2_ge_0 x). lra. Qed.
Lemma Funcp_derive x : is_derive Funcp x (nup x).
Proof. pose proof (osq x). unfold Funcp, nup. auto_derive; [simpl in *; lra|]. simpl in *. field. lra. Qed.
Lemma nup_cont x : continuous nup x.
Proof. apply (ex_derive_continuous nup). unfold nup. pose proof (osq x). auto_derive. simpl in *. lra. Qed.
Lemma rho_pseudo_nup rhos rs r : 0 < rs -> 0 <= r ->
  4 * PI * r ^ 2 * rho_pseudo_nfw rhos rs r = 4 * PI * rhos * rs ^ 2 * nup (r / rs).
Proof.
  intros Hs Hr. unfold rho_pseudo_nfw, nup. destruct (Req_dec r 0) as [->|N].
  - replace (0 / rs) with 0 by (field; lra). unfold Rdiv. ring.
  - field. pose proof (pow2_ge_0 r). repeat split; try lra. pose proof (sq_pos rs Hs). nra.
Qed.
Lemma pseudo_mass rhos rs c : 0 < rs -> 0 <= c ->
  ex_RInt (fun r => 4 * PI * r ^ 2 * rho_pseudo_nfw rhos rs r) 0 (c * rs) /\
  sphere_mass (rho_pseudo_nfw rhos rs) (c * rs) = 4 * PI * rhos * rs ^ 3 * Funcp c.
Proof.
  intros Hs Hc. apply (sphere_gen _ nup); auto.
  - intros r Hr. apply rho_pseudo_nup; assumption.
  - intros x _. apply Funcp_derive.
  - intros x _. apply nup_cont.
  - unfold Funcp. replace (1 + 0 ^ 2) with 1 by ring. rewrite ln_1. lra.
Qed.
Definition Fp (p : bool) (c : R) : R := if p then Funcp c else Func0 c.
Lemma halo_mass p rhos rs c : 0 < rs -> 0 <= c ->
  ex_RInt (fun r => 4 * PI * r ^ 2 * halo_density p rhos rs r) 0 (c * rs) /\
  sphere_mass (halo_density p rhos rs) (c * rs) = 4 * PI * rhos * rs ^ 3 * Fp p c.
Proof. destruct p; [apply pseudo_mass|apply nfw_mass]. Qed.
Lemma Fp_pos p c : 0 < c -> 0 < Fp p c.
Proof.
  intros Hc. destruct p; [|apply Func0_pos; exact Hc]. unfold Fp, Funcp.
  pose proof (sq_pos c Hc). pose proof (ln_increasing 1 (1 + c ^ 2) Rlt_0_1 ltac:(lra)) as L. rewrite ln_1 in L. lra.
Qed.

Lemma cube_root x : 0 < x -> Rpower x (1 / 3) ^ 3 = x.
Proof.
  intros H. replace (Rpower x (1 / 3) ^ 3) with (Rpower (Rpower x (1 / 3)) (INR 3)).
  - rewrite Rpower_mult. replace (1 / 3 * INR 3) with 1 by (simpl; lra). apply Rpower_1. exact H.
  - apply Rpower_pow. apply exp_pos.
Qed.

(** a usable cosmology *)
Definition cosmo_ok (C : cosmo) : Prop := 0 < co_h C /\ 0 < co_rhoc C /\ (forall z, 0 <= z -> 0 < co_E C z).
Lemma rhoc_pos C z : cosmo_ok C -> 0 <= z -> 0 < rhoc_z C z.
Proof. intros (A & B & E) Hz. unfold rhoc_z. apply Rmult_lt_0_compat; [exact B|]. apply sq_pos, E, Hz. Qed.

(** critical density in M_sun / Mpc^3, physical *)
Lemma r200_cube C m z : cosmo_ok C -> 0 <= z -> 0 < m ->
  (r200_M C (m * co_h C) z / co_h C) ^ 3 = 3 * m / (4 * PI * 200 * (rhoc_z C z * co_h C ^ 2)).
Proof.
  intros K Hz Hm. pose proof (rhoc_pos C z K Hz) as P. destruct K as (Hh & _ & _). pose proof PI_RGT_0 as Pi.
  unfold r200_M, Rdiv. set (k := rhoc_z C z) in *. clearbody k. rewrite Rpow_mult_distr. rewrite cube_root.
  - field. repeat split; lra.
  - rewrite Rmult_assoc. apply Rmult_lt_0_compat; [lra|]. apply Rmult_lt_0_compat; [apply Rmult_lt_0_compat; assumption|].
    apply Rinv_0_lt_compat. assert (0 < PI * k) by (apply Rmult_lt_0_compat; assumption). lra.
Qed.
Lemma r200_pos C m z : cosmo_ok C -> 0 < r200_M C (m * co_h C) z / co_h C.
Proof. intros (Hh & _ & _). apply Rdiv_lt_0_compat; [apply exp_pos|exact Hh]. Qed.

Lemma rho_choice C (p : bool) c z : 0 < c ->
  (if p then rho0_c_pseudoNFW C c z * co_h C ^ 2 else rho0_c C c z * co_h C ^ 2)
  = 200 / 3 * (rhoc_z C z * co_h C ^ 2) * c ^ 3 / Fp p c.
Proof.
  intros Hc. pose proof (Fp_pos p c Hc) as P. destruct p; unfold Fp in *.
  - unfold rho0_c_pseudoNFW, Funcp in *. field. lra.
  - unfold rho0_c, Func0 in *. set (F := ln (1 + c) - c / (1 + c)) in *. clearbody F. field. lra.
Qed.

(** in Mpc *)
Lemma mpc_describes C m c z p : cosmo_ok C -> 0 <= z -> 0 < m -> 0 < c ->
  exists rho0 rs r200, nfwParam_physical C m c z (Some p) = Ok (rho0, rs, r200) /\
    describes_halo p m c (rhoc_z C z * co_h C ^ 2) rho0 rs r200 /\ 0 < rho0.
Proof.
  intros K Hz Hm Hc. pose proof (rhoc_pos C z K Hz) as P. pose proof (r200_cube C m z K Hz Hm) as Q.
  pose proof (r200_pos C m z K) as R2. pose proof (Fp_pos p c Hc) as F. pose proof PI_RGT_0 as Pi.
  assert (Hh : 0 < co_h C) by apply K.
  assert (Ph : 0 < rhoc_z C z * co_h C ^ 2) by (apply Rmult_lt_0_compat; [exact P|apply sq_pos, Hh]).
  cbn [nfwParam_physical]. do 3 eexists. split; [reflexivity|].
  rewrite (rho_choice C p c z Hc). set (r := r200_M C (m * co_h C) z / co_h C) in *.
  set (k := rhoc_z C z * co_h C ^ 2) in *.
  assert (Hrs : 0 < r / c) by (apply Rdiv_lt_0_compat; assumption).
  pose proof (halo_mass p (200 / 3 * k * c ^ 3 / Fp p c) (r / c) c Hrs (Rlt_le _ _ Hc)) as [I M].
  assert (Ec : r = c * (r / c)) by (field; lra).
  clearbody r k. set (rs := r / c) in *. clearbody rs.
  assert (c3 : 0 < c ^ 3) by (apply pow_lt; exact Hc).
  split; [split|].
  - exact Hrs.
  - exact Ec.
  - rewrite Ec. exact I.
  - rewrite Ec. rewrite M.
    transitivity (4 * PI * (200 / 3) * k * r ^ 3); [rewrite Ec; field; lra|]. rewrite Q. field. lra.
  - rewrite Q. field. repeat split; lra.
  - apply Rdiv_lt_0_compat; [|exact F]. apply Rmult_lt_0_compat; [lra|exact c3].
Qed.

Lemma describes_unique p m c k rhos rs r200 rhos' rs' r200' : 0 < m -> 0 < c ->
  describes_halo p m c k rhos rs r200 -> describes_halo p m c k rhos' rs' r200' -> rhos = rhos' /\ rs = rs' /\ r200 = r200'.
Proof.
  intros Hm Hc [A B I M D] [A' B' I' M' D']. pose proof PI_RGT_0 as Pi.
  assert (R1 : 0 < r200) by (subst; apply Rmult_lt_0_compat; assumption).
  assert (R2 : 0 < r200') by (subst; apply Rmult_lt_0_compat; assumption).
  assert (E3 : r200 ^ 3 = r200' ^ 3).
  { rewrite <- D' in D. assert (c1 : 0 < r200 ^ 3) by (apply pow_lt; exact R1). assert (c2 : 0 < r200' ^ 3) by (apply pow_lt; exact R2).
    assert (X : m = m / (4 / 3 * PI * r200' ^ 3) * (4 / 3 * PI * r200 ^ 3)) by (rewrite <- D; field; split; lra).
    assert (Y : m / (4 / 3 * PI * r200' ^ 3) * (4 / 3 * PI * r200 ^ 3) = m * (r200 ^ 3 / r200' ^ 3)) by (field; lra).
    rewrite Y in X. assert (Z : r200 ^ 3 / r200' ^ 3 = 1) by (apply (Rmult_eq_reg_l m); lra).
    apply (f_equal (fun t => t * r200' ^ 3)) in Z. unfold Rdiv in Z. rewrite Rmult_assoc, Rinv_l in Z by lra. lra. }
  assert (E1 : r200 = r200').
  { destruct (Rtotal_order r200 r200') as [L|[E|L]]; [|exact E|];
      exfalso; [assert (r200 ^ 3 < r200' ^ 3)|assert (r200' ^ 3 < r200 ^ 3)]; try lra; simpl; rewrite !Rmult_1_r;
      (apply Rmult_gt_0_lt_compat; try lra; [apply Rmult_lt_0_compat; lra|apply Rmult_gt_0_lt_compat; lra]). }
  assert (E2 : rs = rs') by (subst r200 r200'; apply (Rmult_eq_reg_l c); lra).
  split; [|split; assumption]. subst rs' r200'.
  assert (J : 4 * PI * rhos * rs ^ 3 * Fp p c = 4 * PI * rhos' * rs ^ 3 * Fp p c).
  { rewrite <- !(proj2 (halo_mass p _ rs c A (Rlt_le _ _ Hc))). rewrite <- B. congruence. }
  pose proof (Fp_pos p c Hc) as F. assert (c1 : 0 < rs ^ 3) by (apply pow_lt; exact A).
  apply (Rmult_eq_reg_l (4 * PI * rs ^ 3 * Fp p c)); [|apply Rgt_not_eq, Rmult_lt_0_compat; [apply Rmult_lt_0_compat; lra|exact F]]. lra.
Qed.
