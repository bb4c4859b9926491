(** C86-C90: the closed-form truncation classes. *)
From Coq Require Import Reals.
From Verif Require Import Prelude MassFnModel MassFnSpec MassFnProofs SpaceProofs TnfwSpec TnfwProofs NfwModel NfwSpec NfwProofs NfwProps Interp TruncModel.
From Coquelicot Require Import Coquelicot.
Local Open Scope R_scope.
Local Open Scope list_scope.

(** * Specification *)
(** Mean density of the mass [m] inside the radius [r] *)
Definition mean_density (m r : R) : R := m / (4 / 3 * PI * r ^ 3).
(** Mean matter density of the universe at redshift [z], in M_sun / kpc^3: it grows as (1 + z)^3 *)
Definition matter_kpc (C : cosmo) (z : R) : R := co_Om0 C * critical_kpc C 0 * (1 + z) ^ 3.

Lemma Rpower_cube_lt a b : 0 < a -> a < b -> Rpower a (1 / 3) < Rpower b (1 / 3).
Proof. intros. unfold Rpower. apply exp_increasing. apply Rmult_lt_compat_l; [lra|]. apply ln_increasing; assumption. Qed.

(** ** C86: truncation at an overdensity *)
(** The mean density inside the truncation radius is N times the critical density... *)
Theorem C86_encloses : forall C N m z, expanding C -> 0 <= z -> 0 < m -> 0 < N ->
  0 < rn_radius C N m z /\ mean_density m (rn_radius C N m z) = N * critical_kpc C z.
Proof.
  intros C N m z K Hz Hm HN. pose proof K as (Hh & _).
  destruct (C55_overdensity_radius C (m * co_h C) z N K Hz (Rmult_lt_0_compat _ _ Hm Hh) HN) as [A B].
  split; [exact A|]. unfold mean_density, rn_radius. rewrite <- B. f_equal. field. lra.
Qed.

(** It is the only radius with that mean density. *)
Theorem C86_unique : forall C N m z r, expanding C -> 0 <= z -> 0 < m -> 0 < N -> 0 < r ->
  mean_density m r = N * critical_kpc C z -> r = rn_radius C N m z.
Proof.
  intros C N m z r K Hz Hm HN Hr E. destruct (C86_encloses C N m z K Hz Hm HN) as [P Q].
  set (r' := rn_radius C N m z) in *. clearbody r'. rewrite <- Q in E. clear Q. unfold mean_density in E. pose proof PI_RGT_0 as HP.
  assert (A : 0 < r ^ 3) by (apply pow_lt; lra). assert (B : 0 < r' ^ 3) by (apply pow_lt; lra).
  assert (E3 : r ^ 3 = r' ^ 3).
  { apply (f_equal Rinv) in E. unfold Rdiv in E. rewrite !Rinv_mult, !Rinv_inv in E. apply Rmult_eq_reg_l in E; [|apply Rinv_neq_0_compat; lra].
    apply Rmult_eq_reg_l in E; [exact E|]. lra. }
  destruct (Rtotal_order r r') as [L|[L|L]]; [|exact L|]; exfalso.
  - assert (0 < (r' - r) * (r' ^ 2 + r' * r + r ^ 2)) by (apply Rmult_lt_0_compat; nra). nra.
  - assert (0 < (r - r') * (r' ^ 2 + r' * r + r ^ 2)) by (apply Rmult_lt_0_compat; nra). nra.
Qed.

(** ... so N = 200 is r_200... *)
Theorem C86_r200 : forall C m c z p, expanding C ->
  exists rhos rs, NFW_params_physical C m c z (Some p) = Ok (rhos, rs, rn_radius C 200 m z).
Proof.
  intros C m c z p (Hh & _). unfold NFW_params_physical, nfwParam_physical, rn_radius, rN_M, r200_M. cbn [bind fst snd].
  do 2 eexists. reflexivity.
Qed.
(** ... and the radius grows with the mass and shrinks with N. *)
Theorem C86_monotone : forall C N N' m m' z, expanding C -> 0 <= z -> 0 < m -> 0 < N ->
  (m < m' -> rn_radius C N m z < rn_radius C N m' z) /\ (N < N' -> rn_radius C N' m z < rn_radius C N m z).
Proof.
  intros C N N' m m' z K Hz Hm HN. pose proof (rhoc_pos C z K Hz) as P. destruct K as (Hh & _ & _). pose proof PI_RGT_0 as Pi.
  unfold rn_radius, rN_M.
  assert (Pk : 0 < 4 * PI * rhoc_z C z) by (apply Rmult_lt_0_compat; [lra|assumption]).
  assert (G : forall a b, a < b -> a / co_h C * 1000 < b / co_h C * 1000).
  { intros a b Hab. apply Rmult_lt_compat_r; [lra|]. apply Rmult_lt_compat_r; [apply Rinv_0_lt_compat; exact Hh|exact Hab]. }
  split; intros Hlt; apply G; apply Rpower_cube_lt.
  - apply Rdiv_lt_0_compat; [nra|]. apply Rmult_lt_0_compat; assumption.
  - apply Rmult_lt_compat_r; [apply Rinv_0_lt_compat, Rmult_lt_0_compat; assumption|]. nra.
  - apply Rdiv_lt_0_compat; [nra|]. apply Rmult_lt_0_compat; lra.
  - apply Rmult_lt_compat_l; [nra|]. apply Rinv_lt_contravar; [|nra]. apply Rmult_lt_0_compat; apply Rmult_lt_0_compat; lra.
Qed.
(** The vectorised replica gives the same radii. *)
Theorem C86_batch : forall C N ms zs, rn_radius_batch C N ms zs = zip_with (rn_radius C N) ms zs.
Proof.
  intros C N ms. unfold rn_radius_batch. induction ms as [|m ms IH]; intros [|z zs]; try reflexivity.
  cbn [map zip_with]. f_equal; [|apply IH]. unfold rn_radius, rN_M, rhoc_z. rewrite Rmult_assoc. reflexivity.
Qed.
(** The splashback radius is a multiple of the radius with mean density 200 times Om0 (the present matter fraction) times
    the critical density at z... *)
Theorem C86_splashback : forall C nu ratio m z, expanding C -> 0 <= z -> 0 < m -> 0 < co_Om0 C ->
  exists r, splashback_radius C nu ratio m z = ratio (nu (m * co_h C) z) z * r /\ 0 < r /\
    mean_density m r = 200 * (co_Om0 C * critical_kpc C z).
Proof.
  intros C nu ratio m z K Hz Hm HO. destruct (C86_encloses C 200 m z K Hz Hm ltac:(lra)) as [A B].
  exists (rn_radius C 200 m z / Rpower (co_Om0 C) (1 / 3)).
  assert (PO : 0 < Rpower (co_Om0 C) (1 / 3)) by apply exp_pos.
  split; [|split].
  - unfold splashback_radius, rn_radius. cbv zeta. field. lra.
  - apply Rdiv_lt_0_compat; assumption.
  - assert (X : mean_density m (rn_radius C 200 m z / Rpower (co_Om0 C) (1 / 3)) =
       mean_density m (rn_radius C 200 m z) * Rpower (co_Om0 C) (1 / 3) ^ 3).
    { unfold mean_density. pose proof PI_RGT_0. field. repeat split; lra. }
    rewrite X, B, cube_root by exact HO. ring.
Qed.
(** ... which is the radius R_200m of the mean matter density only where the matter fraction is the present one. *)
Theorem C86_splashback_matter : forall C nu ratio m z, expanding C -> 0 <= z -> 0 < m -> 0 < co_Om0 C -> co_E C 0 = 1 ->
  0 < ratio (nu (m * co_h C) z) z ->
  (mean_density m (splashback_radius C nu ratio m z / ratio (nu (m * co_h C) z) z) = 200 * matter_kpc C z <-> co_E C z ^ 2 = (1 + z) ^ 3).
Proof.
  intros C nu ratio m z K Hz Hm HO HE Hr. destruct (C86_splashback C nu ratio m z K Hz Hm HO) as (r & A & B & D).
  rewrite A. replace (ratio (nu (m * co_h C) z) z * r / ratio (nu (m * co_h C) z) z) with r by (field; lra).
  rewrite D. unfold matter_kpc, critical_kpc. rewrite HE. destruct K as (Hh & Hc & _).
  set (k := 200 * co_Om0 C * co_rhoc C * co_h C ^ 2 / 1000 ^ 3).
  assert (Pk : 0 < k). { unfold k. apply Rdiv_lt_0_compat; [|lra]. repeat apply Rmult_lt_0_compat; try lra. }
  replace (200 * (co_Om0 C * (co_rhoc C * co_E C z ^ 2 * co_h C ^ 2 / 1000 ^ 3))) with (k * co_E C z ^ 2) by (unfold k; field).
  replace (200 * (co_Om0 C * (co_rhoc C * 1 ^ 2 * co_h C ^ 2 / 1000 ^ 3) * (1 + z) ^ 3)) with (k * (1 + z) ^ 3) by (unfold k; field).
  split; [intros X; apply (Rmult_eq_reg_l k); [exact X|lra]|intros ->; reflexivity].
Qed.
(** In a flat universe with a cosmological constant it is not, at any redshift but zero. *)
Definition flat_lcdm (C : cosmo) : Prop := forall z, 0 <= z -> co_E C z = sqrt (co_Om0 C * (1 + z) ^ 3 + (1 - co_Om0 C)).
Theorem C86_splashback_refuted : forall C nu ratio m z, expanding C -> flat_lcdm C -> 0 < co_Om0 C < 1 -> 0 < z -> 0 < m ->
  0 < ratio (nu (m * co_h C) z) z ->
  mean_density m (splashback_radius C nu ratio m z / ratio (nu (m * co_h C) z) z) <> 200 * matter_kpc C z.
Proof.
  intros C nu ratio m z K F HO Hz Hm Hr X.
  assert (E0 : co_E C 0 = 1). { rewrite F by lra. replace (co_Om0 C * (1 + 0) ^ 3 + (1 - co_Om0 C)) with 1 by ring. apply sqrt_1. }
  apply (C86_splashback_matter C nu ratio m z K ltac:(lra) Hm ltac:(lra) E0 Hr) in X.
  rewrite F in X by lra. replace (sqrt (co_Om0 C * (1 + z) ^ 3 + (1 - co_Om0 C)) ^ 2) with (co_Om0 C * (1 + z) ^ 3 + (1 - co_Om0 C)) in X.
  - assert (1 < (1 + z) ^ 3) by nra. nra.
  - rewrite <- Rsqr_pow2. symmetry. apply Rsqr_sqrt. assert (1 < (1 + z) ^ 3) by nra. nra.
Qed.
Definition lcdm : cosmo := {| co_h := 0.7; co_rhoc := 2.77 * 10 ^ 11; co_E := fun z => sqrt (0.3 * (1 + z) ^ 3 + (1 - 0.3)); co_DA := fun a b => 1000 * (b - a);
  co_DAz := fun z => 1000 * z; co_age := fun z => 13 / (1 + z); co_kpc := fun z => 6; co_Om0 := 0.3; co_rhoc_astropy := 1.36 * 10 ^ 11 |}.
Example C86_nonvacuous : expanding lcdm /\ flat_lcdm lcdm /\ 0 < co_Om0 lcdm < 1 /\ co_E lcdm 0 = 1.
Proof.
  split; [|split; [intros z _; reflexivity|]].
  - split; [|split]; cbn; [lra|lra|]. intros z Hz. apply sqrt_lt_R0.
    assert (0 < (1 + z) * ((1 + z) * ((1 + z) * 1))) by (apply Rmult_lt_0_compat; [lra|]; apply Rmult_lt_0_compat; [lra|]; lra). lra.
  - cbn. split; [lra|]. replace (0.3 * ((1 + 0) * ((1 + 0) * ((1 + 0) * 1))) + (1 - 0.3)) with 1 by lra. apply sqrt_1.
Qed.

(** ** C87: the Roche truncation *)
Definition roche_formula (norm m_power nu mass r3d : R) : R := norm * Rpower (mass / 10 ^ 7) m_power * Rpower (r3d / 50) nu.
(** The documented formula, to three decimals... *)
Theorem C87_formula : forall norm a nu m r, exists k : Z,
  roche_radius norm a nu m r = IZR k / 1000 /\ Rabs (roche_radius norm a nu m r - roche_formula norm a nu m r) <= 0.0005.
Proof.
  intros norm a nu m r. exists (np_round (roche_formula norm a nu m r * 1000)). split; [reflexivity|].
  unfold roche_radius, np_round3. fold (roche_formula norm a nu m r).
  destruct (np_round_spec (roche_formula norm a nu m r * 1000)) as [A _].
  set (x := roche_formula norm a nu m r) in *. set (k := IZR (np_round (x * 1000))) in *. clearbody x k.
  apply Rabs_le. apply Rabs_le_between in A. lra.
Qed.
(** ... non-negative, and never decreasing with mass or distance for the exponents of the class. *)
Lemma Rpower_le a b e : 0 < a -> a <= b -> 0 <= e -> Rpower a e <= Rpower b e.
Proof. intros. apply Rle_Rpower_l; [assumption|split; assumption]. Qed.
Theorem C87_monotone : forall norm a nu m m' r r', 0 <= norm -> 0 <= a -> 0 <= nu -> 0 < m -> m <= m' -> 0 < r -> r <= r' ->
  0 <= roche_radius norm a nu m r /\ roche_radius norm a nu m r <= roche_radius norm a nu m' r'.
Proof.
  intros norm a nu m m' r r' Hn Ha Hv Hm Hmm Hr Hrr. unfold roche_radius, np_round3.
  assert (F0 : 0 <= norm * Rpower (m / 10 ^ 7) a * Rpower (r / 50) nu).
  { apply Rmult_le_pos; [apply Rmult_le_pos; [exact Hn|left; apply exp_pos]|left; apply exp_pos]. }
  assert (F1 : norm * Rpower (m / 10 ^ 7) a * Rpower (r / 50) nu <= norm * Rpower (m' / 10 ^ 7) a * Rpower (r' / 50) nu).
  { apply Rmult_le_compat; [apply Rmult_le_pos; [exact Hn|left; apply exp_pos]|left; apply exp_pos| |].
    - apply Rmult_le_compat_l; [exact Hn|]. apply Rpower_le; [lra|lra|exact Ha].
    - apply Rpower_le; [lra|lra|exact Hv]. }
  split.
  - apply Rmult_le_pos; [|lra]. apply IZR_le. apply (nearest_even_nonneg (norm * Rpower (m / 10 ^ 7) a * Rpower (r / 50) nu * 1000)); [lra|apply np_round_spec].
  - apply Rmult_le_compat_r; [lra|]. apply IZR_le. apply np_round_mono. lra.
Qed.
(** Rounding makes the radius exactly zero when the formula gives at most half a parsec. *)
Theorem C87_zero : forall norm a nu m r, 0 < norm ->
  (roche_radius norm a nu m r = 0 <-> roche_formula norm a nu m r <= 0.0005).
Proof.
  intros norm a nu m r Hn. unfold roche_radius, np_round3. fold (roche_formula norm a nu m r).
  assert (P : 0 < roche_formula norm a nu m r).
  { unfold roche_formula. apply Rmult_lt_0_compat; [apply Rmult_lt_0_compat; [exact Hn|apply exp_pos]|apply exp_pos]. }
  set (x := roche_formula norm a nu m r) in *. clearbody x.
  pose proof (np_round_spec (x * 1000)) as S. split.
  - intros E. assert (K : np_round (x * 1000) = 0%Z) by (apply eq_IZR; lra). rewrite K in S. destruct S as [S _].
    rewrite Rminus_0_r, Rabs_pos_eq in S by lra. lra.
  - intros L. replace (np_round (x * 1000)) with 0%Z; [lra|]. apply (nearest_even_unique (x * 1000)); [|exact S].
    split; [rewrite Rminus_0_r, Rabs_pos_eq; lra|]. intros _. reflexivity.
Qed.
(** With the default parameters a halo of positive mass at a positive radius can therefore have no extent at all. *)
Theorem C87_positive_refuted : exists m r, 0 < m /\ 0 < r /\ 0 < roche_formula 1.4 (1 / 3) (2 / 3) m r /\
  roche_radius 1.4 (1 / 3) (2 / 3) m r = 0.
Proof.
  exists (10 ^ 7 * 0.01 ^ 3), (50 * 0.001 ^ 3).
  assert (R1 : Rpower (10 ^ 7 * 0.01 ^ 3 / 10 ^ 7) (1 / 3) = 0.01).
  { replace (10 ^ 7 * 0.01 ^ 3 / 10 ^ 7) with (0.01 ^ 3) by field. rewrite <- Rpower_pow by lra. rewrite Rpower_mult.
    replace (INR 3 * (1 / 3)) with 1 by (cbn; field). apply Rpower_1. lra. }
  assert (R2 : Rpower (50 * 0.001 ^ 3 / 50) (2 / 3) = 0.001 ^ 2).
  { replace (50 * 0.001 ^ 3 / 50) with (0.001 ^ 3) by field. rewrite <- !Rpower_pow by lra. rewrite Rpower_mult.
    f_equal. cbn. field. }
  assert (F : roche_formula 1.4 (1 / 3) (2 / 3) (10 ^ 7 * 0.01 ^ 3) (50 * 0.001 ^ 3) = 1.4 * 0.01 * 0.001 ^ 2).
  { unfold roche_formula. rewrite R1, R2. reflexivity. }
  split; [lra|]. split; [lra|]. split; [rewrite F; lra|]. apply C87_zero; [lra|]. rewrite F. lra.
Qed.
Example C87_nonvacuous : exists k : Z, roche_radius 1.4 (1 / 3) (2 / 3) (10 ^ 7) 50 = IZR k / 1000 /\
  Rabs (roche_radius 1.4 (1 / 3) (2 / 3) (10 ^ 7) 50 - 1.4) <= 0.0005.
Proof.
  destruct (C87_formula 1.4 (1 / 3) (2 / 3) (10 ^ 7) 50) as (k & A & B). exists k. split; [exact A|].
  assert (F : roche_formula 1.4 (1 / 3) (2 / 3) (10 ^ 7) 50 = 1.4).
  { unfold roche_formula. replace (10 ^ 7 / 10 ^ 7) with 1 by field. replace (50 / 50) with 1 by field. unfold Rpower. rewrite ln_1.
    rewrite !Rmult_0_r, exp_0. lra. }
  rewrite F in B. exact B.
Qed.

(** ** C88: truncation at a multiple of the scale radius *)
Lemma nfw_rs C m c z p : expanding C -> exists rhos, NFW_params_physical C m c z (Some p) = Ok (rhos, rn_radius C 200 m z / c, rn_radius C 200 m z).
Proof.
  intros (Hh & _). unfold NFW_params_physical, nfwParam_physical, rn_radius, rN_M, r200_M. cbn [bind fst snd]. eexists.
  do 2 f_equal. f_equal. unfold Rdiv. ring.
Qed.
(** The ratio of the truncation radius to the scale radius is norm (c / c_med)^power; a halo of median concentration has norm;
    the scatter multiplies it and can not make the radius negative. *)
Theorem C88_mean_density : forall C g norm p m z cm c sc, expanding C -> 0 <= z -> 0 < m -> 0 < norm -> 0 < cm -> 0 < c ->
  exists rhos rs r200 rt, NFW_params_physical C m c z (Some false) = Ok (rhos, rs, r200) /\
    mean_density_radius C g norm p m z cm c sc = Ok rt /\ 0 < rs /\ 0 <= rt /\
    (sc <= 0 -> rt / rs = norm * Rpower (c / cm) p /\ (c = cm -> rt = norm * rs)) /\
    (0 < sc -> rt / rs = Rabs (g (norm * Rpower (c / cm) p) (sc * (norm * Rpower (c / cm) p)))).
Proof.
  intros C g norm p m z cm c sc K Hz Hm Hn Hcm Hc. destruct (nfw_rs C m c z false K) as [rhos E].
  destruct (C86_encloses C 200 m z K Hz Hm ltac:(lra)) as [P _].
  assert (Prs : 0 < rn_radius C 200 m z / c) by (apply Rdiv_lt_0_compat; assumption).
  set (mu := norm * Rpower (c / cm) p). assert (Pmu : 0 < mu) by (apply Rmult_lt_0_compat; [exact Hn|apply exp_pos]).
  exists rhos, (rn_radius C 200 m z / c), (rn_radius C 200 m z). unfold mean_density_radius. fold mu. rewrite E. cbn [bind fst snd].
  eexists. split; [reflexivity|]. split; [reflexivity|]. split; [exact Prs|].
  set (rs := rn_radius C 200 m z / c) in *. clearbody rs. destruct (Rltb 0 sc) eqn:L; [apply Rltb_true in L|apply Rltb_false in L].
  - split; [apply Rmult_le_pos; [lra|apply Rabs_pos]|]. split; [lra|]. intros _. field. lra.
  - split; [apply Rmult_le_pos; lra|]. split; [|lra]. intros _. split; [field; lra|]. intros ->. unfold mu.
    replace (cm / cm) with 1 by (field; lra). unfold Rpower. rewrite ln_1, Rmult_0_r, exp_0. ring.
Qed.
(** At fixed mass and redshift the radius grows with the concentration when the power exceeds one, shrinks when it is below one and
    does not depend on it for one. *)
Lemma mean_closed C g norm p m z cm c sc : expanding C -> 0 < cm -> 0 < c -> sc <= 0 ->
  mean_density_radius C g norm p m z cm c sc = Ok (rn_radius C 200 m z * norm / Rpower cm p * Rpower c (p - 1)).
Proof.
  intros K Hcm Hc L. destruct (nfw_rs C m c z false K) as [rhos E]. unfold mean_density_radius. rewrite E. cbn [bind fst snd].
  rewrite (proj2 (Rltb_false _ _)) by exact L. f_equal.
  unfold Rdiv. rewrite <- Rpower_mult_distr by (try apply Rinv_0_lt_compat; assumption).
  unfold Rminus. rewrite Rpower_plus, Rpower_Ropp. rewrite (Rpower_1 c) by exact Hc.
  assert (X : Rpower (/ cm) p = / Rpower cm p). { unfold Rpower. rewrite ln_Rinv by exact Hcm. rewrite <- exp_Ropp. f_equal. ring. }
  rewrite X. ring.
Qed.
Theorem C88_concentration : forall C g norm p m z cm c c' sc rt rt', expanding C -> 0 <= z -> 0 < m -> 0 < norm -> 0 < cm -> 0 < c -> c < c' -> sc <= 0 ->
  mean_density_radius C g norm p m z cm c sc = Ok rt -> mean_density_radius C g norm p m z cm c' sc = Ok rt' ->
  (1 < p -> rt < rt') /\ (p = 1 -> rt = rt') /\ (p < 1 -> rt' < rt).
Proof.
  intros C g norm p m z cm c c' sc rt rt' K Hz Hm Hn Hcm Hc Hcc L. rewrite !mean_closed by (assumption || lra).
  intros E E'. injection E as <-. injection E' as <-.
  destruct (C86_encloses C 200 m z K Hz Hm ltac:(lra)) as [P _].
  assert (Pk : 0 < rn_radius C 200 m z * norm / Rpower cm p) by (apply Rdiv_lt_0_compat; [nra|apply exp_pos]).
  pose proof (ln_increasing c c' Hc Hcc) as Hl.
  split; [|split].
  - intros Hp. apply Rmult_lt_compat_l; [exact Pk|]. unfold Rpower. apply exp_increasing. nra.
  - intros ->. f_equal. unfold Rpower. f_equal. ring.
  - intros Hp. apply Rmult_lt_compat_l; [exact Pk|]. unfold Rpower. apply exp_increasing. nra.
Qed.
(** Multiple_RS: the ratio is tau. *)
Theorem C88_multiple : forall tau rs, rs <> 0 -> multiple_rs_radius tau rs / rs = tau.
Proof. intros. unfold multiple_rs_radius. field. assumption. Qed.
Example C88_nonvacuous : exists rt rt', mean_density_radius lcdm (fun _ _ => 0) 2 3 (10 ^ 8) 0.5 10 8 0 = Ok rt /\
  mean_density_radius lcdm (fun _ _ => 0) 2 3 (10 ^ 8) 0.5 10 16 0 = Ok rt' /\ rt < rt'.
Proof.
  pose proof (proj1 C86_nonvacuous) as K.
  destruct (C88_mean_density lcdm (fun _ _ => 0) 2 3 (10 ^ 8) 0.5 10 8 0 K) as (? & ? & ? & rt & _ & A & _); try lra.
  destruct (C88_mean_density lcdm (fun _ _ => 0) 2 3 (10 ^ 8) 0.5 10 16 0 K) as (? & ? & ? & rt' & _ & A' & _); try lra.
  exists rt, rt'. split; [exact A|]. split; [exact A'|].
  refine (proj1 (C88_concentration lcdm (fun _ _ => 0) 2 3 (10 ^ 8) 0.5 10 8 16 0 rt rt' K _ _ _ _ _ _ _ A A') _); lra.
Qed.

Print Assumptions C86_encloses.
Print Assumptions C86_unique.
Print Assumptions C86_r200.
Print Assumptions C86_monotone.
Print Assumptions C86_batch.
Print Assumptions C86_splashback.
Print Assumptions C86_splashback_matter.
Print Assumptions C86_splashback_refuted.
Print Assumptions C87_formula.
Print Assumptions C87_monotone.
Print Assumptions C87_zero.
Print Assumptions C87_positive_refuted.
Print Assumptions C88_mean_density.
Print Assumptions C88_concentration.
Print Assumptions C88_multiple.
