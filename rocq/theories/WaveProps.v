(** C96: minimum mass of ultra-light dark matter halos. C97: wavelength and amplitude of wave interference. *)
From Verif Require Import Prelude SpaceModel TwoPointModel TwoPointProofs SlopeModel SlopeProps WaveModel.
From Coq Require Import Lra Psatz.
From Coquelicot Require Import Coquelicot.
Local Open Scope R_scope.

(** ** Specification *)
(** matter density parameter of a flat universe with matter and a cosmological constant *)
Definition flat (Om0 : R) (Om : R -> R) : Prop := 0 < Om0 <= 1 /\
  forall z, 0 <= z -> Om z = Om0 * (1 + z) ^ 3 / (Om0 * (1 + z) ^ 3 + (1 - Om0)).
(** virial overdensity of Bryan and Norman relative to the mean matter density, times the cube of the scale factor inverse *)
Definition overdensity (u : R) : R := 18 * PI ^ 2 + 82 * (u - 1) - 39 * (u - 1) ^ 2.

(** ** C96 *)
Lemma overdensity_pos u : 0 < u <= 1 -> 0 < overdensity u.
Proof. intros H. unfold overdensity. pose proof PI2_3_2. assert (3 < PI) by lra. assert (9 < PI ^ 2) by nra. nra. Qed.
Lemma overdensity_incr u v : u <= v -> v <= 1 -> overdensity u <= overdensity v.
Proof. intros. unfold overdensity. nra. Qed.
Lemma flat_range Om0 Om z : flat Om0 Om -> 0 <= z -> 0 < Om z <= 1.
Proof.
  intros [H E] Hz. rewrite E by assumption. assert (0 < (1 + z) ^ 3) by (apply pow_lt; lra). assert (0 < Om0 * (1 + z) ^ 3) by (apply Rmult_lt_0_compat; lra).
  split; [apply Rdiv_lt_0_compat; lra|]. apply Rle_div_l; lra.
Qed.
Lemma zeta_pos Om0 Om z : flat Om0 Om -> 0 <= z -> 0 < zeta Om z.
Proof. intros F Hz. pose proof (flat_range Om0 Om z F Hz). unfold zeta. apply Rdiv_lt_0_compat; [now apply overdensity_pos|lra]. Qed.

Lemma m_min_exp Om0 Om l z : flat Om0 Om -> 0 <= z -> m_min Om l z = exp (1 / 4 * (ln ((1 + z) ^ 3 * zeta Om z) - ln (zeta Om 0))) * Mmin0 l.
Proof.
  intros F Hz. pose proof (zeta_pos Om0 Om z F Hz) as P. pose proof (zeta_pos Om0 Om 0 F ltac:(lra)) as P0. unfold m_min, scale_factor, Rpower. f_equal.
  rewrite <- exp_plus. f_equal. rewrite ln_Rinv by lra. rewrite ln_mult by (try assumption; apply pow_lt; lra). replace (ln (zeta Om z / zeta Om 0)) with (ln (zeta Om z) - ln (zeta Om 0)) by (symmetry; now apply ln_div).
  rewrite <- Rpower_pow by lra. unfold Rpower. rewrite ln_exp. cbn [INR]. field.
Qed.
Lemma Mmin0_pos l : 0 < Mmin0 l.
Proof. unfold Mmin0. apply Rmult_lt_0_compat; [lra|apply exp_pos]. Qed.

(** Today the minimum mass is 4.4e7 (m / 1e-22 eV)^-3/2. *)
Theorem C96_present Om0 Om l : flat Om0 Om -> m_min Om l 0 = 44000000 * Rpower (Rpower 10 l / Rpower 10 (-22)) (- 3 / 2).
Proof.
  intros F. rewrite (m_min_exp Om0) by (try assumption; lra). replace ((1 + 0) ^ 3 * zeta Om 0) with (zeta Om 0) by ring. rewrite Rminus_diag_eq, Rmult_0_r, exp_0, Rmult_1_l by reflexivity.
  unfold Mmin0. do 2 f_equal. unfold Rdiv. rewrite <- Rpower_Ropp, <- Rpower_plus. f_equal. ring.
Qed.

(** A particle 10^d times heavier lowers it by 10^(1.5 d), at every redshift. *)
Theorem C96_particle Om l d z : m_min Om (l + d) z = Rpower 10 (- 3 / 2 * d) * m_min Om l z.
Proof.
  unfold m_min, Mmin0. rewrite !Rpower_mult. replace ((l + d + 22) * (-3 / 2)) with ((l + 22) * (-3 / 2) + -3 / 2 * d) by field. rewrite Rpower_plus. ring.
Qed.

Lemma Rpow_lt3 a b : 0 < a -> a < b -> a ^ 3 < b ^ 3.
Proof. intros P L. assert (0 < (b - a) * (b ^ 2 + a * b + a ^ 2)) by (apply Rmult_lt_0_compat; nra). nra. Qed.

(** In a flat universe it grows with redshift. *)
Theorem C96_redshift Om0 Om l z z' : flat Om0 Om -> 0 <= z -> z < z' -> m_min Om l z < m_min Om l z'.
Proof.
  intros F Hz L. rewrite !(m_min_exp Om0) by (try assumption; lra). apply Rmult_lt_compat_r; [apply Mmin0_pos|]. apply exp_increasing. apply Rmult_lt_compat_l; [lra|].
  apply Rplus_lt_compat_r. apply ln_increasing.
  - apply Rmult_lt_0_compat; [apply pow_lt; lra|]. apply (zeta_pos Om0); assumption.
  - pose proof F as [H E]. assert (Q : forall w, 0 <= w -> (1 + w) ^ 3 * zeta Om w = (Om0 * (1 + w) ^ 3 + (1 - Om0)) / Om0 * overdensity (Om w)).
    { intros w Hw. unfold zeta. fold (overdensity (Om w)). set (p := overdensity (Om w)). clearbody p. rewrite E by assumption.
      assert (0 < (1 + w) ^ 3) by (apply pow_lt; lra). assert (0 < Om0 * (1 + w) ^ 3) by (apply Rmult_lt_0_compat; lra). field. repeat split; try lra. }
    rewrite !Q by lra. assert (C3 : (1 + z) ^ 3 < (1 + z') ^ 3) by (apply Rpow_lt3; lra).
    assert (A : Om0 * (1 + z) ^ 3 < Om0 * (1 + z') ^ 3) by (apply Rmult_lt_compat_l; lra). assert (P3 : 0 < (1 + z) ^ 3) by (apply pow_lt; lra).
    assert (P4 : 0 < Om0 * (1 + z) ^ 3) by (apply Rmult_lt_0_compat; lra).
    assert (OM : Om z <= Om z').
    { rewrite !E by lra. set (u := Om0 * (1 + z) ^ 3) in *. set (v := Om0 * (1 + z') ^ 3) in *. clearbody u v.
      apply Rle_div_l; [lra|]. 
      replace (v / (v + (1 - Om0)) * (u + (1 - Om0))) with (v * (u + (1 - Om0)) / (v + (1 - Om0))) by (field; lra). apply Rle_div_r; nra. }
    pose proof (flat_range Om0 Om z F Hz) as R1. pose proof (flat_range Om0 Om z' F ltac:(lra)) as R2.
    pose proof (overdensity_pos _ R1). pose proof (overdensity_incr _ _ OM ltac:(lra)).
    apply Rlt_le_trans with ((Om0 * (1 + z') ^ 3 + (1 - Om0)) / Om0 * overdensity (Om z)).
    + apply Rmult_lt_compat_r; [assumption|]. apply Rmult_lt_compat_r; [apply Rinv_0_lt_compat; lra|lra].
    + apply Rmult_le_compat_l; [|assumption]. left. apply Rdiv_lt_0_compat; lra.
Qed.

(** The mass used to render is never below the requested floor nor below the physical minimum, and is one of the two. *)
Theorem C96_floor Om l floor z : let m := min_halo_mass Om l floor z in
  floor <= m /\ m_min Om l z <= Rpower 10 m /\ (m = floor \/ Rpower 10 m = m_min Om l z).
Proof.
  cbv zeta. unfold min_halo_mass.
  assert (P : 0 < m_min Om l z) by (unfold m_min; apply Rmult_lt_0_compat; [apply Rmult_lt_0_compat; apply exp_pos|apply Mmin0_pos]).
  assert (L10 : 0 < ln 10) by (rewrite <- ln_1; apply ln_increasing; lra).
  assert (E : Rpower 10 (log10 (m_min Om l z)) = m_min Om l z).
  { unfold Rpower, log10. replace (ln (m_min Om l z) / ln 10 * ln 10) with (ln (m_min Om l z)) by (field; lra). now apply exp_ln. }
  split; [apply Rmax_r|]. split.
  - rewrite <- E at 1. apply Rle_Rpower; [lra|apply Rmax_l].
  - unfold Rmax. destruct (Rle_dec _ _); [now left|right; exact E].
Qed.

(** ** C97 *)
Theorem C97_wavelength l v d k w : k <> 0 -> de_broglie_wavelength l v = Ok w ->
  de_broglie_wavelength (l + d) (k * v) = Ok (w * Rpower 10 (- d) / k).
Proof.
  unfold de_broglie_wavelength. intros Nk. destruct (Reqb v 0) eqn:E; [discriminate|]. apply Reqb_false in E. intros H. injection H as <-.
  assert (N : k * v <> 0) by (now apply Rmult_integral_contrapositive_currified). apply Reqb_false in N. rewrite N. f_equal. rewrite Rpower_plus, Rpower_Ropp.
  assert (0 < Rpower 10 l) by apply exp_pos. assert (0 < Rpower 10 d) by apply exp_pos. field. repeat split; lra.
Qed.
(** a mass of 1e-22 eV at 100 km/s: 1.2 kpc *)
Theorem C97_wavelength_unit : de_broglie_wavelength (-22) 100 = Ok (12 / 10).
Proof.
  unfold de_broglie_wavelength. replace (Reqb 100 0) with false by (symmetry; apply Reqb_false; lra). f_equal. assert (0 < Rpower 10 (-22)) by apply exp_pos. field. lra.
Qed.

Definition along (rhos rs Rein z : R) : R := nfw_density rhos rs (sqrt (Rein ^ 2 + z ^ 2)) ^ 2.
Definition half_chord (r200 Rein : R) : R := sqrt (r200 ^ 2 - Rein ^ 2).

Lemma nfw_density_decr rhos rs a b : 0 < rhos -> 0 < rs -> 0 < a -> a <= b -> 0 < nfw_density rhos rs b <= nfw_density rhos rs a.
Proof.
  intros P1 P2 Pa L. unfold nfw_density. assert (X : 0 < a / rs) by (apply Rdiv_lt_0_compat; lra).
  assert (Y : a / rs <= b / rs) by (apply Rmult_le_compat_r; [left; now apply Rinv_0_lt_compat|lra]). set (x := a / rs) in *. set (y := b / rs) in *. clearbody x y.
  assert (0 < x * (1 + x) ^ 2) by (apply Rmult_lt_0_compat; [assumption|apply pow_lt; lra]).
  assert (x * (1 + x) ^ 2 <= y * (1 + y) ^ 2) by (apply Rmult_le_compat; try lra; [apply pow_le; lra|apply pow_incr; lra]).
  split; [apply Rdiv_lt_0_compat; lra|]. apply Rmult_le_compat_l; [lra|]. apply Rinv_le_contravar; assumption.
Qed.
Lemma hyp_ge a z : 0 < a -> a <= sqrt (a ^ 2 + z ^ 2).
Proof. intros P. rewrite <- (sqrt_pow2 a) at 1 by lra. apply sqrt_le_1; nra. Qed.

Lemma along_continuous rhos rs Rein z : 0 < rs -> 0 < Rein -> continuous (along rhos rs Rein) z.
Proof.
  intros P1 P2. apply (ex_derive_continuous (V:=R_NormedModule)). unfold along, nfw_density. assert (Q : 0 < Rein ^ 2 + z ^ 2) by nra. pose proof (hyp_ge Rein z P2) as H.
  auto_derive. split; [simpl in *; lra|]. split; [lra|]. split; [|trivial].
  assert (X : 0 < sqrt (Rein ^ 2 + z ^ 2) / rs) by (apply Rdiv_lt_0_compat; lra). simpl in *. unfold Rdiv in X. apply Rgt_not_eq. apply Rmult_lt_0_compat; [exact X|]. nra.
Qed.
Lemma along_ex rhos rs Rein a b : 0 < rs -> 0 < Rein -> ex_RInt (along rhos rs Rein) a b.
Proof. intros. apply (ex_RInt_continuous (V:=R_CompleteNormedModule)). intros z _. now apply along_continuous. Qed.

Lemma pds_value Rein rhos rs c : 0 < rs -> 0 < Rein -> Rein <= c * rs ->
  projected_density_squared Rein rhos rs c = Some (2 * RInt (along rhos rs Rein) 0 (half_chord (c * rs) Rein)).
Proof.
  intros P1 P2 L. unfold projected_density_squared. cbv zeta. replace (Rltb _ 0) with false by (symmetry; apply Rltb_false; nra). do 2 f_equal.
  fold (half_chord (c * rs) Rein). apply RInt_ext. intros z _. unfold along, nfw_density. pose proof (hyp_ge Rein z P2) as H.
  assert (X : 0 < sqrt (Rein ^ 2 + z ^ 2) / rs) by (apply Rdiv_lt_0_compat; lra). set (x := sqrt (Rein ^ 2 + z ^ 2) / rs) in *. clearbody x.
  match goal with |- ?a = ?b => change (@eq R a b) end. field. split; lra.
Qed.

(** The amplitude is undefined exactly when the Einstein radius exceeds the virial radius. *)
Theorem C97_defined rhos rs c Rein lam : 0 < c -> 0 < rs -> 0 < Rein -> (delta_sigma rhos rs c Rein lam = None <-> c * rs < Rein).
Proof.
  intros P0 P1 P2. unfold delta_sigma, projected_density_squared. cbv zeta. assert (0 < c * rs) by now apply Rmult_lt_0_compat.
  destruct (Rltb _ 0) eqn:E; [apply Rltb_true in E|apply Rltb_false in E]; split; intros H1; try discriminate; try reflexivity; nra.
Qed.

(** Its square is between sqrt(pi) times the wavelength times the chord times the squared density at the two ends of the chord. *)
Theorem C97_bounds rhos rs c Rein lam : 0 < rhos -> 0 < rs -> 0 < Rein -> Rein <= c * rs -> 0 <= lam ->
  exists d, delta_sigma rhos rs c Rein lam = Some d /\ 0 <= d /\
    let chord := 2 * sqrt ((c * rs) ^ 2 - Rein ^ 2) in
    sqrt PI * lam * chord * nfw_density rhos rs (c * rs) ^ 2 <= d ^ 2 <= sqrt PI * lam * chord * nfw_density rhos rs Rein ^ 2.
Proof.
  intros P1 P2 P3 L Pl. unfold delta_sigma. rewrite pds_value by assumption. eexists. split; [reflexivity|]. split; [apply sqrt_pos|]. cbv zeta. fold (half_chord (c * rs) Rein).
  set (zm := half_chord (c * rs) Rein). assert (Pz : 0 <= zm) by apply sqrt_pos.
  assert (B : zm * nfw_density rhos rs (c * rs) ^ 2 <= RInt (along rhos rs Rein) 0 zm <= zm * nfw_density rhos rs Rein ^ 2).
  { assert (C : forall v, RInt (fun _ => v) 0 zm = zm * v) by (intros; rewrite RInt_const; unfold scal; cbn; unfold mult; cbn; ring).
    rewrite <- !C. split; (apply RInt_le; [exact Pz|try apply ex_RInt_const; try now apply along_ex|try apply ex_RInt_const; try now apply along_ex|]); intros z Hz; unfold along.
    - assert (Hr : sqrt (Rein ^ 2 + z ^ 2) <= c * rs).
      { rewrite <- (sqrt_pow2 (c * rs)) by lra. apply sqrt_le_1; try nra. assert (z ^ 2 <= zm ^ 2) by (apply pow_incr; lra). unfold zm, half_chord in H. rewrite pow2_sqrt in H by nra. lra. }
      pose proof (hyp_ge Rein z P3). destruct (nfw_density_decr rhos rs (sqrt (Rein ^ 2 + z ^ 2)) (c * rs) P1 P2 ltac:(lra) Hr). apply pow_incr. lra.
    - pose proof (hyp_ge Rein z P3). destruct (nfw_density_decr rhos rs Rein _ P1 P2 P3 H). apply pow_incr. lra. }
  assert (SP : 0 < sqrt PI) by (apply sqrt_lt_R0, PI_RGT_0). assert (N0 : 0 <= RInt (along rhos rs Rein) 0 zm).
  { apply Rle_trans with (2 := proj1 B). apply Rmult_le_pos; [assumption|apply pow2_ge_0]. }
  rewrite pow2_sqrt by (apply Rmult_le_pos; [apply Rmult_le_pos; lra|assumption]).
  assert (K : 0 <= sqrt PI * lam) by (apply Rmult_le_pos; lra). destruct B as [B1 B2]. apply (Rmult_le_compat_l _ _ _ K) in B1, B2. split; nra.
Qed.

(** It falls as the Einstein radius grows. *)
Theorem C97_radius rhos rs c Rein Rein' lam d d' : 0 < rhos -> 0 < rs -> 0 < Rein -> Rein <= Rein' -> 0 <= lam ->
  delta_sigma rhos rs c Rein lam = Some d -> delta_sigma rhos rs c Rein' lam = Some d' -> Rein' <= c * rs -> d' <= d.
Proof.
  intros P1 P2 P3 L Pl H H' L'. unfold delta_sigma in *. rewrite pds_value in H, H' by (try assumption; lra). injection H as <-. injection H' as <-.
  assert (SP : 0 < sqrt PI) by (apply sqrt_lt_R0, PI_RGT_0).
  set (zm := half_chord (c * rs) Rein). set (zm' := half_chord (c * rs) Rein'). assert (RR : Rein ^ 2 <= Rein' ^ 2) by (apply pow_incr; lra).
  assert (Z : 0 <= zm' <= zm) by (split; [apply sqrt_pos|unfold zm, zm', half_chord; apply sqrt_le_1_alt; lra]).
  assert (NN : forall z, 0 <= along rhos rs Rein z) by (intros; apply pow2_ge_0).
  assert (I1 : RInt (along rhos rs Rein') 0 zm' <= RInt (along rhos rs Rein) 0 zm').
  { apply RInt_le; [lra|apply along_ex; lra|apply along_ex; lra|]. intros z Hz. unfold along. pose proof (hyp_ge Rein z P3).
    assert (Hs : sqrt (Rein ^ 2 + z ^ 2) <= sqrt (Rein' ^ 2 + z ^ 2)) by (apply sqrt_le_1_alt; assert (Rein ^ 2 <= Rein' ^ 2) by (apply pow_incr; lra); lra). destruct (nfw_density_decr rhos rs (sqrt (Rein ^ 2 + z ^ 2)) _ P1 P2 ltac:(lra) Hs). apply pow_incr. lra. }
  assert (I2 : RInt (along rhos rs Rein) 0 zm' <= RInt (along rhos rs Rein) 0 zm).
  { rewrite <- (RInt_Chasles (V:=R_CompleteNormedModule) (along rhos rs Rein) 0 zm' zm) by (now apply along_ex). 
    assert (0 <= RInt (along rhos rs Rein) zm' zm) by (apply RInt_ge_0; [lra|now apply along_ex|intros; apply NN]).
    change (RInt (along rhos rs Rein) 0 zm' <= RInt (along rhos rs Rein) 0 zm' + RInt (along rhos rs Rein) zm' zm). lra. }
  assert (I0 : 0 <= RInt (along rhos rs Rein') 0 zm') by (apply RInt_ge_0; [lra|apply along_ex; lra|intros; apply pow2_ge_0]).
  apply sqrt_le_1_alt. apply Rmult_le_compat_r; [assumption|]. apply Rmult_le_compat_l; lra.
Qed.

(** It scales with the square root of the wavelength and, in units of the critical density, is the same number per kpc^2. *)
Theorem C97_scaling rhos rs c Rein lam k : 0 <= k ->
  delta_sigma rhos rs c Rein (k * lam) = match delta_sigma rhos rs c Rein lam with Some d => Some (sqrt k * d) | None => None end.
Proof.
  intros Pk. unfold delta_sigma. destruct (projected_density_squared _ _ _ _) as [s|]; [|reflexivity]. f_equal. rewrite <- sqrt_mult_alt by assumption. f_equal. ring.
Qed.
Theorem C97_kappa sigma rhos rs c Rein lam d : sigma <> 0 -> delta_sigma rhos rs c Rein lam = Some d ->
  exists k, delta_kappa sigma rhos rs c Rein lam = Some k /\ k * (sigma / 1000000) = d.
Proof. intros N H. unfold delta_kappa. rewrite H. eexists. split; [reflexivity|]. field. assumption. Qed.

(** Velocity dispersion of an NFW halo: positive, and proportional to rs sqrt(rhos). *)
Definition disp_integrand (t : R) : R := (ln (1 + t) - t / (1 + t)) / (t * (1 + t) ^ 2) / t ^ 2.
Lemma disp_integrand_pos t : 0 < t -> 0 < disp_integrand t.
Proof.
  intros P. unfold disp_integrand. apply Rdiv_lt_0_compat; [|apply pow_lt; lra]. apply Rdiv_lt_0_compat; [|apply Rmult_lt_0_compat; [lra|apply pow_lt; lra]].
  assert (H : ln (/ (1 + t)) < / (1 + t) - 1).
  { assert (Q : 0 < / (1 + t)) by (apply Rinv_0_lt_compat; lra). assert (Q1 : / (1 + t) < 1) by (rewrite <- Rinv_1; apply Rinv_lt_contravar; lra).
    destruct (Rlt_or_le (ln (/ (1 + t))) (/ (1 + t) - 1)) as [G|G]; [exact G|]. exfalso.
    assert (HN : ln (/ (1 + t)) <> 0) by (assert (ln (/ (1 + t)) < ln 1) by (apply ln_increasing; lra); rewrite ln_1 in H; lra).
    pose proof (exp_ineq1 (ln (/ (1 + t))) HN) as E. rewrite exp_ln in E by assumption. lra. }
  rewrite ln_Rinv in H by lra. replace (t / (1 + t)) with (1 - / (1 + t)) by (field; lra). lra.
Qed.
Theorem C97_dispersion_scaling rhos rs c x a b : 0 < a -> 0 < b -> 0 < rhos ->  0 < x ->
  nfw_velocity_dispersion (a * rhos) (b * rs) c x = sqrt a * b * nfw_velocity_dispersion rhos rs c x.
Proof.
  intros Pa Pb Pr Px. unfold nfw_velocity_dispersion. cbv zeta. set (S := simpson _ _).
  replace (sqrt a * b) with (sqrt (a * b ^ 2)) by (rewrite sqrt_mult_alt, sqrt_pow2 by lra; reflexivity). rewrite <- sqrt_mult_alt by nra. f_equal. field. repeat split; lra.
Qed.
Lemma dot_pos ws ys m : List.Forall (fun w => 0 <= w) ws -> (forall y, In y ys -> m <= y) -> List.length ws = List.length ys -> m * rsum ws <= dot ws ys.
Proof.
  revert ys. induction ws as [|w ws IH]; intros [|y ys] F H L; cbn in L; try discriminate; cbn [rsum dot]; [lra|].
  pose proof (Forall_inv F) as W. cbv beta in W. specialize (IH ys (Forall_inv_tail F) ltac:(intros; apply H; now right) ltac:(lia)). specialize (H y (or_introl eq_refl)). 
  assert (m * w <= y * w) by (apply Rmult_le_compat_r; assumption). rewrite Rmult_plus_distr_l. lra.
Qed.
Theorem C97_dispersion_positive rhos rs c x : 0 < rhos -> 0 < rs -> 0 < x -> x < c -> 0 < nfw_velocity_dispersion rhos rs c x.
Proof.
  intros P1 P2 Px L. unfold nfw_velocity_dispersion. cbv zeta. apply sqrt_lt_R0. apply Rdiv_lt_0_compat.
  2:{ apply Rdiv_lt_0_compat; [assumption|]. apply Rmult_lt_0_compat; [lra|apply pow_lt; lra]. }
  pose proof PI_RGT_0. assert (0 < rhos ^ 2) by (apply pow_lt; lra). assert (0 < rs ^ 2) by (apply pow_lt; lra).
  apply Rmult_lt_0_compat; [apply Rmult_lt_0_compat; [apply Rmult_lt_0_compat; [lra|assumption]|assumption]|].
  set (xs := np_linspace x c 150). unfold simpson.
  assert (In_ : forall t, In t xs -> x <= t <= c) by (intros t I; apply (linspace_in x c 150); [lia|assumption|exact I]).
  assert (Ar : arith ((c - x) / INR (150 - 1)) xs) by apply linspace_arith.
  assert (Ph : 0 < (c - x) / INR (150 - 1)) by (apply Rdiv_lt_0_compat; [lra|apply lt_0_INR; lia]).
  assert (Mm : exists m, 0 < m /\ forall y, In y (map disp_integrand xs) -> m <= y).
  { assert (G : forall l, (forall t, In t l -> 0 < disp_integrand t) -> exists m, 0 < m /\ forall y, In y (map disp_integrand l) -> m <= y).
    { induction l as [|t l IH]; intros Hl; [exists 1; split; [lra|easy]|]. destruct IH as (m & Pm & Hm); [intros; apply Hl; now right|].
      exists (Rmin (disp_integrand t) m). split; [apply Rmin_pos; [apply Hl; now left|assumption]|]. intros y [<-|I]; [apply Rmin_l|]. eapply Rle_trans; [apply Rmin_r|now apply Hm]. }
    apply G. intros t I. apply disp_integrand_pos. apply In_ in I. lra. }
  destruct Mm as (m & Pm & Hm). pose proof (dot_pos (simpson_weights xs) (map disp_integrand xs) m (simpson_weights_nonneg _ xs Ph Ar) Hm ltac:(rewrite simpson_weights_length, map_length; reflexivity)) as B.
  assert (Ic : incr xs) by (apply (arith_incr _ _ Ph Ar)).
  rewrite simpson_weights_sum in B by exact Ic. unfold xs in B at 1 2. rewrite linspace_last, linspace_hd in B by lia.
  eapply Rlt_le_trans; [|exact B]. apply Rmult_lt_0_compat; lra.
Qed.

(* ---------- non-vacuity ---------- *)
Example C96_nonvacuous : flat (3 / 10) (fun z => 3 / 10 * (1 + z) ^ 3 / (3 / 10 * (1 + z) ^ 3 + (1 - 3 / 10))).
Proof. split; [lra|reflexivity]. Qed.
Example C97_nonvacuous : 0 < 1 /\ 0 < 20 /\ 0 < 6 /\ 6 <= 10 * 20 /\ exists w, de_broglie_wavelength (-21) 200 = Ok w /\ 0 < w.
Proof.
  repeat (split; [lra|]). unfold de_broglie_wavelength. replace (Reqb 200 0) with false by (symmetry; apply Reqb_false; lra). eexists. split; [reflexivity|].
  repeat apply Rmult_lt_0_compat; try lra; try apply exp_pos. apply Rinv_0_lt_compat, exp_pos.
Qed.

Print Assumptions C96_present.
Print Assumptions C96_particle.
Print Assumptions C96_redshift.
Print Assumptions C96_floor.
Print Assumptions C97_wavelength.
Print Assumptions C97_wavelength_unit.
Print Assumptions C97_defined.
Print Assumptions C97_bounds.
Print Assumptions C97_radius.
Print Assumptions C97_scaling.
Print Assumptions C97_kappa.
Print Assumptions C97_dispersion_scaling.
Print Assumptions C97_dispersion_positive.
