(** C60: pseudo-Jaffe halos; C78: cored power-law halos. *)
From Verif Require Import Prelude TnfwSpec TnfwProofs NfwModel NfwSpec NfwProofs NfwProps SidmModel SidmProps CompositeModel CompositeProps ProfileModel.
From Coquelicot Require Import Coquelicot.
Local Open Scope string_scope.
Local Open Scope R_scope.
Local Open Scope list_scope.

(** ** Specification *)
(** The pseudo-Jaffe density with central density [rho0], core radius [ra] and transition radius [rs]. *)
Definition pj_density (rho0 ra rs r : R) : R := rho0 / ((1 + (r / ra) ^ 2) * (1 + (r / rs) ^ 2)).
(** [Sigma] is the central surface density of the spherical density [rho]: twice its integral from the centre outwards. *)
Definition central_surface_density (rho : R -> R) (Sigma : R) : Prop :=
  filterlim (fun b => 2 * RInt rho 0 b) (Rbar_locally p_infty) (locally Sigma).
(** The cored power law of logarithmic slope -gamma outside the core radius. *)
Definition cored_plaw (rho0 r_core gamma r : R) : R := rho0 * Rpower (r_core ^ 2 / (r_core ^ 2 + r ^ 2)) (gamma / 2).

(** ** Integrals *)
Local Ltac pos := first [assumption | lra | lazymatch goal with |- 0 < _ * _ => apply Rmult_lt_0_compat; pos | |- 0 < _ / _ => apply Rdiv_lt_0_compat; pos | |- 0 < _ ^ _ => apply pow_lt; pos end].
Local Ltac eqR := lazymatch goal with |- ?a = ?b => change (@eq R a b) end.
Lemma ftc (F f : R -> R) a b : (forall x, is_derive F x (f x)) -> (forall x, ex_derive f x) -> is_RInt f a b (F b - F a).
Proof.
  intros D C. apply (is_RInt_derive (V := R_CompleteNormedModule) F f); intros x _; [apply D|]. apply (ex_derive_continuous (V := R_NormedModule)), C.
Qed.
Lemma pj_den a b r : 0 < a -> 0 < b -> 0 < (1 + (r / a) ^ 2) * (1 + (r / b) ^ 2).
Proof. intros A B. pose proof (pow2_ge_0 (r / a)). pose proof (pow2_ge_0 (r / b)). apply Rmult_lt_0_compat; lra. Qed.
Lemma sq_pos a r : 0 < a -> 0 < a ^ 2 + r ^ 2.
Proof. intros A. pose proof (pow2_ge_0 r). assert (0 < a ^ 2) by (apply pow_lt; exact A). lra. Qed.
Lemma sq_ne a b : 0 < a -> 0 < b -> a <> b -> a ^ 2 - b ^ 2 <> 0.
Proof. intros A B N E. apply N. apply Rsqr_inj; [lra|lra|]. unfold Rsqr. lra. Qed.
Lemma pj_form rho0 a b r : 0 < a -> 0 < b -> pj_density rho0 a b r = rho0 * a ^ 2 * b ^ 2 / ((a ^ 2 + r ^ 2) * (b ^ 2 + r ^ 2)).
Proof.
  intros A B. unfold pj_density. pose proof (sq_pos a r A). pose proof (sq_pos b r B).
  replace ((1 + (r / a) ^ 2) * (1 + (r / b) ^ 2)) with ((a ^ 2 + r ^ 2) * (b ^ 2 + r ^ 2) / (a ^ 2 * b ^ 2)) by (field; lra).
  field. repeat split; lra.
Qed.
Lemma atan_derive a r : 0 < a -> is_derive (fun r => atan (r / a)) r (a / (a ^ 2 + r ^ 2)).
Proof.
  intros A. pose proof (sq_pos a r A).
  evar_last; [apply (is_derive_comp atan (fun r => r / a)); [apply is_derive_atan|auto_derive; [lra|reflexivity]]|].
  unfold scal, mult; cbn. unfold mult; cbn. unfold Rsqr. field. split; [|lra]. intro E. ring_simplify in E. nra.
Qed.
Lemma pj_mass rho0 a b c : 0 < a -> 0 < b -> a <> b ->
  sphere_mass (pj_density rho0 a b) c = 4 * PI * rho0 * a ^ 2 * b ^ 2 * ((a * atan (c / a) - b * atan (c / b)) / (a ^ 2 - b ^ 2)).
Proof.
  intros A B N. assert (D : a ^ 2 - b ^ 2 <> 0) by (apply sq_ne; assumption).
  unfold sphere_mass. apply is_RInt_unique.
  set (K := 4 * PI * rho0 * a ^ 2 * b ^ 2 / (a ^ 2 - b ^ 2)).
  set (F := fun r => K * (a * atan (r / a) - b * atan (r / b))).
  apply (is_RInt_ext (fun r => K * (a * (a / (a ^ 2 + r ^ 2)) - b * (b / (b ^ 2 + r ^ 2))))).
  { intros r _. rewrite pj_form by assumption. pose proof (sq_pos a r A). pose proof (sq_pos b r B). unfold K. eqR. field. repeat split; lra. }
  evar_last; [apply (ftc F)|].
  - intros x. unfold F. apply is_derive_scal. apply (is_derive_minus (fun r => a * atan (r / a)) (fun r => b * atan (r / b))); apply is_derive_scal; apply atan_derive; assumption.
  - intros x. pose proof (sq_pos a x A). pose proof (sq_pos b x B). auto_derive. repeat split; lra.
  - unfold F. replace (0 / a) with 0 by (field; lra). replace (0 / b) with 0 by (field; lra). rewrite atan_0. unfold K. eqR. field. exact D.
Qed.
Lemma pj_mass_pos rho0 a b c : 0 < rho0 -> 0 < a -> 0 < b -> 0 < c -> 0 < sphere_mass (pj_density rho0 a b) c.
Proof.
  intros P A B Hc. unfold sphere_mass. apply RInt_gt_0; [exact Hc| |].
  - intros x [X _]. pose proof PI_RGT_0. pose proof (pj_den a b x A B). unfold pj_density. apply Rmult_lt_0_compat; [|apply Rdiv_lt_0_compat; assumption].
    assert (0 < x ^ 2) by (apply pow_lt; exact X). nra.
  - intros x _. apply (ex_derive_continuous (V := R_NormedModule)). unfold pj_density. pose proof (pj_den a b x A B). auto_derive.
    assert (E : (1 + x / a * (x / a * 1)) * (1 + x / b * (x / b * 1)) = (1 + (x / a) ^ 2) * (1 + (x / b) ^ 2)) by ring.
    repeat split; try lra. 
Qed.
Lemma atan_lim a : 0 < a -> filterlim (fun x => atan (x / a)) (Rbar_locally p_infty) (locally (PI / 2)).
Proof.
  intros A P [eps H]. pose proof PI_RGT_0. set (e := Rmin eps (PI / 2)).
  assert (e1 : 0 < e <= PI / 2) by (unfold e; pose proof (cond_pos eps); unfold Rmin; destruct (Rle_dec eps (PI / 2)); lra).
  assert (e2 : e <= eps) by (unfold e; apply Rmin_l). clearbody e.
  exists (a * tan (PI / 2 - e)). intros x X. apply H. apply Rabs_lt_between.
  assert (Y : tan (PI / 2 - e) < x / a). { apply (Rmult_lt_reg_l a); [exact A|]. replace (a * (x / a)) with x by (field; lra). exact X. }
  pose proof (atan_bound (x / a)). pose proof (atan_increasing _ _ Y) as I. rewrite atan_tan in I by lra.
  unfold minus, plus, opp; cbn. lra.
Qed.
Lemma pj_central rho0 a b : 0 < a -> 0 < b -> a <> b -> central_surface_density (pj_density rho0 a b) (PI * rho0 * a * b / (b + a)).
Proof.
  intros A B N. assert (D : b ^ 2 - a ^ 2 <> 0) by (apply sq_ne; auto).
  set (K := rho0 * a ^ 2 * b ^ 2 / (b ^ 2 - a ^ 2)).
  assert (I : forall c, RInt (pj_density rho0 a b) 0 c = K * (/ a * atan (c / a) - / b * atan (c / b))).
  { intros c. apply is_RInt_unique.
    set (F := fun r => K * (/ a * atan (r / a) - / b * atan (r / b))).
    apply (is_RInt_ext (fun r => K * (/ a * (a / (a ^ 2 + r ^ 2)) - / b * (b / (b ^ 2 + r ^ 2))))).
    { intros r _. rewrite pj_form by assumption. pose proof (sq_pos a r A). pose proof (sq_pos b r B). unfold K. eqR. field. repeat split; lra. }
    evar_last; [apply (ftc F)|].
    - intros x. unfold F. apply is_derive_scal. apply (is_derive_minus (fun r => / a * atan (r / a)) (fun r => / b * atan (r / b))); apply is_derive_scal; apply atan_derive; assumption.
    - intros x. pose proof (sq_pos a x A). pose proof (sq_pos b x B). auto_derive. repeat split; lra.
    - unfold F. replace (0 / a) with 0 by (field; lra). replace (0 / b) with 0 by (field; lra). rewrite atan_0. eqR. ring. }
  unfold central_surface_density. apply (filterlim_ext (fun c => 2 * (K * (/ a * atan (c / a) - / b * atan (c / b))))); [intros c; rewrite I; reflexivity|].
  replace (PI * rho0 * a * b / (b + a)) with (2 * (K * (/ a * (PI / 2) - / b * (PI / 2)))) by (unfold K; field; repeat split; lra).
  assert (L : filterlim (fun c => (atan (c / a), atan (c / b))) (Rbar_locally p_infty) (filter_prod (locally (PI / 2)) (locally (PI / 2)))).
  { apply filterlim_pair; apply atan_lim; assumption. }
  refine (filterlim_comp _ _ _ (fun c => (atan (c / a), atan (c / b))) (fun u => 2 * (K * (/ a * fst u - / b * snd u))) _ _ _ L _).
  assert (C : continuous (fun u : R * R => 2 * (K * (/ a * fst u - / b * snd u))) (PI / 2, PI / 2)).
  { apply (continuous_scal_r (K := R_AbsRing) (V := R_NormedModule) 2 (fun u : R * R => K * (/ a * fst u - / b * snd u))).
    apply (continuous_scal_r (K := R_AbsRing) (V := R_NormedModule) K (fun u : R * R => / a * fst u - / b * snd u)).
    apply (continuous_minus (V := R_NormedModule) (fun u : R * R => / a * fst u) (fun u : R * R => / b * snd u)).
    - apply (continuous_scal_r (K := R_AbsRing) (V := R_NormedModule) (/ a) (fun u : R * R => fst u)). apply continuous_fst.
    - apply (continuous_scal_r (K := R_AbsRing) (V := R_NormedModule) (/ b) (fun u : R * R => snd u)). apply continuous_snd. }
  intros P HP. specialize (C P HP). unfold filtermap in *. destruct C as [e C]. exists (fun x => ball (PI / 2) e x) (fun x => ball (PI / 2) e x); [apply locally_ball|apply locally_ball|].
  intros x y X Y. apply C. split; assumption.
Qed.

(** ** Theorems *)
(** _rho: the central density for which the profile has the mass [m] inside the matching radius, and the only one. *)
Theorem C60_central_density : forall m rs ra R0, 0 < m -> 0 < rs -> 0 < ra -> ra <> rs -> 0 < R0 ->
  exists rho0, pj_rho m rs ra R0 = Some rho0 /\ 0 < rho0 /\ sphere_mass (pj_density rho0 ra rs) R0 = m /\
    forall rho', sphere_mass (pj_density rho' ra rs) R0 = m -> rho' = rho0.
Proof.
  intros m rs ra R0 Hm A B N HR. unfold pj_rho. assert (D : ra ^ 2 - rs ^ 2 <> 0) by (apply sq_ne; assumption).
  assert (EB : Reqb (ra ^ 2 - rs ^ 2) 0 = false) by (apply Reqb_false; exact D). rewrite EB.
  set (f := (ra * atan (R0 / ra) - rs * atan (R0 / rs)) / (ra ^ 2 - rs ^ 2)).
  pose proof PI_RGT_0 as PP. assert (A2 : 0 < rs ^ 2) by (apply pow_lt; exact A). assert (B2 : 0 < ra ^ 2) by (apply pow_lt; exact B).
  assert (Pf : 0 < f).
  { pose proof (pj_mass_pos 1 ra rs R0 Rlt_0_1 B A HR) as M. rewrite (pj_mass 1 ra rs R0 B A N) in M. fold f in M.
    assert (K : 0 < 4 * PI * 1 * ra ^ 2 * rs ^ 2) by pos.
    apply (Rmult_lt_reg_l (4 * PI * 1 * ra ^ 2 * rs ^ 2)); [exact K|]. rewrite Rmult_0_r. exact M. }
  assert (K : 0 < 4 * PI * ra ^ 2 * rs ^ 2 * f) by pos.
  eexists. split; [reflexivity|]. split; [apply Rdiv_lt_0_compat; assumption|].
  assert (E : forall rho, sphere_mass (pj_density rho ra rs) R0 = rho * (4 * PI * ra ^ 2 * rs ^ 2 * f)).
  { intros rho. rewrite (pj_mass rho ra rs R0 B A N). fold f. ring. }
  split; [rewrite E; field; repeat split; lra|]. intros rho' E'. rewrite E in E'. rewrite <- E'. field. repeat split; lra.
Qed.
Example C60_central_density_nonvacuous : exists rho0, pj_rho (10 ^ 8) 2 0.02 30 = Some rho0 /\ 0 < rho0 /\ sphere_mass (pj_density rho0 0.02 2) 30 = 10 ^ 8.
Proof. destruct (C60_central_density (10 ^ 8) 2 0.02 30) as (r & E & P & M & _); try lra. exists r. repeat split; assumption. Qed.

Lemma rho_units m a b u w k : 0 < a -> 0 < b -> 0 < k -> 0 < PI -> a * u - b * w <> 0 -> a ^ 2 - b ^ 2 <> 0 ->
  m / (4 * PI * (a * (1 / k)) ^ 2 * (b * (1 / k)) ^ 2 * ((a * (1 / k) * u - b * (1 / k) * w) / ((a * (1 / k)) ^ 2 - (b * (1 / k)) ^ 2)))
  = m / (4 * PI * a ^ 2 * b ^ 2 * ((a * u - b * w) / (a ^ 2 - b ^ 2))) * k ^ 3.
Proof.
  intros A B K P N D.
  replace (a * (1 / k) * u - b * (1 / k) * w) with ((a * u - b * w) * (1 / k)) by ring.
  replace ((a * (1 / k)) ^ 2 - (b * (1 / k)) ^ 2) with ((a ^ 2 - b ^ 2) * (1 / k) ^ 2) by ring.
  set (x := a * u - b * w) in *. set (y := a ^ 2 - b ^ 2) in *. clearbody x y. field. repeat split; lra.
Qed.
(** The lens model of the halo: there is a pseudo-Jaffe density with core and transition radii Ra and Rs (converted to kpc),
    r_s being the scale radius of the NFW halo and Ra a hundredth of it, that contains the halo mass inside r_200 and whose
    central surface density is sigma0 times the critical surface density. *)
Theorem C60_lens_model : forall C zs m c z ze rhos rs r200, expanding C -> distances_ok C z zs -> 0 < co_kpc C z -> 0 <= ze -> 0 < m -> 0 < c ->
  describes_halo false m c (critical_kpc C ze) rhos rs r200 ->
  exists Ra Rs sigma0 rho0, pj_lens C zs m c z ze = Ok (Ra, Rs, sigma0) /\ Rs * co_kpc C z = rs /\ Ra * co_kpc C z = 0.01 * rs /\ 0 < rho0 /\
    sphere_mass (pj_density rho0 (Ra * co_kpc C z) (Rs * co_kpc C z)) r200 = m /\
    central_surface_density (pj_density rho0 (Ra * co_kpc C z) (Rs * co_kpc C z)) (sigma0 * (get_sigma_crit_lensing C z zs / 1000 ^ 2)).
Proof.
  intros C zs m c z ze rhos rs r2 K D Hk Hz Hm Hc H. pose proof (dh_rs _ _ _ _ _ _ _ H) as Prs. pose proof (dh_conc _ _ _ _ _ _ _ H) as E2.
  destruct (C55_nfw_parameters C m c ze false K Hz Hm Hc) as (rhos' & rs' & r2' & EN & _ & H').
  destruct (describes_unique _ _ _ _ _ _ _ _ _ _ Hm Hc H H') as (? & ? & ?). subst rhos' rs' r2'. clear H'.
  unfold pj_lens. rewrite EN. cbn [bind fst snd]. set (k := co_kpc C z) in *.
  assert (MN : 4 * PI * rs ^ 3 * rhos * fx (r2 / rs) = m).
  { pose proof (dh_mass _ _ _ _ _ _ _ H) as M. cbn [halo_density] in M. rewrite E2 in M. rewrite (proj2 (nfw_mass rhos rs c Prs ltac:(lra))) in M.
    change (Func0 c) with (fx c) in M. rewrite E2. replace (c * rs / rs) with c by (field; lra). rewrite <- M. ring. }
  rewrite MN. assert (P2 : 0 < r2) by (rewrite E2; apply Rmult_lt_0_compat; assumption).
  assert (Prsa : 0 < rs * (1 / k)) by (apply Rmult_lt_0_compat; [exact Prs|apply Rdiv_lt_0_compat; lra]).
  destruct (C60_central_density m (rs * (1 / k)) (0.01 * rs * (1 / k)) (r2 * (1 / k))) as (rho & E & Pr & M & _).
  { exact Hm. } { exact Prsa. } { lra. } { intro E. lra. } { apply Rmult_lt_0_compat; [exact P2|apply Rdiv_lt_0_compat; lra]. }
  rewrite E. pose proof (sigma_pos C z zs D) as S. set (sg := get_sigma_crit_lensing C z zs) in *.
  destruct (C60_central_density m rs (0.01 * rs) r2 Hm Prs ltac:(lra) ltac:(lra) P2) as (rho0 & E0 & Pr0 & M0 & _).
  assert (ER : rho = rho0 * k ^ 3).
  { unfold pj_rho in E, E0.
    assert (B1 : Reqb ((0.01 * rs) ^ 2 - rs ^ 2) 0 = false) by (apply Reqb_false, sq_ne; lra). rewrite B1 in E0.
    assert (B2 : Reqb ((0.01 * rs * (1 / k)) ^ 2 - (rs * (1 / k)) ^ 2) 0 = false) by (apply Reqb_false, sq_ne; lra). rewrite B2 in E.
    assert (NZ : 0.01 * rs * atan (r2 / (0.01 * rs)) - rs * atan (r2 / rs) <> 0).
    { rewrite (pj_mass rho0 (0.01 * rs) rs r2) in M0 by lra. intro Z. rewrite Z in M0. unfold Rdiv in M0. rewrite Rmult_0_l, Rmult_0_r in M0. lra. }
    injection E as <-. injection E0 as <-.
    replace (r2 * (1 / k) / (0.01 * rs * (1 / k))) with (r2 / (0.01 * rs)) by (field; lra). replace (r2 * (1 / k) / (rs * (1 / k))) with (r2 / rs) by (field; lra).
    set (u := atan (r2 / (0.01 * rs))) in *. set (w := atan (r2 / rs)) in *.
    pose proof PI_RGT_0 as PP.
    pose proof (sq_ne (0.01 * rs) rs ltac:(lra) Prs ltac:(lra)) as NQ. assert (Pa : 0 < 0.01 * rs) by lra.
    set (a := 0.01 * rs) in *. clearbody a u w k. clear - NZ NQ Pa Prs Hk PP. apply rho_units; try assumption; lra. }
  eexists _, _, _, rho0. split; [reflexivity|].
  replace (rs * (1 / k) * k) with rs by (field; lra). replace (0.01 * rs * (1 / k) * k) with (0.01 * rs) by (field; lra).
  split; [reflexivity|]. split; [reflexivity|]. split; [exact Pr0|]. split; [exact M0|].
  pose proof (pj_central rho0 (0.01 * rs) rs ltac:(lra) Prs ltac:(lra)) as CS.
  replace (rho2sigma rho (0.01 * rs * (1 / k)) (rs * (1 / k)) * / (sg * 0.001 ^ 2 / (1 / k) ^ 2) * (sg / 1000 ^ 2)) with (PI * rho0 * (0.01 * rs) * rs / (rs + 0.01 * rs)); [exact CS|].
  rewrite ER. unfold rho2sigma. 
  assert (Pa : 0 < 0.01 * rs) by lra. set (a := 0.01 * rs) in *. clearbody a sg k.
  replace (sg * 0.001 ^ 2 / (1 / k) ^ 2) with (sg / 1000 ^ 2 * k ^ 2) by (replace 0.001 with (/ 1000) by lra; field; lra). field. repeat split; lra.
Qed.
Example C60_lens_model_nonvacuous : exists rhos rs r200, describes_halo false (10 ^ 9) 12 (critical_kpc demo 0.5) rhos rs r200 /\ distances_ok demo 0.5 2 /\ expanding demo.
Proof.
  destruct (C55_nfw_parameters demo (10 ^ 9) 12 0.5 false demo_expanding ltac:(lra) ltac:(lra) ltac:(lra)) as (x & y & w & _ & _ & H).
  exists x, y, w. split; [exact H|]. split; [exact demo_distances|exact demo_expanding].
Qed.

(** params_physical passes the core radius twice: the entry 'rho' is 0 / 0 for every halo. *)
Theorem C60_params_physical_refuted : forall C m c c' ze, expanding C -> 0 <= ze -> 0 < m -> 0 < c -> pj_params_rho C m c c' ze = Ok None.
Proof.
  intros C m c c' ze K Hz Hm Hc. destruct (C55_nfw_parameters C m c ze false K Hz Hm Hc) as (rhos & rs & r2 & EN & _ & H).
  unfold pj_params_rho. rewrite EN. cbn [bind fst snd]. unfold pj_rho.
  assert (B : Reqb ((0.01 * rs) ^ 2 - (0.01 * rs) ^ 2) 0 = true) by (apply Reqb_true; lra). rewrite B. reflexivity.
Qed.
Example C60_params_physical_nonvacuous : expanding demo.
Proof. exact demo_expanding. Qed.

(** ** C78: cored power law *)
(** lenstronomy's SPLCORE.mass_3d is the mass of the cored power law. *)
Definition is_cored_mass (mass_3d : R -> R -> R -> R -> R) : Prop :=
  forall r rho0 rc g, 0 < rc -> 0 < r -> mass_3d r rho0 rc g = sphere_mass (cored_plaw rho0 rc g) r.
Lemma cored_cont rho0 rc g x : 0 < rc -> continuous (fun r => 4 * PI * r ^ 2 * cored_plaw rho0 rc g r) x.
Proof.
  intros P. apply (ex_derive_continuous (V := R_NormedModule)). unfold cored_plaw, Rpower. pose proof (sq_pos rc x P) as S.
  assert (Q : 0 < rc ^ 2) by (apply pow_lt; exact P). auto_derive.
  assert (E : rc * (rc * 1) + x * (x * 1) = rc ^ 2 + x ^ 2) by ring. rewrite E. repeat split; try lra.
  replace (rc * (rc * 1)) with (rc ^ 2) by ring. apply Rdiv_lt_0_compat; assumption.
Qed.
Lemma cored_pos rho0 rc g r : 0 < rho0 -> 0 < rc -> 0 < r -> 0 < sphere_mass (cored_plaw rho0 rc g) r.
Proof.
  intros P Q Hr. unfold sphere_mass. apply RInt_gt_0; [exact Hr| |].
  - intros x [X _]. pose proof PI_RGT_0. assert (0 < x ^ 2) by (apply pow_lt; exact X). unfold cored_plaw, Rpower.
    pose proof (exp_pos (g / 2 * ln (rc ^ 2 / (rc ^ 2 + x ^ 2)))). pos.
  - intros x _. apply cored_cont. exact Q.
Qed.
Lemma cored_scal c rho0 rc g r : 0 < rc -> sphere_mass (cored_plaw (c * rho0) rc g) r = c * sphere_mass (cored_plaw rho0 rc g) r.
Proof.
  intros P. unfold sphere_mass. rewrite <- (RInt_scal (V := R_CompleteNormedModule) (fun x => 4 * PI * x ^ 2 * cored_plaw rho0 rc g x)).
  - apply RInt_ext. intros x _. unfold cored_plaw, scal; cbn. unfold mult; cbn. eqR. ring.
  - apply (ex_RInt_continuous (V := R_CompleteNormedModule)). intros x _. apply cored_cont. exact P.
Qed.
(** Changing the unit of length by [k]. *)
Lemma cored_units rho0 rc g r k : 0 < k -> 0 < rc -> sphere_mass (cored_plaw rho0 (rc * k) g) (r * k) = k ^ 3 * sphere_mass (cored_plaw rho0 rc g) r.
Proof.
  intros K P. unfold sphere_mass.
  rewrite <- (RInt_scal (V := R_CompleteNormedModule) (fun x => 4 * PI * x ^ 2 * cored_plaw rho0 rc g x))
    by (apply (ex_RInt_continuous (V := R_CompleteNormedModule)); intros x _; apply cored_cont; exact P).
  pose proof (RInt_comp_lin (V := R_CompleteNormedModule) (fun x => 4 * PI * x ^ 2 * cored_plaw rho0 (rc * k) g x) k 0 0 r) as L.
  replace (k * 0 + 0) with 0 in L by ring. replace (k * r + 0) with (r * k) in L by ring.
  rewrite <- L.
  - apply RInt_ext. intros x _. pose proof (sq_pos rc x P). assert (0 < rc ^ 2) by (apply pow_lt; exact P).
    unfold scal; cbn. unfold mult; cbn. eqR. unfold cored_plaw.
    replace ((rc * k) ^ 2 / ((rc * k) ^ 2 + (k * x + 0) ^ 2)) with (rc ^ 2 / (rc ^ 2 + x ^ 2)) by (replace ((rc * k) ^ 2 + (k * x + 0) ^ 2) with (k ^ 2 * (rc ^ 2 + x ^ 2)) by ring; field; split; lra).
    set (p := Rpower _ _). ring.
  - apply (ex_RInt_continuous (V := R_CompleteNormedModule)). intros x _. apply cored_cont. pos.
Qed.

(** The lens model contains, inside x_match scale radii, exactly the mass of the NFW halo there, and its core radius is
    x_core_halo NFW scale radii.  sigma0 / r_core is the central density of the lens model in critical units. *)
Theorem C78_mass_matched : forall C mass_3d zs m c z ze gamma xc xm rhos rs r200,
  is_cored_mass mass_3d -> expanding C -> distances_ok C z zs -> 0 < co_kpc C z -> 0 <= ze -> 0 < m -> 0 < c -> 0 < xc ->
  let x := x_match xm c in 0 < x -> describes_halo false m c (critical_kpc C ze) rhos rs r200 ->
  exists sigma0 r_core, plaw_lens C mass_3d zs m c z ze gamma xc xm = Ok (sigma0, r_core) /\ 0 < sigma0 /\ r_core * co_kpc C z = xc * rs /\
    sphere_mass (cored_plaw (sigma0 / (r_core * co_kpc C z) * (get_sigma_crit_lensing C z zs / 1000 ^ 2)) (r_core * co_kpc C z) gamma) (x * rs)
    = sphere_mass (rho_nfw rhos rs) (x * rs).
Proof.
  intros C M3 zs m c z ze g xc xm rhos rs r2 CM K D Hk Hz Hm Hc Hxc x Hx H. pose proof (dh_rs _ _ _ _ _ _ _ H) as Prs.
  destruct (C55_nfw_parameters C m c ze false K Hz Hm Hc) as (rhos' & rs' & r2' & EN & Prh & H').
  destruct (describes_unique _ _ _ _ _ _ _ _ _ _ Hm Hc H H') as (? & ? & ?). subst rhos' rs' r2'. clear H'.
  unfold plaw_lens. rewrite EN. cbn [bind fst snd]. fold x. set (k := co_kpc C z) in *. pose proof (sigma_pos C z zs D) as S. set (sg := get_sigma_crit_lensing C z zs) in *.
  assert (EC : xc * (x * rs / k) / x = xc * rs / k) by (field; split; lra). rewrite EC.
  assert (Pc : 0 < xc * rs / k) by pos. assert (Pm : 0 < x * rs / k) by pos. assert (Ps : 0 < sg * (0.001 * k) ^ 2) by pos.
  rewrite CM by assumption. set (mm := 4 * PI * rs ^ 3 * rhos * fx x).
  assert (Emm : sphere_mass (rho_nfw rhos rs) (x * rs) = mm).
  { rewrite (proj2 (nfw_mass rhos rs x Prs ltac:(lra))). change (Func0 x) with (fx x). unfold mm. ring. }
  rewrite Emm. clear Emm.
  assert (Pmm : 0 < mm). { unfold mm. pose proof PI_RGT_0. assert (0 < fx x) by (apply (Fp_pos false x); lra). pos. }
  clearbody mm. replace (sg * (0.001 * k) ^ 2) with (sg * (0.001 * k) ^ 2 * 1) by ring. rewrite cored_scal by exact Pc.
  pose proof (cored_pos 1 (xc * rs / k) g (x * rs / k) Rlt_0_1 Pc Pm) as PM. set (I := sphere_mass (cored_plaw 1 (xc * rs / k) g) (x * rs / k)) in *.
  eexists _, _. split; [reflexivity|]. split; [pos|]. split; [field; lra|].
  replace (xc * rs / k * k) with (xc * rs) by (field; lra).
  set (rho := mm / (sg * (0.001 * k) ^ 2 * I) * (xc * rs / k) / (xc * rs) * (sg / 1000 ^ 2)).
  replace rho with (rho * 1) by ring. rewrite cored_scal by pos.
  replace (xc * rs) with (xc * rs / k * k) by (field; lra). replace (x * rs) with (x * rs / k * k) by (field; lra). rewrite cored_units by assumption. fold I.
  unfold rho. replace ((0.001 * k) ^ 2) with (k ^ 2 / 1000 ^ 2) by (replace 0.001 with (/ 1000) by lra; field; lra). clearbody I. field. repeat split; lra.
Qed.
Example C78_mass_matched_nonvacuous : exists M3, is_cored_mass M3 /\ exists rhos rs r200, describes_halo false (10 ^ 9) 12 (critical_kpc demo 0.5) rhos rs r200.
Proof.
  exists (fun r rho0 rc g => sphere_mass (cored_plaw rho0 rc g) r). split; [intros r rho0 rc g _ _; reflexivity|].
  destruct (C55_nfw_parameters demo (10 ^ 9) 12 0.5 false demo_expanding ltac:(lra) ltac:(lra) ltac:(lra)) as (a & b & w & _ & _ & H). exists a, b, w. exact H.
Qed.

Print Assumptions C60_central_density.
Print Assumptions C60_lens_model.
Print Assumptions C60_params_physical_refuted.
Print Assumptions C78_mass_matched.
