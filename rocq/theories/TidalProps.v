(** C52-C54: tidal tracks, masses of truncated profiles, and the inversion of the total mass. *)
From Coq Require Import Psatz.
From Verif Require Import Prelude MassFnModel MassFnProofs InfallModel TidalModel TidalSpec TidalProofs TidalInt TidalTotal TidalHalf2 TidalTable TidalStep.
From Coquelicot Require Import Coquelicot.
Local Open Scope R_scope.
Local Open Scope list_scope.

(** * C52 *)
(** For every calibrated profile the normalisation exists for every bound mass fraction x > 0, lies in (0, 1], is 1 from a
    threshold on (a threshold not above 1), equals the fitted track with the tabulated coefficients below it, increases strictly
    there, and tends to 0 with x.  For any other profile the function raises. *)
Theorem C52_track alpha beta gamma delta :
  (supported alpha beta gamma delta -> exists (D E threshold : R) (f : R -> R),
     In (alpha, beta, gamma, delta, D, E) track_table /\ 0 < threshold <= 1
     /\ (forall x, f_t_Du_2024 x alpha beta gamma delta = Ok (f x))
     /\ (forall x, 0 < x -> 0 < f x <= 1)
     /\ (forall x, threshold <= x -> f x = 1)
     /\ (forall x, 0 < x -> x < threshold -> f x = track D E x)
     /\ (forall x y, 0 < x -> x < y -> y <= threshold -> f x < f y)
     /\ (forall x y, 0 < x -> x <= y -> f x <= f y)
     /\ (forall eps, 0 < eps -> exists x0, 0 < x0 /\ forall x, 0 < x -> x < x0 -> f x < eps))
  /\ (~ supported alpha beta gamma delta -> forall x, f_t_Du_2024 x alpha beta gamma delta = Err EException).
Proof.
  split; intro H.
  - destruct (coef_supported _ _ _ _ H) as (D & E & EC & HG & HI).
    destruct (ft_shape D E HG) as (xt & Hxt & Habove & Hinc & Htr & Hlim).
    exists D, E, xt, (ft_fit D E). split; [exact HI|]. split; [exact Hxt|].
    split; [intro x; unfold f_t_Du_2024; rewrite EC; reflexivity|].
    split; [intros x Hx; apply ft_range; assumption|].
    split; [exact Habove|]. split; [exact Htr|]. split; [exact Hinc|]. split; [|exact Hlim].
    intros x y Hx Hxy. destruct (Rle_lt_dec xt y) as [h|h].
    + rewrite (Habove y h). apply ft_range; assumption.
    + destruct Hxy as [Hxy| ->]; [left; apply Hinc; lra|lra].
  - intro x. unfold f_t_Du_2024. rewrite (coef_unsupported _ _ _ _ H). reflexivity.
Qed.
Example C52_nonvacuous : supported 1 3 1 2 /\ ~ supported 1 5 1 2.
Proof. split; [unfold supported; tauto|]. unfold supported. intros (_ & [h|h] & _); lra. Qed.
(** fitted coefficients of the truncation radius: alpha, beta, gamma, delta, A, B, C *)
Definition radius_table : list (R * R * R * R * R * R * R) := [
  (1, 3, 0, 2, (-0.998429803), 0.000550290877, 1.23471540);
  (1, 3, 0.5, 2, (-0.19210388), 0.42676044, 1.46250084);
  (1, 3, 1, 2, 0.68492777, 0.66438857, 2.07766512);
  (1, 3, 1.5, 2, 0.9839032, 0.76882264, 2.51841765);
  (1, 4, 0, 2, 39.42152817, 0.58827911, 4.05363252);
  (1, 4, 0.5, 2, 2.06550731, 0.38713431, 3.63592324);
  (1, 4, 1, 2, 13.98955016, 0.72217703, 5.00880454);
  (1, 4, 1.5, 2, 83.39811168, 1.21616656, 6.62016776);
  (2, 3, 0, 2, (-1.02415147), 0.00164345425, 2.41297704);
  (2, 4, 0, 2, 0.00000327271231, (-1.94602678), 5.84716369);
  (1, 3, 0, 3, (-0.93094144), 0.04703346, 0.76842857);
  (1, 3, 0.5, 3, (-0.2290658), 0.41234666, 1.39936438);
  (1, 3, 1, 3, 0.90933265, 0.63676731, 2.18508243);
  (1, 3, 1.5, 3, 0.83533898, 0.73399035, 2.43215333);
  (1, 4, 0, 3, 41.3266337, 0.60818104, 4.07045865);
  (1, 4, 0.5, 3, 0.42123475, (-0.38164340), 3.62931001);
  (1, 4, 1, 3, 15.91886121, 0.71939954, 4.98186081);
  (1, 4, 1.5, 3, 104.0534991, 1.24696989, 6.62957129);
  (2, 3, 0, 3, (-0.964566747), (-0.00237053865), 2.51094575);
  (2, 4, 0, 3, 0.000000579321402, (-1.62255246), 5.47069835)].
(** the fitted track of the truncation radius, in units of the virial radius at infall *)
Definition radius_track (A B C x : R) : R := (1 + A) * Rpower x B / (1 + A * Rpower x (2 * B)) * exp (- C * (1 - x)).
(** For every calibrated profile the companion track for the truncation radius is the tabulated fit, and an object that has lost
    no mass is truncated at its virial radius; any other profile is refused. *)
Theorem C52_radius_track alpha beta gamma delta :
  (supported alpha beta gamma delta -> exists A B C, In (alpha, beta, gamma, delta, A, B, C) radius_table
     /\ (forall x, r_te_Du_2024 x alpha beta gamma delta = Ok (radius_track A B C x)) /\ radius_track A B C 1 = 1)
  /\ (~ supported alpha beta gamma delta -> forall x, r_te_Du_2024 x alpha beta gamma delta = Err EException).
Proof.
  assert (One : forall A B C, A <> -1 -> radius_track A B C 1 = 1).
  { intros A B C HA. unfold radius_track, Rpower. rewrite ln_1, !Rmult_0_r, exp_0, Rminus_eq_0, Rmult_0_r, exp_0. field. lra. }
  assert (Fit : forall A B C x, rte_fit A B C x = radius_track A B C x).
  { intros. unfold rte_fit, radius_track, Rdiv. f_equal. rewrite Ropp_mult_distr_l_reverse, exp_Ropp. reflexivity. }
  split; intro H.
  - unfold r_te_Du_2024, rte_coef. supp H; reqb; do 3 eexists; (split; [|split; [intros x; cbn [bind]; f_equal; apply Fit|apply One; lra]]);
      unfold radius_table; cbn [In]; tauto.
  - intros x. unfold r_te_Du_2024, rte_coef. unfold supported in H.
    rcase delta 2; [|rcase delta 3]; try reflexivity;
    (rcase alpha 1; [|rcase alpha 2]); try reflexivity;
    (rcase beta 3; [|rcase beta 4]); try reflexivity;
    rcase gamma 0; try (exfalso; apply H; lra); try reflexivity;
    rcase gamma 0.5; try (exfalso; apply H; lra);
    rcase gamma 1; try (exfalso; apply H; lra);
    rcase gamma 1.5; try (exfalso; apply H; lra); reflexivity.
Qed.
(** The companion track for the truncation radius (defined but not used by the module) is not a radius for the cored profile
    (alpha, beta, gamma, delta) = (2, 3, 0, 2): it is negative for small bound fractions. *)
Theorem C52_radius_track_refuted : exists x r, 0 < x < 1 /\ r_te_Du_2024 x 2 3 0 2 = Ok r /\ r < 0.
Proof.
  exists (exp (- 1000)). eexists. split; [split; [apply exp_pos|rewrite <- exp_0; apply exp_increasing; lra]|].
  unfold r_te_Du_2024, rte_coef. reqb. cbn [bind]. split; [reflexivity|]. unfold rte_fit.
  set (P := Rpower (exp (- 1000)) 0.00164345425). assert (HP : 0 < P) by (unfold P, Rpower; apply exp_pos).
  assert (HQ : Rpower (exp (- 1000)) (2 * 0.00164345425) < / 2).
  { unfold Rpower. rewrite ln_exp. assert (h : 2 < exp 1) by (pose proof (exp_ineq1 1 ltac:(lra)); lra).
    apply (Rlt_trans _ (exp (Ropp 1))); [apply exp_increasing; lra|]. rewrite exp_Ropp. apply Rinv_lt_contravar; lra. }
  set (Q := Rpower (exp (- 1000)) (2 * 0.00164345425)) in *.
  set (W := exp (2.41297704 * (1 - exp (- 1000)))). assert (HW : 0 < W) by apply exp_pos.
  assert (H1 : 0 < / (1 + -1.02415147 * Q)) by (apply Rinv_0_lt_compat; lra). pose proof (Rinv_0_lt_compat W HW) as H2. unfold Rdiv.
  assert (h1 : 0 < P * / (1 + -1.02415147 * Q)) by (apply Rmult_lt_0_compat; assumption).
  assert (h2 : 0 < P * / (1 + -1.02415147 * Q) * / W) by (apply Rmult_lt_0_compat; assumption). nra.
Qed.

(** * C53 *)
(** Every closed form of the enclosed mass is the integral of 4 pi x^2 rho from the centre to X. *)
Theorem C53_enclosed_mass hyp X alpha beta gamma : closed_form alpha beta gamma -> 0 < X ->
  enclosed_mass alpha beta gamma X (M_enclosed hyp X alpha beta gamma).
Proof. exact (enclosed_closed hyp X alpha beta gamma). Qed.
(** Every closed form of the total mass of a truncated profile is the integral of 4 pi x^2 rho from the centre to infinity; it is
    positive and increases with the truncation radius.  The form for delta = 3 is an indeterminate 0 / 0 at radius 1. *)
Theorem C53_total_mass alpha beta gamma delta : closed_total alpha beta gamma delta -> exists M : R -> R,
  (forall tau, M_total alpha beta gamma delta tau = PNum (M tau))
  /\ (forall tau, 0 < tau -> ~ (delta = 3 /\ tau = 1) -> total_mass alpha beta gamma delta tau (M tau) /\ 0 < M tau)
  /\ (forall tau tau', 0 < tau -> tau < tau' -> ~ (delta = 3 /\ (tau = 1 \/ tau' = 1)) -> M tau < M tau').
Proof.
  intros H. exists (fun tau => num (M_total alpha beta gamma delta tau)).
  assert (HT : forall tau, 0 < tau -> ~ (delta = 3 /\ tau = 1) -> total_mass alpha beta gamma delta tau (num (M_total alpha beta gamma delta tau))).
  { intros tau Ht Hn. destruct H as [(-> & -> & -> & Hg)|[(-> & -> & -> & ->)|(-> & -> & -> & ->)]].
    - exact (Mof_total gamma tau Hg Ht).
    - unfold M_total. reqb. apply total_240, Ht.
    - unfold M_total. reqb. cbn [andb num]. apply total_131d3; [exact Ht|tauto]. }
  split; [|split].
  - intro tau. destruct H as [(-> & -> & -> & Hg)|[(-> & -> & -> & ->)|(-> & -> & -> & ->)]].
    + exact (M_closed gamma tau Hg).
    + unfold M_total. reqb. reflexivity.
    + unfold M_total. reqb. reflexivity.
  - intros tau Ht Hn. pose proof (HT tau Ht Hn) as h. split; [exact h|]. exact (total_pos _ _ _ _ _ _ Ht h).
  - intros tau tau' Ht Htt Hn. apply (total_increasing alpha beta gamma delta tau tau'); try assumption.
    + destruct H as [(-> & _)|[(-> & _)|(-> & _)]]; lra.
    + apply HT; [exact Ht|tauto].
    + apply HT; [lra|tauto].
Qed.
Example C53_nonvacuous : closed_form 1 3 1.5 /\ closed_form 1 4 2.7 /\ closed_form 2 4 1 /\ closed_total 1 3 0.5 2 /\ closed_total 1 3 1 3.
Proof.
  unfold closed_form, closed_total, inner. repeat split; try tauto.
  right. left. repeat split; lra.
Qed.
(** At truncation radius 1 the total mass for delta = 3 exists, but both the numerator and the denominator of the code's
    expression vanish, so the code computes 0 / 0. *)
Theorem C53_delta3_singular_refuted :
  total_mass 1 3 1 3 1 (4 * PI * (2 / (9 * sqrt 3) * PI - 1 / 6)) /\ 0 < 4 * PI * (2 / (9 * sqrt 3) * PI - 1 / 6)
  /\ (exists num den : R -> R, (forall tau, M_total 1 3 1 3 tau = PNum (4 * PI * tau ^ 2 / den tau * num tau))
        /\ num 1 = 0 /\ den 1 = 0).
Proof.
  split; [exact total_131d3_one|]. split; [exact (total_pos _ _ _ _ _ _ Rlt_0_1 total_131d3_one)|].
  exists (fun tau => - tau * (tau ^ 3 - 1) + 2 * sqrt 3 * PI / 9 * (tau - 1) ^ 2 * (2 * tau + 1) + tau * (tau ^ 3 + 2) * ln tau), (fun tau => (tau ^ 3 - 1) ^ 2).
  split; [intro tau; unfold M_total, tot_131d3; reqb; reflexivity|]. split; [|ring]. rewrite ln_1. field.
Qed.
(** For outer slope 4 the reported radius of maximum circular velocity is the unique maximum of M(x) / x. *)
Theorem C53_peak_radius gamma : gamma < 2 -> exists r, R_max 1 4 gamma = Ok r /\ 0 < r /\
  forall x Mx Mr, 0 < x -> x <> r -> enclosed_mass 1 4 gamma x Mx -> enclosed_mass 1 4 gamma r Mr -> Mx / x < Mr / r.
Proof.
  intro Hg. exists (2 - gamma). split; [unfold R_max; reqb; rewrite (proj2 (Rltb_true gamma 2) Hg); reflexivity|]. split; [lra|].
  intros x Mx Mr Hx Hne Hmx Hmr. set (r := 2 - gamma) in *. assert (Hr : 0 < r) by (unfold r; lra).
  assert (Huniq : forall X M M', enclosed_mass 1 4 gamma X M -> enclosed_mass 1 4 gamma X M' -> M = M').
  { intros X M M' h1 h2. unfold enclosed_mass in *.
    rewrite <- (is_RInt_gen_unique (V := R_CompleteNormedModule) _ _ h1). apply (is_RInt_gen_unique (V := R_CompleteNormedModule)), h2. }
  assert (HE : forall X, 0 < X -> enclosed_mass 1 4 gamma X (4 * PI / (3 - gamma) * Rpower (X / (1 + X)) (3 - gamma))).
  { intros X HX. pose proof (enclosed_closed (fun _ _ _ _ => 0) X 1 4 gamma ltac:(unfold closed_form; right; left; repeat split; lra) HX) as h.
    unfold M_enclosed in h. revert h. reqb. tauto. }
  rewrite (Huniq _ _ _ Hmx (HE x Hx)), (Huniq _ _ _ Hmr (HE r Hr)).
  set (g := fun t => (2 - gamma) * ln t - (3 - gamma) * ln (1 + t)).
  assert (Hform : forall t, 0 < t -> 4 * PI / (3 - gamma) * Rpower (t / (1 + t)) (3 - gamma) / t = 4 * PI / (3 - gamma) * exp (g t)).
  { intros t Ht. unfold Rdiv at 1. rewrite Rmult_assoc. f_equal. unfold g, Rpower.
    replace (/ t) with (exp (- ln t)) by (rewrite exp_Ropp, exp_ln by exact Ht; reflexivity).
    rewrite <- exp_plus. f_equal. rewrite ln_div by lra. ring. }
  rewrite !Hform by assumption. pose proof PI_RGT_0 as Hpi.
  apply Rmult_lt_compat_l; [apply Rdiv_lt_0_compat; lra|]. apply exp_increasing.
  assert (Hd : forall t, 0 < t -> is_derive g t ((2 - gamma - t) / (t * (1 + t)))).
  { intros t Ht. unfold g. auto_derive; [lra|]. field. lra. }
  assert (HL : forall t, 0 < t -> derivable_pt_lim g t ((2 - gamma - t) / (t * (1 + t)))) by (intros t Ht; apply is_derive_Reals, Hd, Ht).
  destruct (Rtotal_order x r) as [h|[h|h]]; [|contradiction|].
  - destruct (MVT_cor2 g (fun t => (2 - gamma - t) / (t * (1 + t))) x r h) as (c & Hc1 & Hc2); [intros c Hc; apply HL; lra|].
    assert (0 < (2 - gamma - c) / (c * (1 + c))) by (apply Rdiv_lt_0_compat; [unfold r in *; lra|apply Rmult_lt_0_compat; lra]). nra.
  - destruct (MVT_cor2 g (fun t => (2 - gamma - t) / (t * (1 + t))) r x h) as (c & Hc1 & Hc2); [intros c Hc; apply HL; lra|].
    assert (0 < (c - (2 - gamma)) / (c * (1 + c))) by (apply Rdiv_lt_0_compat; [unfold r in *; lra|apply Rmult_lt_0_compat; lra]).
    replace ((2 - gamma - c) / (c * (1 + c))) with (- ((c - (2 - gamma)) / (c * (1 + c)))) in Hc1 by (field; lra). nra.
Qed.
Example C53_peak_nonvacuous : exists M, enclosed_mass 1 4 1 1 M /\ 1 < 2.
Proof. exists (M_enclosed (fun _ _ _ _ => 0) 1 1 4 1). split; [apply C53_enclosed_mass; [unfold closed_form; right; left; repeat split; lra|lra]|lra]. Qed.

(** * C54 *)
(** Sequences of calls that invert the total mass of the profiles with alpha = 1, beta = 3, delta = 2 and tabulated inner slope:
    either directly for lists of positive masses, or through the computation of truncation radius and normalisation.  [fuel] is
    the number of loop steps allowed; [None] means that the loop is still running after that many steps. *)
Inductive history (hyp : R -> R -> R -> R -> R) (spline : list (R * R) -> R -> R) : table -> Prop :=
| h_import : history hyp spline table0
| h_invert st fuel Ms gamma r st' : history hyp spline st -> inner gamma -> Ms <> [] ->
    truncation_radius spline fuel st Ms 1 3 gamma 2 = Some (r, st') -> history hyp spline st'
| h_compute st fuel hs gamma delta r st' : history hyp spline st -> inner gamma -> delta = 2 \/ delta = 3 -> hs <> [] -> List.Forall halo_ok hs ->
    compute_rte_ft hyp spline fuel st hs 1 3 gamma delta = Some (r, st') -> history hyp spline st'.
Lemma history_inv hyp spline st : history hyp spline st -> cinv st.
Proof.
  induction 1 as [|st fuel Ms gamma r st' Hh IH Hg Hne H|st fuel hs gamma delta r st' Hh IH Hg Hd Hne Hok H]; [exact cinv0| |].
  - exact (proj1 (step_any spline fuel st Ms gamma r st' IH Hg Hne H)).
  - destruct (proj1 (compute_ok hyp spline st hs gamma delta IH Hg Hd Hne Hok) fuel r st' H) as (out & _ & Hc & _). exact Hc.
Qed.
(** After any history, an inversion for positive masses ends, returns one positive radius per mass, and leaves a table whose mass
    range covers every query; the range of radii only grows. *)
Theorem C54_inversion hyp spline st Ms gamma : history hyp spline st -> inner gamma -> Ms <> [] -> List.Forall (fun q => 0 < q) Ms ->
  exists n, forall fuel, (n <= fuel)%nat -> exists xs st',
    truncation_radius spline fuel st Ms 1 3 gamma 2 = Some (Ok xs, st')
    /\ List.length xs = List.length Ms /\ List.Forall (fun x => 0 < x) xs
    /\ 0 < t_xmin st' <= t_xmin st /\ t_xmax st <= t_xmax st'
    /\ (forall q, In q Ms -> exists Mlo Mhi, total_mass 1 3 gamma 2 (t_xmin st') Mlo /\ total_mass 1 3 gamma 2 (t_xmax st') Mhi /\ Mlo <= q <= Mhi)
    /\ (forall node, In node (t_tab st') -> total_mass 1 3 gamma 2 (exp (snd node)) (exp (fst node))).
Proof.
  intros Hh Hg Hne Hpos. pose proof (history_inv _ _ _ Hh) as Hc.
  destruct (step_total spline st Ms gamma Hc Hg Hne Hpos) as [n Hn]. exists n. intros fuel Hf. destruct (Hn fuel Hf) as (r & st' & E).
  destruct (step_any spline fuel st Ms gamma r st' Hc Hg Hne E) as (Hc' & Hu & Hx1 & Hx2 & HL1 & HL2 & ->).
  pose proof Hc' as [[Hr1 Hr2] Hused]. eexists _, st'. split; [exact E|]. split; [apply map_length|].
  split; [apply List.Forall_forall; intros x Hx; apply in_map_iff in Hx; destruct Hx as (q & <- & _); apply exp_pos|].
  split; [lra|]. split; [lra|]. split.
  - intros q Hq. exists (Mof gamma (t_xmin st')), (Mof gamma (t_xmax st')).
    split; [apply Mof_total; [exact Hg|lra]|]. split; [apply Mof_total; [exact Hg|lra]|].
    pose proof (proj2 (list_min_spec Ms Hne) q Hq). pose proof (proj2 (list_max_spec Ms Hne) q Hq). lra.
  - intros node Hnode. destruct (Hused _ Hu) as (g & _ & Hp & _ & _ & Htab). assert (g = gamma) by congruence. subst g. rewrite Htab in Hnode.
    unfold mktab, geomspace in Hnode. apply in_map_iff in Hnode. destruct Hnode as (x & <- & Hx). apply in_map_iff in Hx. destruct Hx as (i & <- & _).
    cbn [fst snd]. assert (Hpx : 0 < t_xmin st' * Rpower (t_xmax st' / t_xmin st') (INR i / INR (n_tab (t_xmin st') (t_xmax st') - 1))).
    { apply Rmult_lt_0_compat; [lra|apply exp_pos]. }
    rewrite !exp_ln; [apply Mof_total; assumption|apply Mof_pos; assumption|exact Hpx].
Qed.
(** For any calls at all, whatever the profile, the range of radii of the table never shrinks. *)
Theorem C54_range_grows spline fuel st Ms alpha beta gamma delta r st' :
  truncation_radius spline fuel st Ms alpha beta gamma delta = Some (r, st') -> 0 < t_xmin st -> 0 < t_xmax st ->
  0 < t_xmin st' <= t_xmin st /\ t_xmax st <= t_xmax st'.
Proof. exact (step_grows spline fuel st Ms alpha beta gamma delta r st'). Qed.
(** After any history, for halos with positive bound mass, mass, radius and concentration, the computation ends with one pair per
    halo: a positive truncation radius and a normalisation in (0, 1].  If the interpolator reproduces the total mass with relative
    error eps on the tables the code builds, the mass of the returned truncated profile is the bound mass with relative error eps. *)
Definition accurate (spline : list (R * R) -> R -> R) (eps : R) : Prop := forall gamma lo hi q M Mlo Mhi,
  inner gamma -> 0 < lo <= / 10 ^ 6 -> 10 ^ 4 <= hi -> total_mass 1 3 gamma 2 lo Mlo -> total_mass 1 3 gamma 2 hi Mhi -> Mlo <= q <= Mhi ->
  total_mass 1 3 gamma 2 (exp (spline (mktab (fun x => num (M_total 1 3 gamma 2 x)) lo hi) (ln q))) M -> Rabs (M - q) <= eps * q.
Theorem C54_consistent hyp spline eps st hs gamma delta : accurate spline eps -> history hyp spline st -> inner gamma -> delta = 2 \/ delta = 3 ->
  hs <> [] -> List.Forall halo_ok hs ->
  exists n, forall fuel, (n <= fuel)%nat -> exists out st',
    compute_rte_ft hyp spline fuel st hs 1 3 gamma delta = Some (Ok out, st')
    /\ 0 < t_xmin st' <= t_xmin st /\ t_xmax st <= t_xmax st'
    /\ Forall2 (fun h o => 0 < fst o /\ 0 < snd o <= 1 /\ forall Mc Mt,
         enclosed_mass 1 3 gamma (i_c h) Mc -> total_mass 1 3 gamma 2 (fst o / (i_rvir h / i_c h)) Mt ->
         Rabs (snd o * (i_mvir h / Mc) * Mt - i_mbound h) <= eps * i_mbound h) hs out.
Proof.
  intros Hacc Hh Hg Hd Hne Hok. destruct (compute_ok hyp spline st hs gamma delta (history_inv _ _ _ Hh) Hg Hd Hne Hok) as [HA [n Hn]].
  exists n. intros fuel Hf. destruct (Hn fuel Hf) as (r & st' & E). destruct (HA fuel r st' E) as (out & -> & Hc & Hu & Hx1 & Hx2 & Hout).
  pose proof Hc as [[Hr1 Hr2] _]. exists out, st'. split; [exact E|]. split; [lra|]. split; [lra|].
  clear E HA Hn Hne. unfold outputs in Hout. induction Hout as [|h o hs out (q & Hq & Hrange & Ho) Hout IH]; [constructor|].
  inversion Hok as [|? ? Hok1 Hok2]; subst. constructor; [|apply IH, Hok2].
  destruct (halo_out_mass spline _ hyp gamma h o q 0 Hg Hok1 Hq Ho) as (Hx & Hpos & _). split; [exact Hpos|]. split; [exact (proj1 Ho)|].
  intros Mc Mt HMc HMt. pose proof Hok1 as (h1 & h2 & h3 & h4).
  assert (EMc : Mc = M_enclosed hyp (i_c h) 1 3 gamma).
  { pose proof (enclosed_closed hyp (i_c h) 1 3 gamma ltac:(unfold closed_form; tauto) h4) as HMc'. unfold enclosed_mass in HMc, HMc'.
    rewrite <- (is_RInt_gen_unique (V := R_CompleteNormedModule) _ _ HMc). apply (is_RInt_gen_unique (V := R_CompleteNormedModule)), HMc'. }
  rewrite EMc. rewrite (proj2 (proj2 (halo_out_mass spline _ hyp gamma h o q Mt Hg Hok1 Hq Ho))).
  replace (fst o / (i_rvir h / i_c h)) with (fst o * i_c h / i_rvir h) in HMt by (field; lra). rewrite Hx in HMt.
  pose proof (Hacc gamma (t_xmin st') (t_xmax st') q Mt _ _ Hg ltac:(lra) Hr2 (Mof_total gamma (t_xmin st') Hg ltac:(lra)) (Mof_total gamma (t_xmax st') Hg ltac:(lra)) Hrange HMt) as HE.
  assert (Hbq : 0 < i_mbound h / q) by (apply Rdiv_lt_0_compat; assumption).
  rewrite Rabs_mult, (Rabs_pos_eq _ (Rlt_le _ _ Hbq)).
  apply (Rle_trans _ (i_mbound h / q * (eps * q))); [apply Rmult_le_compat_l; [lra|exact HE]|]. right. field. lra.
Qed.
(** an interpolator meeting the hypothesis (with a crude error): the radius of the first node *)
Example C54_nonvacuous : let spline := fun (tab : list (R * R)) (_ : R) => snd (hd (0, 0) tab) in
  accurate spline 1 /\ history (fun _ _ _ _ => 0) spline table0 /\ inner 1 /\ List.Forall (fun q => 0 < q) [1; 3000]
  /\ List.Forall halo_ok [mkHalo 100000 10000000 10 12; mkHalo 1 10 3 8].
Proof.
  cbv zeta. split; [|split; [constructor|split; [unfold inner; tauto|split]]].
  - intros gamma lo hi q M Mlo Mhi Hg Hl Hh H1 H2 Hq HM.
    unfold mktab in HM. destruct (geom_ends lo hi (n_tab lo hi) ltac:(lra) ltac:(lra) (n_tab_big lo hi Hl Hh)) as (t & E & _). rewrite E in HM.
    cbn [map hd snd] in HM. rewrite exp_ln in HM by lra.
    assert (M = Mlo).
    { unfold total_mass in *. rewrite <- (is_RInt_gen_unique (V := R_CompleteNormedModule) _ _ HM). apply (is_RInt_gen_unique (V := R_CompleteNormedModule)), H1. }
    subst M. pose proof (total_pos _ _ _ _ _ _ (proj1 Hl) H1). apply Rabs_le_between'. lra.
  - repeat constructor; lra.
  - repeat constructor; unfold halo_ok; cbn; lra.
Qed.

(** The batch version keeps its own table.  After any sequence of batch calls, it returns one positive radius and one
    normalisation in (0, 1] per halo, with the same consistency; on first use it returns exactly what the one-by-one version
    returns on first use. *)
Inductive batch_history (hyp : R -> R -> R -> R -> R) (spline : list (R * R) -> R -> R) : cache -> Prop :=
| b_import : batch_history hyp spline None
| b_call c fuel hs r c' : batch_history hyp spline c -> hs <> [] -> List.Forall halo_ok hs ->
    compute_rte_ft_vectorized hyp spline fuel c hs = Some (r, c') -> batch_history hyp spline c'.
Lemma batch_history_inv hyp spline c : batch_history hyp spline c -> cacheinv c.
Proof.
  induction 1 as [|c fuel hs r c' Hh IH Hne Hok H]; [exact I|].
  exact (proj1 (proj1 (batch_ok hyp spline c hs IH Hne Hok) fuel r c' H)).
Qed.
Theorem C54_batch hyp spline eps c hs : accurate spline eps -> batch_history hyp spline c -> hs <> [] -> List.Forall halo_ok hs ->
  (exists n, forall fuel, (n <= fuel)%nat -> exists out c',
    compute_rte_ft_vectorized hyp spline fuel c hs = Some (Ok out, c')
    /\ Forall2 (fun h o => 0 < fst o /\ 0 < snd o <= 1 /\ forall Mc Mt,
         enclosed_mass 1 3 1 (i_c h) Mc -> total_mass 1 3 1 2 (fst o / (i_rvir h / i_c h)) Mt ->
         Rabs (snd o * (i_mvir h / Mc) * Mt - i_mbound h) <= eps * i_mbound h) hs out)
  /\ (c = None -> forall fuel, option_map fst (compute_rte_ft_vectorized hyp spline fuel c hs) = option_map fst (compute_rte_ft hyp spline fuel table0 hs 1 3 1 2)).
Proof.
  intros Hacc Hh Hne Hok. split; [|intros -> fuel; apply fresh_same_compute]. assert (Hg : inner 1) by (unfold inner; tauto).
  destruct (batch_ok hyp spline c hs (batch_history_inv _ _ _ Hh) Hne Hok) as [HA [n Hn]].
  exists n. intros fuel Hf. destruct (Hn fuel Hf) as (r & c' & E). destruct (HA fuel r c' E) as (_ & out & lo & hi & Hl & Hhi & -> & Hout).
  exists out, c'. split; [exact E|].
  assert (Etab : mktab tot_131 lo hi = mktab (fun x => num (M_total 1 3 1 2 x)) lo hi).
  { unfold mktab. apply map_ext. intro x. change (num (M_total 1 3 1 2 x)) with (Mof 1 x). rewrite Mof_131. reflexivity. }
  rewrite Etab in Hout.
  clear E HA Hn Hne. unfold outputs in Hout. induction Hout as [|h o hs out (q & Hq & Hrange & Ho) Hout IH]; [constructor|].
  inversion Hok as [|? ? Hok1 Hok2]; subst. constructor; [|apply IH, Hok2].
  destruct (halo_out_mass spline _ hyp 1 h o q 0 Hg Hok1 Hq Ho) as (Hx & Hpos & _). split; [exact Hpos|]. split; [exact (proj1 Ho)|].
  intros Mc Mt HMc HMt. pose proof Hok1 as (h1 & h2 & h3 & h4).
  assert (EMc : Mc = M_enclosed hyp (i_c h) 1 3 1).
  { pose proof (enclosed_closed hyp (i_c h) 1 3 1 ltac:(unfold closed_form; tauto) h4) as HMc'. unfold enclosed_mass in HMc, HMc'.
    rewrite <- (is_RInt_gen_unique (V := R_CompleteNormedModule) _ _ HMc). apply (is_RInt_gen_unique (V := R_CompleteNormedModule)), HMc'. }
  rewrite EMc. rewrite (proj2 (proj2 (halo_out_mass spline _ hyp 1 h o q Mt Hg Hok1 Hq Ho))).
  replace (fst o / (i_rvir h / i_c h)) with (fst o * i_c h / i_rvir h) in HMt by (field; lra). rewrite Hx in HMt.
  pose proof (Hacc 1 lo hi q Mt _ _ Hg Hl Hhi (Mof_total 1 lo Hg ltac:(lra)) (Mof_total 1 hi Hg ltac:(lra)) Hrange HMt) as HE.
  assert (Hbq : 0 < i_mbound h / q) by (apply Rdiv_lt_0_compat; assumption).
  rewrite Rabs_mult, (Rabs_pos_eq _ (Rlt_le _ _ Hbq)).
  apply (Rle_trans _ (i_mbound h / q * (eps * q))); [apply Rmult_le_compat_l; [lra|exact HE]|]. right. field. lra.
Qed.
Example C54_batch_nonvacuous : batch_history (fun _ _ _ _ => 0) (fun _ _ => 0) None.
Proof. constructor. Qed.

(** The loops do not end when the total mass is bounded: for (alpha, beta, gamma, delta) = (2, 4, 0, 2), whose total mass is
    below pi^2 for every truncation radius, a query of pi^2 or more keeps doubling for ever. *)
Theorem C54_bounded_mass_loops spline st Ms : t_used st = None -> 0 < t_xmin st -> 0 < t_xmax st -> PI ^ 2 <= list_max Ms ->
  forall fuel, truncation_radius spline fuel st Ms 2 4 0 2 = None.
Proof.
  intros Hu H1 H2 Hq fuel. unfold truncation_radius. rewrite Hu. unfold M_total. reqb. cbv zeta.
  destruct (halve _ _ _ _) as [xmin|]; [|reflexivity].
  assert (HD : forall n x, 0 < x -> double n (fun x => num (PNum (tot_240 x))) (list_max Ms) x = None).
  { pose proof PI_RGT_0 as Hpi. pose proof (pow_lt PI 2 Hpi) as Hp2.
    assert (Hlt : forall x, 0 < x -> Rltb (tot_240 x) (list_max Ms) = true).
    { intros x Hx. apply Rltb_true. apply (Rlt_le_trans _ (PI ^ 2)); [|exact Hq]. unfold tot_240.
      pose proof (pow_lt (x + 1) 2 ltac:(lra)) as Hx1. apply (Rmult_lt_reg_r ((x + 1) ^ 2)); [exact Hx1|].
      unfold Rdiv. rewrite Rmult_assoc, Rinv_l, Rmult_1_r by lra. apply Rmult_lt_compat_l; [exact Hp2|]. nra. }
    induction n as [|n IH]; intros x Hx; cbn [double num]; rewrite Hlt by exact Hx; [reflexivity|]. apply IH. lra. }
  rewrite HD by exact H2. reflexivity.
Qed.
Example C54_loops_nonvacuous : t_used table0 = None /\ 0 < t_xmin table0 /\ 0 < t_xmax table0 /\ PI ^ 2 <= list_max (100 :: nil).
Proof.
  cbn [t_used t_xmin t_xmax table0 list_max fold_left]. split; [reflexivity|]. split; [apply Rinv_0_lt_compat, pow_lt; lra|]. split; [lra|].
  pose proof PI_4. pose proof PI_RGT_0. cbn [list_max fold_right]. nra.
Qed.
(** One call for a profile without a closed form spoils the table for good: the computation for outer slope 4 raises ValueError, and
    from then on the computation that had just succeeded raises ValueError for every input, without changing the table again. *)
Theorem C54_poisoned_refuted hyp spline st hs gamma delta hs4 gamma4 fuel out st1 : history hyp spline st -> inner gamma -> delta = 2 \/ delta = 3 ->
  hs <> [] -> List.Forall halo_ok hs -> inner gamma4 ->
  compute_rte_ft hyp spline fuel st hs 1 3 gamma delta = Some (Ok out, st1) ->
  exists st2, (forall fuel', compute_rte_ft hyp spline fuel' st1 hs4 1 4 gamma4 2 = Some (Err EValueError, st2))
   /\ (forall hs' fuel', hs' <> [] -> List.Forall halo_ok hs' -> compute_rte_ft hyp spline fuel' st2 hs' 1 3 gamma delta = Some (Err EValueError, st2)).
Proof.
  intros Hh Hg Hd Hne Hok Hg4 H.
  destruct (proj1 (compute_ok hyp spline st hs gamma delta (history_inv _ _ _ Hh) Hg Hd Hne Hok) fuel _ st1 H) as (_ & _ & _ & Hu & _).
  exists (mkTable (t_xmin st1) (t_xmax st1) PPair PPair (t_used st1) (t_tab st1)). split.
  - intro fuel'. unfold compute_rte_ft.
    assert (ER : R_max 1 4 gamma4 = Ok (2 - gamma4)).
    { destruct Hg4 as [-> | [-> | [-> | ->]]]; unfold R_max; reqb; rewrite (proj2 (Rltb_true _ 2)) by lra; reflexivity. }
    assert (EB : exists m, Mbound_ref_0 1 4 gamma4 = Ok m).
    { destruct Hg4 as [-> | [-> | [-> | ->]]]; unfold Mbound_ref_0; reqb; eauto. }
    destruct EB as [m EB]. unfold convert_to_reference. rewrite ER, EB. cbn [bind]. cbv zeta.
    assert (EC : exists D E, ft_coef 1 4 gamma4 2 = Ok (D, E)).
    { destruct (coef_supported 1 4 gamma4 2) as (D & E & EC & _); [|eauto]. unfold supported, inner in *. tauto. }
    destruct EC as (D & E & EC).
    assert (EF : forall l (y : halo_in -> R), exists fts, mapM (fun h => f_t_Du_2024 (y h) 1 4 gamma4 2) l = Ok fts).
    { intros l y. induction l as [|h l [fts IH]]; [exists []; reflexivity|]. unfold f_t_Du_2024 in *. cbn [mapM]. rewrite IH, EC. cbn [bind]. eauto. }
    match goal with |- context [mapM (fun h => f_t_Du_2024 (@?y h) _ _ _ _) hs4] => destruct (EF hs4 y) as [fts ->] end.
    unfold truncation_radius. rewrite Hu. cbn [same_params]. rewrite (Reqb_neq 3 4) by lra. rewrite andb_false_r. cbn [andb].
    unfold M_total. reqb. reflexivity.
  - intros hs' fuel' Hne' Hok'. destruct (R_max_inner gamma Hg) as (Rm & ER & HRm). destruct (ref_inner hyp gamma Hg) as (ys & z & Ey & Hy).
    unfold compute_rte_ft. rewrite ER, Ey. cbv zeta.
    destruct (fts_ok hyp gamma delta ys Rm hs' Hg Hd HRm Hy Hok') as (fts & -> & HF).
    unfold truncation_radius. cbn [t_used t_Mmin]. rewrite Hu, same_refl. reflexivity.
Qed.
Example C54_poisoned_nonvacuous : exists fuel out st1,
  compute_rte_ft (fun _ _ _ _ => 0) (fun _ _ => 0) fuel table0 (mkHalo 100000 10000000 10 12 :: nil) 1 3 1 2 = Some (Ok out, st1).
Proof.
  assert (Hg : inner 1) by (unfold inner; tauto).
  assert (Hok : List.Forall halo_ok (mkHalo 100000 10000000 10 12 :: nil)) by (repeat constructor; unfold halo_ok; cbn; lra).
  destruct (compute_ok (fun _ _ _ _ => 0) (fun _ _ => 0) table0 (mkHalo 100000 10000000 10 12 :: nil) 1 2 cinv0 Hg ltac:(tauto) ltac:(discriminate) Hok) as [HA [n Hn]].
  destruct (Hn n (le_n n)) as (r & st' & E). destruct (HA n r st' E) as (out & -> & _). eauto.
Qed.
(** The calibrated profiles with alpha = 2 cannot be used: the computation always raises. *)
Theorem C54_alpha_two_refuted hyp spline fuel st hs beta delta : supported 2 beta 0 delta ->
  compute_rte_ft hyp spline fuel st hs 2 beta 0 delta = Some (Err EUnboundLocal, st).
Proof.
  intros (_ & [-> | ->] & _); unfold compute_rte_ft, R_max; reqb; cbn [orb]; rewrite (proj2 (Rltb_true 0 2)) by lra; reflexivity.
Qed.
Example C54_alpha_two_nonvacuous : supported 2 3 0 3.
Proof. unfold supported; tauto. Qed.
(** The truncation slope delta = 3 is accepted, but the radius is found from the total mass for delta = 2 (see [C54_consistent],
    which holds with 2 for both); the masses differ, for instance at truncation radius 2. *)
Theorem C54_delta_three_refuted : exists M2 M3, total_mass 1 3 1 2 2 M2 /\ total_mass 1 3 1 3 2 M3 /\ M3 < M2.
Proof.
  exists (tot_131 2), (tot_131d3 2). split; [apply total_131; lra|]. split; [apply total_131d3; lra|].
  unfold tot_131, tot_131d3.
  assert (HL : ln 2 < 7 / 10).
  { rewrite <- (ln_exp (7 / 10)). apply ln_increasing; [lra|].
    replace (7 / 10) with (INR 64 * (7 / 640)) by (change 64%nat with (Z.to_nat 64); rewrite INR_IZR_INZ, Z2Nat.id by lia; lra).
    assert (Hk : forall n t, 0 < t -> (1 + t) ^ n <= exp (INR n * t)).
    { intros n t Ht. induction n as [|n IH]; [rewrite Rmult_0_l, exp_0; cbn [pow]; lra|].
      rewrite S_INR. replace ((INR n + 1) * t) with (t + INR n * t) by ring. rewrite exp_plus. cbn [pow].
      apply Rmult_le_compat; [lra|apply pow_le; lra|left; apply exp_ineq1; lra|exact IH]. }
    apply (Rlt_le_trans _ ((1 + 7 / 640) ^ 64)); [|apply Hk; lra].
    replace 64%nat with (2 * (2 * (2 * (2 * (2 * 2)))))%nat by reflexivity. rewrite !pow_mult. cbn [pow]. lra. }
  assert (Hs : sqrt 3 < 174 / 100).
  { rewrite <- (sqrt_Rsqr (174 / 100)) by lra. apply sqrt_lt_1; unfold Rsqr; lra. }
  pose proof PI2_3_2 as Hpi. assert (Hpi3 : 3 < PI) by lra. pose proof (sqrt_lt_R0 3 ltac:(lra)) as Hs0.
  apply Rminus_gt_0_lt.
  replace (4 * PI * 2 ^ 2 / (2 ^ 2 + 1) ^ 2 * ((2 ^ 2 - 1) * ln 2 + 2 * PI - (2 ^ 2 + 1))
           - 4 * PI * 2 ^ 2 / (2 ^ 3 - 1) ^ 2 * (- (2) * (2 ^ 3 - 1) + 2 * sqrt 3 * PI / 9 * (2 - 1) ^ 2 * (2 * 2 + 1) + 2 * (2 ^ 3 + 2) * ln 2))
    with (16 * PI / 1225 * ((98 - 250 * sqrt 3 / 9) * PI + 105 - 353 * ln 2)) by field.
  apply Rmult_lt_0_compat; [lra|]. nra.
Qed.

Print Assumptions C52_track.
Print Assumptions C52_radius_track.
Print Assumptions C52_radius_track_refuted.
Print Assumptions C53_enclosed_mass.
Print Assumptions C53_total_mass.
Print Assumptions C53_delta3_singular_refuted.
Print Assumptions C53_peak_radius.
Print Assumptions C54_inversion.
Print Assumptions C54_range_grows.
Print Assumptions C54_consistent.
Print Assumptions C54_batch.
Print Assumptions C54_bounded_mass_loops.
Print Assumptions C54_poisoned_refuted.
Print Assumptions C54_alpha_two_refuted.
Print Assumptions C54_delta_three_refuted.
