(** C26-C30 and C62: mass functions. *)
From Verif Require Import Prelude MassFnModel MassFnSpec MassFnProofs MassFnProofs2.
From Coquelicot Require Import Coquelicot.

(** ** C26: power-law sampling *)

(** Every mass drawn lies between the limits. *)
Theorem C26_in_range lo hi index poisson norm k u ms :
  lo < hi -> (forall i, 0 <= u i <= 1) ->
  pl_draw (mk_power_law lo hi index poisson norm) k u = Ok ms ->
  forall m, In m ms -> ten_to lo <= m <= ten_to hi.
Proof.
  intros H Hu E m Hin. destruct (In_nth ms m 0 Hin) as (i & Hi & Em).
  rewrite (pl_draw_nth _ _ _ _ E i Hi) in Em. subst m. apply sample_range; auto.
Qed.

(** The i-th mass is below m exactly when the i-th random number is below the fraction of the mass function
    below m: exact inverse-CDF sampling, for every index. *)
Theorem C26_inverse_cdf lo hi index poisson norm k u ms :
  lo < hi -> (forall i, 0 <= u i <= 1) ->
  pl_draw (mk_power_law lo hi index poisson norm) k u = Ok ms ->
  forall i m, (i < List.length ms)%nat -> 0 < m ->
    (nth i ms 0 <= m <-> u i <= plaw_cdf index (ten_to lo) (ten_to hi) m).
Proof.
  intros H Hu E i m Hi Hm. rewrite (pl_draw_nth _ _ _ _ E i Hi). apply sample_le_iff; auto.
Qed.

(** With a non-negative amplitude the draw never fails; the number of masses is the Poisson count, respectively the
    mean rounded to the nearest integer; an empty or reversed range gives no masses. *)
Theorem C26_count lo hi index poisson norm k u :
  0 <= norm ->
  exists ms, pl_draw (mk_power_law lo hi index poisson norm) k u = Ok ms /\
    (poisson = false ->
       nearest_even (pl_n_mean (mk_power_law lo hi index poisson norm)) (Z.of_nat (List.length ms))) /\
    (poisson = true -> 0 < norm -> lo < hi -> List.length ms = k) /\
    (hi <= lo -> ms = nil).
Proof.
  intros Hn. destruct (pl_draw_ok lo hi index poisson norm k u Hn) as [ms E]. exists ms. split; auto.
  pose proof (pl_draw_length _ _ _ _ E) as L. unfold pl_ndraw, pl_poisson_argument in L. simpl pl_draw_poisson in L.
  split; [|split].
  - intros ->. injection L as L'. rewrite <- L'. apply np_round_spec.
  - intros -> Hn' Hlh. 
    assert (0 < pl_n_mean (mk_power_law lo hi index true norm)).
    { simpl. replace (Rleb hi lo) with false by (symmetry; apply Rleb_false; auto).
      rewrite analytic_is_integral by apply pow10_pos.
      apply Rmult_lt_0_compat; auto. apply RInt_Rpower_pos. apply pow10_pos. apply pow10_lt; auto. }
    unfold np_poisson in L.
    replace (Rltb _ 0) with false in L by (symmetry; apply Rltb_false; lra).
    replace (Reqb _ 0) with false in L by (symmetry; apply Reqb_false; lra).
    simpl in L. injection L as L'. lia.
  - intros Hr. assert (Z0 : pl_n_mean (mk_power_law lo hi index poisson norm) = 0).
    { simpl. replace (Rleb hi lo) with true by (symmetry; apply Rleb_true; auto). reflexivity. }
    rewrite Z0 in L.
    assert (Z.of_nat (List.length ms) = 0%Z).
    { destruct poisson.
      - unfold np_poisson in L. replace (Rltb 0 0) with false in L by (symmetry; apply Rltb_false; lra).
        rewrite Reqb_refl in L. simpl in L. injection L as L'. auto.
      - rewrite np_round_0 in L. injection L as L'; auto. }
    destruct ms; auto; simpl in H; lia.
Qed.

Example C26_demo : exists ms,
  pl_draw (mk_power_law 6 10 (-1.9) true 2) 3 (fun i => / (1 + INR i)) = Ok ms /\ List.length ms = 3%nat.
Proof.
  destruct (C26_count 6 10 (-1.9) true 2 3 (fun i => / (1 + INR i)) ltac:(lra)) as (ms & E & _ & L & _).
  exists ms. split; auto. apply L; auto; lra.
Qed.

(** ** C27: moments *)

Lemma ext_first norm index a b : 0 < a -> 0 < b ->
  RInt (fun m => m * (norm * Rpower m index)) a b = norm * RInt (fun t => Rpower t (1 + index)) a b.
Proof.
  intros. assert (0 < Rmin a b) by (apply Rmin_glb_lt; auto).
  transitivity (RInt (fun t => scal norm (Rpower t (1 + index))) a b).
  2:{ apply (RInt_scal (V := R_CompleteNormedModule) (fun t => Rpower t (1 + index)) a b norm).
      apply ex_RInt_Rpower; auto. }
  apply RInt_ext. intros x Hx. rewrite Rpower_plus, Rpower_1 by lra.
  unfold scal; simpl; unfold mult; simpl. ring.
Qed.

Theorem C27_moments lo hi index poisson norm :
  lo < hi ->
  let p := mk_power_law lo hi index poisson norm in
  pl_n_mean p = RInt (pl_evaluate p) (ten_to lo) (ten_to hi) /\
  pl_first_moment p = RInt (fun m => m * pl_evaluate p m) (ten_to lo) (ten_to hi) /\
  (forall m, pl_evaluate p m = norm * Rpower m index).
Proof.
  intros H p. unfold p, pl_evaluate; simpl.
  replace (Rleb hi lo) with false by (symmetry; apply Rleb_false; auto).
  rewrite !analytic_is_integral by apply pow10_pos. rewrite Rplus_0_l.
  split; [|split]; auto.
  - symmetry. apply (RInt_scal (V := R_CompleteNormedModule) (fun m => Rpower m index)).
    apply ex_RInt_Rpower; apply pow10_pos.
  - symmetry. apply ext_first; apply pow10_pos.
Qed.

Theorem C27_nonneg lo hi index poisson norm :
  0 <= norm ->
  let p := mk_power_law lo hi index poisson norm in
  0 <= pl_n_mean p /\ 0 <= pl_first_moment p /\
  (0 < norm -> lo < hi -> 0 < pl_n_mean p /\ 0 < pl_first_moment p) /\
  (hi <= lo -> pl_n_mean p = 0 /\ pl_first_moment p = 0).
Proof.
  intros Hn p. unfold p; simpl. unfold Rleb. destruct (Rle_dec hi lo).
  - repeat split; intros; lra.
  - rewrite !analytic_is_integral by apply pow10_pos.
    assert (pow10 lo < pow10 hi) by (apply pow10_lt; lra).
    pose proof (RInt_Rpower_pos (0 + index) _ _ (pow10_pos lo) H).
    pose proof (RInt_Rpower_pos (1 + index) _ _ (pow10_pos lo) H).
    repeat split; intros; try lra; try (apply Rmult_le_pos; lra); try (apply Rmult_lt_0_compat; lra).
Qed.

(** Splitting a mass range into adjacent bins splits the moments. *)
Theorem C27_additive lo mid hi index poisson norm :
  lo <= mid -> mid <= hi ->
  let p a b := mk_power_law a b index poisson norm in
  pl_n_mean (p lo hi) = pl_n_mean (p lo mid) + pl_n_mean (p mid hi) /\
  pl_first_moment (p lo hi) = pl_first_moment (p lo mid) + pl_first_moment (p mid hi).
Proof.
  intros H1 H2 p. unfold p; simpl.
  assert (K : forall n a b, a <= b -> (if Rleb b a then 0 else integrate_power_law_analytic norm (pow10 a) (pow10 b) n index)
     = norm * RInt (fun t => Rpower t (n + index)) (pow10 a) (pow10 b)).
  { intros n a b Hab. unfold Rleb; destruct (Rle_dec b a).
    - replace b with a by lra. rewrite RInt_same. ring.
    - apply analytic_is_integral; apply pow10_pos. }
  rewrite !K by lra.
  assert (C : forall n, RInt (fun t => Rpower t (n + index)) (pow10 lo) (pow10 hi)
    = RInt (fun t => Rpower t (n + index)) (pow10 lo) (pow10 mid) + RInt (fun t => Rpower t (n + index)) (pow10 mid) (pow10 hi)).
  { intros n. symmetry. apply (RInt_Chasles (V := R_CompleteNormedModule) (fun t => Rpower t (n + index)));
    apply ex_RInt_Rpower; apply pow10_pos. }
  rewrite !C. split; ring.
Qed.

(** Suppressed mass functions: the moments are the integrals of the suppressed mass function, positive and never above
    the unsuppressed ones (for an exact quadrature). *)
Theorem C27_suppressed quad lo hi index poisson norm log_mc a b c f :
  exact_quad quad -> lo < hi -> 0 < norm -> 0 < a -> c < 0 -> 0 <= f <= 1 ->
  let cdm := mk_power_law lo hi index poisson norm in
  forall t, t = mk_turnover_law quad lo hi index poisson norm (wdm_turnover log_mc a b c) \/
            t = mk_turnover_law quad lo hi index poisson norm (mixed_turnover log_mc a b c f) ->
  tl_n_mean t = RInt (tl_evaluate t) (ten_to lo) (ten_to hi) /\
  tl_first_moment t = RInt (fun m => m * tl_evaluate t m) (ten_to lo) (ten_to hi) /\
  0 <= tl_n_mean t <= pl_n_mean cdm /\ 0 <= tl_first_moment t <= pl_first_moment cdm.
Proof.
  intros Q H Hn Ha Hc Hf cdm t Ht.
  assert (Hlt : pow10 lo < pow10 hi) by (apply pow10_lt; auto).
  pose proof (pow10_pos lo) as HL.
  assert (exists S, (forall m, 0 < m -> continuous S m) /\ (forall m, 0 < m -> 0 <= S m <= 1) /\
          t = mk_turnover_law quad lo hi index poisson norm S) as (S & SC & SB & ->).
  { destruct Ht as [-> | ->]; eexists; split; [| split; [| reflexivity] | | split; [|reflexivity]]; intros.
    - apply wdm_continuous; auto.
    - pose proof (wdm_range log_mc a b c m Ha Hc H0). lra.
    - apply mixed_continuous; auto.
    - pose proof (mixed_range log_mc a b c f m Ha Hc H0 Hf). pose proof (pow2_ge_0 f). lra. }
  clear Ht. unfold cdm, ten_to, tl_evaluate; simpl. unfold integrate_power_law_quad.
  replace (Rleb hi lo) with false by (symmetry; apply Rleb_false; auto).
  rewrite !analytic_is_integral by apply pow10_pos.
  rewrite !Q by (apply supp_ex; auto; apply pow10_pos).
  assert (P : forall n, 0 <= RInt (fun m => norm * Rpower m (n + index) * S m) (pow10 lo) (pow10 hi)).
  { intros n. apply RInt_ge_0; try lra. apply supp_ex; auto; apply pow10_pos.
    intros x Hx. pose proof (Rpower_pos x (n + index)). pose proof (SB x ltac:(lra)).
    apply Rmult_le_pos; [nra|lra]. }
  repeat split; try apply P; try (apply supp_le; auto; try lra; intros; apply SB; auto).
  - apply RInt_ext. intros. rewrite Rplus_0_l. reflexivity.
  - change (Rpower 10 lo) with (pow10 lo). change (Rpower 10 hi) with (pow10 hi).
    apply RInt_ext. intros x Hx. rewrite Rmin_left, Rmax_right in Hx by lra.
    rewrite Rpower_plus, Rpower_1 by lra. match goal with |- ?a = ?b => change (@eq R a b) end; ring.
Qed.

(** Unlike the plain power law, a suppressed mass function with a reversed range does not report zero objects: its mean
    number is negative (although nothing is drawn). *)
Theorem C27_reversed_refuted quad : exact_quad quad ->
  exists lo hi, hi < lo /\
    let t := mk_turnover_law quad lo hi (-1.9) true 1 (wdm_turnover 7 1 1 (-1)) in
    tl_n_mean t < 0 /\ forall k u v, tl_draw t k u v = Ok nil.
Proof.
  intros Q. exists 8, 6. split; [lra|]. intros t. split.
  - unfold t; simpl. unfold integrate_power_law_quad. rewrite Q.
    2: apply supp_ex; [intros; apply wdm_continuous; lra | apply pow10_pos | apply pow10_pos].
    rewrite <- opp_RInt_swap.
    2:{ apply supp_ex; [intros; apply wdm_continuous; lra | apply pow10_pos | apply pow10_pos]. }
    assert (0 < RInt (fun m : R => 1 * Rpower m (0 + -1.9) * wdm_turnover 7 1 1 (-1) m) (pow10 6) (pow10 8)).
    { apply supp_pos; try lra. intros; apply wdm_continuous; lra. apply pow10_pos. apply pow10_lt; lra.
      intros; apply wdm_range; lra. }
    unfold opp; simpl. lra.
  - intros k u v. destruct (C26_count 8 6 (-1.9) true 1 k u ltac:(lra)) as (ms & E & _ & _ & N).
    unfold tl_draw. simpl tl_unbroken. rewrite E. rewrite (N ltac:(lra)). reflexivity.
Qed.

Example C27_demo : let p := mk_power_law 6 10 (-2) true 3 in
  pl_first_moment p = 3 * ln (ten_to 10 / ten_to 6) /\ 0 < pl_n_mean p.
Proof.
  intros p. split.
  - unfold p; simpl. replace (Rleb 10 6) with false by (symmetry; apply Rleb_false; lra).
    unfold integrate_power_law_analytic. replace (Reqb _ 0) with true by (symmetry; apply Reqb_true; lra). reflexivity.
  - apply (C27_nonneg 6 10 (-2) true 3); lra.
Qed.
Example C27_quad_demo : exact_quad (fun f a b => RInt f a b).
Proof. intros f a b _. reflexivity. Qed.

(** ** C28: suppression and thinning *)

Theorem C28_wdm_suppression log_mc a b c :
  0 < a -> 0 < b -> c < 0 ->
  (forall m, 0 < m -> 0 < wdm_turnover log_mc a b c m < 1) /\
  (forall m m', 0 < m -> m < m' -> wdm_turnover log_mc a b c m < wdm_turnover log_mc a b c m') /\
  (forall m, 0 < m -> wdm_turnover log_mc a b c m = Rpower (1 + a * Rpower (ten_to log_mc / m) b) c).
Proof. repeat split; intros; try (apply wdm_range; auto); try apply wdm_incr; auto. Qed.

Theorem C28_mixed_suppression log_mc a b c f :
  0 < a -> 0 < b -> c < 0 -> 0 <= f <= 1 ->
  (forall m, 0 < m -> f ^ 2 <= mixed_turnover log_mc a b c f m <= 1) /\
  (f < 1 -> forall m m', 0 < m -> m < m' -> mixed_turnover log_mc a b c f m < mixed_turnover log_mc a b c f m') /\
  (forall m, 0 < m -> mixed_turnover log_mc a b c 0 m = wdm_turnover log_mc a b c m) /\
  (forall m, 0 < m -> mixed_turnover log_mc a b c 1 m = 1) /\
  (forall m, 0 < m -> mixed_turnover log_mc a b c f m = (f + (1 - f) * sqrt (wdm_turnover log_mc a b c m)) ^ 2).
Proof.
  intros. repeat split; intros; try (apply mixed_range; auto); try (apply mixed_incr; auto; lra);
  try (apply (mixed_ends log_mc a b c m); auto).
Qed.

(** The suppressed draw is the CDM draw thinned by the second random stream, in order; so it never has more halos and
    stays in the mass range. *)
Theorem C28_thinning quad lo hi index poisson norm S k u v ms ms' :
  pl_draw (mk_power_law lo hi index poisson norm) k u = Ok ms ->
  tl_draw (mk_turnover_law quad lo hi index poisson norm S) k u v = Ok ms' ->
  thinned (fun i m => v i < S m) 0 ms ms' /\
  (List.length ms' <= List.length ms)%nat /\
  (forall m, In m ms' -> In m ms) /\
  ((forall i m, v i < S m) -> ms' = ms).
Proof.
  intros E E'. pose proof (tl_draw_thinned (mk_turnover_law quad lo hi index poisson norm S) k u v ms ms' E E') as T.
  simpl in T. split; auto. split. eapply thinned_length; eauto. split. intros; eapply thinned_In; eauto.
  intros H. apply (thinned_all _ _ _ _ T). intros; apply H.
Qed.

Theorem C28_draw_total quad lo hi index poisson norm S k u v :
  0 <= norm -> exists ms', tl_draw (mk_turnover_law quad lo hi index poisson norm S) k u v = Ok ms'.
Proof.
  intros. destruct (pl_draw_ok lo hi index poisson norm k u H) as [ms E]. eapply tl_draw_ok. exact E.
Qed.

Example C28_thinning_nonvacuous : exists ms ms',
  pl_draw (mk_power_law 6 10 (-1.9) true 2) 3 (fun i => / (1 + INR i)) = Ok ms /\ List.length ms = 3%nat /\
  tl_draw (mk_turnover_law (fun f a b => RInt f a b) 6 10 (-1.9) true 2 (wdm_turnover 7 1 1 (-1))) 3 (fun i => / (1 + INR i)) (fun _ => 1 / 2) = Ok ms'.
Proof.
  destruct C26_demo as (ms & E & L).
  destruct (C28_draw_total (fun f a b => RInt f a b) 6 10 (-1.9) true 2 (wdm_turnover 7 1 1 (-1)) 3 (fun i => / (1 + INR i)) (fun _ => 1 / 2) ltac:(lra)) as (ms' & E').
  exists ms, ms'. auto.
Qed.
Example C28_demo : wdm_turnover 7 1 1 (-1) (ten_to 7) = 1 / 2 /\ mixed_turnover 7 1 1 (-1) (1 / 2) (ten_to 7) <= 1.
Proof.
  split.
  - unfold wdm_turnover. unfold pow10, ten_to.
    replace (Rpower 10 7 / Rpower 10 7) with 1 by (field; pose proof (Rpower_pos 10 7); lra).
    rewrite Rpower_1 by lra. replace (1 + 1 * 1) with 2 by ring.
    replace (-1) with (- (1)) by ring. rewrite Rpower_Ropp, Rpower_1 by lra. field.
  - apply mixed_range; try lra. apply pow10_pos.
Qed.

(** ** C29: pivot *)

(** Tilting the field-halo mass function multiplies it by (m/m_pivot)^delta; so at the pivot mass it does not depend on
    the tilt.  It is proportional to LOS_normalization and to the volume.  Any colossus mass function, all three classes. *)
Theorem C29_field_pivot quad dndlnM h volume m_pivot lo hi delta los poisson log_mc a b c f m :
  0 < m_pivot -> 0 < m ->
  let st d := pl_evaluate (sheth_tormen dndlnM h volume m_pivot lo hi d los poisson) in
  let unit := pl_evaluate (sheth_tormen dndlnM h 1 m_pivot lo hi 0 1 poisson) in
  st delta m = los * volume * unit m * Rpower (m / m_pivot) delta /\
  st delta m_pivot = los * volume * unit m_pivot /\
  tl_evaluate (sheth_tormen_turnover quad dndlnM h volume m_pivot lo hi delta los poisson log_mc a b c) m
    = st delta m * wdm_turnover log_mc a b c m /\
  tl_evaluate (sheth_tormen_mixed quad dndlnM h volume m_pivot lo hi delta los poisson log_mc a b c f) m
    = st delta m * mixed_turnover log_mc a b c f m.
Proof.
  intros Hp Hm st unit.
  assert (G : forall m, 0 < m -> st delta m = los * volume * unit m * Rpower (m / m_pivot) delta).
  { intros x Hx. unfold st, unit, pl_evaluate, sheth_tormen, sheth_tormen_params; cbn [fst snd pl_norm pl_index mk_power_law].
    match goal with |- context [polyfit1 ?x ?y] => set (P := polyfit1 x y) end.
    rewrite Rplus_0_r, !Rpower_plus, Rpower_div by auto.
    field. split; apply Rgt_not_eq, Rpower_pos. }
  split; [apply G; auto|]. split.
  - rewrite G by auto. replace (m_pivot / m_pivot) with 1 by (field; lra).
    unfold Rpower at 1. rewrite ln_1, Rmult_0_r, exp_0. ring.
  - split.
    + reflexivity.
    + unfold st, sheth_tormen, sheth_tormen_mixed, sheth_tormen_params, sheth_tormen_params_mixed, tl_evaluate, pl_evaluate, mk_turnover_law, mk_power_law; cbn [fst snd pl_norm pl_index tl_norm tl_index tl_turnover].
      match goal with |- context [polyfit1 ?x ?y] => set (P := polyfit1 x y) end.
      field. apply Rgt_not_eq, Rpower_pos.
Qed.

(** If the underlying mass function is a power law dn/dM = A M^s, the field-halo mass function reproduces it exactly,
    tilted about the pivot, per LOS_normalization and volume. *)
Theorem C29_field_exact dndlnM h volume m_pivot lo hi delta los poisson A s :
  0 < m_pivot -> lo < hi -> 0 < A ->
  (forall m, 0 < m -> dndlnM (m * h) / m * h ^ 3 = A * Rpower m s) ->
  forall m, 0 < m ->
  pl_evaluate (sheth_tormen dndlnM h volume m_pivot lo hi delta los poisson) m
    = los * volume * (A * Rpower m s) * Rpower (m / m_pivot) delta.
Proof.
  intros Hp Hlh HA Hd m Hm.
  unfold pl_evaluate, sheth_tormen, sheth_tormen_params; cbn [fst snd pl_norm pl_index mk_power_law].
  set (x := map (fun x => log10 (x / m_pivot)) (logspace10 lo hi)).
  set (y := map log10 (map (evaluate_mass_function dndlnM h) (logspace10 lo hi))).
  assert (Ex : x = map (fun i => (lo + INR i * ((hi - lo) / 9)) - log10 m_pivot) (seq 0 10)).
  { unfold x, logspace10. rewrite map_map. apply map_ext. intros i.
    rewrite log10_div by (auto; apply pow10_pos). rewrite log10_pow10. reflexivity. }
  assert (Ey : y = map (fun a => s * a + (log10 A + s * log10 m_pivot)) x).
  { unfold y, x, logspace10. rewrite !map_map. apply map_ext. intros i.
    set (t := lo + INR i * ((hi - lo) / 9)).
    unfold evaluate_mass_function. rewrite Hd by apply pow10_pos.
    rewrite log10_mult, log10_Rpower, log10_div, log10_pow10 by (auto using pow10_pos, Rpower_pos). ring. }
  rewrite Ey, polyfit1_line. 2: rewrite Ex; apply logspace_spread; auto.
  simpl. rewrite pow10_plus, pow10_log10 by auto.
  replace (pow10 (s * log10 m_pivot)) with (Rpower m_pivot s).
  2:{ rewrite <- (pow10_log10 (Rpower m_pivot s)) by apply Rpower_pos. rewrite log10_Rpower; auto. }
  rewrite !Rpower_plus, Rpower_div by auto.
  field. split; apply Rgt_not_eq, Rpower_pos.
Qed.

(** Subhalos: mass times the mass function at the pivot mass is area * sigma_sub * host scaling, whatever the slope, with
    the area of the disc of half the opening angle; log_m_host replaces host_m200. *)
Theorem C29_subhalo_pivot zlens kpc theta k s k1 k2 lo hi :
  0 < sk_m_pivot k ->
  sk_sigma_sub k = Some s -> sk_host_scaling_factor k = Some k1 -> sk_redshift_scaling_factor k = Some k2 ->
  forall mhost, (sk_log_m_host k = None /\ sk_host_m200 k = Some mhost) \/
                (exists l, sk_log_m_host k = Some l /\ mhost = ten_to l) ->
  exists p, sub_cdm zlens kpc theta (sub_init k) lo hi = Ok p /\
    pl_index p = sk_power_law_index k + sk_delta_power_law_index k /\
    sk_m_pivot k * pl_evaluate p (sk_m_pivot k)
      = PI * (kpc * (theta / 2)) ^ 2 * (s * host_scaling_function mhost zlens k1 k2).
Proof.
  intros Hp Hs H1 H2 mhost Hh. unfold sub_cdm, sub_mass_function_args. simpl.
  rewrite Hs, H1, H2.
  assert (E : (match sk_log_m_host k with Some l => Some (pow10 l) | None => sk_host_m200 k end) = Some mhost).
  { destruct Hh as [[-> ->]|(l & -> & ->)]; reflexivity. }
  rewrite E. simpl.
  assert (exists b, match sk_draw_poisson k with Some b => Some b | None => Some true end = Some b) as [b ->].
  { destruct (sk_draw_poisson k); eauto. }
  simpl. eexists; split; [reflexivity|]. split; [reflexivity|].
  unfold pl_evaluate; simpl. unfold normalization_sigmasub.
  set (i := sk_power_law_index k + sk_delta_power_law_index k). set (F := host_scaling_function _ _ _ _).
  rewrite Rpower_Ropp, Rpower_plus, Rpower_1 by auto.
  replace (0.5) with (/ 2) by lra. field. split; [lra|apply Rgt_not_eq, Rpower_pos].
Qed.

(** The same with the amplitude given per area (dndA), used only when sigma_sub is absent. *)
Theorem C29_subhalo_pivot_dndA zlens kpc theta k d lo hi :
  0 < sk_m_pivot k -> sk_sigma_sub k = None -> sk_dndA k = Some d ->
  exists p, sub_cdm zlens kpc theta (sub_init k) lo hi = Ok p /\
    pl_index p = sk_power_law_index k + sk_delta_power_law_index k /\
    sk_m_pivot k * pl_evaluate p (sk_m_pivot k) = PI * (kpc * (theta / 2)) ^ 2 * d.
Proof.
  intros Hp Hs Hd. unfold sub_cdm, sub_mass_function_args. simpl. rewrite Hs, Hd. simpl.
  assert (exists b, match sk_draw_poisson k with Some b => Some b | None => Some true end = Some b) as [b ->].
  { destruct (sk_draw_poisson k); eauto. }
  simpl. eexists; split; [reflexivity|]. split; [reflexivity|].
  unfold pl_evaluate; simpl. set (i := sk_power_law_index k + sk_delta_power_law_index k).
  rewrite Rpower_Ropp, Rpower_plus, Rpower_1 by auto.
  replace (0.5) with (/ 2) by lra. field. split; [lra|apply Rgt_not_eq, Rpower_pos].
Qed.

Theorem C29_no_amplitude zlens kpc theta k lo hi :
  sk_sigma_sub k = None -> sk_dndA k = None -> sub_cdm zlens kpc theta (sub_init k) lo hi = Err EException.
Proof. intros Hs Hd. unfold sub_cdm, sub_mass_function_args; simpl. rewrite Hs, Hd. reflexivity. Qed.

(** Mass limits given as functions of redshift are evaluated at the lens redshift; explicit limits replace the stored ones. *)
Theorem C29_mass_limits zlens kpc theta k lo hi p :
  sub_cdm zlens kpc theta (sub_init k) lo hi = Ok p ->
  pl_logmlow p = eval_mlimit zlens (match lo with Some l => l | None => sk_log_mlow k end) /\
  pl_logmhigh p = eval_mlimit zlens (match hi with Some l => l | None => sk_log_mhigh k end).
Proof.
  unfold sub_cdm, sub_mass_function_args; simpl.
  match goal with |- bind (bind ?x _) _ = _ -> _ => destruct x end; simpl; try discriminate.
  destruct (need _); simpl; try discriminate. intros H; inversion H; subst; simpl; auto.
Qed.

(** Host scaling: (M/10^13)^k1 (z+0.5)^k2; 1 for a 10^13 host at z=0.5; increasing in host mass for k1 > 0. *)
Theorem C29_host_scaling k1 k2 :
  (forall M z, 0 < M -> 0 <= z ->
     host_scaling_function M z k1 k2 = Rpower (M / ten_to 13) k1 * Rpower (z + 1 / 2) k2) /\
  host_scaling_function (ten_to 13) (1 / 2) k1 k2 = 1 /\
  (0 < k1 -> forall M M' z, 0 < M -> M < M' -> host_scaling_function M z k1 k2 < host_scaling_function M' z k1 k2).
Proof.
  assert (P : forall x k, 0 < x -> pow10 (k * log10 x) = Rpower x k).
  { intros. rewrite <- log10_Rpower by auto. apply pow10_log10, Rpower_pos. }
  pose proof (pow10_pos 13) as T.
  assert (G : forall M z, 0 < M -> 0 <= z ->
     host_scaling_function M z k1 k2 = Rpower (M / pow10 13) k1 * Rpower (z + 1 / 2) k2).
  { intros. unfold host_scaling_function. rewrite pow10_plus, !P.
    - replace 0.5 with (1 / 2) by lra. reflexivity.
    - lra.
    - apply Rdiv_lt_0_compat; auto. }
  split; [exact G|]. split.
  - change (ten_to 13) with (pow10 13). rewrite G by (auto; lra).
    replace (pow10 13 / pow10 13) with 1 by (field; lra). replace (1 / 2 + 1 / 2) with 1 by field.
    unfold Rpower. rewrite ln_1, !Rmult_0_r, exp_0. ring.
  - intros Hk M M' z HM HMM. unfold host_scaling_function. apply pow10_lt.
    apply Rplus_lt_compat_r. apply Rmult_lt_compat_l; auto. apply log10_lt.
    apply Rdiv_lt_0_compat; auto. apply Rmult_lt_compat_r; auto. apply Rinv_0_lt_compat; auto.
Qed.

Definition demo_kwargs : sub_kwargs :=
  {| sk_log_mlow := MNum 6; sk_log_mhigh := MFun (fun z => 10 + z); sk_power_law_index := -1.9;
     sk_delta_power_law_index := 0.1; sk_m_pivot := 1e8; sk_sigma_sub := Some 0.025; sk_dndA := None;
     sk_host_m200 := None; sk_log_m_host := Some 13.3; sk_host_scaling_factor := Some 0.55;
     sk_redshift_scaling_factor := Some 0.37; sk_draw_poisson := None |}.
Example C29_demo : exists p, sub_cdm 0.5 6 6 (sub_init demo_kwargs) None (Some (MNum 8)) = Ok p /\
  pl_logmlow p = 6 /\ pl_logmhigh p = 8 /\
  sk_m_pivot demo_kwargs * pl_evaluate p (sk_m_pivot demo_kwargs)
   = PI * (6 * (6 / 2)) ^ 2 * (0.025 * host_scaling_function (ten_to 13.3) 0.5 0.55 0.37).
Proof.
  destruct (C29_subhalo_pivot 0.5 6 6 demo_kwargs 0.025 0.55 0.37 None (Some (MNum 8)) ltac:(simpl; lra)
    eq_refl eq_refl eq_refl (ten_to 13.3)) as (p & E & I & V).
  { right. exists 13.3. split; reflexivity. }
  exists p. destruct (C29_mass_limits _ _ _ _ _ _ _ E). repeat split; auto.
Qed.
(** an amplitude given as dN/dA, and none at all *)
Definition amplitude_kwargs (d : option R) : sub_kwargs :=
  {| sk_log_mlow := MNum 6; sk_log_mhigh := MFun (fun z => 10 + z); sk_power_law_index := -1.9;
     sk_delta_power_law_index := 0.1; sk_m_pivot := 1e8; sk_sigma_sub := None; sk_dndA := d;
     sk_host_m200 := None; sk_log_m_host := None; sk_host_scaling_factor := None;
     sk_redshift_scaling_factor := None; sk_draw_poisson := None |}.
Example C29_amplitude_nonvacuous :
  (exists p, sub_cdm 0.5 6 6 (sub_init (amplitude_kwargs (Some 0.01))) None None = Ok p /\ 1e8 * pl_evaluate p 1e8 = PI * (6 * (6 / 2)) ^ 2 * 0.01) /\
  sub_cdm 0.5 6 6 (sub_init (amplitude_kwargs None)) None None = Err EException.
Proof.
  split.
  - destruct (C29_subhalo_pivot_dndA 0.5 6 6 (amplitude_kwargs (Some 0.01)) 0.01 None None ltac:(simpl; lra) eq_refl eq_refl) as (p & E & _ & V).
    exists p. auto.
  - apply C29_no_amplitude; reflexivity.
Qed.
Example C29_field_demo : (* dn/dlnM = 2 (M h)^{-1} with h = 1 is dn/dM = 2 M^{-2} *)
  forall m, 0 < m -> (fun x => 2 * Rpower x (-1)) (m * 1) / m * 1 ^ 3 = 2 * Rpower m (-2).
Proof.
  intros. cbv beta. rewrite Rmult_1_r. replace (-2) with (-1 + - (1)) by ring.
  rewrite Rpower_plus, Rpower_Ropp, Rpower_1 by auto. field. lra.
Qed.

(** ** C30: delta-function and log-normal mass functions *)

(** Mean number times mass is density times volume; every drawn object has that mass; the number drawn is the Poisson
    count or the rounded mean; without Poisson noise the drawn mass is within half an object of density*volume. *)
Theorem C30_delta mass volume rho poisson k :
  0 < mass -> 0 <= rho -> 0 <= volume ->
  let d := mk_delta_fn mass volume rho poisson in
  df_n_mean d * mass = rho * volume /\
  exists ms, df_draw d k = Ok ms /\ (forall m, In m ms -> m = mass) /\
    (poisson = true -> 0 < df_n_mean d -> List.length ms = k) /\
    (poisson = false -> nearest_even (df_n_mean d) (Z.of_nat (List.length ms)) /\
                        Rabs (sumR ms - rho * volume) <= mass / 2).
Proof.
  intros Hm Hr Hv d.
  assert (HN : 0 <= df_n_mean d).
  { unfold d; simpl. apply Rmult_le_pos; [nra|]. left; apply Rinv_0_lt_compat; auto. }
  assert (HE : df_n_mean d * mass = rho * volume) by (unfold d; simpl; field; lra).
  split; auto. unfold df_draw.
  assert (exists n, (if df_poisson d then do n <- np_poisson (df_n_mean d) k; Ok (Z.of_nat n) else Ok (np_round (df_n_mean d)))
     = Ok n /\ (0 <= n)%Z /\ (poisson = true -> 0 < df_n_mean d -> n = Z.of_nat k) /\
     (poisson = false -> nearest_even (df_n_mean d) n)) as (n & -> & Hn & HP & HR).
  { simpl df_poisson. destruct poisson.
    - unfold np_poisson. replace (Rltb (df_n_mean d) 0) with false by (symmetry; apply Rltb_false; auto). simpl bind.
      eexists; split; [reflexivity|]. split; [lia|]. split; [|discriminate].
      intros _ H. unfold d in H |- *; simpl in H |- *.
      replace (Reqb (rho * volume / mass) 0) with false by (symmetry; apply Reqb_false; lra). reflexivity.
    - eexists; split; [reflexivity|]. pose proof (np_round_spec (df_n_mean d)).
      split. eapply nearest_even_nonneg; eauto. split; [discriminate|auto]. }
  exists (repeat mass (Z.to_nat n)). split.
  { cbn [bind]. f_equal. destruct (Z.ltb_spec 0 n); auto. replace n with 0%Z by lia. reflexivity. }
  rewrite repeat_length, Z2Nat.id by auto.
  split; [|split].
  - intros m Hin. apply repeat_spec in Hin. auto.
  - intros P N. rewrite (HP P N). apply Nat2Z.id.
  - intros P. specialize (HR P). split; auto.
    assert (S : forall j, sumR (repeat mass j) = INR j * mass).
    { induction j. unfold sumR; simpl; ring. simpl repeat. unfold sumR in *. simpl fold_right. rewrite IHj, S_INR. ring. }
    rewrite S, <- HE, INR_IZR_INZ, Z2Nat.id by auto.
    replace (IZR n * mass - df_n_mean d * mass) with (- ((df_n_mean d - IZR n) * mass)) by ring.
    rewrite Rabs_Ropp, Rabs_mult, (Rabs_pos_eq mass) by lra.
    destruct HR. nra.
Qed.

(** [first_moment] of the power-law classes is the expected total mass; for the delta function it is the mass of one
    object, so it is the expected total mass only when the mean number is one. *)
Theorem C30_first_moment mass volume rho poisson :
  0 < mass ->
  let d := mk_delta_fn mass volume rho poisson in
  df_first_moment d = mass /\ (df_first_moment d = df_n_mean d * mass <-> df_n_mean d = 1).
Proof.
  intros H d. split; [reflexivity|]. unfold d; simpl. set (N := _ / mass).
  split; intros E. apply Rmult_eq_reg_r with mass; lra. rewrite E; ring.
Qed.
Theorem C30_first_moment_refuted :
  exists mass volume rho, 0 < mass /\ 0 < volume /\ 0 < rho /\
    df_first_moment (mk_delta_fn mass volume rho true) <> rho * volume.
Proof. exists 1, 1, 2. simpl. repeat split; lra. Qed.

(** Field-population constructor: expected mass = LOS_normalization * mass fraction * dark matter density * volume. *)
Theorem C30_from_redshift rho_dm volume los frac mass poisson :
  mass <> 0 ->
  let d := delta_from_redshift rho_dm volume los frac mass poisson in
  df_n_mean d * df_mass d = los * frac * rho_dm * volume.
Proof. intros H d. unfold d; simpl. field; auto. Qed.

(** Primordial black holes: smooth and clumped fractions add up; the expected smooth mass per plane is the smooth
    fraction times density times volume, both for equal-mass and for log-normal black holes. *)
Theorem C30_pbh f in_halos rho_dm volume logM sigma :
  fst (pbh_fractions f in_halos) + snd (pbh_fractions f in_halos) = f /\
  (0 <= f -> 0 <= in_halos <= 1 -> 0 <= fst (pbh_fractions f in_halos) <= f /\ 0 <= snd (pbh_fractions f in_halos) <= f) /\
  (let d := pbh_smooth_delta f in_halos rho_dm volume logM in
   df_n_mean d * ten_to logM = (1 - in_halos) * f * rho_dm * volume) /\
  (let g := pbh_smooth_gauss f in_halos rho_dm volume logM sigma in
   gf_n_mean g * gf_first_moment g = (1 - in_halos) * f * rho_dm * volume).
Proof.
  simpl. split; [ring|]. split.
  { intros. split; nra. }
  split.
  - change (ten_to logM) with (pow10 logM). field. apply Rgt_not_eq, pow10_pos.
  - assert (E : exp (ln (pow10 logM) + ln (pow10 sigma) * (ln (pow10 sigma) * 1) / 2)
                = pow10 (logM + sigma * (sigma * 1) * ln 10 / 2)).
    { unfold pow10, Rpower. rewrite !ln_exp. f_equal. field. }
    rewrite E. field. apply Rgt_not_eq, pow10_pos.
Qed.

Example C30_demo : exists ms, df_draw (mk_delta_fn 2 10 1 false) 0 = Ok ms /\ List.length ms = 5%nat.
Proof.
  destruct (C30_delta 2 10 1 false 0 ltac:(lra) ltac:(lra) ltac:(lra)) as (_ & ms & E & _ & _ & N).
  exists ms. split; auto. destruct (N eq_refl) as [N' _].
  assert (nearest_even (df_n_mean (mk_delta_fn 2 10 1 false)) 5).
  { simpl. replace (1 * 10 / 2) with 5 by field. split; rewrite Rminus_diag_eq, Rabs_R0; auto; lra. }
  pose proof (nearest_even_unique _ _ _ N' H). lia.
Qed.

(** ** C62: the Stucker mass scales invert the suppression function *)

Theorem C62_mscale a b c frac :
  0 < a -> 0 < b -> c < 0 -> 0 < frac < 1 ->
  exists M, supp_mscale a b c frac = Some M /\ 0 < M /\
    Rpower (1 + Rpower (a / M) b) c = frac /\
    (forall log_mc m, 0 < m ->
       (wdm_turnover log_mc (stucker_a a b) b c m = frac <-> m = M * ten_to log_mc)).
Proof.
  intros Ha Hb Hc Hf. unfold supp_mscale.
  replace (Rltb a 0) with false by (symmetry; apply Rltb_false; lra).
  replace (Rltb b 0) with false by (symmetry; apply Rltb_false; lra).
  replace (Rltb 0 c) with false by (symmetry; apply Rltb_false; lra). simpl.
  assert (B : 1 < Rpower frac (1 / c)).
  { apply Rle_lt_trans with (Rpower frac 0). rewrite Rpower_O; lra.
    unfold Rpower. apply exp_increasing. rewrite Rmult_0_l.
    assert (ln frac < 0) by (rewrite <- ln_1; apply ln_increasing; lra).
    assert (1 / c < 0). { unfold Rdiv; rewrite Rmult_1_l; apply Rinv_lt_0_compat; auto. } nra. }
  set (q := Rpower frac (1 / c) - 1) in *. assert (0 < q) by (unfold q; lra).
  set (M := a / Rpower q (1 / b)).
  assert (HM : 0 < M) by (apply Rdiv_lt_0_compat; auto; apply Rpower_pos).
  exists M. split; [reflexivity|]. split; [auto|].
  assert (E1 : Rpower (a / M) b = q).
  { unfold M. replace (a / (a / Rpower q (1 / b))) with (Rpower q (1 / b)).
    2:{ field. split. apply Rgt_not_eq, Rpower_pos. lra. }
    unfold Rdiv; rewrite Rmult_1_l. apply Rpower_root'; lra. }
  assert (E2 : Rpower (1 + Rpower (a / M) b) c = frac).
  { rewrite E1. unfold q. replace (1 + (Rpower frac (1 / c) - 1)) with (Rpower frac (/ c)).
    2:{ unfold Rdiv; rewrite Rmult_1_l; ring. }
    apply Rpower_root'; lra. }
  split; auto. intros log_mc m Hm.
  assert (E3 : forall M', 0 < M' -> wdm_turnover log_mc (stucker_a a b) b c (M' * ten_to log_mc) = Rpower (1 + Rpower (a / M') b) c).
  { intros M' HM'. unfold wdm_turnover, stucker_a. change (ten_to log_mc) with (pow10 log_mc).
    pose proof (pow10_pos log_mc).
    rewrite Rpower_mult_distr; auto. 2: apply Rdiv_lt_0_compat; auto; nra.
    do 3 f_equal. field. lra. }
  split.
  - intros E. assert (HMT : 0 < M * ten_to log_mc) by (apply Rmult_lt_0_compat; auto; apply Rpower_pos).
    assert (S : 0 < stucker_a a b) by apply Rpower_pos.
    destruct (Rtotal_order m (M * ten_to log_mc)) as [L|[L|L]]; auto; exfalso.
    + pose proof (wdm_incr log_mc (stucker_a a b) b c _ _ S Hb Hc Hm L). rewrite E3, E2 in H0 by auto. lra.
    + pose proof (wdm_incr log_mc (stucker_a a b) b c _ _ S Hb Hc HMT L). rewrite E3, E2 in H0 by auto. lra.
  - intros ->. rewrite E3 by auto. apply E2.
Qed.

(** Outside the allowed signs the routine answers nan. *)
Theorem C62_out_of_bounds a b c frac : a < 0 \/ b < 0 \/ 0 < c <-> supp_mscale a b c frac = None.
Proof.
  unfold supp_mscale, Rltb. destruct (Rlt_dec a 0), (Rlt_dec b 0), (Rlt_dec 0 c); simpl;
  split; intros H; auto; try discriminate; lra.
Qed.

Example C62_demo : exists M, supp_mscale 2 1 (-1) (1 / 2) = Some M /\ 0 < M.
Proof. destruct (C62_mscale 2 1 (-1) (1 / 2)) as (M & E & P & _); try lra. eauto. Qed.

Print Assumptions C26_in_range.
Print Assumptions C26_inverse_cdf.
Print Assumptions C26_count.
Print Assumptions C27_moments.
Print Assumptions C27_nonneg.
Print Assumptions C27_additive.
Print Assumptions C27_suppressed.
Print Assumptions C27_reversed_refuted.
Print Assumptions C28_wdm_suppression.
Print Assumptions C28_mixed_suppression.
Print Assumptions C28_thinning.
Print Assumptions C28_draw_total.
Print Assumptions C29_field_pivot.
Print Assumptions C29_field_exact.
Print Assumptions C29_subhalo_pivot.
Print Assumptions C29_subhalo_pivot_dndA.
Print Assumptions C29_no_amplitude.
Print Assumptions C29_mass_limits.
Print Assumptions C29_host_scaling.
Print Assumptions C30_delta.
Print Assumptions C30_first_moment.
Print Assumptions C30_first_moment_refuted.
Print Assumptions C30_from_redshift.
Print Assumptions C30_pbh.
Print Assumptions C62_mscale.
Print Assumptions C62_out_of_bounds.
