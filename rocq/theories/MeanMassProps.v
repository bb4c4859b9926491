(** C124: averaged over the random numbers, a draw from a mass function contains the number of objects and the
    mass that the class reports as [n_mean] and [first_moment] (the mass that the convergence sheets remove),
    for the plain, warm and mixed dark matter mass functions. *)
From Verif Require Import Prelude MassFnModel MassFnSpec MassFnProofs MassFnProofs2 MassFnProps.
From Coquelicot Require Import Coquelicot.

(** ** Specification *)

(** A stream of numbers with [x] put in front. *)
Definition scons (x : R) (u : nat -> R) : nat -> R := fun i => match i with O => x | Datatypes.S j => u j end.
(** Mean of [F] over [k] independent uniform random numbers (the first [k] of the stream). *)
Fixpoint uniform_mean (k : nat) (F : (nat -> R) -> R) : R :=
  match k with
  | O => F (fun _ => 0)
  | Datatypes.S j => RInt (fun x => uniform_mean j (fun u => F (scons x u))) 0 1
  end.
(** Mean of [F] over two independent streams of [k] uniform random numbers. *)
Fixpoint uniform_mean2 (k : nat) (F : (nat -> R) -> (nat -> R) -> R) : R :=
  match k with
  | O => F (fun _ => 0) (fun _ => 0)
  | Datatypes.S j =>
      RInt (fun x => RInt (fun y => uniform_mean2 j (fun u v => F (scons x u) (scons y v))) 0 1) 0 1
  end.
(** [X k] averages to [value] when [k] follows the Poisson law of mean [lam]. *)
Definition poisson_mean (lam : R) (X : nat -> R) (value : R) : Prop :=
  is_series (fun k => exp (- lam) * (lam ^ k / INR (fact k)) * X k) value.
(** Total weight of the objects drawn (weight 1: their number; weight m: their mass). *)
Definition drawn (w : R -> R) (r : result (list R)) : R :=
  match r with Ok ms => rsum (map w ms) | Err _ => 0 end.

(** ** The sampler as a change of variables *)
Lemma RInt_mul (c : R) (f : R -> R) a b : ex_RInt f a b -> c * RInt f a b = RInt (fun x => c * f x) a b.
Proof. intros H. symmetry. exact (RInt_scal (V := R_CompleteNormedModule) f a b c H). Qed.
Section Sampler.
Variables (lo hi index norm : R) (po : bool).
Hypothesis Hlh : lo < hi.
Let s := pl_sample (mk_power_law lo hi index po norm).
Let T := RInt (fun t => Rpower t index) (pow10 lo) (pow10 hi).

Lemma T_pos : 0 < T.
Proof. apply RInt_Rpower_pos; [apply pow10_pos|apply pow10_lt; exact Hlh]. Qed.
Lemma s_pos x : 0 <= x <= 1 -> 0 < s x.
Proof. intros H. apply (sample_cdf lo hi index po norm x Hlh H). Qed.
Lemma s_0 : s 0 = pow10 lo.
Proof.
  unfold s, pl_sample. cbn [pl_index pl_logmhigh pl_logmlow mk_power_law]. pose proof (pow10_pos lo).
  unfold Reqb. destruct (Req_EM_T index (-1)) as [E|E].
  - rewrite Rmult_0_r, exp_0. lra.
  - rewrite Rmult_0_l, Rplus_0_l. apply Rpower_root; lra.
Qed.
Lemma s_1 : s 1 = pow10 hi.
Proof.
  unfold s, pl_sample. cbn [pl_index pl_logmhigh pl_logmlow mk_power_law].
  pose proof (pow10_pos lo) as A. pose proof (pow10_pos hi) as B.
  unfold Reqb. destruct (Req_EM_T index (-1)) as [E|E].
  - rewrite Rmult_1_r, exp_ln by (apply Rdiv_lt_0_compat; auto). field. lra.
  - rewrite Rmult_1_l. replace (Rpower (pow10 hi) (1 + index) - Rpower (pow10 lo) (1 + index) + Rpower (pow10 lo) (1 + index))
      with (Rpower (pow10 hi) (1 + index)) by ring. apply Rpower_root; lra.
Qed.
Lemma s_derive x : 0 <= x <= 1 -> is_derive s x (T * Rpower (s x) (- index)).
Proof.
  intros Hx. pose proof (pow10_pos lo) as A. pose proof (pow10_pos hi) as B.
  assert (ET : T = if Reqb (index + 1) 0 then ln (pow10 hi / pow10 lo)
                   else (Rpower (pow10 hi) (index + 1) - Rpower (pow10 lo) (index + 1)) / (index + 1))
    by (apply RInt_Rpower; auto).
  unfold s, pl_sample. cbn [pl_index pl_logmhigh pl_logmlow mk_power_law].
  unfold Reqb in *. destruct (Req_EM_T index (-1)) as [E|E]; destruct (Req_EM_T (index + 1) 0) as [E'|E']; try lra.
  - replace (- index) with 1 by lra. rewrite Rpower_1 by (apply Rmult_lt_0_compat; [exact A|apply exp_pos]).
    rewrite ET. auto_derive; auto. ring.
  - set (e := 1 + index). set (H := Rpower (pow10 hi) e). set (L := Rpower (pow10 lo) e).
    assert (PH : 0 < H) by apply Rpower_pos. assert (PL : 0 < L) by apply Rpower_pos.
    assert (PB : 0 < x * (H - L) + L) by nra.
    assert (Te : T * e = H - L).
    { rewrite ET. replace (index + 1) with e by (unfold e; ring). fold H L. field. unfold e; lra. }
    rewrite Rpower_mult.
    evar_last.
    { apply (is_derive_comp (fun b => Rpower b (/ e)) (fun x => x * (H - L) + L)).
      - apply is_derive_Rpower. exact PB.
      - auto_derive; [exact I|reflexivity]. }
    unfold scal; simpl; unfold mult; simpl.
    replace (/ e * - index) with (/ e - 1) by (unfold e; field; lra).
    replace (1 * (H - L)) with (T * e) by lra. field. unfold e; lra.
Qed.
Lemma s_continuous x : 0 <= x <= 1 -> continuous s x.
Proof. intros H. apply (ex_derive_continuous s x). eexists. apply s_derive. exact H. Qed.

(** The average of [g] over the sampled masses is its average over the mass function. *)
Lemma s_mean g : (forall m, 0 < m -> continuous g m) ->
  T * RInt (fun x => g (s x)) 0 1 = RInt (fun m => g m * Rpower m index) (pow10 lo) (pow10 hi) /\
  ex_RInt (fun x => g (s x)) 0 1.
Proof.
  intros Hg.
  assert (EX : ex_RInt (fun x => g (s x)) 0 1).
  { apply (ex_RInt_continuous (V := R_CompleteNormedModule)). intros x Hx. rewrite Rmin_left, Rmax_right in Hx by lra.
    apply (continuous_comp s g); [apply s_continuous; exact Hx|apply Hg; apply s_pos; exact Hx]. }
  split; [|exact EX].
  rewrite <- s_0, <- s_1.
  rewrite <- (RInt_comp (V := R_CompleteNormedModule) (fun m => g m * Rpower m index) s (fun x => T * Rpower (s x) (- index)) 0 1).
  - rewrite (RInt_mul T (fun x => g (s x)) 0 1 EX).
    apply RInt_ext. intros x Hx. rewrite Rmin_left, Rmax_right in Hx by lra.
    unfold scal; simpl; unfold mult; simpl.
    assert (P : Rpower (s x) (- index) * Rpower (s x) index = 1).
    { rewrite <- Rpower_plus. replace (- index + index) with 0 by ring. apply Rpower_O. apply s_pos; lra. }
    match goal with |- @eq _ ?a ?b => change (@eq R a b) end.
    transitivity (T * g (s x) * (Rpower (s x) (- index) * Rpower (s x) index)); [rewrite P; ring|ring].
  - intros x Hx. rewrite Rmin_left, Rmax_right in Hx by lra. pose proof (s_pos x Hx) as P.
    apply (continuous_mult (K := R_AbsRing) g (fun m => Rpower m index)); [apply Hg; exact P|apply continuous_Rpower; exact P].
  - intros x Hx. rewrite Rmin_left, Rmax_right in Hx by lra. split; [apply s_derive; exact Hx|].
    apply (continuous_mult (K := R_AbsRing) (fun _ => T) (fun x => Rpower (s x) (- index))); [apply continuous_const|].
    apply (continuous_comp s (fun m => Rpower m (- index))); [apply s_continuous; exact Hx|].
    apply continuous_Rpower. apply s_pos; exact Hx.
Qed.
End Sampler.

(** ** Means over streams *)
Definition psum (k : nat) (f : nat -> R) : R := rsum (map f (seq 0 k)).
Lemma psum_S k f : psum (Datatypes.S k) f = f O + psum k (fun i => f (Datatypes.S i)).
Proof. unfold psum. cbn [seq map rsum]. rewrite <- seq_shift, map_map. reflexivity. Qed.

Lemma is_RInt_01_const (c : R) : is_RInt (fun _ => c) 0 1 c.
Proof.
  assert (H := is_RInt_const (V := R_NormedModule) 0 1 c). unfold scal in H; simpl in H; unfold mult in H; simpl in H.
  replace ((1 - 0) * c) with c in H by ring. exact H.
Qed.
Lemma is_RInt_shift (f : R -> R) (I c : R) : is_RInt f 0 1 I -> is_RInt (fun x => c + f x) 0 1 (c + I).
Proof. intros H. apply (is_RInt_plus (V := R_NormedModule) (fun _ => c) f); [apply is_RInt_01_const|exact H]. Qed.

Lemma uniform_mean_ext k : forall F G, (forall u, F u = G u) -> uniform_mean k F = uniform_mean k G.
Proof.
  induction k as [|k IH]; intros F G E; simpl; [apply E|].
  apply RInt_ext. intros x _. apply IH. intros u. apply E.
Qed.
Lemma uniform_mean2_ext k : forall F G, (forall u v, F u v = G u v) -> uniform_mean2 k F = uniform_mean2 k G.
Proof.
  induction k as [|k IH]; intros F G E; simpl; [apply E|].
  apply RInt_ext. intros x _. apply RInt_ext. intros y _. apply IH. intros u v. apply E.
Qed.
Lemma uniform_mean_sum (h : R -> R) (I : R) : is_RInt h 0 1 I ->
  forall k c, uniform_mean k (fun u => c + psum k (fun i => h (u i))) = c + INR k * I.
Proof.
  intros HI. induction k as [|k IH]; intros c.
  - simpl. unfold psum. simpl. ring.
  - cbn [uniform_mean].
    transitivity (RInt (fun x => (c + INR k * I) + h x) 0 1).
    + apply RInt_ext. intros x _.
      rewrite (uniform_mean_ext k _ (fun u => (c + h x) + psum k (fun i => h (u i)))).
      * rewrite IH. match goal with |- @eq _ ?a ?b => change (@eq R a b) end. ring.
      * intros u. rewrite psum_S. simpl. ring.
    + rewrite (is_RInt_unique (V := R_CompleteNormedModule) _ _ _ _ (is_RInt_shift h I (c + INR k * I) HI)).
      rewrite S_INR. match goal with |- @eq _ ?a ?b => change (@eq R a b) end. ring.
Qed.
Lemma uniform_mean2_sum (h : R -> R -> R) (H : R -> R) (J : R) :
  (forall x, 0 < x < 1 -> is_RInt (h x) 0 1 (H x)) -> is_RInt H 0 1 J ->
  forall k c, uniform_mean2 k (fun u v => c + psum k (fun i => h (u i) (v i))) = c + INR k * J.
Proof.
  intros HH HJ. induction k as [|k IH]; intros c.
  - simpl. unfold psum. simpl. ring.
  - cbn [uniform_mean2].
    transitivity (RInt (fun x => (c + INR k * J) + H x) 0 1).
    + apply RInt_ext. intros x Hx. rewrite Rmin_left, Rmax_right in Hx by lra.
      transitivity (RInt (fun y => (c + INR k * J) + h x y) 0 1).
      * apply RInt_ext. intros y _.
        rewrite (uniform_mean2_ext k _ (fun u v => (c + h x y) + psum k (fun i => h (u i) (v i)))).
        -- rewrite IH. match goal with |- @eq _ ?a ?b => change (@eq R a b) end. ring.
        -- intros u v. rewrite psum_S. simpl. ring.
      * apply (is_RInt_unique (V := R_CompleteNormedModule)). apply is_RInt_shift. apply HH. exact Hx.
    + rewrite (is_RInt_unique (V := R_CompleteNormedModule) _ _ _ _ (is_RInt_shift H J (c + INR k * J) HJ)).
      rewrite S_INR. match goal with |- @eq _ ?a ?b => change (@eq R a b) end. ring.
Qed.

(** Probability that a uniform number lies below [a]. *)
Lemma step_mean a c : 0 <= a <= 1 -> is_RInt (fun y => if Rltb y a then c else 0) 0 1 (a * c).
Proof.
  intros Ha. replace (a * c) with (plus (a * c) (0 : R)) by (unfold plus; simpl; ring).
  apply (is_RInt_Chasles (V := R_NormedModule) _ 0 a 1).
  - apply (is_RInt_ext (V := R_NormedModule) (fun _ => c)).
    + intros x Hx. rewrite Rmin_left, Rmax_right in Hx by lra. rewrite (proj2 (Rltb_true x a)) by lra. reflexivity.
    + assert (H := is_RInt_const (V := R_NormedModule) 0 a c). unfold scal in H; simpl in H; unfold mult in H; simpl in H.
      replace ((a - 0) * c) with (a * c) in H by ring. exact H.
  - apply (is_RInt_ext (V := R_NormedModule) (fun _ => 0)).
    + intros x Hx. rewrite Rmin_left, Rmax_right in Hx by lra. rewrite (proj2 (Rltb_false x a)) by lra. reflexivity.
    + assert (H := is_RInt_const (V := R_NormedModule) a 1 0). unfold scal in H; simpl in H; unfold mult in H; simpl in H.
      replace ((1 - a) * 0) with 0 in H by ring. exact H.
Qed.

Lemma poisson_linear lam c : poisson_mean lam (fun k => INR k * c) (lam * c).
Proof.
  unfold poisson_mean.
  assert (E : is_series (fun k => lam ^ k / INR (fact k)) (exp lam)).
  { pose proof (is_exp_Reals lam) as H. unfold is_pseries in H.
    eapply is_series_ext; [|exact H]. intros k. unfold scal; simpl; unfold mult; simpl.
    rewrite pow_n_pow. unfold Rdiv. reflexivity. }
  apply (is_series_decr_1 (V := R_NormedModule)).
  match goal with |- is_series _ ?v => replace v with (exp (- lam) * (lam * c) * exp lam) end.
  2:{ unfold plus, opp; simpl. transitivity (lam * c * (exp (- lam) * exp lam)); [ring|].
      rewrite <- exp_plus. replace (- lam + lam) with 0 by ring. rewrite exp_0. field. }
  eapply is_series_ext; [|apply (is_series_scal (exp (- lam) * (lam * c)) _ _ E)].
  intros k.
  match goal with |- @eq _ _ ?b => change (exp (- lam) * (lam * c) * (lam ^ k / INR (fact k)) = b :> R) end.
  assert (F : INR (fact (Datatypes.S k)) = INR (Datatypes.S k) * INR (fact k)) by (rewrite fact_simpl, mult_INR; reflexivity).
  rewrite F. pose proof (INR_fact_neq_0 k). pose proof (not_0_INR (Datatypes.S k) ltac:(discriminate)).
  cbn [pow]. field. auto.
Qed.

(** ** The draws *)
Lemma n_mean_T lo hi index po norm : lo < hi ->
  pl_n_mean (mk_power_law lo hi index po norm) = norm * RInt (fun t => Rpower t index) (pow10 lo) (pow10 hi).
Proof.
  intros H. cbn [pl_n_mean mk_power_law]. rewrite (proj2 (Rleb_false hi lo)) by exact H.
  rewrite analytic_is_integral by apply pow10_pos. rewrite Rplus_0_l. reflexivity.
Qed.
Lemma draw_poisson lo hi index norm k u : lo < hi -> 0 < norm ->
  pl_draw (mk_power_law lo hi index true norm) k u =
  Ok (map (pl_sample (mk_power_law lo hi index true norm)) (map u (seq 0 k))).
Proof.
  intros H Hn. unfold pl_draw, pl_ndraw. cbn [pl_draw_poisson mk_power_law]. unfold np_poisson, pl_poisson_argument.
  assert (P : 0 < pl_n_mean (mk_power_law lo hi index true norm)) by (apply (C27_nonneg lo hi index true norm); lra).
  cbn [pl_n_mean mk_power_law] in P |- *.
  rewrite (proj2 (Rltb_false _ 0)) by lra. rewrite (proj2 (Reqb_false _ 0)) by lra. cbn [bind].
  unfold np_deviates. rewrite (proj2 (Z.ltb_ge _ 0)) by lia. cbn [bind]. rewrite Nat2Z.id. reflexivity.
Qed.
Lemma where_lt_sum (S w : R -> R) (m v : nat -> R) l :
  rsum (map w (where_lt (map v l) (map S (map m l)) (map m l))) =
  rsum (map (fun i => if Rltb (v i) (S (m i)) then w (m i) else 0) l).
Proof.
  induction l as [|i l IH]; simpl; [reflexivity|].
  destruct (Rltb (v i) (S (m i))); simpl; rewrite IH; ring.
Qed.

(** C124, cold dark matter: for every continuous weight (in particular number and mass) the mean over Poisson
    counts and uniform random numbers is the integral over the mass function. *)
Theorem C124_cdm lo hi index norm w :
  lo < hi -> 0 < norm -> (forall m, 0 < m -> continuous w m) ->
  let p := mk_power_law lo hi index true norm in
  poisson_mean (pl_poisson_argument p) (fun k => uniform_mean k (fun u => drawn w (pl_draw p k u)))
    (RInt (fun m => w m * pl_evaluate p m) (ten_to lo) (ten_to hi)).
Proof.
  intros H Hn Hw p.
  destruct (s_mean lo hi index norm true H w Hw) as [E EX].
  set (I := RInt (fun x => w (pl_sample (mk_power_law lo hi index true norm) x)) 0 1) in *.
  assert (V : RInt (fun m => w m * pl_evaluate p m) (ten_to lo) (ten_to hi) = pl_n_mean p * I).
  { unfold p. rewrite (n_mean_T lo hi index true norm H). unfold pl_evaluate. cbn [pl_norm pl_index mk_power_law].
    rewrite Rmult_assoc, E. change ten_to with pow10.
    rewrite (RInt_mul norm (fun m => w m * Rpower m index)).
    - apply RInt_ext. intros m _. unfold scal; simpl; unfold mult; simpl.
      match goal with |- @eq _ ?a ?b => change (@eq R a b) end. ring.
    - apply (ex_RInt_continuous (V := R_CompleteNormedModule)). intros m Hm.
      pose proof (pow10_pos lo). pose proof (pow10_lt lo hi H). rewrite Rmin_left, Rmax_right in Hm by lra.
      apply (continuous_mult (K := R_AbsRing) w (fun m => Rpower m index)); [apply Hw; lra|apply continuous_Rpower; lra]. }
  rewrite V. unfold poisson_mean, pl_poisson_argument. eapply is_series_ext; [|apply (poisson_linear (pl_n_mean p) I)].
  intros k. match goal with |- @eq _ ?a ?b => change (@eq R a b) end. f_equal.
  rewrite (uniform_mean_ext k _ (fun u => 0 + psum k (fun i => w (pl_sample p (u i))))).
  - rewrite (uniform_mean_sum (fun x => w (pl_sample p x)) I); [rewrite Rplus_0_l; reflexivity|].
    apply (RInt_correct (V := R_CompleteNormedModule)). exact EX.
  - intros u. unfold p. rewrite draw_poisson by assumption. cbn [drawn]. unfold psum. rewrite !map_map. ring.
Qed.

(** Mean number and mean mass are what the class reports. *)
Theorem C124_cdm_moments lo hi index norm :
  lo < hi -> 0 < norm ->
  let p := mk_power_law lo hi index true norm in
  poisson_mean (pl_poisson_argument p) (fun k => uniform_mean k (fun u => drawn (fun _ => 1) (pl_draw p k u))) (pl_n_mean p) /\
  poisson_mean (pl_poisson_argument p) (fun k => uniform_mean k (fun u => drawn (fun m => m) (pl_draw p k u))) (pl_first_moment p).
Proof.
  intros H Hn p. destruct (C27_moments lo hi index true norm H) as [E0 [E1 _]]. fold p in E0, E1. split.
  - replace (pl_n_mean p) with (RInt (fun m => 1 * pl_evaluate p m) (ten_to lo) (ten_to hi)).
    + apply (C124_cdm lo hi index norm (fun _ => 1) H Hn). intros m _. apply continuous_const.
    + rewrite E0. apply RInt_ext. intros m _. match goal with |- @eq _ ?a ?b => change (@eq R a b) end. ring.
  - rewrite E1. apply (C124_cdm lo hi index norm (fun m => m) H Hn). intros m _. apply continuous_id.
Qed.

(** Without Poisson noise the number is the rounded mean, and the mean mass is that many times the mean mass of
    one object: within half an object of the reported first moment. *)
Theorem C124_fixed_count lo hi index norm k :
  lo < hi -> 0 < norm ->
  let p := mk_power_law lo hi index false norm in
  exists n, nearest_even (pl_n_mean p) (Z.of_nat n) /\
    let mean := uniform_mean n (fun u => drawn (fun m => m) (pl_draw p k u)) in
    mean = INR n * (pl_first_moment p / pl_n_mean p) /\
    Rabs (mean - pl_first_moment p) <= 1 / 2 * (pl_first_moment p / pl_n_mean p).
Proof.
  intros H Hn p.
  destruct (C27_nonneg lo hi index false norm ltac:(lra)) as [_ [_ [P _]]]. destruct (P Hn H) as [P0 P1]. fold p in P0, P1.
  pose proof (np_round_spec (pl_n_mean p)) as NR.
  pose proof (nearest_even_nonneg _ _ (Rlt_le _ _ P0) NR) as NZ.
  exists (Z.to_nat (np_round (pl_n_mean p))). rewrite Z2Nat.id by exact NZ. split; [exact NR|]. cbv zeta.
  set (n := Z.to_nat (np_round (pl_n_mean p))).
  destruct (s_mean lo hi index norm false H (fun m => m) (fun m _ => continuous_id m)) as [E EX].
  set (I := RInt (fun x => pl_sample (mk_power_law lo hi index false norm) x) 0 1) in *.
  assert (V : pl_first_moment p = pl_n_mean p * I).
  { destruct (C27_moments lo hi index false norm H) as [_ [E1 _]]. fold p in E1. rewrite E1.
    unfold p. rewrite (n_mean_T lo hi index false norm H). unfold pl_evaluate. cbn [pl_norm pl_index mk_power_law].
    rewrite Rmult_assoc, E. change ten_to with pow10.
    rewrite (RInt_mul norm (fun m => m * Rpower m index)).
    - apply RInt_ext. intros m _. unfold scal; simpl; unfold mult; simpl.
      match goal with |- @eq _ ?a ?b => change (@eq R a b) end. ring.
    - apply (ex_RInt_continuous (V := R_CompleteNormedModule)). intros m Hm.
      pose proof (pow10_pos lo). pose proof (pow10_lt lo hi H). rewrite Rmin_left, Rmax_right in Hm by lra.
      apply (continuous_mult (K := R_AbsRing) (fun m => m) (fun m => Rpower m index)); [apply continuous_id|apply continuous_Rpower; lra]. }
  assert (VI : pl_first_moment p / pl_n_mean p = I) by (rewrite V; field; lra).
  assert (M : uniform_mean n (fun u => drawn (fun m => m) (pl_draw p k u)) = INR n * I).
  { rewrite (uniform_mean_ext n _ (fun u => 0 + psum n (fun i => pl_sample p (u i)))).
    - rewrite (uniform_mean_sum (fun x => pl_sample p x) I); [ring|].
      apply (RInt_correct (V := R_CompleteNormedModule)). exact EX.
    - intros u. unfold pl_draw, pl_ndraw, p at 1. cbn [pl_draw_poisson mk_power_law bind]. fold p.
      unfold np_deviates. rewrite (proj2 (Z.ltb_ge _ 0)) by exact NZ. cbn [bind drawn]. unfold psum, n.
      rewrite !map_map. ring. }
  rewrite M, VI. split; [reflexivity|]. rewrite V.
  replace (INR n * I - pl_n_mean p * I) with ((INR n - pl_n_mean p) * I) by ring.
  assert (PI : 0 < I) by (rewrite <- VI; apply Rdiv_lt_0_compat; auto).
  rewrite Rabs_mult, (Rabs_pos_eq I) by lra. apply Rmult_le_compat_r; [lra|].
  destruct NR as [NR _]. rewrite Rabs_minus_sym. unfold n. rewrite INR_IZR_INZ, Z2Nat.id by exact NZ. exact NR.
Qed.

(** C124, suppressed mass functions: the thinning with a second stream of random numbers makes the mean number and
    the mean mass those of the suppressed mass function. *)
Theorem C124_suppressed quad lo hi index norm S w :
  exact_quad quad -> lo < hi -> 0 < norm ->
  (forall m, 0 < m -> continuous S m) -> (forall m, 0 < m -> 0 <= S m <= 1) -> (forall m, 0 < m -> continuous w m) ->
  let t := mk_turnover_law quad lo hi index true norm S in
  poisson_mean (pl_poisson_argument (tl_unbroken t)) (fun k => uniform_mean2 k (fun u v => drawn w (tl_draw t k u v)))
    (RInt (fun m => w m * tl_evaluate t m) (ten_to lo) (ten_to hi)).
Proof.
  intros Q H Hn CS BS Hw t.
  set (p := mk_power_law lo hi index true norm). change (tl_unbroken t) with p.
  assert (Hg : forall m, 0 < m -> continuous (fun m => S m * w m) m).
  { intros m Hm. apply (continuous_mult (K := R_AbsRing) S w); auto. }
  destruct (s_mean lo hi index norm true H (fun m => S m * w m) Hg) as [E EX]. fold p in E, EX.
  set (I := RInt (fun x => S (pl_sample p x) * w (pl_sample p x)) 0 1) in *.
  assert (V : RInt (fun m => w m * tl_evaluate t m) (ten_to lo) (ten_to hi) = pl_n_mean p * I).
  { unfold p. rewrite (n_mean_T lo hi index true norm H). unfold tl_evaluate, t. cbn [tl_norm tl_index tl_turnover mk_turnover_law].
    rewrite Rmult_assoc, E. change ten_to with pow10.
    rewrite (RInt_mul norm (fun m => S m * w m * Rpower m index)).
    - apply RInt_ext. intros m _. unfold scal; simpl; unfold mult; simpl.
      match goal with |- @eq _ ?a ?b => change (@eq R a b) end. ring.
    - apply (ex_RInt_continuous (V := R_CompleteNormedModule)). intros m Hm.
      pose proof (pow10_pos lo). pose proof (pow10_lt lo hi H). rewrite Rmin_left, Rmax_right in Hm by lra.
      apply (continuous_mult (K := R_AbsRing) (fun m => S m * w m) (fun m => Rpower m index)); [apply Hg; lra|apply continuous_Rpower; lra]. }
  rewrite V. unfold poisson_mean, pl_poisson_argument. eapply is_series_ext; [|apply (poisson_linear (pl_n_mean p) I)].
  intros k. match goal with |- @eq _ ?a ?b => change (@eq R a b) end. f_equal.
  rewrite (uniform_mean2_ext k _ (fun u v => 0 + psum k (fun i =>
             if Rltb (v i) (S (pl_sample p (u i))) then w (pl_sample p (u i)) else 0))).
  - rewrite (uniform_mean2_sum (fun x y => if Rltb y (S (pl_sample p x)) then w (pl_sample p x) else 0)
               (fun x => S (pl_sample p x) * w (pl_sample p x)) I); [rewrite Rplus_0_l; reflexivity| |].
    + intros x Hx. apply step_mean. apply BS. apply (s_pos lo hi index norm true H). lra.
    + apply (RInt_correct (V := R_CompleteNormedModule)). exact EX.
  - intros u v. unfold tl_draw, t. cbn [tl_unbroken tl_turnover mk_turnover_law]. fold p.
    unfold p at 1. rewrite draw_poisson by assumption. fold p. cbn [bind]. unfold psum.
    destruct k as [|k].
    + simpl. ring.
    + rewrite !map_length, seq_length. unfold np_deviates. rewrite (proj2 (Z.ltb_ge _ 0)) by lia. rewrite Nat2Z.id.
      rewrite <- (where_lt_sum S w (fun i => pl_sample p (u i)) v (seq 0 (Datatypes.S k))). rewrite Rplus_0_l.
      destruct (map (pl_sample p) (map u (seq 0 (Datatypes.S k)))) eqn:EM; [discriminate|].
      rewrite <- EM. rewrite (map_map u (pl_sample p)). reflexivity.
Qed.
(** Instances: warm and mixed dark matter, mean number and mean mass as reported. *)
Theorem C124_suppressed_moments quad lo hi index norm log_mc a b c f :
  exact_quad quad -> lo < hi -> 0 < norm -> 0 < a -> c < 0 -> 0 <= f <= 1 ->
  forall t, t = mk_turnover_law quad lo hi index true norm (wdm_turnover log_mc a b c) \/
            t = mk_turnover_law quad lo hi index true norm (mixed_turnover log_mc a b c f) ->
  poisson_mean (pl_poisson_argument (tl_unbroken t)) (fun k => uniform_mean2 k (fun u v => drawn (fun _ => 1) (tl_draw t k u v))) (tl_n_mean t) /\
  poisson_mean (pl_poisson_argument (tl_unbroken t)) (fun k => uniform_mean2 k (fun u v => drawn (fun m => m) (tl_draw t k u v))) (tl_first_moment t).
Proof.
  intros Q H Hn Ha Hc Hf t Ht.
  destruct (C27_suppressed quad lo hi index true norm log_mc a b c f Q H Hn Ha Hc Hf t Ht) as [E0 [E1 _]].
  assert (exists S, (forall m, 0 < m -> continuous S m) /\ (forall m, 0 < m -> 0 <= S m <= 1) /\
          t = mk_turnover_law quad lo hi index true norm S) as (S & SC & SB & ES).
  { destruct Ht as [-> | ->]; eexists; split; [| split; [| reflexivity] | | split; [|reflexivity]]; intros.
    - apply wdm_continuous; auto.
    - pose proof (wdm_range log_mc a b c m Ha Hc H0). lra.
    - apply mixed_continuous; auto.
    - pose proof (mixed_range log_mc a b c f m Ha Hc H0 Hf). pose proof (pow2_ge_0 f). lra. }
  split.
  - replace (tl_n_mean t) with (RInt (fun m => 1 * tl_evaluate t m) (ten_to lo) (ten_to hi)).
    + rewrite ES. apply (C124_suppressed quad lo hi index norm S (fun _ => 1) Q H Hn SC SB). intros m _. apply continuous_const.
    + rewrite E0. apply RInt_ext. intros m _. match goal with |- @eq _ ?a ?b => change (@eq R a b) end. ring.
  - rewrite E1, ES. apply (C124_suppressed quad lo hi index norm S (fun m => m) Q H Hn SC SB). intros m _. apply continuous_id.
Qed.

(** A mass function meeting the hypotheses, with a positive mean number and mass; and a suppressed one. *)
Example C124_nonvacuous :
  let p := mk_power_law 6 10 (-1.9) true 2 in
  0 < pl_n_mean p /\ 0 < pl_first_moment p /\
  exists ms, pl_draw p 3 (fun i => / (1 + INR i)) = Ok ms /\ List.length ms = 3%nat.
Proof.
  intros p. destruct (C27_nonneg 6 10 (-1.9) true 2 ltac:(lra)) as [_ [_ [P _]]].
  destruct (P ltac:(lra) ltac:(lra)) as [P0 P1]. split; [exact P0|]. split; [exact P1|].
  eexists. split; [apply (draw_poisson 6 10 (-1.9) 2 3); lra|]. reflexivity.
Qed.
Example C124_suppressed_nonvacuous :
  exact_quad (fun f a b => RInt f a b) /\
  forall m, 0 < m -> 0 < wdm_turnover 8 1 1 (-1) m < 1.
Proof. split; [intros f a b _; reflexivity|]. intros m Hm. apply wdm_range; lra. Qed.

Print Assumptions C124_cdm.
Print Assumptions C124_cdm_moments.
Print Assumptions C124_fixed_count.
Print Assumptions C124_suppressed.
Print Assumptions C124_suppressed_moments.
