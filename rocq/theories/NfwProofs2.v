(** Projected masses for C74. *)
From Coq Require Import Nsatz Reals.
From Verif Require Import Prelude TnfwSpec TnfwProofs TidalInt TidalTotal NfwModel NfwSpec NfwProofs.
From Coquelicot Require Import Coquelicot.
Local Open Scope R_scope.
Local Open Scope list_scope.

Lemma above_filter a (Fb : (R -> Prop) -> Prop) (P : R -> Prop) : Fb (fun b => a < b) -> (forall x, a < x -> P x) ->
  filter_prod (at_right a) Fb (fun ab => forall x, Rmin (fst ab) (snd ab) <= x <= Rmax (fst ab) (snd ab) -> P x).
Proof.
  intros Hb HP. apply (Filter_prod _ _ _ (fun b => a < b) (fun b => a < b)); [|exact Hb|].
  - exists (mkposreal 1 Rlt_0_1). intros y _ H. exact H.
  - intros u v Hu Hv x Hx. apply HP. cbn [fst snd] in Hx. unfold Rmin in Hx. destruct (Rle_dec u v); lra.
Qed.
Lemma gen_ftc_above a (F f : R -> R) la lb :
  (forall x, a < x -> is_derive F x (f x)) -> (forall x, a < x -> continuous f x) ->
  filterlim F (at_right a) (locally la) -> filterlim F (Rbar_locally p_infty) (locally lb) ->
  is_RInt_gen f (at_right a) (Rbar_locally p_infty) (lb - la).
Proof.
  intros HF Hf Ha Hl.
  assert (Hb : Rbar_locally p_infty (fun b => a < b)) by (exists a; intros x H; exact H).
  apply (is_RInt_gen_ext (Derive F) f).
  { apply (filter_imp (fun ab => forall x, Rmin (fst ab) (snd ab) <= x <= Rmax (fst ab) (snd ab) -> Derive F x = f x)).
    - intros ab H x Hx. apply H. lra.
    - apply (above_filter a _ (fun x => Derive F x = f x) Hb). intros x Hx. apply is_derive_unique, HF, Hx. }
  apply (is_RInt_gen_Derive F la lb); [| |exact Ha|exact Hl].
  - apply (above_filter a _ (fun x => ex_derive F x) Hb). intros x Hx. exists (f x). apply HF, Hx.
  - apply (above_filter a _ (fun x => continuous (Derive F) x) Hb). intros x Hx.
    apply (continuous_ext_loc (Derive F) f x); [|apply Hf, Hx].
    assert (Hx' : 0 < x - a) by lra.
    exists (mkposreal (x - a) Hx'). intros y Hy. symmetry. apply is_derive_unique, HF.
    apply Rabs_def2 in Hy. cbn in Hy. unfold minus, plus, opp in Hy. cbn in Hy. lra.
Qed.
Lemma gen_ext_above a (f g : R -> R) I : (forall x, a < x -> f x = g x) ->
  is_RInt_gen f (at_right a) (Rbar_locally p_infty) I -> is_RInt_gen g (at_right a) (Rbar_locally p_infty) I.
Proof.
  intros H. apply is_RInt_gen_ext.
  apply (filter_imp (fun ab => forall x, Rmin (fst ab) (snd ab) <= x <= Rmax (fst ab) (snd ab) -> f x = g x)).
  - intros ab H' x Hx. apply H'. lra.
  - apply (above_filter a _ (fun x => f x = g x)); [exists a; intros x Hx; exact Hx|exact H].
Qed.
Lemma right_lim_at a (F : R -> R) (l : R) : continuous F a -> F a = l -> filterlim F (at_right a) (locally l).
Proof.
  intros H <- P HP. specialize (H P HP). unfold filtermap, at_right, within in *.
  apply (filter_imp (fun x => P (F x))); [auto|exact H].
Qed.

(** rescaling to the unit scale radius *)
Lemma scaled_tail (A a : R -> R) (a1 a2 k rs : R) : 0 < rs ->
  (forall x, 1 < x -> is_derive A x (a x)) -> (forall x, 1 < x -> continuous a x) ->
  filterlim A (at_right 1) (locally a1) -> filterlim A (Rbar_locally p_infty) (locally a2) ->
  is_RInt_gen (fun r => k * rs ^ 2 * a (r / rs)) (at_right rs) (Rbar_locally p_infty) (k * rs ^ 3 * (a2 - a1)).
Proof.
  intros Hs HA Ha L1 L.
  replace (k * rs ^ 3 * (a2 - a1)) with (k * rs ^ 3 * a2 - k * rs ^ 3 * a1) by ring.
  assert (dom : forall r, rs < r -> 1 < r / rs).
  { intros r Hr. apply (Rmult_lt_reg_r rs); [exact Hs|]. unfold Rdiv. rewrite Rmult_assoc, Rinv_l; lra. }
  apply (gen_ftc_above rs (fun r => k * rs ^ 3 * A (r / rs))).
  - intros r Hr. pose proof (HA _ (dom r Hr)) as Dr.
    assert (De : ex_derive A (r / rs)) by (eexists; exact Dr).
    auto_derive; [repeat split; exact De|]. fold (r / rs). change (fun x : R => A x) with A.
    rewrite (is_derive_unique A _ _ Dr). field. lra.
  - intros r Hr. apply (continuous_scal_r (k * rs ^ 2) (fun r => a (r / rs))).
    apply (continuous_comp (fun r => r / rs) a); [|apply Ha, dom, Hr].
    apply (ex_derive_continuous (fun r => r / rs) r). auto_derive. exact I.
  - assert (L' : filterlim (fun r => A (r / rs)) (at_right rs) (locally a1)).
    { apply (filterlim_comp _ _ _ (fun r => r / rs) A _ (at_right 1)); [|exact L1].
      intros P [e HP]. assert (He : 0 < e * rs) by (apply Rmult_lt_0_compat; [apply cond_pos|exact Hs]).
      exists (mkposreal _ He). intros y Hy Hy'. apply HP; [|apply dom, Hy'].
      change (Rabs (y - rs) < e * rs) in Hy. change (Rabs (y / rs - 1) < e).
      replace (y / rs - 1) with ((y - rs) * / rs) by (field; lra). rewrite Rabs_mult, (Rabs_right (/ rs)).
      - apply (Rmult_lt_reg_r rs); [exact Hs|]. rewrite Rmult_assoc, Rinv_l; lra.
      - left. apply Rinv_0_lt_compat, Hs. }
    apply (filterlim_comp _ _ _ (fun r => A (r / rs)) (fun v => k * rs ^ 3 * v) _ (locally a1)); [exact L'|].
    apply (continuous_scal_r (V := R_NormedModule) (k * rs ^ 3) (fun v => v)). apply continuous_id.
  - assert (L' : filterlim (fun r => A (r / rs)) (Rbar_locally p_infty) (locally a2)).
    { apply (filterlim_comp _ _ _ (fun r => r / rs) A _ (Rbar_locally p_infty)); [|exact L].
      intros P [M HM]. exists (M * rs). intros x Hx. apply HM. apply (Rmult_lt_reg_r rs); [exact Hs|].
      unfold Rdiv. rewrite Rmult_assoc, Rinv_l; lra. }
    apply (filterlim_comp _ _ _ (fun r => A (r / rs)) (fun v => k * rs ^ 3 * v) _ (locally a2)); [exact L'|].
    apply (continuous_scal_r (V := R_NormedModule) (k * rs ^ 3) (fun v => v)). apply continuous_id.
Qed.

Lemma root_facts x : 1 < x -> 0 < sqrt (x ^ 2 - 1) /\ sqrt (x ^ 2 - 1) ^ 2 = x ^ 2 - 1 /\ sqrt (1 - (1 / x) ^ 2) = sqrt (x ^ 2 - 1) / x
   /\ sqrt (x ^ 2 - 1) < x.
Proof.
  intros Hx. assert (P : 0 < x ^ 2 - 1) by nra. split; [apply sqrt_lt_R0; exact P|].
  assert (S : sqrt (x ^ 2 - 1) ^ 2 = x ^ 2 - 1) by (apply pow2_sqrt; lra). split; [exact S|]. split.
  - replace (1 - (1 / x) ^ 2) with ((x ^ 2 - 1) / x ^ 2) by (field; lra).
    rewrite sqrt_div_alt by nra. rewrite sqrt_pow2 by lra. reflexivity.
  - pose proof (sqrt_lt_R0 _ P). nra.
Qed.
Lemma root_cont x : continuous (fun x => sqrt (x ^ 2 - 1)) x.
Proof.
  apply (continuous_comp (fun x => x ^ 2 - 1) sqrt); [apply (ex_derive_continuous (fun x => x ^ 2 - 1)); auto_derive; exact I|].
  apply continuous_sqrt.
Qed.
(** a function of sqrt (x^2 - 1) near x = 1 *)
Lemma cont_at_1 (A g : R -> R) : (forall x, 0 < x -> 1 <= x -> A x = g (sqrt (x ^ 2 - 1))) -> continuous g 0 ->
  filterlim A (at_right 1) (locally (g 0)).
Proof.
  intros E Hg.
  apply (filterlim_ext_loc (fun x => g (sqrt (x ^ 2 - 1)))).
  { exists (mkposreal 1 Rlt_0_1). intros y _ Hy. symmetry. apply E; lra. }
  apply right_lim_at.
  - apply (continuous_comp (fun x => sqrt (x ^ 2 - 1)) g); [apply root_cont|]. replace (1 ^ 2 - 1) with 0 by ring.
    rewrite sqrt_0. exact Hg.
  - replace (1 ^ 2 - 1) with 0 by ring. rewrite sqrt_0. reflexivity.
Qed.

(** NFW: integral of x / (1 + x)^2 (1 - sqrt (1 - 1/x^2)) over x > 1 *)
Definition tail_nfw (x : R) : R := ln (1 + x) + / (1 + x) - ln (x + sqrt (x ^ 2 - 1)) + 2 * sqrt (x ^ 2 - 1) / (x + 1).
Definition dtail_nfw (x : R) : R := nu0 x * (1 - sqrt (1 - (1 / x) ^ 2)).
Lemma tail_nfw_derive x : 1 < x -> is_derive tail_nfw x (dtail_nfw x).
Proof.
  intros Hx. destruct (root_facts x Hx) as (S0 & S2 & E & _). unfold tail_nfw, dtail_nfw, nu0. rewrite E.
  assert (P : 0 < x ^ 2 - 1) by nra.
  auto_derive.
  - simpl in *. rewrite !Rmult_1_r in *. change (x * x + - (1)) with (x * x - 1). repeat split; lra.
  - simpl in *. rewrite !Rmult_1_r in *. change (x * x + - (1)) with (x * x - 1). set (s := sqrt (x * x - 1)) in *. clearbody s.
    match goal with |- ?a = ?b => change (@eq R a b) end. clear E. field_simplify_eq; [|repeat split; lra].
    replace (s ^ 4) with ((x * x - 1) ^ 2) by (rewrite <- S2; ring). replace (s ^ 3) with (s * (x * x - 1)) by (rewrite <- S2; ring).
    replace (s ^ 2) with (x * x - 1) by (rewrite <- S2; ring). ring.
Qed.
Lemma frac_cont x : 1 < x -> continuous (fun x => 1 - sqrt (1 - (1 / x) ^ 2)) x.
Proof.
  intros Hx. apply (continuous_minus (V := R_NormedModule) (fun _ => 1) (fun x => sqrt (1 - (1 / x) ^ 2))); [apply continuous_const|].
  apply (continuous_comp (fun x => 1 - (1 / x) ^ 2) sqrt); [|apply continuous_sqrt].
  apply (ex_derive_continuous (fun x => 1 - (1 / x) ^ 2)). auto_derive. lra.
Qed.
Lemma dtail_nfw_cont x : 1 < x -> continuous dtail_nfw x.
Proof.
  intros Hx. unfold dtail_nfw. apply (continuous_mult nu0 (fun x => 1 - sqrt (1 - (1 / x) ^ 2))); [apply nu0_cont; lra|apply frac_cont, Hx].
Qed.
Lemma tail_nfw_1 : filterlim tail_nfw (at_right 1) (locally (ln 2 + / 2)).
Proof.
  set (g := fun s => ln (1 + sqrt (1 + s ^ 2)) + / (1 + sqrt (1 + s ^ 2)) - ln (sqrt (1 + s ^ 2) + s) + 2 * s / (sqrt (1 + s ^ 2) + 1)).
  assert (g0 : g 0 = ln 2 + / 2).
  { unfold g. replace (1 + 0 ^ 2) with 1 by ring. rewrite sqrt_1. replace (1 + 0) with 1 by ring. rewrite ln_1.
    replace (1 + 1) with 2 by ring. field. }
  rewrite <- g0. apply cont_at_1.
  - intros x H0 Hx. unfold g, tail_nfw. rewrite pow2_sqrt by nra. replace (1 + (x ^ 2 - 1)) with (x ^ 2) by ring.
    rewrite sqrt_pow2 by lra. reflexivity.
  - apply (ex_derive_continuous g). unfold g. auto_derive. simpl. replace (1 + 0 * (0 * 1)) with 1 by ring. rewrite sqrt_1.
    repeat split; lra.
Qed.
Lemma inv_root x : 1 < x -> x * sqrt (1 - (/ x) ^ 2) = sqrt (x ^ 2 - 1).
Proof. intros Hx. destruct (root_facts x Hx) as (_ & _ & E & _). replace (/ x) with (1 / x) by (unfold Rdiv; ring). rewrite E. field. lra. Qed.
Lemma tail_nfw_inf : filterlim tail_nfw (Rbar_locally p_infty) (locally (ln (1 / 2) + 2)).
Proof.
  set (g := fun y => ln ((1 + y) / (1 + sqrt (1 - y ^ 2))) + y / (1 + y) + 2 * sqrt (1 - y ^ 2) / (1 + y)).
  apply (inf_lim' tail_nfw g 1); [lra| | |].
  - intros x Hx. unfold g, tail_nfw. rewrite <- (inv_root x Hx).
    assert (H0 : 0 < 1 - (/ x) ^ 2).
    { replace (1 - (/ x) ^ 2) with ((x ^ 2 - 1) * / x ^ 2) by (field; lra). apply Rmult_lt_0_compat; [nra|apply Rinv_0_lt_compat; nra]. }
    pose proof (sqrt_lt_R0 _ H0) as S. set (t := sqrt (1 - (/ x) ^ 2)) in *. clearbody t.
    assert (Q : ln ((1 + / x) / (1 + t)) = ln (1 + x) - ln (x + x * t)).
    { rewrite <- ln_div by nra. f_equal. field. split; nra. }
    rewrite Q. field. split; [lra|]. nra.
  - apply (ex_derive_continuous g). unfold g. auto_derive. simpl. replace (1 + - (0 * (0 * 1))) with 1 by ring. rewrite sqrt_1.
    repeat split; lra.
  - unfold g. replace (1 - 0 ^ 2) with 1 by ring. rewrite sqrt_1. replace ((1 + 0) / (1 + 1)) with (1 / 2) by field. field.
Qed.

(** pseudo-NFW: integral of x / (1 + x^2) (1 - sqrt (1 - 1/x^2)) over x > 1 *)
Definition tail_pseudo (x : R) : R :=
  ln (1 + x ^ 2) / 2 - ln (x + sqrt (x ^ 2 - 1))
  + sqrt 2 / 2 * (ln (sqrt 2 * x + sqrt (x ^ 2 - 1)) - ln (sqrt 2 * x - sqrt (x ^ 2 - 1))).
Definition dtail_pseudo (x : R) : R := nup x * (1 - sqrt (1 - (1 / x) ^ 2)).
Lemma sqrt2_facts : 1 < sqrt 2 /\ sqrt 2 ^ 2 = 2.
Proof. split; [rewrite <- sqrt_1 at 1; apply sqrt_lt_1; lra|]. apply pow2_sqrt. lra. Qed.
Lemma tail_pseudo_derive x : 1 < x -> is_derive tail_pseudo x (dtail_pseudo x).
Proof.
  intros Hx. destruct (root_facts x Hx) as (S0 & S2 & E & Sx). unfold tail_pseudo, dtail_pseudo, nup. rewrite E.
  assert (P : 0 < x ^ 2 - 1) by nra. destruct sqrt2_facts as (T1 & T2). pose proof (osq x) as O.
  set (q := sqrt 2) in *. clearbody q. assert (D1 : 0 < q * x - sqrt (x ^ 2 - 1)) by nra.
  assert (D2 : 0 < q * x + sqrt (x ^ 2 - 1)) by nra.
  auto_derive.
  - simpl in *. rewrite !Rmult_1_r in *. change (x * x + - (1)) with (x * x - 1). repeat split; lra.
  - simpl in *. rewrite !Rmult_1_r in *. change (x * x + - (1)) with (x * x - 1). set (s := sqrt (x * x - 1)) in *. clearbody s.
    match goal with |- ?a = ?b => change (@eq R a b) end. clear E. field_simplify_eq; [|repeat split; lra].
    replace (s ^ 4) with ((x * x - 1) ^ 2) by (rewrite <- S2; ring). replace (s ^ 3) with (s * (x * x - 1)) by (rewrite <- S2; ring).
    replace (s ^ 2) with (x * x - 1) by (rewrite <- S2; ring). replace (s ^ 5) with (s * (x * x - 1) ^ 2) by (rewrite <- S2; ring).
    replace (q ^ 2) with 2 by (rewrite <- T2; ring). ring.
Qed.
Lemma dtail_pseudo_cont x : 1 < x -> continuous dtail_pseudo x.
Proof.
  intros Hx. unfold dtail_pseudo. apply (continuous_mult nup (fun x => 1 - sqrt (1 - (1 / x) ^ 2))); [apply nup_cont|apply frac_cont, Hx].
Qed.
Lemma tail_pseudo_1 : filterlim tail_pseudo (at_right 1) (locally (ln 2 / 2)).
Proof.
  destruct sqrt2_facts as (T1 & T2).
  set (g := fun s => ln (1 + (1 + s ^ 2)) / 2 - ln (sqrt (1 + s ^ 2) + s)
     + sqrt 2 / 2 * (ln (sqrt 2 * sqrt (1 + s ^ 2) + s) - ln (sqrt 2 * sqrt (1 + s ^ 2) - s))).
  assert (g0 : g 0 = ln 2 / 2).
  { unfold g. replace (1 + 0 ^ 2) with 1 by ring. rewrite sqrt_1. replace (1 + 0) with 1 by ring. rewrite ln_1.
    replace (1 + 1) with 2 by ring. rewrite !Rmult_1_r, !Rplus_0_r, !Rminus_0_r. field. }
  rewrite <- g0. apply cont_at_1.
  - intros x H0 Hx. unfold g, tail_pseudo. rewrite pow2_sqrt by nra. replace (1 + (x ^ 2 - 1)) with (x ^ 2) by ring.
    rewrite sqrt_pow2 by lra. reflexivity.
  - apply (ex_derive_continuous g). unfold g. auto_derive. simpl. replace (1 + 0 * (0 * 1)) with 1 by ring. rewrite sqrt_1.
    repeat split; lra.
Qed.
Lemma tail_pseudo_inf : filterlim tail_pseudo (Rbar_locally p_infty) (locally (sqrt 2 * ln (1 + sqrt 2) - ln 2)).
Proof.
  destruct sqrt2_facts as (T1 & T2).
  set (g := fun y => ln (1 + y ^ 2) / 2 - ln (1 + sqrt (1 - y ^ 2))
     + sqrt 2 / 2 * (ln (sqrt 2 + sqrt (1 - y ^ 2)) - ln (sqrt 2 - sqrt (1 - y ^ 2)))).
  apply (inf_lim' tail_pseudo g 1); [lra| | |].
  - intros x Hx. unfold g, tail_pseudo. rewrite <- (inv_root x Hx).
    assert (H0 : 0 < 1 - (/ x) ^ 2).
    { replace (1 - (/ x) ^ 2) with ((x ^ 2 - 1) * / x ^ 2) by (field; lra). apply Rmult_lt_0_compat; [nra|apply Rinv_0_lt_compat; nra]. }
    assert (H1 : 1 - (/ x) ^ 2 < 1) by (assert (0 < (/ x) ^ 2) by (apply pow_lt, Rinv_0_lt_compat; lra); lra).
    pose proof (sqrt_lt_R0 _ H0) as S. assert (S1 : sqrt (1 - (/ x) ^ 2) < 1) by (pose proof (sqrt_lt_1 (1 - (/ x) ^ 2) 1 ltac:(lra) ltac:(lra) H1) as Q; rewrite sqrt_1 in Q; exact Q).
    set (t := sqrt (1 - (/ x) ^ 2)) in *. clearbody t. set (q := sqrt 2) in *. clearbody q.
    replace (1 + x ^ 2) with (x ^ 2 * (1 + (/ x) ^ 2)) by (field; lra).
    replace (x + x * t) with (x * (1 + t)) by ring. replace (q * x + x * t) with (x * (q + t)) by ring.
    replace (q * x - x * t) with (x * (q - t)) by ring.
    pose proof (osq (/ x)). rewrite !ln_mult by (try nra; lra). replace (x ^ 2) with (x * x) by ring. rewrite ln_mult by lra. field.
  - apply (ex_derive_continuous g). unfold g. auto_derive. simpl. replace (1 + - (0 * (0 * 1))) with 1 by ring. rewrite sqrt_1.
    repeat split; lra.
  - unfold g. replace (1 - 0 ^ 2) with 1 by ring. replace (1 + 0 ^ 2) with 1 by ring. rewrite sqrt_1, ln_1.
    replace (1 + 1) with 2 by ring. replace (sqrt 2 - 1) with (/ (sqrt 2 + 1)).
    + rewrite ln_Rinv by lra. rewrite (Rplus_comm 1 (sqrt 2)). field.
    + apply (Rmult_eq_reg_r (sqrt 2 + 1)); [|lra]. rewrite Rinv_l by lra. nra.
Qed.

(** mass inside the cylinder of one scale radius *)
Definition cyl_const (p : bool) : R := if p then sqrt 2 * ln (1 + sqrt 2) + ln (1 / 2) else 1 + ln (1 / 2).
Lemma ln_half : ln (1 / 2) = - ln 2.
Proof. unfold Rdiv. rewrite Rmult_1_l. apply ln_Rinv. lra. Qed.
Lemma cyl_scale p rho0 rs : 0 < rs -> cylinder_mass (halo_density p rho0 rs) rs (4 * PI * rho0 * rs ^ 3 * cyl_const p).
Proof.
  intros Hs. assert (H0 : 0 <= 1) by lra.
  pose proof (halo_mass p rho0 rs 1 Hs H0) as [I M]. rewrite Rmult_1_l in I, M.
  exists (4 * PI * rho0 * rs ^ 3 * Fp p 1). 
  assert (E : forall r, rs < r -> sqrt (1 - (1 / (r / rs)) ^ 2) = sqrt (1 - (rs / r) ^ 2)).
  { intros r Hr. f_equal. f_equal. f_equal. field. lra. }
  destruct p.
  - exists (4 * PI * rho0 * rs ^ 3 * (sqrt 2 * ln (1 + sqrt 2) - ln 2 - ln 2 / 2)). split; [|split].
    + rewrite <- M. apply (RInt_correct (V := R_CompleteNormedModule)). exact I.
    + apply (gen_ext_above rs (fun r => 4 * PI * rho0 * rs ^ 2 * dtail_pseudo (r / rs))).
      * intros r Hr. unfold dtail_pseudo. rewrite E by exact Hr. cbn [halo_density]. rewrite rho_pseudo_nup by lra. ring.
      * apply (scaled_tail tail_pseudo); [exact Hs|apply tail_pseudo_derive|apply dtail_pseudo_cont|apply tail_pseudo_1|apply tail_pseudo_inf].
    + unfold cyl_const, Fp, Funcp. rewrite ln_half. replace (1 + 1 ^ 2) with 2 by ring. field.
  - exists (4 * PI * rho0 * rs ^ 3 * (ln (1 / 2) + 2 - (ln 2 + / 2))). split; [|split].
    + rewrite <- M. apply (RInt_correct (V := R_CompleteNormedModule)). exact I.
    + apply (gen_ext_above rs (fun r => 4 * PI * rho0 * rs ^ 2 * dtail_nfw (r / rs))).
      * intros r Hr. unfold dtail_nfw. rewrite E by exact Hr. cbn [halo_density]. rewrite rho_nfw_nu by lra. ring.
      * apply (scaled_tail tail_nfw); [exact Hs|apply tail_nfw_derive|apply dtail_nfw_cont|apply tail_nfw_1|apply tail_nfw_inf].
    + unfold cyl_const, Fp, Func0. rewrite ln_half. replace (1 + 1) with 2 by ring. field.
Qed.
Lemma cyl_unique rho R0 M M' : cylinder_mass rho R0 M -> cylinder_mass rho R0 M' -> M = M'.
Proof.
  intros (a & b & A & B & ->) (a' & b' & A' & B' & ->). f_equal.
  - rewrite <- (is_RInt_unique (V := R_CompleteNormedModule) _ _ _ _ A), <- (is_RInt_unique (V := R_CompleteNormedModule) _ _ _ _ A'). reflexivity.
  - rewrite <- (is_RInt_gen_unique (V := R_CompleteNormedModule) _ _ B), <- (is_RInt_gen_unique (V := R_CompleteNormedModule) _ _ B'). reflexivity.
Qed.
