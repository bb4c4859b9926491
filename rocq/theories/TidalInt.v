(** Improper integrals from antiderivatives, and the enclosed masses of C53. *)
From Coq Require Import Nsatz Reals.
From Verif Require Import Prelude MassFnModel TidalModel TidalSpec TidalProofs.
From Coquelicot Require Import Coquelicot.
Local Open Scope R_scope.
Local Open Scope list_scope.

Lemma at_right0_pos : at_right 0 (fun a => 0 < a).
Proof. exists (mkposreal 1 Rlt_0_1). intros y _ H. exact H. Qed.
Lemma pinf_pos : Rbar_locally p_infty (fun b => 0 < b).
Proof. exists 0. intros x H. exact H. Qed.
Lemma pos_filter (Fb : (R -> Prop) -> Prop) (P : R -> Prop) : Fb (fun b => 0 < b) -> (forall x, 0 < x -> P x) ->
  filter_prod (at_right 0) Fb (fun ab => forall x, Rmin (fst ab) (snd ab) <= x <= Rmax (fst ab) (snd ab) -> P x).
Proof.
  intros Hb HP. apply (Filter_prod _ _ _ (fun a => 0 < a) (fun b => 0 < b)); [exact at_right0_pos|exact Hb|].
  intros a b Ha Hb' x Hx. apply HP. cbn [fst snd] in Hx. unfold Rmin in Hx. destruct (Rle_dec a b); lra.
Qed.
Lemma gen_ftc (Fb : (R -> Prop) -> Prop) {FF : Filter Fb} (F f : R -> R) la lb :
  Fb (fun b => 0 < b) ->
  (forall x, 0 < x -> is_derive F x (f x)) -> (forall x, 0 < x -> continuous f x) ->
  filterlim F (at_right 0) (locally la) -> filterlim F Fb (locally lb) ->
  is_RInt_gen f (at_right 0) Fb (lb - la).
Proof.
  intros Hb HF Hf Ha Hl.
  apply (is_RInt_gen_ext (Derive F) f).
  { apply (filter_imp (fun ab => forall x, Rmin (fst ab) (snd ab) <= x <= Rmax (fst ab) (snd ab) -> Derive F x = f x)).
    - intros ab H x Hx. apply H. lra.
    - apply (pos_filter Fb (fun x => Derive F x = f x) Hb). intros x Hx. apply is_derive_unique, HF, Hx. }
  apply (is_RInt_gen_Derive F la lb); [| |exact Ha|exact Hl].
  - apply (pos_filter Fb (fun x => ex_derive F x) Hb). intros x Hx. exists (f x). apply HF, Hx.
  - apply (pos_filter Fb (fun x => continuous (Derive F) x) Hb). intros x Hx.
    apply (continuous_ext_loc (Derive F) f x); [|apply Hf, Hx].
    exists (mkposreal x Hx). intros y Hy. symmetry. apply is_derive_unique, HF.
    apply Rabs_def2 in Hy. cbn in Hy. unfold minus, plus, opp in Hy. cbn in Hy. lra.
Qed.
Lemma gen_ext_pos (Fb : (R -> Prop) -> Prop) {FF : Filter Fb} (f g : R -> R) I :
  Fb (fun b => 0 < b) -> (forall x, 0 < x -> f x = g x) -> is_RInt_gen f (at_right 0) Fb I -> is_RInt_gen g (at_right 0) Fb I.
Proof.
  intros Hb H. apply is_RInt_gen_ext.
  apply (filter_imp (fun ab => forall x, Rmin (fst ab) (snd ab) <= x <= Rmax (fst ab) (snd ab) -> f x = g x)).
  - intros ab H' x Hx. apply H'. lra.
  - apply (pos_filter Fb (fun x => f x = g x) Hb). exact H.
Qed.
Lemma right_lim (F : R -> R) (l : R) : continuous F 0 -> F 0 = l -> filterlim F (at_right 0) (locally l).
Proof.
  intros H <- P HP. specialize (H P HP). unfold filtermap, at_right, within in *.
  apply (filter_imp (fun x => P (F x))); [auto|exact H].
Qed.
(** the limit at infinity of a function of 1/x *)
Lemma inf_lim (F g : R -> R) (l : R) : (forall x, 0 < x -> F x = g (/ x)) -> continuous g 0 -> g 0 = l ->
  filterlim F (Rbar_locally p_infty) (locally l).
Proof.
  intros H Hg <-.
  apply (filterlim_ext_loc (fun x => g (/ x))).
  { exists 0. intros x Hx. symmetry. apply H, Hx. }
  apply (filterlim_comp _ _ _ Rinv g _ (locally 0)); [|exact Hg].
  apply (filterlim_Rbar_inv p_infty). discriminate.
Qed.
Lemma point_lim (F : R -> R) X : filterlim F (at_point X) (locally (F X)).
Proof. intros P HP. unfold filtermap, at_point. apply locally_singleton, HP. Qed.

Lemma rpow_half x : 0 < x -> Rpower x 0.5 = sqrt x.
Proof. intro H. rewrite <- Rpower_sqrt by exact H. f_equal. lra. Qed.
Lemma rpow_nat x n : 0 < x -> Rpower x (INR n) = x ^ n.
Proof. intro H. apply Rpower_pow, H. Qed.
Lemma rpow_2 x : 0 < x -> Rpower x 2 = x ^ 2.
Proof. intro H. replace 2 with (INR 2) by (cbn; lra). apply rpow_nat, H. Qed.
Lemma rpow_3 x : 0 < x -> Rpower x 3 = x ^ 3.
Proof. intro H. replace 3 with (INR 3) by (cbn; lra). apply rpow_nat, H. Qed.
Lemma rpow_32 x : 0 < x -> Rpower x 1.5 = x * sqrt x.
Proof. intro H. replace 1.5 with (1 + 0.5) by lra. rewrite Rpower_plus, Rpower_1, rpow_half by exact H. reflexivity. Qed.
Lemma rpow_52 x : 0 < x -> Rpower x 2.5 = x ^ 2 * sqrt x.
Proof. intro H. replace 2.5 with (2 + 0.5) by lra. rewrite Rpower_plus, rpow_2, rpow_half by exact H. reflexivity. Qed.

(** densities of the tabulated profiles without powers *)
Lemma den_1 beta gamma x : 0 < x -> density 1 beta gamma x = / Rpower x gamma * / Rpower (1 + x) (beta - gamma).
Proof.
  intro H. unfold density. rewrite Rpower_1 by exact H. rewrite !rpow_neg. do 3 f_equal. field.
Qed.
Lemma den_2 beta gamma x : 0 < x -> density 2 beta gamma x = / Rpower x gamma * / Rpower (1 + x ^ 2) ((beta - gamma) / 2).
Proof. intro H. unfold density. rewrite rpow_2 by exact H. rewrite !rpow_neg. reflexivity. Qed.
Lemma den_130 x : 0 < x -> density 1 3 0 x = / (1 + x) ^ 3.
Proof.
  intro H. rewrite den_1 by exact H. rewrite Rpower_O, Rinv_1, Rmult_1_l by exact H. f_equal.
  replace (3 - 0) with 3 by lra. apply rpow_3. lra.
Qed.
Lemma den_130h x : 0 < x -> density 1 3 0.5 x = / sqrt x * / ((1 + x) ^ 2 * sqrt (1 + x)).
Proof.
  intro H. rewrite den_1 by exact H. rewrite rpow_half by exact H. do 2 f_equal.
  replace (3 - 0.5) with 2.5 by lra. apply rpow_52. lra.
Qed.
Lemma den_131 x : 0 < x -> density 1 3 1 x = / x * / (1 + x) ^ 2.
Proof.
  intro H. rewrite den_1 by exact H. rewrite Rpower_1 by exact H. do 2 f_equal.
  replace (3 - 1) with 2 by lra. apply rpow_2. lra.
Qed.
Lemma den_131h x : 0 < x -> density 1 3 1.5 x = / (x * sqrt x) * / ((1 + x) * sqrt (1 + x)).
Proof.
  intro H. rewrite den_1 by exact H. rewrite rpow_32 by exact H. do 2 f_equal.
  replace (3 - 1.5) with 1.5 by lra. apply rpow_32. lra.
Qed.
Lemma one_sq x : 0 < 1 + x ^ 2.
Proof. pose proof (pow2_ge_0 x). lra. Qed.
Lemma den_230 x : 0 < x -> density 2 3 0 x = / ((1 + x ^ 2) * sqrt (1 + x ^ 2)).
Proof.
  intro H. rewrite den_2 by exact H. rewrite Rpower_O, Rinv_1, Rmult_1_l by exact H. f_equal.
  replace ((3 - 0) / 2) with 1.5 by lra. apply rpow_32, one_sq.
Qed.
Lemma den_231 x : 0 < x -> density 2 3 1 x = / x * / (1 + x ^ 2).
Proof.
  intro H. rewrite den_2 by exact H. rewrite Rpower_1 by exact H. do 2 f_equal.
  replace ((3 - 1) / 2) with 1 by lra. apply Rpower_1, one_sq.
Qed.
Lemma den_240 x : 0 < x -> density 2 4 0 x = / (1 + x ^ 2) ^ 2.
Proof.
  intro H. rewrite den_2 by exact H. rewrite Rpower_O, Rinv_1, Rmult_1_l by exact H. f_equal.
  replace ((4 - 0) / 2) with 2 by lra. apply rpow_2, one_sq.
Qed.
Lemma den_241 x : 0 < x -> density 2 4 1 x = / x * / ((1 + x ^ 2) * sqrt (1 + x ^ 2)).
Proof.
  intro H. rewrite den_2 by exact H. rewrite Rpower_1 by exact H. do 2 f_equal.
  replace ((4 - 1) / 2) with 1.5 by lra. apply rpow_32, one_sq.
Qed.

(** an enclosed mass from an antiderivative vanishing at 0 *)
Lemma enclosed_by (F f : R -> R) alpha beta gamma X : 0 < X ->
  (forall x, 0 < x -> is_derive F x (f x)) -> (forall x, 0 < x -> ex_derive f x) -> filterlim F (at_right 0) (locally 0) ->
  (forall x, 0 < x -> f x = 4 * PI * x ^ 2 * density alpha beta gamma x) ->
  enclosed_mass alpha beta gamma X (F X).
Proof.
  intros HX HF Hf Hl Heq. unfold enclosed_mass.
  apply (gen_ext_pos (at_point X) f _ (F X) HX Heq).
  replace (F X) with (F X - 0) by ring.
  apply (gen_ftc (at_point X) F f 0 (F X) HX HF); [|exact Hl|apply point_lim].
  intros x Hx. apply (ex_derive_continuous f x), Hf, Hx.
Qed.
Ltac cont0 := apply right_lim; [apply (ex_derive_continuous (V := R_NormedModule))|].

Lemma enc_130 X : 0 < X -> enclosed_mass 1 3 0 X (4 * PI * (ln (1 + X) - X * (2 + 3 * X) / 2 / (1 + X) ^ 2)).
Proof.
  intro HX.
  apply (enclosed_by (fun x => 4 * PI * (ln (1 + x) - x * (2 + 3 * x) / 2 / (1 + x) ^ 2)) (fun x => 4 * PI * x ^ 2 / (1 + x) ^ 3) 1 3 0 X HX).
  - intros x Hx. auto_derive; [repeat split; nra|]. field. lra.
  - intros x Hx. auto_derive. assert (0 < (1 + x) ^ 3) by (apply pow_lt; lra). cbn in *. lra.
  - cont0; [auto_derive; repeat split; lra|]. rewrite Rplus_0_r, ln_1. field.
  - intros x Hx. rewrite den_130 by exact Hx. reflexivity.
Qed.
Lemma enc_131 X : 0 < X -> enclosed_mass 1 3 1 X (4 * PI * (ln (1 + X) - X / (1 + X))).
Proof.
  intro HX.
  apply (enclosed_by (fun x => 4 * PI * (ln (1 + x) - x / (1 + x))) (fun x => 4 * PI * x / (1 + x) ^ 2) 1 3 1 X HX).
  - intros x Hx. auto_derive; [repeat split; lra|]. field. lra.
  - intros x Hx. auto_derive. nra.
  - cont0; [auto_derive; repeat split; lra|]. rewrite Rplus_0_r, ln_1. field.
  - intros x Hx. rewrite den_131 by exact Hx. field. lra.
Qed.
Lemma enc_231 X : 0 < X -> enclosed_mass 2 3 1 X (2 * PI * ln (1 + X ^ 2)).
Proof.
  intro HX.
  apply (enclosed_by (fun x => 2 * PI * ln (1 + x ^ 2)) (fun x => 4 * PI * x / (1 + x ^ 2)) 2 3 1 X HX).
  - intros x Hx. pose proof (one_sq x). auto_derive; [exact H|]. field. lra.
  - intros x Hx. pose proof (one_sq x). auto_derive. cbn in *. lra.
  - cont0; [auto_derive; repeat split; lra|]. replace (1 + 0 ^ 2) with 1 by ring. rewrite ln_1. ring.
  - intros x Hx. rewrite den_231 by exact Hx. pose proof (one_sq x). field. lra.
Qed.
Lemma enc_240 X : 0 < X -> enclosed_mass 2 4 0 X (2 * PI * (atan X - X / (1 + X ^ 2))).
Proof.
  intro HX.
  apply (enclosed_by (fun x => 2 * PI * (atan x - x / (1 + x ^ 2))) (fun x => 4 * PI * x ^ 2 / (1 + x ^ 2) ^ 2) 2 4 0 X HX).
  - intros x Hx. pose proof (one_sq x). auto_derive; [lra|]. field. lra.
  - intros x Hx. pose proof (one_sq x). auto_derive. cbn in *. nra.
  - cont0; [auto_derive; repeat split; lra|]. rewrite atan_0. field.
  - intros x Hx. rewrite den_240 by exact Hx. reflexivity.
Qed.
Lemma sq_sqrt_one x : sqrt (1 + x ^ 2) * sqrt (1 + x ^ 2) = 1 + x ^ 2.
Proof. apply sqrt_sqrt. pose proof (one_sq x). lra. Qed.
Lemma enc_241 X : 0 < X -> enclosed_mass 2 4 1 X (4 * PI * (1 - 1 / sqrt (1 + X ^ 2))).
Proof.
  intro HX.
  apply (enclosed_by (fun x => 4 * PI * (1 - 1 / sqrt (1 + x ^ 2))) (fun x => 4 * PI * x / ((1 + x ^ 2) * sqrt (1 + x ^ 2))) 2 4 1 X HX).
  - intros x Hx. pose proof (one_sq x) as H. pose proof (sqrt_lt_R0 _ H) as Hs. pose proof (sq_sqrt_one x) as Hq.
    auto_derive; [cbn [pow] in *; repeat split; lra|]. change (x * (x * 1)) with (x ^ 2); set (w := sqrt (1 + x ^ 2)) in *. rewrite <- Hq. field. lra.
  - intros x Hx. pose proof (one_sq x) as H. pose proof (sqrt_lt_R0 _ H) as Hs. auto_derive. repeat split; [exact H|]. cbn in *. nra.
  - cont0.
    + auto_derive. replace (1 + 0 * (0 * 1)) with 1 by ring. rewrite sqrt_1. repeat split; lra.
    + replace (1 + 0 ^ 2) with 1 by ring. rewrite sqrt_1. field.
  - intros x Hx. rewrite den_241 by exact Hx. pose proof (one_sq x) as H. pose proof (sqrt_lt_R0 _ H). field. lra.
Qed.
Lemma enc_230 X : 0 < X -> enclosed_mass 2 3 0 X (-4 * PI * (X / sqrt (1 + X ^ 2) + ln (sqrt (1 + X ^ 2) - X))).
Proof.
  intro HX.
  assert (Hlt : forall x, 0 <= x -> x < sqrt (1 + x ^ 2)).
  { intros x Hx. rewrite <- (sqrt_pow2 x Hx) at 1. apply sqrt_lt_1; [apply pow2_ge_0|pose proof (one_sq x); lra|lra]. }
  apply (enclosed_by (fun x => -4 * PI * (x / sqrt (1 + x ^ 2) + ln (sqrt (1 + x ^ 2) - x)))
           (fun x => 4 * PI * x ^ 2 / ((1 + x ^ 2) * sqrt (1 + x ^ 2))) 2 3 0 X HX).
  - intros x Hx. pose proof (one_sq x) as H. pose proof (sqrt_lt_R0 _ H) as Hs. pose proof (sq_sqrt_one x) as Hq.
    pose proof (Hlt x ltac:(lra)) as Hl.
    auto_derive; [cbn [pow] in *; repeat split; lra|]. change (x * (x * 1)) with (x ^ 2); set (w := sqrt (1 + x ^ 2)) in *. rewrite <- Hq.
    replace (x ^ 2) with (w * w - 1) by lra.
    assert (Hx2 : x * x = w * w - 1) by lra.
    field_simplify_eq; [|lra]. 
    replace (x ^ 2) with (w * w - 1) by lra. replace (x ^ 3) with (x * (w * w - 1)) by (rewrite <- Hx2; ring). ring.
  - intros x Hx. pose proof (one_sq x) as H. pose proof (sqrt_lt_R0 _ H) as Hs. auto_derive. repeat split; [exact H|]. cbn in *. nra.
  - cont0.
    + auto_derive. replace (1 + 0 * (0 * 1)) with 1 by ring. rewrite sqrt_1. repeat split; lra.
    + replace (1 + 0 ^ 2) with 1 by ring. rewrite sqrt_1. replace (1 - 0) with 1 by ring. rewrite ln_1. field.
  - intros x Hx. rewrite den_230 by exact Hx. pose proof (one_sq x) as H. pose proof (sqrt_lt_R0 _ H). field. lra.
Qed.
Lemma rpow_div x y e : 0 < x -> 0 < y -> Rpower (x / y) e = Rpower x e / Rpower y e.
Proof.
  intros Hx Hy. unfold Rdiv. rewrite <- rpow_neg.
  rewrite <- (Rpower_mult_distr x (/ y) e) by (try apply Rinv_0_lt_compat; assumption).
  f_equal. unfold Rpower. rewrite ln_Rinv by exact Hy. f_equal. ring.
Qed.
Lemma rpow_vanish (h : R -> R) e : 0 < e -> (forall x, 0 < x -> 0 < h x <= x) ->
  filterlim (fun x => Rpower (h x) e) (at_right 0) (locally 0).
Proof.
  intros He Hh P [eps HP]. set (d := Rpower eps (/ e)).
  assert (Hd : 0 < d) by apply rpow_pos.
  exists (mkposreal d Hd). intros x Hx Hpos. apply HP.
  apply Rabs_def2 in Hx. cbn in Hx. unfold minus, plus, opp in Hx. cbn in Hx.
  unfold ball; cbn. unfold AbsRing_ball, abs, minus, plus, opp; cbn. 
  destruct (Hh x Hpos) as [h1 h2].
  assert (Rpower (h x) e < eps).
  { replace (pos eps) with (Rpower d e).
    - apply rpow_lt; lra.
    - unfold d. rewrite Rpower_mult, Rinv_l, Rpower_1; [reflexivity|apply cond_pos|lra]. }
  pose proof (rpow_pos (h x) e). rewrite Rabs_pos_eq; lra.
Qed.
Lemma enc_14 gamma X : gamma < 3 -> 0 < X -> enclosed_mass 1 4 gamma X (4 * PI / (3 - gamma) * Rpower (X / (1 + X)) (3 - gamma)).
Proof.
  intros Hg HX.
  apply (enclosed_by (fun x => 4 * PI / (3 - gamma) * Rpower (x / (1 + x)) (3 - gamma))
     (fun x => 4 * PI * Rpower (x / (1 + x)) (3 - gamma) / (x * (1 + x))) 1 4 gamma X HX).
  - intros x Hx. unfold Rpower. assert (0 < x / (1 + x)) by (apply Rdiv_lt_0_compat; lra).
    auto_derive; [repeat split; lra|]. change (x * / (1 + x)) with (x / (1 + x)). field. repeat split; lra.
  - intros x Hx. unfold Rpower. assert (0 < x / (1 + x)) by (apply Rdiv_lt_0_compat; lra).
    auto_derive. repeat split; try lra. nra.
  - assert (H0 : 4 * PI / (3 - gamma) * 0 = 0) by ring.
    assert (Hl : filterlim (fun x => 4 * PI / (3 - gamma) * Rpower (x / (1 + x)) (3 - gamma)) (at_right 0) (locally (4 * PI / (3 - gamma) * 0)));
      [|rewrite H0 in Hl; exact Hl].
    apply (filterlim_comp _ _ _ (fun x => Rpower (x / (1 + x)) (3 - gamma)) (fun y => 4 * PI / (3 - gamma) * y) _ (locally 0)).
    + apply rpow_vanish; [lra|]. intros x Hx. split; [apply Rdiv_lt_0_compat; lra|].
      apply (Rmult_le_reg_r (1 + x)); [lra|]. unfold Rdiv. rewrite Rmult_assoc, Rinv_l by lra. nra.
    + apply (filterlim_scal_r (V := R_NormedModule) (4 * PI / (3 - gamma)) 0).
  - intros x Hx. rewrite den_1 by exact Hx. rewrite rpow_div by lra.
    replace (4 - gamma) with ((3 - gamma) + 1) by lra. rewrite Rpower_plus, (Rpower_1 (1 + x)) by lra.
    replace (Rpower x (3 - gamma)) with (x ^ 3 / Rpower x gamma).
    + pose proof (rpow_pos x gamma). pose proof (rpow_pos (1 + x) (3 - gamma)). field. repeat split; lra.
    + rewrite <- (rpow_3 x Hx). unfold Rminus. rewrite Rpower_plus, rpow_neg. reflexivity.
Qed.
(** square roots of x and 1+x *)
Lemma sq_facts x : 0 < x -> 0 < sqrt x /\ 0 < sqrt (1 + x) /\ sqrt x * sqrt x = x /\ sqrt (1 + x) * sqrt (1 + x) = 1 + x.
Proof. intro H. repeat split; [apply sqrt_lt_R0; lra|apply sqrt_lt_R0; lra|apply sqrt_sqrt; lra|apply sqrt_sqrt; lra]. Qed.
Lemma arcsinh_sqrt x : 0 <= x -> arcsinh (sqrt x) = ln (sqrt x + sqrt (1 + x)).
Proof. intro H. unfold arcsinh. do 2 f_equal. f_equal. rewrite pow2_sqrt by exact H. ring. Qed.
Lemma ln_root_derive x : 0 < x -> is_derive (fun x => ln (sqrt x + sqrt (1 + x))) x (/ (2 * sqrt x * sqrt (1 + x))).
Proof.
  intro Hx. destruct (sq_facts x Hx) as (H1 & H2 & H3 & H4). auto_derive; [repeat split; lra|].
  set (r := sqrt x) in *. set (w := sqrt (1 + x)) in *. field. repeat split; lra.
Qed.
Lemma cont_sqrt_1p (h : R -> R) : continuous (fun x => sqrt (1 + x)) 0.
Proof. apply (continuous_sqrt_comp (fun x => 1 + x)). apply (ex_derive_continuous (V := R_NormedModule)). auto_derive. auto. Qed.
Lemma cont_asinh0 : continuous (fun x => ln (sqrt x + sqrt (1 + x))) 0.
Proof.
  apply (continuous_comp (fun x => sqrt x + sqrt (1 + x)) ln).
  - apply (continuous_plus (V := R_NormedModule) sqrt (fun x => sqrt (1 + x))); [apply continuous_sqrt|apply (cont_sqrt_1p (fun x => x))].
  - apply (ex_derive_continuous (V := R_NormedModule) ln). auto_derive. rewrite sqrt_0, Rplus_0_r, sqrt_1. lra.
Qed.
Lemma enc_131h X : 0 < X -> enclosed_mass 1 3 1.5 X (8 * PI * (- sqrt (X / (1 + X)) + arcsinh (sqrt X))).
Proof.
  intro HX. rewrite arcsinh_sqrt by lra. rewrite sqrt_div_alt by lra.
  apply (enclosed_by (fun x => 8 * PI * (- (sqrt x / sqrt (1 + x)) + ln (sqrt x + sqrt (1 + x))))
     (fun x => 4 * PI * (sqrt x / ((1 + x) * sqrt (1 + x)))) 1 3 1.5 X HX).
  - intros x Hx. destruct (sq_facts x Hx) as (H1 & H2 & H3 & H4).
    auto_derive; [repeat split; lra|].
    set (r := sqrt x) in *. set (w := sqrt (1 + x)) in *. rewrite <- H4.
    assert (Hr : r * r = w * w - 1) by lra.
    field_simplify_eq; [|repeat split; lra].
    clear - Hr. nsatz.
  - intros x Hx. destruct (sq_facts x Hx) as (H1 & H2 & H3 & H4). auto_derive. repeat split; try lra. nra.
  - apply right_lim.
    + apply (continuous_scal_r (V := R_NormedModule) (8 * PI)).
      apply (continuous_plus (V := R_NormedModule)); [|exact cont_asinh0].
      apply (continuous_opp (V := R_NormedModule)).
      apply (continuous_mult (K := R_AbsRing) sqrt (fun x => / sqrt (1 + x))); [apply continuous_sqrt|].
      apply (continuous_comp (fun x => sqrt (1 + x)) Rinv); [apply (cont_sqrt_1p (fun x => x))|].
      apply (ex_derive_continuous (V := R_NormedModule) Rinv). auto_derive. rewrite Rplus_0_r, sqrt_1. lra.
    + rewrite Rplus_0_r, sqrt_0, sqrt_1, Rplus_0_l, ln_1. field.
  - intros x Hx. rewrite den_131h by exact Hx. destruct (sq_facts x Hx) as (H1 & H2 & H3 & H4).
    set (r := sqrt x) in *. set (w := sqrt (1 + x)) in *. rewrite <- H4. rewrite <- H3 at 1 2. field. lra.
Qed.
Lemma enc_130h X : 0 < X -> enclosed_mass 1 3 0.5 X
  ((-8 * PI * sqrt X * (3 + 4 * X)) / (3 * Rpower (1 + X) 1.5) + 8 * PI * arcsinh (sqrt X)).
Proof.
  intro HX. rewrite arcsinh_sqrt by lra. rewrite rpow_32 by lra.
  apply (enclosed_by (fun x => (-8 * PI * sqrt x * (3 + 4 * x)) / (3 * ((1 + x) * sqrt (1 + x))) + 8 * PI * ln (sqrt x + sqrt (1 + x)))
     (fun x => 4 * PI * (x * sqrt x / ((1 + x) ^ 2 * sqrt (1 + x)))) 1 3 0.5 X HX).
  - intros x Hx. destruct (sq_facts x Hx) as (H1 & H2 & H3 & H4).
    auto_derive; [repeat split; try lra; nra|].
    set (r := sqrt x) in *. set (w := sqrt (1 + x)) in *. 
    assert (Hr : x = w * w - 1) by lra. assert (H5 : r * r = w * w - 1) by lra. clearbody r w. clear H3 H4. subst x. replace (1 + (w * w - 1)) with (w * w) by ring.
    field_simplify_eq; [|repeat split; lra].
    apply Rminus_diag_uniq. transitivity (24 * PI * (r * w ^ 3 + w ^ 4) * (r * r - (w * w - 1))); [ring|rewrite H5; ring].
  - intros x Hx. destruct (sq_facts x Hx) as (H1 & H2 & H3 & H4). auto_derive. repeat split; try lra. 
    assert (0 < (1 + x) ^ 2 * sqrt (1 + x)) by (apply Rmult_lt_0_compat; [apply pow_lt; lra|lra]). cbn in *. lra.
  - apply right_lim.
    + apply (continuous_plus (V := R_NormedModule)).
      * apply (continuous_mult (K := R_AbsRing) (fun x => -8 * PI * sqrt x * (3 + 4 * x)) (fun x => / (3 * ((1 + x) * sqrt (1 + x))))).
        -- apply (continuous_mult (K := R_AbsRing) (fun x => -8 * PI * sqrt x) (fun x => 3 + 4 * x)).
           ++ apply (continuous_scal_r (V := R_NormedModule) (-8 * PI)). apply continuous_sqrt.
           ++ apply (ex_derive_continuous (V := R_NormedModule)). auto_derive. auto.
        -- apply (ex_derive_continuous (V := R_NormedModule)). auto_derive. rewrite Rplus_0_r, sqrt_1. repeat split; lra.
      * apply (continuous_scal_r (V := R_NormedModule) (8 * PI)). exact cont_asinh0.
    + rewrite Rplus_0_r, sqrt_0, sqrt_1, Rplus_0_l, ln_1. field.
  - intros x Hx. rewrite den_130h by exact Hx. destruct (sq_facts x Hx) as (H1 & H2 & H3 & H4).
    set (r := sqrt x) in *. set (w := sqrt (1 + x)) in *.
    replace (4 * PI * x ^ 2 * (/ r * / ((1 + x) ^ 2 * w))) with (4 * PI * (x * (x * / r)) / ((1 + x) ^ 2 * w)) by (field; lra).
    replace (x * / r) with r by (rewrite <- H3; field; lra). field. lra.
Qed.
