(** C47-C50 and C73: concentrations. *)
From Verif Require Import Prelude MassFnModel MassFnProofs Interp RenderProofs ConcModel ConcSpec ConcProofs ConcProofs2 ConcProofs3.
Local Open Scope string_scope.
Local Open Scope R_scope.
Local Open Scope list_scope.

(** ** C47: concentrations never fall below the floor *)

(** a CDM class, or a WDM class: its concentration is at least 1.2, whatever the draw and whatever the class below *)
Theorem C47_floor : forall k m z g c,
  (exists name median s, k = KCdm name median s) \/ (exists cdm supp, k = KTurn cdm supp) ->
  nfw_concentration k m z g = Ok c -> 1.2 <= c.
Proof.
  intros k m z g c [(n & med & s & ->)|(cdm & supp & ->)] H; cbn [nfw_concentration] in H.
  - destruct (med m z); cbn [bind] in H; [|discriminate]. unfold scattered in H.
    destruct (if sc_on s then _ else _); cbn [bind] in H; [|discriminate]. injection H as <-. apply Rmax_r.
  - destruct (nfw_concentration cdm m z g); cbn [bind] in H; [|discriminate]. injection H as <-. apply Rmax_r.
Qed.

(** above the floor the value is the median times a log-normal factor; without scatter it is the median *)
Theorem C47_value : forall name median s m z g med,
  median m z = Ok med -> 0 < med ->
  (sc_on s = false -> nfw_concentration (KCdm name median s) m z g = Ok (Rmax med 1.2)) /\
  (sc_on s = true -> 0 <= sc_dex s + sc_zdep s * z ->
     nfw_concentration (KCdm name median s) m z g = Ok (Rmax (med * exp ((sc_dex s + sc_zdep s * z) * g)) 1.2)) /\
  (sc_on s = true -> sc_dex s + sc_zdep s * z < 0 -> nfw_concentration (KCdm name median s) m z g = Err EValueError).
Proof.
  intros name median s m z g med E Hm. cbn [nfw_concentration]. rewrite E. cbn [bind]. unfold scattered, np_lognormal.
  split; [|split]; intros S; rewrite S; cbn [bind]; auto.
  - intros Hs. rewrite (proj2 (Rltb_false _ _)) by auto. cbn [bind]. rewrite exp_plus, exp_ln by auto. reflexivity.
  - intros Hs. rewrite (proj2 (Rltb_true _ _)) by auto. reflexivity.
Qed.

(** the WDM suppression factors are in (0, 1] and rise with mass *)
Theorem C47_hyperbolic : forall log_mc a b z, 0 < b -> suppresses (fun m => hyper_suppression log_mc a b m z).
Proof. intros; now apply hyper_suppresses. Qed.
(** the tabulated fit never leaves its table, for any mass scale, slope and redshift *)
Theorem C47_ludlow : forall log_mc slope z,
  exists f, (forall m, ludlow_wdm_suppression log_mc slope m z = Ok (f m)) /\ suppresses f /\ (forall m m', 0 < m -> m < m' -> f m < f m').
Proof.
  intros. destruct (fit_ok log_mc slope z) as (a & b & E & Ha & Hb).
  exists (fun m => hyper_suppression log_mc a b m z). split; [|split].
  - intros m. unfold ludlow_wdm_suppression. rewrite E. reflexivity.
  - apply hyper_suppresses; lra.
  - intros m m' Hm Hlt. unfold hyper_suppression. pose proof (pow10_pos log_mc). apply logistic_smono.
    unfold Rdiv at 1 3. apply Rmult_lt_compat_r. apply Rinv_0_lt_compat; lra. apply Rplus_lt_compat_r.
    apply log10_lt. apply Rdiv_lt_0_compat; lra. unfold Rdiv. apply Rmult_lt_compat_r; [apply Rinv_0_lt_compat; lra|lra].
Qed.
(** and is refused exactly for slopes above zero *)
Theorem C47_ludlow_refused : forall slope, is_err (ludlow_wdm_init slope) <-> 0 < slope.
Proof. intros s. unfold ludlow_wdm_init, is_err. destruct (Rltb 0 s) eqn:E; [apply Rltb_true in E; split; eauto|apply Rltb_false in E; split; [intros [e X]; discriminate|lra]]. Qed.
(** every polynomial model that can be constructed, with a rising inner power, without redshift evolution or below z = 20/13 *)
Theorem C47_polynomial : forall p p' z, poly_init p = Ok p' -> 0 <= po_inner p ->
  po_evolve p = false \/ 0 <= z <= 20 / 13 -> p' = p /\ suppresses (fun m => poly_suppression p m z).
Proof.
  intros p p' z H Hi Hz. unfold poly_init in H.
  destruct (Rltb 0 (po_power p)) eqn:E1; [discriminate|]. destruct (Rltb (po_scale p) 0) eqn:E2; [discriminate|].
  apply Rltb_false in E1, E2. split; [congruence|].
  unfold poly_suppression. pose proof (pow10_pos (po_log_mc p)).
  assert (K : 0 < (if po_evolve p then bose_evolution z else 1) <= 1).
  { destruct Hz as [->|Hz]; [lra|]. destruct (po_evolve p); [|lra]. split; [apply exp_pos|apply bose_le1; lra]. }
  set (k := if po_evolve p then bose_evolution z else 1) in *. split.
  - intros m Hm. assert (0 < Rpower (1 + po_scale p * Rpower (pow10 (po_log_mc p) / m) (po_inner p)) (po_power p)) by apply exp_pos.
    pose proof (poly_core_le1 (po_scale p) (pow10 (po_log_mc p) / m) (po_inner p) (po_power p) E2 E1). split; nra.
  - intros m m' Hm Hle. apply Rmult_le_compat_l; [lra|]. apply poly_core_mono; auto.
Qed.
(** a power above zero or a scale below zero is refused *)
Theorem C47_polynomial_refused : forall p, is_err (poly_init p) <-> 0 < po_power p \/ po_scale p < 0.
Proof.
  intros p. unfold poly_init, is_err. destruct (Rltb 0 (po_power p)) eqn:E1.
  - apply Rltb_true in E1. split; eauto.
  - apply Rltb_false in E1. destruct (Rltb (po_scale p) 0) eqn:E2.
    + apply Rltb_true in E2. split; eauto.
    + apply Rltb_false in E2. split; [intros [e X]; discriminate|lra].
Qed.
(** with the (default) redshift evolution, WDM concentrations of massive halos exceed the CDM ones at high redshift *)
Theorem C47_polynomial_refuted : forall z, 20 / 13 < z ->
  exists p m, poly_init p = Ok p /\ po_evolve p = true /\ 0 < m /\ 1 < poly_suppression p m z.
Proof.
  intros z Hz. pose proof (bose_gt1 z Hz) as B.
  (* choose the scale so small that the suppression is closer to one than the evolution factor *)
  exists {| po_log_mc := 0; po_scale := 60; po_power := - (ln (bose_evolution z) / 2 / ln 61); po_inner := 1; po_evolve := true |}, 1.
  assert (0 < ln (bose_evolution z)) by (rewrite <- ln_1; apply ln_increasing; lra).
  assert (0 < ln 61) by (rewrite <- ln_1; apply ln_increasing; lra).
  unfold poly_init, poly_suppression; cbn [po_log_mc po_scale po_power po_inner po_evolve].
  assert (0 < ln (bose_evolution z) / 2 / ln 61) by (apply Rdiv_lt_0_compat; lra).
  rewrite (proj2 (Rltb_false _ _)) by lra. rewrite (proj2 (Rltb_false _ _)) by lra.
  repeat split; try lra. rewrite pow10_0. replace (1 / 1) with 1 by field. rewrite Rpower_one_base.
  replace (1 + 60 * 1) with 61 by ring. unfold Rpower.
  replace (- (ln (bose_evolution z) / 2 / ln 61) * ln 61) with (- (ln (bose_evolution z) / 2)) by (field; lra).
  rewrite <- (exp_ln (bose_evolution z)) at 1 by lra. rewrite <- exp_plus. rewrite <- exp_0 at 1. apply exp_increasing. lra.
Qed.
(** a WDM class whose factor is at most one never exceeds its CDM class *)
Theorem C47_below_cdm : forall cdm supp m z g c c0,
  (exists name median s, cdm = KCdm name median s) -> 0 < supp m z <= 1 ->
  nfw_concentration cdm m z g = Ok c0 -> nfw_concentration (KTurn cdm supp) m z g = Ok c -> c <= c0.
Proof.
  intros cdm supp m z g c c0 Hc Hs H0 H. pose proof (C47_floor cdm m z g c0 (or_introl Hc) H0).
  cbn [nfw_concentration] in H. rewrite H0 in H. cbn [bind] in H. injection H as <-. unfold universal_minimum.
  apply Rmax_lub; [|lra]. assert (0 <= c0 * (1 - supp m z)) by (apply Rmult_le_pos; lra). nra.
Qed.
(** scatter_dex is a scatter in dex by name and documentation, but one standard deviation moves ln c, not log10 c, by it *)
Theorem C47_dex_refuted : forall name median dex zdep m z med, median m z = Ok med -> 1.2 <= med -> 0 < dex ->
  nfw_concentration (KCdm name median (mk_scatter true dex zdep)) m z 1 = Ok (med * exp dex) /\ med * exp dex < med * pow10 dex.
Proof.
  intros name median dex zdep m z med E Hm Hd. split.
  - destruct (C47_value name median (mk_scatter true dex zdep) m z 1 med E ltac:(lra)) as (_ & H & _).
    cbn [mk_scatter sc_on sc_dex sc_zdep] in H. rewrite H; auto; [|lra].
    replace ((dex + 0 * z) * 1) with dex by ring. f_equal. apply Rmax_left.
    assert (1 < exp dex) by (rewrite <- exp_0; apply exp_increasing; lra). nra.
  - apply Rmult_lt_compat_l; [lra|]. unfold pow10, Rpower. apply exp_increasing.
    assert (1 < ln 10).
    { rewrite <- (ln_exp 1). apply ln_increasing. apply exp_pos. pose proof exp_le_3. lra. }
    nra.
Qed.
(** and the redshift dependence scatter_dex_z_dep is accepted by every such class and ignored *)
Theorem C47_zdep_refuted : forall name median dex zdep zdep' m z g,
  nfw_concentration (KCdm name median (mk_scatter true dex zdep)) m z g = nfw_concentration (KCdm name median (mk_scatter true dex zdep')) m z g.
Proof. reflexivity. Qed.
(** power law in peak height: the amplitude is reached at the pivot mass today, and the relation falls with mass when beta >= 0 *)
Theorem C47_peak_height : forall nu rho p, (forall m z, 0 < nu m z) -> 0 < rho 0 ->
  peak_concentration nu rho p (pk_pivot p) 0 = pk_c0 p /\
  (forall m m' z, 0 < pk_c0 p -> 0 <= pk_beta p -> pk_rho_crit p = true -> nu m z <= nu m' z ->
     peak_concentration nu rho p m' z <= peak_concentration nu rho p m z).
Proof.
  intros nu rho p Hn Hr. split.
  - unfold peak_concentration. pose proof (Hn (pk_pivot p) 0). unfold Rdiv. rewrite !Rinv_r by lra.
    replace (if pk_rho_crit p then 1 else 1) with 1 by (destruct (pk_rho_crit p); auto). rewrite !Rpower_one_base. ring.
  - intros m m' z Hc Hb Er Hle. unfold peak_concentration. rewrite Er. apply Rmult_le_compat_r; [left; apply exp_pos|].
    apply Rmult_le_compat_l; [lra|]. pose proof (Hn (pk_pivot p) z). pose proof (Hn m z). apply Rpower_neg_base; [|unfold Rdiv|lra].
    apply Rdiv_lt_0_compat; lra. apply Rmult_le_compat_r; [left; apply Rinv_0_lt_compat|]; lra.
Qed.
Example C47_floor_nonvacuous :
  nfw_concentration (KTurn (KCdm "LUDLOW2016" (fun _ _ => Ok 20) (mk_scatter true 0.2 0)) (fun m z => hyper_suppression 8 0 1 m z)) (pow10 8) 1 0 = Ok 10
  /\ nfw_concentration (KTurn (KCdm "LUDLOW2016" (fun _ _ => Ok 2) (mk_scatter true 0.2 0)) (fun m z => hyper_suppression 8 0 1 m z)) (pow10 8) 1 0 = Ok 1.2
  /\ (exists p, poly_init p = Ok p /\ po_inner p = 1 /\ po_power p = -0.17).
Proof.
  assert (T : hyper_suppression 8 0 1 (pow10 8) 1 = 0.5).
  { unfold hyper_suppression. pose proof (pow10_pos 8). unfold Rdiv at 2. rewrite Rinv_r, log10_1 by lra.
    rewrite half_tanh. replace (-2 * ((0 - 0) / (2 * 1))) with 0 by field. rewrite exp_0. lra. }
  assert (L : forall c, 0 < c -> scattered (mk_scatter true 0.2 0) 1 c false 0 = Ok (Rmax c 1.2)).
  { intros c Hc. unfold scattered, np_lognormal, mk_scatter; cbn [sc_on sc_dex sc_zdep].
    rewrite (proj2 (Rltb_false _ _)) by lra. cbn [bind]. rewrite Rmult_0_r, Rplus_0_r, exp_ln by auto. reflexivity. }
  split; [|split].
  - cbn [nfw_concentration bind]. rewrite L by lra. cbn [bind]. rewrite T. unfold universal_minimum.
    rewrite (Rmax_left 20 1.2) by lra. f_equal. rewrite Rmax_left by lra. lra.
  - cbn [nfw_concentration bind]. rewrite L by lra. cbn [bind]. rewrite T. unfold universal_minimum.
    rewrite (Rmax_left 2 1.2) by lra. f_equal. rewrite Rmax_right by lra. reflexivity.
  - exists {| po_log_mc := 8; po_scale := 60; po_power := -0.17; po_inner := 1; po_evolve := true |}.
    unfold poly_init; cbn. rewrite (proj2 (Rltb_false _ _)) by lra. rewrite (proj2 (Rltb_false _ _)) by lra. auto.
Qed.

(** ** C48: the interpolation table *)

(** the ranges covered by the table of an object with history [h] *)
Definition covered (f : R -> R -> R) (h : list query) (m z : R) : Prop :=
  exists t, run_queries f None h = Some t /\ tb_mlo t <= log10 m <= tb_mhi t /\ tb_ulo t <= log10 (1 + z) <= tb_uhi t.

(** every point asked so far is covered by the table, whatever came before, between and after *)
Theorem C48_covers : forall f h q m z, Forall good_query h -> In q h -> asks q m z -> covered f h m z.
Proof.
  intros f h q m z Hh Hin Ha. destruct (queries_ok f None h I Hh) as (_ & _ & H). destruct (H q m z Hin Ha) as (t & E & C).
  exists t. split; auto.
Qed.
(** and what is covered stays covered *)
Theorem C48_grows : forall f h k m z, Forall good_query h -> Forall good_query k -> covered f h m z -> covered f (h ++ k) m z.
Proof.
  intros f h k m z Hh Hk (t & E & C). unfold covered. rewrite run_queries_app, E.
  destruct (queries_ok f None h I Hh) as (O & _ & _). rewrite E in O.
  destruct (queries_ok f (Some t) k O Hk) as (_ & H & _). destruct (H t eq_refl) as (t' & E' & X).
  exists t'. split; auto. cbn in X. lra.
Qed.
(** the default ranges are covered from the first query on *)
Theorem C48_default : forall f h m z, h <> [] -> Forall good_query h -> 5 <= log10 m <= 11.5 -> 0 <= log10 (1 + z) <= 1.05 -> covered f h m z.
Proof.
  intros f h m z Hn Hh Hm Hz. destruct (queries_ok f None h I Hh) as (O & _ & H). destruct h as [|q h]; [congruence|].
  inversion_clear Hh as [|? ? Hq _].
  assert (exists m' z', asks q m' z') as (m' & z' & Ha).
  { destruct q as [m' z'|l]; cbn in *. exists m', z'; auto. destruct Hq as [Hl _]. destruct l as [|[m' z'] l]; [congruence|]. exists m', z'; now left. }
  destruct (H q m' z' (or_introl eq_refl) Ha) as (t & E & _). rewrite E in O. destruct O as (A & B & C & D & _).
  exists t. split; auto. rewrite C. lra.
Qed.
(** after any history the value returned is the bilinear interpolation of log10 c in (log10 m, log10(1 + z)), from the corners of
    a cell around the query no wider than 0.064 dex in mass and 0.017 dex in 1 + z *)
Theorem C48_interpolates : forall f h m z, Forall good_query h -> 0 < m -> 0 <= z ->
  bilinear_in_cell (fun x y => log10 (f (pow10 x) (pow10 y - 1))) 0.064 0.017 (log10 m) (log10 (1 + z))
    (log10 (snd (eval_scalar f (run_queries f None h) m z))).
Proof.
  intros f h m z Hh Hm Hz. destruct (queries_ok f None h I Hh) as (O & _ & _).
  rewrite scalar_value by auto. destruct (query_ok f _ (QOne m z) O (conj Hm Hz)) as (A & _ & C). cbn [run_query] in A, C.
  apply look_bilinear. apply A. apply C; cbn; auto.
Qed.
(** so it stays between any bounds the model obeys in that neighbourhood *)
Theorem C48_between : forall f h m z lo hi, Forall good_query h -> 0 < m -> 0 <= z -> 0 < lo -> 
  (forall x y, Rabs (x - log10 m) <= 0.064 -> Rabs (y - log10 (1 + z)) <= 0.017 -> lo <= f (pow10 x) (pow10 y - 1) <= hi) ->
  lo <= snd (eval_scalar f (run_queries f None h) m z) <= hi.
Proof.
  intros f h m z lo hi Hh Hm Hz Hlo Hb. pose proof (C48_interpolates f h m z Hh Hm Hz) as B.
  assert (V : 0 < snd (eval_scalar f (run_queries f None h) m z)).
  { destruct (queries_ok f None h I Hh) as (O & _ & _). rewrite scalar_value by auto. apply pow10_pos. }
  assert (0 < hi).
  { pose proof (Hb (log10 m) (log10 (1 + z))). rewrite !Rminus_eq_0, Rabs_R0 in H. lra. }
  apply (bilinear_bounds _ _ _ _ _ _ (log10 lo) (log10 hi)) in B.
  - rewrite <- (pow10_log10 lo), <- (pow10_log10 hi), <- (pow10_log10 (snd _)) by auto.
    unfold pow10. split; apply Rle_Rpower; lra.
  - intros a b Ha Hb'. destruct (Hb a b Ha Hb'). split; apply log10_le; lra.
Qed.
(** and it is exact for a model that is bilinear in these variables *)
Theorem C48_exact : forall f h m z a b d e, Forall good_query h -> 0 < m -> 0 <= z ->
  (forall m z, 0 < m -> 0 < 1 + z -> f m z = pow10 (a + b * log10 m + d * log10 (1 + z) + e * log10 m * log10 (1 + z))) ->
  snd (eval_scalar f (run_queries f None h) m z) = f m z.
Proof.
  intros f h m z a b d e Hh Hm Hz Hf. pose proof (C48_interpolates f h m z Hh Hm Hz) as B.
  assert (V : 0 < snd (eval_scalar f (run_queries f None h) m z)).
  { destruct (queries_ok f None h I Hh) as (O & _ & _). rewrite scalar_value by auto. apply pow10_pos. }
  rewrite <- (pow10_log10 _ V). rewrite Hf by lra. f_equal.
  destruct B as (x0 & x1 & y0 & y1 & s & t & _ & _ & _ & _ & Ex & Ey & ->).
  assert (G : forall x y, log10 (f (pow10 x) (pow10 y - 1)) = a + b * x + d * y + e * x * y).
  { intros x y. pose proof (pow10_pos x). pose proof (pow10_pos y). rewrite Hf by lra.
    replace (1 + (pow10 y - 1)) with (pow10 y) by ring. now rewrite !log10_pow10. }
  rewrite !G, Ex, Ey. ring.
Qed.
(** arrays: if the table already covers the points, an array query gives the same values as one query per element, and leaves
    the table alone *)
Theorem C48_array : forall f h q, Forall good_query h -> q <> [] -> (forall p, In p q -> covered f h (fst p) (snd p)) ->
  snd (eval_array f (run_queries f None h) q) = map (fun p => snd (eval_scalar f (run_queries f None h) (fst p) (snd p))) q /\
  Some (fst (eval_array f (run_queries f None h) q)) = run_queries f None h.
Proof.
  intros f h q Hh Hq Hc. destruct (queries_ok f None h I Hh) as (O & _ & _).
  destruct (run_queries f None h) as [t|] eqn:E.
  2:{ destruct q as [|p q]; [congruence|]. destruct (Hc p (or_introl eq_refl)) as (t & E' & _). congruence. }
  assert (C : forall p, In p q -> covers t (log10 (fst p)) (log10 (1 + snd p))).
  { intros p Hp. destruct (Hc p Hp) as (t' & E' & X). assert (t' = t) by congruence. subst; exact X. }
  unfold eval_array; cbn [fst snd].
  rewrite ensure_same.
  - split; auto. assert (F : forall p, In p q -> snd (eval_scalar f (Some t) (fst p) (snd p)) = look_array f t (log10 (fst p)) (log10 (1 + snd p))).
    { intros p Hp. unfold eval_scalar. rewrite (proj2 (in_table_covers _ _ _)) by auto. apply look_same, O. }
    clear - F. induction q as [|p q IH]; cbn [map combine]; auto. rewrite (F p) by now left. f_equal. apply IH. intros; apply F; now right.
  - destruct q; cbn; congruence.
  - destruct q; cbn; congruence.
  - intros x Hx. apply in_map_iff in Hx as (p & <- & Hp). apply C; auto.
  - intros x Hx. apply in_map_iff in Hx as (p & <- & Hp). apply C; auto.
Qed.

Lemma floor_nat_eq x k : INR k <= x < INR k + 1 -> floor_nat x = k.
Proof.
  intros H. pose proof (pos_INR k). pose proof (floor_nat_spec x ltac:(lra)) as F.
  assert (INR (floor_nat x) < INR (S k)) by (rewrite S_INR; lra). assert (INR k < INR (S (floor_nat x))) by (rewrite S_INR; lra).
  apply INR_lt in H1, H2. lia.
Qed.
Lemma value_at t f x y i : wf_table t -> floor_nat ((x - tb_mlo t) / ((tb_mhi t - tb_mlo t) / INR (tb_nm t - 1))) = i -> (i <= tb_nm t - 2)%nat ->
  (forall m z, log10 (f m z) = log10 m ^ 2) ->
  let d := (tb_mhi t - tb_mlo t) / INR (tb_nm t - 1) in
  let a := tb_mlo t + INR i * d in
  log10 (look_array f t x y) = a ^ 2 + ((a + d) ^ 2 - a ^ 2) * ((x - a) / d).
Proof.
  intros [W1 W2] Hi Hl Hf d a. unfold look_array. rewrite mnode_step, unode_step, log10_pow10.
  replace (mnode t 0) with (tb_mlo t) by (unfold mnode; now rewrite node_0).
  rewrite Hi, Nat.min_l by auto. set (j := Nat.min _ _). unfold blend, entry. rewrite !Hf, !log10_pow10.
  assert (E1 : mnode t i = a) by reflexivity.
  assert (E2 : mnode t (S i) = a + d) by (unfold mnode; rewrite node_S; reflexivity).
  rewrite E1, E2. fold d. set (tu := _ / _). set (tm := (x - a) / d). ring.
Qed.
(** the table is not invisible: the same query to two objects of the same class gives different values if one of them was asked
    about a larger mass before *)
Theorem C48_history_refuted : exists f h m z, Forall good_query h /\ 0 < m /\ 0 <= z /\ covered f h m z /\
  snd (eval_scalar f (run_queries f None [QOne m z]) m z) = f m z /\
  f m z < snd (eval_scalar f (run_queries f None h) m z).
Proof.
  set (f := fun m (_ : R) => pow10 (log10 m ^ 2)).
  assert (Hf : forall m z, log10 (f m z) = log10 m ^ 2) by (intros; unfold f; apply log10_pow10).
  exists f, [QOne (pow10 11.6) 0], (pow10 8), 0.
  assert (G : forall x, good_query (QOne (pow10 x) 0)) by (intros; cbn; split; [apply pow10_pos|lra]).
  split; [repeat constructor; apply pow10_pos|]. split; [apply pow10_pos|]. split; [lra|].
  assert (Ey : log10 (1 + 0) = 0) by (rewrite Rplus_0_r; apply log10_1).
  assert (T : forall x, run_queries f None [QOne (pow10 x) 0] = Some (build_table (Rmin (x - 0.5) 5) (Rmax (x + 0.5) 11.5) 0 (Rmax (0 + 0.1) 1.05))).
  { intros x. cbn [run_queries run_query eval_scalar eval_array fst snd map ensure_table amin amax fold_left].
    rewrite Ey, log10_pow10, ulo_zero. reflexivity. }
  split; [|split].
  - apply C48_default; [discriminate|repeat constructor; apply pow10_pos|rewrite log10_pow10; lra|rewrite Ey; lra].
  - destruct (queries_ok f None [QOne (pow10 8) 0] I ltac:(repeat constructor; apply pow10_pos)) as (O & _ & _).
    rewrite (T 8) in *. rewrite (Rmin_right (8 - 0.5) 5), (Rmax_right (8 + 0.5) 11.5), (Rmax_right (0 + 0.1) 1.05) in * by lra.
    rewrite scalar_value by (auto; try apply pow10_pos; lra).
    assert (F : floor_nat ((11.5 - 5) * 16) = 104%nat) by (apply floor_nat_eq; cbn; lra).
    set (t := build_table 5 11.5 0 1.05) in *.
    assert (N : tb_nm t = 105%nat) by (unfold t, build_table; cbn [tb_nm]; rewrite F; reflexivity).
    assert (S : fst (eval_scalar f (Some t) (pow10 8) 0) = t).
    { unfold eval_scalar. rewrite (proj2 (in_table_covers _ _ _)); auto. rewrite log10_pow10, Ey. unfold covers, t; cbn; lra. }
    rewrite S, log10_pow10, Ey.
    assert (N' : INR (105 - 1) = 104) by (cbn; lra).
    pose proof (value_at t f 8 0 48 (proj2 (proj2 (proj2 (proj2 O))))) as V. rewrite N, N' in V. cbn [t build_table tb_mlo tb_mhi] in V. fold t in V.
    replace (INR 48) with 48 in V by (cbn; lra).
    assert (V' : log10 (look_array f t 8 0) = 64).
    { rewrite V. replace (5 + 48 * ((11.5 - 5) / 104)) with 8 by lra. unfold Rdiv at 2. rewrite (Rminus_eq_0 8). ring.
      apply floor_nat_eq. replace (INR 48) with 48 by (cbn; lra). lra. lia. auto. }
    rewrite <- (pow10_log10 (look_array f t 8 0)) by apply pow10_pos. rewrite V'. unfold f. rewrite log10_pow10. f_equal. ring.
  - destruct (queries_ok f None [QOne (pow10 11.6) 0] I ltac:(repeat constructor; apply pow10_pos)) as (O & _ & _).
    rewrite (T 11.6) in *. rewrite (Rmin_right (11.6 - 0.5) 5), (Rmax_left (11.6 + 0.5) 11.5), (Rmax_right (0 + 0.1) 1.05) in * by lra.
    replace (11.6 + 0.5) with 12.1 in * by lra.
    rewrite scalar_value by (auto; try apply pow10_pos; lra).
    assert (F : floor_nat ((12.1 - 5) * 16) = 113%nat) by (apply floor_nat_eq; cbn; lra).
    set (t := build_table 5 12.1 0 1.05) in *.
    assert (N : tb_nm t = 114%nat) by (unfold t, build_table; cbn [tb_nm]; rewrite F; reflexivity).
    assert (S : fst (eval_scalar f (Some t) (pow10 8) 0) = t).
    { unfold eval_scalar. rewrite (proj2 (in_table_covers _ _ _)); auto. rewrite log10_pow10, Ey. unfold covers, t; cbn; lra. }
    rewrite S, log10_pow10, Ey.
    assert (N' : INR (114 - 1) = 113) by (cbn; lra).
    pose proof (value_at t f 8 0 47 (proj2 (proj2 (proj2 (proj2 O))))) as V. rewrite N, N' in V. cbn [t build_table tb_mlo tb_mhi] in V. fold t in V.
    replace (INR 47) with 47 in V by (cbn; lra).
    assert (V' : 64 < log10 (look_array f t 8 0)).
    { rewrite V. 
      - assert (He : 0.06283 < (12.1 - 5) / 113 < 0.06284) by lra. set (e := (12.1 - 5) / 113) in *.
        replace ((5 + 47 * e) ^ 2 + ((5 + 47 * e + e) ^ 2 - (5 + 47 * e) ^ 2) * ((8 - (5 + 47 * e)) / e))
          with (64 + (3 - 47 * e) * (e - (3 - 47 * e))) by (field; lra).
        assert (0 < (3 - 47 * e) * (e - (3 - 47 * e))) by (apply Rmult_lt_0_compat; lra). lra.
      - apply floor_nat_eq. replace (INR 47) with 47 by (cbn; lra). lra.
      - lia.
      - auto. }
    rewrite <- (pow10_log10 (look_array f t 8 0)) by apply pow10_pos.
    replace (f (pow10 8) 0) with (pow10 64). now apply pow10_lt. unfold f. rewrite log10_pow10. f_equal. ring.
Qed.
Example C48_covers_nonvacuous :
  covered (fun _ _ => 10) [QOne (pow10 13) 2; QMany [(pow10 4, 0); (pow10 9, 11)]] (pow10 13) 2 /\
  covered (fun _ _ => 10) [QOne (pow10 13) 2; QMany [(pow10 4, 0); (pow10 9, 11)]] (pow10 4) 0.
Proof.
  assert (G : Forall good_query [QOne (pow10 13) 2; QMany [(pow10 4, 0); (pow10 9, 11)]]).
  { constructor; [|constructor; [|constructor]]. cbn; split; [apply pow10_pos|lra]. split. discriminate.
    intros p [<-|[<-|[]]]; cbn [fst snd]; split; try apply pow10_pos; lra. }
  split; eapply C48_covers; eauto. now left. cbn; auto. right; now left. now left.
Qed.

(** a model that the table reproduces exactly, and one bounded between 1 and 10 everywhere *)
Example C48_exact_nonvacuous :
  let f := fun m z : R => pow10 (1 + (- (0.1)) * log10 m + (- (0.5)) * log10 (1 + z) + 0 * log10 m * log10 (1 + z)) in
  snd (eval_scalar f (run_queries f None [QOne (pow10 13) 2; QMany [(pow10 4, 0); (pow10 9, 11)]]) (pow10 7.3) 0.5) = f (pow10 7.3) 0.5 /\
  covered f ([QOne (pow10 13) 2] ++ [QMany [(pow10 4, 0); (pow10 9, 11)]]) (pow10 13) 2 /\
  exists vs, snd (eval_array f (run_queries f None [QOne (pow10 13) 2]) [(pow10 13, 2); (pow10 13, 2)]) = vs /\ List.length vs = 2%nat.
Proof.
  intros f.
  assert (G1 : good_query (QOne (pow10 13) 2)) by (cbn; split; [apply pow10_pos|lra]).
  assert (G2 : good_query (QMany [(pow10 4, 0); (pow10 9, 11)])).
  { split. discriminate. intros p [<-|[<-|[]]]; cbn [fst snd]; split; try apply pow10_pos; lra. }
  split; [|split].
  - apply C48_exact with (a := 1) (b := - (0.1)) (d := - (0.5)) (e := 0); [constructor; [exact G1|constructor; [exact G2|constructor]]|apply pow10_pos|lra|reflexivity].
  - apply (C48_grows f [QOne (pow10 13) 2] [QMany [(pow10 4, 0); (pow10 9, 11)]]); [constructor; auto..|].
    eapply C48_covers; [constructor; auto|now left|cbn; auto].
  - eexists. split; [reflexivity|]. reflexivity.
Qed.

(** ** C49: default keyword dictionaries *)

(** objects made one after the other with the default kwargs_cdm all use the scatter settings of the first one *)
Theorem C49_default_dictionary_refuted : forall first rest,
  wdm_many ck_empty (first :: rest) = repeat first (S (List.length rest)).
Proof.
  intros [s x] rest. cbn [wdm_many]. unfold wdm_init at 1 2; cbn [ck_scatter ck_dex ck_empty fst snd].
  cbn [List.length repeat]. f_equal. induction rest as [|[s' x'] t IH]; cbn; f_equal; auto.
Qed.
(** so a second object asked to have no scatter has it nevertheless *)
Theorem C49_independent_refuted : exists l, wdm_many ck_empty l <> l.
Proof. exists [(true, 0.2); (false, 0.2)]. cbn. intros E. injection E. discriminate. Qed.
(** objects made through the named presets get their own settings, in every sequence *)
Theorem C49_presets_independent : forall l, wdm_many_preset l = l.
Proof. intros l. unfold wdm_many_preset. rewrite <- (map_id l) at 2. apply map_ext. intros []; reflexivity. Qed.
(** settings given in the caller's dictionary win, are kept, and missing ones are written into it *)
Theorem C49_explicit : forall s x d,
  snd (wdm_init s x d) = (match ck_scatter d with Some b => b | None => s end, match ck_dex d with Some r => r | None => x end) /\
  ck_scatter (fst (wdm_init s x d)) = Some (fst (snd (wdm_init s x d))) /\ ck_dex (fst (wdm_init s x d)) = Some (snd (snd (wdm_init s x d))).
Proof. intros; cbn; auto. Qed.
Example C49_nonvacuous : wdm_many ck_empty [(true, 0.2); (false, 0.1); (false, 0.3)] = [(true, 0.2); (true, 0.2); (true, 0.2)].
Proof. reflexivity. Qed.

(** ** C50: bins in halo mass *)

(** a mass inside the declared range, below the last upper edge, goes to the first bin whose upper edge exceeds it *)
Theorem C50_first_bin : forall b0 bins models m z, pow10 (fst b0) <= m -> m < pow10 (snd (last bins b0)) ->
  exists k b, nth_error (b0 :: bins) k = Some b /\ m < pow10 (snd b) /\
    (forall k' b', (k' < k)%nat -> nth_error (b0 :: bins) k' = Some b' -> pow10 (snd b') <= m) /\
    binned_concentration (b0 :: bins) models m z = Ok (models k m z).
Proof.
  intros b0 bins models m z Hlo Hhi.
  assert (L : In (last bins b0) (b0 :: bins)).
  { destruct bins as [|b t]; [now left|]. right. clear. revert b. induction t as [|c t IH]; intros b; [now left|]. right. apply IH. }
  destruct (first_bin (b0 :: bins) m) as (k & b & E & Hb & P); [eauto|].
  exists k, b. repeat split; auto. unfold binned_concentration.
  rewrite (proj2 (Rltb_false _ _)) by auto. rewrite (proj2 (Rltb_false _ _)) by lra.
  rewrite (binned_loop_nth _ _ _ _ k 0 b); auto.
Qed.
(** with contiguous bins it is the bin that contains the mass *)
Theorem C50_contiguous : forall b0 bins models m z k b,
  (forall i p q, nth_error (b0 :: bins) i = Some p -> nth_error (b0 :: bins) (S i) = Some q -> snd p = fst q) ->
  (forall p, In p (b0 :: bins) -> fst p < snd p) ->
  nth_error (b0 :: bins) k = Some b -> pow10 (fst b) <= m < pow10 (snd b) ->
  binned_concentration (b0 :: bins) models m z = Ok (models k m z).
Proof.
  intros b0 bins models m z k b Hc Hw Hk Hm.
  assert (le10 : forall x y, x <= y -> pow10 x <= pow10 y) by (intros x y [H| ->]; [left; now apply pow10_lt|lra]).
  (* edges rise *)
  assert (Up : forall i j p q, nth_error (b0 :: bins) i = Some p -> nth_error (b0 :: bins) j = Some q -> (i < j)%nat -> snd p <= fst q).
  { intros i j p q Hi Hj Hlt. revert q Hj. induction Hlt as [|j Hlt IH]; intros q Hj.
    - rewrite (Hc i p q Hi Hj). lra.
    - destruct (nth_error (b0 :: bins) j) as [r|] eqn:Er.
      + specialize (IH r eq_refl). rewrite <- (Hc j r q Er Hj). pose proof (Hw r (nth_error_In _ _ Er)). lra.
      + apply nth_error_None in Er. assert (S j < List.length (b0 :: bins))%nat by (apply nth_error_Some; congruence). lia. }
  assert (Last : nth_error (b0 :: bins) (List.length bins) = Some (last bins b0)).
  { clear. revert b0; induction bins as [|b t IH]; intros b0; [reflexivity|]. rewrite Interp.last_cons_irrel. cbn [List.length].
    change (nth_error (b :: t) (List.length t) = Some (last t b)). apply IH. }
  unfold binned_concentration.
  assert (F0 : fst b0 <= fst b).
  { destruct k as [|k]. cbn in Hk; injection Hk as <-; lra. pose proof (Up 0%nat (S k) b0 b eq_refl Hk ltac:(lia)).
    pose proof (Hw b0 (or_introl eq_refl)). lra. }
  assert (Fl : snd b <= snd (last bins b0)).
  { assert (k < List.length (b0 :: bins))%nat by (apply nth_error_Some; congruence). cbn in H.
    destruct (Nat.eq_dec k (List.length bins)) as [->|]. rewrite Last in Hk; injection Hk as <-; lra.
    pose proof (Up _ _ _ _ Hk Last ltac:(lia)). pose proof (Hw _ (nth_error_In _ _ Last)). lra. }
  pose proof (le10 _ _ F0). pose proof (le10 _ _ Fl).
  rewrite (proj2 (Rltb_false _ _)) by lra. rewrite (proj2 (Rltb_false _ _)) by lra.
  rewrite (binned_loop_nth _ _ _ _ k 0 b); auto. lra.
  intros k' b' Hlt Hb'. pose proof (le10 _ _ (Up _ _ _ _ Hb' Hk Hlt)). lra.
Qed.
(** outside the declared range it raises *)
Theorem C50_outside : forall b0 bins models m z, m < pow10 (fst b0) \/ pow10 (snd (last bins b0)) < m ->
  binned_concentration (b0 :: bins) models m z = Err EValueError.
Proof.
  intros b0 bins models m z [H|H]; unfold binned_concentration.
  - rewrite (proj2 (Rltb_true _ _)) by auto. reflexivity.
  - destruct (Rltb m _); auto. rewrite (proj2 (Rltb_true _ _)) by auto. reflexivity.
Qed.
(** a mass exactly at the top edge passes the range check, and raises all the same *)
Theorem C50_top_edge_refuted : forall b0 bins models z,
  (forall p, In p (b0 :: bins) -> snd p <= snd (last bins b0)) -> fst b0 < snd (last bins b0) ->
  let m := pow10 (snd (last bins b0)) in
  pow10 (fst b0) <= m <= pow10 (snd (last bins b0)) /\ binned_concentration (b0 :: bins) models m z = Err EValueError.
Proof.
  intros b0 bins models z H H0 m. pose proof (pow10_lt _ _ H0). split; [unfold m; lra|].
  unfold binned_concentration. rewrite (proj2 (Rltb_false _ _)) by (unfold m; lra). rewrite (proj2 (Rltb_false _ _)) by (unfold m; lra).
  apply binned_loop_none. intros b Hb. destruct (H b Hb) as [L|E]. left. now apply pow10_lt. rewrite E. unfold m; lra.
Qed.
Example C50_nonvacuous : binned_concentration [(6, 8); (8, 10)] (fun i _ _ => INR i + 10) (pow10 8) 0 = Ok 11.
Proof.
  rewrite (C50_contiguous (6, 8) [(8, 10)] _ _ _ 1%nat (8, 10)).
  - f_equal.
  - intros [|[|i]] p q E E'; cbn in E, E'; [injection E as <-; injection E' as <-; reflexivity|discriminate|destruct i; discriminate].
  - intros p [<-|[<-|[]]]; cbn; lra.
  - reflexivity.
  - cbn [fst snd]. split; [lra|]. apply pow10_lt; lra.
Qed.

(** ** C73: batch evaluation of concentrations equals the evaluation halo by halo *)

(** for one class and redshift, with the same deviates *)
Theorem C73_batch : forall k q z vs,
  batch_concentration k q z = Ok vs <-> Forall2 (fun p v => nfw_concentration k (fst p) z (snd p) = Ok v) q vs.
Proof. intros. rewrite batch_scalar. apply mapM_Forall2. Qed.
(** for a list of halos with any mixture of classes and redshifts: each halo without a concentration gets that of its own class,
    mass and redshift; halos that have one keep it; nothing else changes *)
Theorem C73_precompute : forall classes hs hs', precompute_concentrations classes hs = Ok hs' ->
  Forall2 (fun h h' => kh_class h' = kh_class h /\ kh_z h' = kh_z h /\ kh_mass h' = kh_mass h /\ kh_dev h' = kh_dev h /\
     match kh_c h with
     | Some c => kh_c h' = Some c
     | None => exists c, nfw_concentration (classes (kh_class h)) (kh_mass h) (kh_z h) (kh_dev h) = Ok c /\ kh_c h' = Some c
     end) hs hs'.
Proof.
  intros classes hs hs' H. apply precompute_spec in H. induction H as [|h h' t t' Hh Ht IH]; constructor; auto.
  destruct (kh_c h) as [c|] eqn:E.
  - subst h'. auto 6.
  - destruct Hh as (c & Hc & ->). cbn. repeat split; auto. exists c; auto.
Qed.
(** and it succeeds whenever the halo-by-halo evaluation would *)
Theorem C73_succeeds : forall classes hs,
  (forall h, In h hs -> kh_c h = None -> exists c, nfw_concentration (classes (kh_class h)) (kh_mass h) (kh_z h) (kh_dev h) = Ok c) ->
  exists hs', precompute_concentrations classes hs = Ok hs'.
Proof. intros. apply precompute_ok; auto. Qed.
Example C73_nonvacuous : exists hs',
  precompute_concentrations (fun n => match n with O => KConst 7 | _ => KTurn (KConst 10) (fun m z => m) end)
    [{| kh_class := 0; kh_z := 1; kh_mass := 2; kh_c := None; kh_dev := 0 |};
     {| kh_class := 1; kh_z := 1; kh_mass := 2; kh_c := None; kh_dev := 0 |};
     {| kh_class := 0; kh_z := 1; kh_mass := 3; kh_c := Some 4; kh_dev := 0 |}] = Ok hs' /\ map kh_c hs' = [Some 7; Some 20; Some 4].
Proof.
  match goal with |- exists hs', precompute_concentrations ?c ?l = _ /\ _ => destruct (C73_succeeds c l) as [hs' E] end.
  - intros h [<-|[<-|[<-|[]]]]; cbn; eauto.
  - exists hs'. split; auto. apply C73_precompute in E.
    inversion_clear E as [|? ? ? ? H1 E1]. inversion_clear E1 as [|? ? ? ? H2 E2]. inversion_clear E2 as [|? ? ? ? H3 E3]. inversion_clear E3.
    destruct H1 as (_ & _ & _ & _ & c1 & X1 & Y1). destruct H2 as (_ & _ & _ & _ & c2 & X2 & Y2). destruct H3 as (_ & _ & _ & _ & Y3).
    cbn in X1, X2, Y3. cbn [map]. rewrite Y1, Y2, Y3. injection X1 as <-. injection X2 as <-.
    repeat f_equal. unfold universal_minimum. rewrite Rmax_left by lra. lra.
Qed.

Print Assumptions C47_floor.
Print Assumptions C47_value.
Print Assumptions C47_hyperbolic.
Print Assumptions C47_ludlow.
Print Assumptions C47_ludlow_refused.
Print Assumptions C47_polynomial.
Print Assumptions C47_polynomial_refused.
Print Assumptions C47_polynomial_refuted.
Print Assumptions C47_below_cdm.
Print Assumptions C47_dex_refuted.
Print Assumptions C47_zdep_refuted.
Print Assumptions C47_peak_height.
Print Assumptions C48_covers.
Print Assumptions C48_grows.
Print Assumptions C48_default.
Print Assumptions C48_interpolates.
Print Assumptions C48_between.
Print Assumptions C48_exact.
Print Assumptions C48_array.
Print Assumptions C48_history_refuted.
Print Assumptions C49_default_dictionary_refuted.
Print Assumptions C49_independent_refuted.
Print Assumptions C49_presets_independent.
Print Assumptions C49_explicit.
Print Assumptions C50_first_bin.
Print Assumptions C50_contiguous.
Print Assumptions C50_outside.
Print Assumptions C50_top_edge_refuted.
Print Assumptions C73_batch.
Print Assumptions C73_precompute.
Print Assumptions C73_succeeds.
