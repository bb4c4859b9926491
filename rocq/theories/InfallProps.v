(** C45 and C46: infall redshifts of subhalos. *)
From Coquelicot Require Import Coquelicot.
From Verif Require Import Prelude MassFnModel MassFnProofs Interp InfallModel InfallSpec InfallProofs.
Local Open Scope string_scope.
Local Open Scope R_scope.
Local Open Scope list_scope.

(** ** C45: sampled infall redshifts *)

(** The sampled redshift minus the lens redshift is the v-quantile of the normal law with the published mean and standard
    deviation, restricted to [0, 15]; the mass ratio enters through its decades limited to [0.5, 5]. *)
Definition C45_law (i : infall) (z_lens m_host : R) (ma mb mc sa sb sc : R) : Prop :=
  forall m_sub v, 0 < m_sub -> 0 <= v <= 1 ->
  exists z L, infall_call i m_sub v = Ok (z_lens + z) /\ limited (1 / 2) 5 (decades m_host m_sub) L /\
    truncated_quantile (fitted ma mb mc L) (fitted sa sb sc L) 15 v z.
Lemma std_pos a b c L : 0 < a -> 0 < b -> 0 < fitted a b c L.
Proof.
  intros A B. unfold fitted. apply Rdiv_lt_0_compat; auto. assert (0 < Rpower L c) by apply exp_pos. nra.
Qed.
Lemma law_of n f z h : 0 < h -> 0 < fa (if_std f) -> 0 < fb (if_std f) ->
  C45_law (IFitted n f z h) z h (fa (if_mean f)) (fb (if_mean f)) (fc (if_mean f)) (fa (if_std f)) (fb (if_std f)) (fc (if_std f)).
Proof.
  intros H A B m v M V. destruct (ratio_limited h m H M) as (L & LIM & E). do 2 eexists. split; [reflexivity|]. split; [exact LIM|].
  unfold fit_value. rewrite E. apply truncated_normal_spec; auto. apply std_pos; auto.
Qed.
Theorem C45_hybrid : forall z_lens log_m_host,
  C45_law (hybrid_init z_lens log_m_host) z_lens (Rpower 10 log_m_host)
    3.35549949 3.20546995 (-2.91075587) 1.97880156 4.17390702 (-2.14428416).
Proof. intros. apply law_of; cbn; [apply pow10_pos|lra|lra]. Qed.
Theorem C45_direct : forall z_lens log_m_host,
  C45_law (direct_init z_lens log_m_host) z_lens (Rpower 10 log_m_host)
    3.3064042 4.528511 (-3.84346439) 1.94929171 4.91504583 (-2.4187402).
Proof. intros. apply law_of; cbn; [apply pow10_pos|lra|lra]. Qed.
(** The cluster model exists exactly for hosts between 10^14 and 10^15. *)
Theorem C45_cluster : forall z_lens log_m_host,
  (14 <= log_m_host <= 15 -> exists i, cluster_init z_lens log_m_host = Ok i /\
     C45_law i z_lens (Rpower 10 log_m_host) 2.05705664 9.43229827 (-4.69408104) 1.60922533 9.45120467 (-2.5087969)) /\
  (~ 14 <= log_m_host <= 15 -> cluster_init z_lens log_m_host = Err EValueError).
Proof.
  intros. unfold cluster_init. split; intros H.
  - rewrite (proj2 (Rltb_false 15 log_m_host)), (proj2 (Rltb_false log_m_host 14)) by lra. cbn [orb]. eexists. split; [reflexivity|].
    apply law_of; cbn; [apply pow10_pos|lra|lra].
  - destruct (Rltb 15 log_m_host) eqn:E1; [reflexivity|]. destruct (Rltb log_m_host 14) eqn:E2; [reflexivity|].
    apply Rltb_false in E1, E2. lra.
Qed.
(** Consequence used everywhere: never below the lens redshift, never more than 15 above it. *)
Theorem C45_physical : forall z_lens log_m_host m_sub v i,
  0 < m_sub -> 0 <= v <= 1 ->
  i = hybrid_init z_lens log_m_host \/ i = direct_init z_lens log_m_host \/ cluster_init z_lens log_m_host = Ok i ->
  exists z, infall_call i m_sub v = Ok z /\ z_lens <= z <= z_lens + 15.
Proof.
  intros * M V D.
  assert (Q : forall ma mb mc sa sb sc, C45_law i z_lens (Rpower 10 log_m_host) ma mb mc sa sb sc -> exists z, infall_call i m_sub v = Ok z /\ z_lens <= z <= z_lens + 15).
  { intros * L. destruct (L m_sub v M V) as (z & l & E & _ & (B & _)). exists (z_lens + z). split; [exact E|lra]. }
  destruct D as [-> | [-> | D]].
  - eapply Q, C45_hybrid.
  - eapply Q, C45_direct.
  - destruct (Rle_lt_dec 14 log_m_host) as [A|A]; [destruct (Rle_lt_dec log_m_host 15) as [B|B]|].
    + destruct (proj1 (C45_cluster z_lens log_m_host) (conj A B)) as (i' & E & L). rewrite D in E. injection E as <-. eapply Q, L.
    + rewrite (proj2 (C45_cluster z_lens log_m_host)) in D by lra. discriminate.
    + rewrite (proj2 (C45_cluster z_lens log_m_host)) in D by lra. discriminate.
Qed.
(** More massive subhalos fell in later: the mean decreases with the subhalo mass for every model with b > 0 and c < 0. *)
Lemma limited_mono lo hi x x' y y' : lo <= hi -> limited lo hi x y -> limited lo hi x' y' -> x <= x' -> lo <= y <= y'.
Proof.
  intros LH (A1 & A2 & A3) (B1 & B2 & B3) LE.
  destruct (Rlt_le_dec x lo); destruct (Rlt_le_dec hi x); destruct (Rlt_le_dec x' lo); destruct (Rlt_le_dec hi x'); try lra;
  repeat match goal with H : ?p -> _ |- _ => specialize (H ltac:(lra)) || clear H end; lra.
Qed.
Theorem C45_mean_decreases : forall a b c m_host m m' L L',
  0 < a -> 0 < b -> c < 0 -> 0 < m -> m <= m' ->
  limited (1 / 2) 5 (decades m_host m) L -> limited (1 / 2) 5 (decades m_host m') L' ->
  0 < fitted a b c L' <= fitted a b c L /\ fitted a b c L < a.
Proof.
  intros * A B C M MM HL HL'.
  assert (D : decades m_host m' <= decades m_host m).
  { unfold decades. apply div_le_iff; [apply ln10_pos|]. assert (ln m <= ln m'); [|lra]. destruct MM as [MM | ->]; [left; apply ln_increasing; auto|lra]. }
  pose proof (limited_mono (1 / 2) 5 _ _ _ _ ltac:(lra) HL' HL D) as LL.
  assert (P : Rpower L c <= Rpower L' c).
  { unfold Rpower. assert (ln L' <= ln L) by (destruct (proj2 LL) as [X | ->]; [left; apply ln_increasing; lra|lra]).
    assert (c * ln L <= c * ln L') by nra. destruct H0 as [X | ->]; [left; now apply exp_increasing|lra]. }
  assert (0 < Rpower L c) by apply exp_pos. split; [split|].
  - apply std_pos; auto.
  - unfold fitted, Rdiv. apply Rmult_le_compat_l; [lra|]. apply Rinv_le_contravar; nra.
  - pose proof (Rmult_lt_0_compat _ _ B H) as BP. unfold fitted. apply Rmult_lt_reg_r with (1 + b * Rpower L c); [lra|]. unfold Rdiv. rewrite Rmult_assoc, Rinv_l by lra. nra.
Qed.
(** The Milky Way models sample the same kind of law ... *)
Theorem C45_milky_way : forall z_lens m_host, 0 < m_host ->
  C45_law (IFitted "directMW" fit_mw30 z_lens m_host) z_lens m_host 3.2 (-3) (-3) 1.8 2 (-2.6) /\
  C45_law (IFitted "directMW" fit_mw50 z_lens m_host) z_lens m_host 2.7 (-2) (-3) 1.8 2 (-2.6) /\
  C45_law (IFitted "directMW" fit_mw200 z_lens m_host) z_lens m_host 0.5 2.04 (-11.3861) 2.07127 2.22591 (-2.619518).
Proof.
  intros. split; [|split]; [apply (law_of "directMW" fit_mw30)|apply (law_of "directMW" fit_mw50)|apply (law_of "directMW" fit_mw200)]; auto; cbn; lra.
Qed.
(** ... but the fitted mean of the 30 kpc model is not a mean infall redshift (refuted: positive, bounded and decreasing with
    mass, as for the other models): within the calibrated range of mass ratios it takes arbitrarily large values, and it is
    negative for the more massive subhalos. *)
Theorem C45_milky_way_refuted : forall bound,
  (exists L, 1 / 2 <= L <= 5 /\ bound < fitted 3.2 (-3) (-3) L) /\ (exists L, 1 / 2 <= L <= 5 /\ fitted 3.2 (-3) (-3) L < 0).
Proof.
  intros bound.
  assert (P3 : forall L, 0 < L -> Rpower L (-3) = / (L ^ 3)).
  { intros L HL. replace (-3) with (- INR 3) by (cbn; ring). rewrite Rpower_Ropp. f_equal. now rewrite Rpower_pow. }
  split.
  - (* L^3 = 3 / (1 - e) makes the denominator e *)
    set (B := Rmax bound 4). assert (4 <= B) by apply Rmax_r. assert (bound <= B) by apply Rmax_l.
    set (e := 3.2 / (2 * B)). assert (E : 0 < e <= 0.4).
    { unfold e. split; [apply Rdiv_lt_0_compat; lra|]. apply Rmult_le_reg_r with (2 * B); [lra|]. unfold Rdiv. rewrite Rmult_assoc, Rinv_l by lra. lra. }
    set (L := Rpower (3 / (1 - e)) (/ 3)).
    assert (T : 3 <= 3 / (1 - e) <= 5).
    { split; apply Rmult_le_reg_r with (1 - e); try lra; unfold Rdiv; rewrite Rmult_assoc, Rinv_l by lra; lra. }
    assert (LP : 0 < L) by apply exp_pos.
    assert (L3 : L ^ 3 = 3 / (1 - e)).
    { rewrite <- (Rpower_pow 3 L LP). unfold L. rewrite Rpower_mult. replace (/ 3 * INR 3) with 1 by (cbn; field). apply Rpower_1. lra. }
    exists L. split; [split; nra|]. unfold fitted. rewrite P3, L3 by auto.
    replace (1 + -3 * / (3 / (1 - e))) with e by (field; lra). unfold e.
    replace (3.2 / (3.2 / (2 * B))) with (2 * B) by (field; lra). lra.
  - exists 1. split; [lra|]. unfold fitted. rewrite P3 by lra. replace (1 + -3 * / 1 ^ 3) with (-2) by field. lra.
Qed.
(** GALACTICUS_2024: between 0.038 and 15.911 above the lens, whatever the random number, and both ends are reached
    (refuted: at most 15 above the lens). *)
Lemma g24_facts : g24_cdf = map (fun c => IZR c / 1360)
  [50; 143; 268; 448; 623; 767; 887; 1004; 1101; 1183; 1235; 1286; 1321; 1341; 1350; 1354; 1358; 1358; 1359; 1360]%Z.
Proof. reflexivity. Qed.
Lemma g24_lo : list_min g24_cdf = 50 / 1360.
Proof. rewrite g24_facts. cbn [map list_min fold_left]. repeat match goal with |- context [Rmin (50 / 1360) ?y] => rewrite (Rmin_left (50 / 1360) y) by lra end. reflexivity. Qed.
Lemma g24_hi : list_max g24_cdf = 1360 / 1360.
Proof. rewrite g24_facts. cbn [map list_max fold_left]. repeat match goal with |- context [Rmax (?a / 1360) ?y] => rewrite (Rmax_right (a / 1360) y) by lra end. reflexivity. Qed.
Theorem C45_galacticus2024 : forall z_lens m_sub v, 0 <= v <= 1 ->
  exists z, infall_call (IG24 z_lens) m_sub v = Ok z /\ z_lens + 0.03836189 <= z <= z_lens + 15.91097052.
Proof.
  intros * V. cbn [infall_call]. unfold g24_call. rewrite g24_lo, g24_hi. set (u := 50 / 1360 + (1360 / 1360 - 50 / 1360) * v).
  assert (U : 50 / 1360 <= u <= 1360 / 1360) by (unfold u; nra).
  rewrite g24_facts. unfold g24_z. cbn [map combine]. unfold interp1d.
  rewrite (proj2 (Rltb_false u (50 / 1360))) by lra.
  match goal with |- context [fst (last ?t ?d)] => set (tt := t); assert (FL : fst (last tt d) = 1360 / 1360) by reflexivity; rewrite FL end.
  rewrite (proj2 (Rltb_false (1360 / 1360) u)) by lra. cbn [bind]. eexists. split; [reflexivity|].
  assert (B : 0.03836189 <= interp_from (50 / 1360) (0.53836189 - 0.5) tt u <= 15.91097052); [|lra].
  assert (IN : forall a b, In (a, b) tt -> 0.03836189 <= b <= 15.91097052).
  { unfold tt. cbn [In]. intros a b I. repeat destruct I as [I | I]; try tauto; injection I as _ <-; lra. }
  destruct (Rle_lt_dec u (50 / 1360)) as [X|X].
  - assert (u = 50 / 1360) as -> by lra. unfold tt. cbn [interp_from]. rewrite (proj2 (Rleb_true _ _)) by lra. lra.
  - apply interp_weak_bounds; [exact X|rewrite FL; lra|lra|exact IN].
Qed.
Theorem C45_galacticus2024_refuted : forall z_lens m_sub, exists z, infall_call (IG24 z_lens) m_sub 1 = Ok z /\ z_lens + 15 < z.
Proof.
  intros. cbn [infall_call]. unfold g24_call. rewrite g24_lo, g24_hi. replace (50 / 1360 + (1360 / 1360 - 50 / 1360) * 1) with (1360 / 1360) by field.
  rewrite g24_facts. unfold g24_z. cbn [map combine]. unfold interp1d.
  rewrite (proj2 (Rltb_false _ (50 / 1360))) by lra. cbn [last fst]. rewrite (proj2 (Rltb_false _ _)) by lra. cbn [bind].
  eexists. split; [reflexivity|]. cbn [interp_from].
  repeat match goal with |- context [Rleb ?a ?b] => first [rewrite (proj2 (Rleb_false a b)) by lra | rewrite (proj2 (Rleb_true a b)) by lra] end. lra.
Qed.
(** The vectorised sampler draws from the same law: with the same random numbers it returns the scalar results, for every model. *)
Theorem C45_batch : forall st ms,
  ls_set st = true -> sample_infall_redshifts st ms = mapM (fun mv => z_accreted st (fst mv) (snd mv)) ms.
Proof.
  intros st ms S. unfold sample_infall_redshifts. destruct (ls_model st) as [[n f z h| | | |]|] eqn:E; try reflexivity.
  destruct (String.eqb n "hybrid" || String.eqb n "direct"); [|reflexivity].
  assert (Q : forall l, mapM (fun mv => z_accreted st (fst mv) (snd mv)) l = Ok (map (fun mv => fitted_call f z h (fst mv) (snd mv)) l)).
  { intros l. induction l as [|[m v] t IH]; [reflexivity|]. cbn [mapM map]. rewrite IH. unfold z_accreted at 1. rewrite S, E. reflexivity. }
  rewrite Q. reflexivity.
Qed.
Example C45_nonvacuous : exists z, infall_call (hybrid_init 0.5 13) (10 ^ 8) 0.5 = Ok z /\ 0.5 <= z <= 15.5.
Proof. destruct (C45_physical 0.5 13 (10 ^ 8) 0.5 _ ltac:(lra) ltac:(lra) (or_introl eq_refl)) as (z & E & B). exists z. split; [exact E|lra]. Qed.
Example C45_law_nonvacuous : limited (1 / 2) 5 (decades (10 ^ 13) (10 ^ 9)) 4.
Proof.
  assert (decades (10 ^ 13) (10 ^ 9) = 4) as ->.
  { unfold decades. rewrite <- (Rpower_pow 13 10), <- (Rpower_pow 9 10) by lra. unfold Rpower. rewrite !ln_exp.
    pose proof ln10_pos. replace (INR 13) with 13 by (cbn; ring). replace (INR 9) with 9 by (cbn; ring). field. lra. }
  repeat split; lra.
Qed.

(** ** C46: choice of the infall model *)

(** Host mass used: m_host if it is in the dictionary, else 10^log_m_host, else (HYBRID, DIRECT) 10^13. *)
Definition host_of (d : kwd) (h : R) : Prop :=
  match kget "m_host" d, kget "log_m_host" d with
  | Some m, _ => h = m
  | None, Some l => h = Rpower 10 l
  | None, None => h = Rpower 10 13
  end.
Definition host_given (d : kwd) : Prop := kget "m_host" d <> None \/ kget "log_m_host" d <> None.
(** What a call leaves in the caller's dictionary when it sets the host: no m_host, log_m_host = log10 of the host, the rest as it was. *)
Definition left_behind (d d' : kwd) (h : R) : Prop :=
  kget "m_host" d' = None /\ kget "log_m_host" d' = Some (ln h / ln 10) /\
  forall k, k <> "m_host" -> k <> "log_m_host" -> kget k d' = kget k d.
Lemma host_log d : (forall m, kget "m_host" d = Some m -> 0 < m) ->
  exists h, host_of d h /\ 0 < h /\ log10 h = match kget "m_host" d with Some m => log10 m | None => match kget "log_m_host" d with Some l => l | None => 13 end end
    /\ pow10 (log10 h) = h.
Proof.
  intros P. unfold host_of. destruct (kget "m_host" d) as [m|] eqn:E.
  - exists m. specialize (P m eq_refl). repeat split; auto. now apply pow10_log10.
  - destruct (kget "log_m_host" d) as [l|]; [exists (Rpower 10 l)|exists (Rpower 10 13)];
    (split; [reflexivity|]; split; [apply pow10_pos|]; split; [apply log10_pow10|]; apply pow10_log10, pow10_pos).
Qed.
Lemma left_conv d h : log10 h = match kget "m_host" d with Some m => log10 m | None => match kget "log_m_host" d with Some l => l | None => 13 end end ->
  left_behind d (with_default (convert_host d)) h.
Proof.
  intros E. split; [rewrite default_other by discriminate; apply convert_m_host|]. split.
  - rewrite default_log, convert_log. fold (log10 h). rewrite E. destruct (kget "m_host" d); reflexivity.
  - intros k A B. rewrite default_other by auto. now apply convert_other.
Qed.
Theorem C46_hybrid_direct : forall z_lens d st n,
  (forall m, kget "m_host" d = Some m -> 0 < m) -> n = "HYBRID_INFALL" \/ n = "DIRECT_INFALL" ->
  exists h d' nm f, host_of d h /\ left_behind d d' h /\
    setup_infall_model z_lens (SName n) d st = ({| ls_set := true; ls_model := Some (IFitted nm f z_lens h) |}, d', None) /\
    (n = "HYBRID_INFALL" -> f = fit_hybrid) /\ (n = "DIRECT_INFALL" -> f = fit_direct).
Proof.
  intros * P N. destruct (host_log d P) as (h & HO & HP & HL & HB).
  exists h, (with_default (convert_host d)). pose proof (left_conv d h HL) as LB.
  assert (KN : kneed "log_m_host" (with_default (convert_host d)) = Ok (log10 h)).
  { unfold kneed. destruct LB as (_ & -> & _). reflexivity. }
  destruct N as [-> | ->].
  - exists "hybrid", fit_hybrid. split; [exact HO|]. split; [exact LB|]. split; [|split; [auto|discriminate]].
    unfold setup_infall_model. replace (String.eqb "HYBRID_INFALL" "HYBRID_INFALL") with true by reflexivity. cbv zeta. rewrite KN.
    cbn [bind]. unfold hybrid_init. rewrite HB. reflexivity.
  - exists "direct", fit_direct. split; [exact HO|]. split; [exact LB|]. split; [|split; [discriminate|auto]].
    unfold setup_infall_model. replace (String.eqb "DIRECT_INFALL" "HYBRID_INFALL") with false by reflexivity.
    replace (String.eqb "DIRECT_INFALL" "DIRECT_INFALL") with true by reflexivity. cbv zeta. rewrite KN.
    cbn [bind]. unfold direct_init. rewrite HB. reflexivity.
Qed.
(** The cluster model needs a host between 10^14 and 10^15 in the dictionary; otherwise it raises (KeyError without a host,
    ValueError for one outside), and the object is left without a usable model although it counts as set up. *)
Theorem C46_cluster : forall z_lens d st,
  (forall m, kget "m_host" d = Some m -> 0 < m) ->
  (host_given d -> exists h d', host_of d h /\ left_behind d d' h /\
     (Rpower 10 14 <= h <= Rpower 10 15 -> setup_infall_model z_lens (SName "DIRECT_INFALL_CLUSTER") d st =
        ({| ls_set := true; ls_model := Some (IFitted "direct_cluster" fit_cluster z_lens h) |}, d', None)) /\
     (~ Rpower 10 14 <= h <= Rpower 10 15 -> setup_infall_model z_lens (SName "DIRECT_INFALL_CLUSTER") d st =
        ({| ls_set := true; ls_model := ls_model st |}, d', Some EValueError))) /\
  (~ host_given d -> setup_infall_model z_lens (SName "DIRECT_INFALL_CLUSTER") d st =
        ({| ls_set := true; ls_model := ls_model st |}, d, Some EKeyError)).
Proof.
  intros * P. unfold setup_infall_model.
  replace (String.eqb "DIRECT_INFALL_CLUSTER" "HYBRID_INFALL") with false by reflexivity.
  replace (String.eqb "DIRECT_INFALL_CLUSTER" "DIRECT_INFALL") with false by reflexivity.
  replace (String.eqb "DIRECT_INFALL_CLUSTER" "GALACTICUS_2024") with false by reflexivity.
  replace (String.eqb "DIRECT_INFALL_CLUSTER" "DIRECT_INFALL_CLUSTER") with true by reflexivity. cbv zeta. split.
  - intros G. destruct (host_log d P) as (h & HO & HP & HL & HB). exists h, (convert_host d). split; [exact HO|].
    assert (DEF : with_default (convert_host d) = convert_host d).
    { apply (default_some _ (log10 h)). rewrite convert_log, HL. unfold host_given in G. destruct (kget "m_host" d); auto. destruct (kget "log_m_host" d); auto. tauto. }
    pose proof (left_conv d h HL) as LB. rewrite DEF in LB. split; [exact LB|].
    assert (KN : kneed "log_m_host" (convert_host d) = Ok (log10 h)). { unfold kneed. destruct LB as (_ & -> & _). reflexivity. }
    rewrite KN. cbn [bind].
    assert (LE : forall x, Rpower 10 x <= h <-> x <= log10 h).
    { intros x. rewrite <- HB at 1. fold (pow10 x). split; intros A.
      - destruct (Rle_lt_dec x (log10 h)) as [B|B]; auto. apply pow10_lt in B. lra.
      - destruct A as [A | ->]; [left; now apply pow10_lt|lra]. }
    assert (GE : forall x, h <= Rpower 10 x <-> log10 h <= x).
    { intros x. rewrite <- HB at 1. fold (pow10 x). split; intros A.
      - destruct (Rle_lt_dec (log10 h) x) as [B|B]; auto. apply pow10_lt in B. lra.
      - destruct A as [A | <-]; [left; now apply pow10_lt|lra]. }
    rewrite LE, GE. split; intros A; unfold cluster_init.
    + rewrite (proj2 (Rltb_false _ _)), (proj2 (Rltb_false _ _)) by lra. cbn [orb]. now rewrite HB.
    + destruct (Rltb 15 (log10 h)) eqn:E1; [reflexivity|]. destruct (Rltb (log10 h) 14) eqn:E2; [reflexivity|].
      apply Rltb_false in E1, E2. lra.
  - intros G. unfold host_given in G. assert (M : kget "m_host" d = None) by (destruct (kget "m_host" d); auto; exfalso; apply G; left; discriminate).
    assert (L : kget "log_m_host" d = None) by (destruct (kget "log_m_host" d); auto; exfalso; apply G; right; discriminate).
    rewrite convert_none by auto. unfold kneed. rewrite L. reflexivity.
Qed.
(** The other names ignore the dictionary and do not change it; unknown names and failing classes raise. *)
Theorem C46_other : forall z_lens d st,
  setup_infall_model z_lens (SName "GALACTICUS_2024") d st = ({| ls_set := true; ls_model := Some (IG24 z_lens) |}, d, None) /\
  setup_infall_model z_lens (SName "INFALL_ZLENS") d st = ({| ls_set := true; ls_model := Some (IZlens z_lens) |}, d, None) /\
  setup_infall_model z_lens (SName "INFALL_0") d st = ({| ls_set := true; ls_model := Some IZero |}, d, None) /\
  (forall n, ~ In n ["HYBRID_INFALL"; "DIRECT_INFALL"; "GALACTICUS_2024"; "DIRECT_INFALL_CLUSTER"; "INFALL_ZLENS"; "INFALL_0"] ->
     setup_infall_model z_lens (SName n) d st = ({| ls_set := true; ls_model := ls_model st |}, d, Some EException)) /\
  (forall ctor i, ctor z_lens d = Ok i ->
     setup_infall_model z_lens (SClass ctor) d st = ({| ls_set := true; ls_model := Some i |}, d, None)) /\
  (forall ctor, is_err (ctor z_lens d) ->
     setup_infall_model z_lens (SClass ctor) d st = ({| ls_set := true; ls_model := ls_model st |}, d, Some EException)).
Proof.
  intros. split; [reflexivity|]. split; [reflexivity|]. split; [reflexivity|]. split; [|split].
  - intros n NI. unfold setup_infall_model.
    assert (Q : forall s, In s ["HYBRID_INFALL"; "DIRECT_INFALL"; "GALACTICUS_2024"; "DIRECT_INFALL_CLUSTER"; "INFALL_ZLENS"; "INFALL_0"] -> String.eqb n s = false).
    { intros s I. apply String.eqb_neq. intros ->. contradiction. }
    rewrite !Q; [reflexivity|..]; cbn; tauto.
  - intros ctor i E. unfold setup_infall_model. rewrite E. reflexivity.
  - intros ctor (e & E). unfold setup_infall_model. rewrite E. reflexivity.
Qed.
(** Using the dictionary that a successful call left behind gives the same model and leaves it as it is. *)
Theorem C46_idempotent : forall z_lens s d st st' d',
  (forall m, kget "m_host" d = Some m -> 0 < m) ->
  setup_infall_model z_lens s d st = (st', d', None) -> setup_infall_model z_lens s d' st = (st', d', None).
Proof.
  intros * P H. unfold setup_infall_model in *. destruct s as [n|ctor].
  2: { destruct (ctor z_lens d) eqn:E; [|discriminate]. assert (d' = d) as -> by congruence. rewrite E. congruence. }
  assert (CC : convert_host (with_default (convert_host d)) = with_default (convert_host d)).
  { apply convert_none. rewrite default_other by discriminate. apply convert_m_host. }
  assert (DD : with_default (with_default (convert_host d)) = with_default (convert_host d)) by (eapply default_some, default_log).
  assert (C1 : convert_host (convert_host d) = convert_host d) by (apply convert_none, convert_m_host).
  destruct (String.eqb n "HYBRID_INFALL").
  { cbv zeta in *. destruct (kneed "log_m_host" (with_default (convert_host d))) eqn:E; cbn [bind] in H; [|discriminate].
    assert (d' = with_default (convert_host d)) as -> by congruence. rewrite CC, DD, E. cbn [bind]. congruence. }
  destruct (String.eqb n "DIRECT_INFALL").
  { cbv zeta in *. destruct (kneed "log_m_host" (with_default (convert_host d))) eqn:E; cbn [bind] in H; [|discriminate].
    assert (d' = with_default (convert_host d)) as -> by congruence. rewrite CC, DD, E. cbn [bind]. congruence. }
  destruct (String.eqb n "GALACTICUS_2024"); [congruence|].
  destruct (String.eqb n "DIRECT_INFALL_CLUSTER").
  { cbv zeta in *. destruct (kneed "log_m_host" (convert_host d)) eqn:E; cbn [bind] in H; [|discriminate].
    destruct (cluster_init z_lens a) eqn:E2; [|discriminate]. assert (d' = convert_host d) as -> by congruence. rewrite C1, E. cbn [bind]. rewrite E2. congruence. }
  destruct (String.eqb n "INFALL_ZLENS"); [congruence|]. destruct (String.eqb n "INFALL_0"); [congruence|]. discriminate.
Qed.
(** (refuted: the caller's dictionary is not modified) *)
Theorem C46_caller_dictionary_refuted : forall z_lens st m, 0 < m ->
  exists st' d', setup_infall_model z_lens (SName "HYBRID_INFALL") [("m_host", m)] st = (st', d', None) /\ d' <> [("m_host", m)] /\
    kget "m_host" d' = None.
Proof.
  intros * M. destruct (C46_hybrid_direct z_lens [("m_host", m)] st "HYBRID_INFALL") as (h & d' & nm & f & HO & (L & _) & E & _); [|now left|].
  { intros m' H. cbn in H. injection H as <-. exact M. }
  do 2 eexists. split; [exact E|]. split; [|exact L]. intros ->. discriminate.
Qed.
(** (refuted: two identical preset calls with the same dictionary use the same host) the first one uses m_host, the second
    one the argument log_m_host *)
Theorem C46_second_call_refuted : forall z_lens m log_m_host, 0 < m ->
  exists nm f d' d2, preset_infall z_lens (SName "HYBRID_INFALL") log_m_host [("m_host", m)] lc_fresh
      = ({| ls_set := true; ls_model := Some (IFitted nm f z_lens m) |}, d', None) /\
    preset_infall z_lens (SName "HYBRID_INFALL") log_m_host d' lc_fresh
      = ({| ls_set := true; ls_model := Some (IFitted nm f z_lens (Rpower 10 log_m_host)) |}, d2, None).
Proof.
  intros * M. exists "hybrid", fit_hybrid. do 2 eexists. unfold preset_infall, preset_kwargs.
  replace (String.eqb "HYBRID_INFALL" "HYBRID_INFALL") with true by reflexivity. cbn [orb]. split.
  - unfold setup_infall_model. replace (String.eqb "HYBRID_INFALL" "HYBRID_INFALL") with true by reflexivity. cbv zeta.
    cbn [kset]. replace (String.eqb "m_host" "log_m_host") with false by reflexivity. unfold convert_host. cbn [kget].
    replace (String.eqb "m_host" "m_host") with true by reflexivity. cbn [kset].
    replace (String.eqb "m_host" "log_m_host") with false by reflexivity. replace (String.eqb "log_m_host" "log_m_host") with true by reflexivity.
    rewrite kdel_cons. replace (String.eqb "m_host" "m_host") with true by reflexivity. rewrite kdel_cons.
    replace (String.eqb "log_m_host" "m_host") with false by reflexivity. cbn. unfold hybrid_init. rewrite pow10_log10 by exact M. reflexivity.
  - reflexivity.
Qed.
(** Histories of preset calls that share the default dictionary: the log host mass it holds. *)
Fixpoint remembered (o : option R) (h : list preset_call) : option R :=
  match h with
  | [] => o
  | c :: t => remembered (match pc_model c with
                          | SName n => if String.eqb n "HYBRID_INFALL" || String.eqb n "DIRECT_INFALL_CLUSTER" then Some (pc_log_m_host c)
                                       else if String.eqb n "DIRECT_INFALL" then Some (match o with Some l => l | None => 13 end)
                                       else o
                          | SClass _ => o
                          end) t
  end.
Lemma run_preset_dict d c : kget "m_host" d = None ->
  kget "m_host" (snd (fst (run_preset d c))) = None /\
  kget "log_m_host" (snd (fst (run_preset d c))) = remembered (kget "log_m_host" d) [c].
Proof.
  intros M. unfold run_preset, preset_infall, preset_kwargs, setup_infall_model. cbn [remembered]. destruct (pc_model c) as [n|ctor].
  2: { destruct (ctor _ _); cbn [fst snd]; auto. }
  destruct (String.eqb n "HYBRID_INFALL") eqn:E1.
  { cbn [orb]. cbv zeta. set (d1 := kset "log_m_host" (pc_log_m_host c) d). assert (M1 : kget "m_host" d1 = None) by (unfold d1; rewrite kget_kset_ne by discriminate; auto).
    assert (L1 : kget "log_m_host" d1 = Some (pc_log_m_host c)) by apply kget_kset_eq.
    rewrite (convert_none d1 M1), (default_some d1 _ L1). unfold kneed. rewrite L1. cbn. auto. }
  destruct (String.eqb n "DIRECT_INFALL_CLUSTER") eqn:E2.
  { cbn [orb]. cbv zeta. set (d1 := kset "log_m_host" (pc_log_m_host c) d). assert (M1 : kget "m_host" d1 = None) by (unfold d1; rewrite kget_kset_ne by discriminate; auto).
    assert (L1 : kget "log_m_host" d1 = Some (pc_log_m_host c)) by apply kget_kset_eq. apply String.eqb_eq in E2. subst n.
    cbn. rewrite (convert_none d1 M1). unfold kneed. rewrite L1. cbn. destruct (cluster_init _ _); cbn; auto. }
  cbn [orb]. cbv zeta. destruct (String.eqb n "DIRECT_INFALL") eqn:E3.
  { rewrite (convert_none d M). unfold kneed. rewrite default_log. cbn [bind fst snd]. rewrite default_other by discriminate. rewrite default_log. auto. }
  destruct (String.eqb n "GALACTICUS_2024"); cbn [fst snd]; auto. destruct (String.eqb n "INFALL_ZLENS"); cbn [fst snd]; auto.
  destruct (String.eqb n "INFALL_0"); cbn [fst snd]; auto.
Qed.
Theorem C46_default_dictionary : forall h,
  kget "m_host" (default_after [] h) = None /\ kget "log_m_host" (default_after [] h) = remembered None h.
Proof.
  assert (Q : forall h d, kget "m_host" d = None -> kget "m_host" (default_after d h) = None /\ kget "log_m_host" (default_after d h) = remembered (kget "log_m_host" d) h).
  { induction h as [|c t IH]; intros d M; [cbn; auto|]. cbn [default_after]. destruct (run_preset_dict d c M) as (A & B).
    destruct (IH _ A) as (C & D). split; [exact C|]. rewrite D, B. reflexivity. }
  intros h. apply (Q h []). reflexivity.
Qed.
(** For every history, a HYBRID_INFALL preset uses its own log_m_host; a DIRECT_INFALL preset ignores its own and uses the value
    that earlier calls left in the default dictionary (13 if none did). *)
Theorem C46_preset_history : forall h z_lens log_m_host,
  (exists d', run_preset (default_after [] h) {| pc_zlens := z_lens; pc_model := SName "HYBRID_INFALL"; pc_log_m_host := log_m_host |}
     = ({| ls_set := true; ls_model := Some (IFitted "hybrid" fit_hybrid z_lens (Rpower 10 log_m_host)) |}, d', None)) /\
  (exists d', run_preset (default_after [] h) {| pc_zlens := z_lens; pc_model := SName "DIRECT_INFALL"; pc_log_m_host := log_m_host |}
     = ({| ls_set := true; ls_model := Some (IFitted "direct" fit_direct z_lens (Rpower 10 (match remembered None h with Some l => l | None => 13 end))) |}, d', None)).
Proof.
  intros. destruct (C46_default_dictionary h) as (M & L). set (d := default_after [] h) in *. split.
  - eexists. unfold run_preset, preset_infall, preset_kwargs, setup_infall_model. cbn [pc_zlens pc_model pc_log_m_host].
    replace (String.eqb "HYBRID_INFALL" "HYBRID_INFALL") with true by reflexivity. cbn [orb]. cbv zeta.
    rewrite convert_none by (rewrite kget_kset_ne by discriminate; exact M). rewrite (default_some _ log_m_host) by apply kget_kset_eq.
    unfold kneed. rewrite kget_kset_eq. cbn [bind]. reflexivity.
  - eexists. unfold run_preset, preset_infall, preset_kwargs, setup_infall_model. cbn [pc_zlens pc_model pc_log_m_host].
    replace (String.eqb "DIRECT_INFALL" "HYBRID_INFALL") with false by reflexivity.
    replace (String.eqb "DIRECT_INFALL" "DIRECT_INFALL_CLUSTER") with false by reflexivity.
    replace (String.eqb "DIRECT_INFALL" "DIRECT_INFALL") with true by reflexivity. cbn [orb]. cbv zeta.
    rewrite convert_none by exact M. unfold kneed. rewrite default_log, L. cbn [bind]. reflexivity.
Qed.
(** (refuted: a preset call depends on its arguments only) the same DIRECT_INFALL call before and after a HYBRID_INFALL call *)
Theorem C46_history_refuted : exists h c, fst (fst (run_preset (default_after [] h) c)) <> fst (fst (run_preset [] c)).
Proof.
  exists [{| pc_zlens := 0.5; pc_model := SName "HYBRID_INFALL"; pc_log_m_host := 12 |}],
         {| pc_zlens := 0.5; pc_model := SName "DIRECT_INFALL"; pc_log_m_host := 13 |}.
  destruct (proj2 (C46_preset_history [{| pc_zlens := 0.5; pc_model := SName "HYBRID_INFALL"; pc_log_m_host := 12 |}] 0.5 13)) as (d1 & E1).
  destruct (proj2 (C46_preset_history [] 0.5 13)) as (d2 & E2). cbn [default_after] in E2. rewrite E1, E2. cbn. intros H. injection H as H.
  apply (f_equal ln) in H. unfold Rpower in H. rewrite !ln_exp in H. pose proof ln10_pos. lra.
Qed.
(** Asking for an accretion redshift before the set-up raises, and so does asking after a failed first set-up. *)
Theorem C46_unset : forall m v n z_lens d,
  z_accreted lc_fresh m v = Err EException /\
  (snd (setup_infall_model z_lens (SName n) d lc_fresh) <> None ->
   z_accreted (fst (fst (setup_infall_model z_lens (SName n) d lc_fresh))) m v = Err EAttributeError).
Proof.
  intros. split; [reflexivity|]. unfold setup_infall_model. cbv zeta.
  repeat match goal with |- context [if String.eqb n ?s then _ else _] => destruct (String.eqb n s) end;
  try (destruct (kneed _ _); cbn [bind]); try (destruct (cluster_init _ _)); cbn [fst snd ls_model lc_fresh]; intros H; try congruence; reflexivity.
Qed.
Example C46_idempotent_nonvacuous : exists st' d',
  setup_infall_model 0.5 (SName "HYBRID_INFALL") [("m_host", 10 ^ 13)] lc_fresh = (st', d', None) /\ d' <> [("m_host", 10 ^ 13)].
Proof. do 2 eexists. split; [reflexivity|]. discriminate. Qed.
Example C46_nonvacuous : host_of [("m_host", 10 ^ 14)] (10 ^ 14) /\ host_given [("m_host", 10 ^ 14)] /\ host_of [] (Rpower 10 13).
Proof. repeat split. left. discriminate. Qed.

Print Assumptions C45_hybrid.
Print Assumptions C45_direct.
Print Assumptions C45_cluster.
Print Assumptions C45_physical.
Print Assumptions C45_mean_decreases.
Print Assumptions C45_milky_way.
Print Assumptions C45_milky_way_refuted.
Print Assumptions C45_galacticus2024.
Print Assumptions C45_galacticus2024_refuted.
Print Assumptions C45_batch.
Print Assumptions C46_hybrid_direct.
Print Assumptions C46_cluster.
Print Assumptions C46_other.
Print Assumptions C46_idempotent.
Print Assumptions C46_caller_dictionary_refuted.
Print Assumptions C46_second_call_refuted.
Print Assumptions C46_default_dictionary.
Print Assumptions C46_preset_history.
Print Assumptions C46_history_refuted.
Print Assumptions C46_unset.
