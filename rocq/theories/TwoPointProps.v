(** C91: the two-point correlation function of a convergence map. *)
From Verif Require Import Prelude SpaceModel TwoPointModel TwoPointSpec TwoPointProofs.
From Coq Require Import Lra Psatz.

(** ** Specification *)
(** entry (i, j) of a table; None if it is not a number *)
Definition entry (t : list (list (option R))) (i j : nat) : option R :=
  match nth_error t i with Some row => match nth_error row j with Some v => v | None => None end | None => None end.

(** the estimator normalises by the area of the annulus, or of the inner square of width W *)
Definition survey_area (apply_mask : bool) (r_min : R) (r_max : option R) (W : R) : R :=
  match apply_mask, r_max with
  | true, Some rm => PI * (rm ^ 2 - r_min ^ 2)
  | true, None => W ^ 2 - PI * r_min ^ 2
  | false, _ => W ^ 2
  end.

(** two points [p], [q] attached to (x, y): r apart, symmetric about (x, y), and the direction from p to q makes an angle of
    cosine mu with the direction from the origin to (x, y) *)
Definition oriented_pair (r mu x y : R) (p q : R * R) : Prop :=
  dist2 p q = r /\ fst p + fst q = 2 * x /\ snd p + snd q = 2 * y /\
  (fst q - fst p) * x + (snd q - snd p) * y = r * mu * sqrt (x * x + y * y).

(** largest separation *)
Definition is_largest (rs : list R) (rl : R) : Prop := In rl rs /\ forall r, In r rs -> r <= rl.

(** ** Proofs *)
Lemma pair_oriented r mu x y : 0 <= r -> -1 <= mu <= 1 -> oriented_pair r mu x y (first_point r mu x y) (second_point r mu x y).
Proof.
  intros Pr Pm. destruct (one_minus_sq mu Pm) as [_ S]. pose proof (phi_unit x y) as U. destruct (phi_radial x y) as [X Y].
  unfold oriented_pair, first_point, second_point, pair_points, dist2. cbn [fst snd].
  set (s := sqrt (1 - mu ^ 2)) in *. clearbody s. set (c := cos_phi x y) in *. set (n := sin_phi x y) in *. clearbody c n.
  set (d := sqrt (x * x + y * y)) in *. split; [|split; [ring|split; [ring|]]].
  - replace ((x - r / 2 * (c * mu + n * s) - (x + r / 2 * (c * mu + n * s))) ^ 2 + (y - r / 2 * (n * mu - c * s) - (y + r / 2 * (n * mu - c * s))) ^ 2)
      with (r ^ 2 * ((c ^ 2 + n ^ 2) * (mu ^ 2 + s * s))) by field.
    rewrite U, S. replace (r ^ 2 * (1 * (mu ^ 2 + (1 - mu ^ 2)))) with (r ^ 2) by ring. now apply sqrt_pow2.
  - clearbody d. assert (Q1 : c * x + n * y = d * (c ^ 2 + n ^ 2)) by (rewrite <- X, <- Y; ring). rewrite U, Rmult_1_r in Q1.
    assert (Q2 : n * x - c * y = 0) by (rewrite <- X, <- Y; ring).
    transitivity (r * mu * (c * x + n * y) + r * s * (n * x - c * y)); [field|]. rewrite Q1, Q2. ring.
Qed.

Lemma pair_close r mu x y p q : 0 <= r -> oriented_pair r mu x y p q ->
  Rabs (fst p - x) <= r / 2 /\ Rabs (snd p - y) <= r / 2 /\ Rabs (fst q - x) <= r / 2 /\ Rabs (snd q - y) <= r / 2.
Proof.
  intros Pr (D & X & Y & _). unfold dist2 in D.
  assert (Q : (fst p - fst q) ^ 2 + (snd p - snd q) ^ 2 = r ^ 2).
  { pose proof (pow2_ge_0 (fst p - fst q)). pose proof (pow2_ge_0 (snd p - snd q)). rewrite <- D. symmetry. rewrite <- (Rsqr_pow2 (sqrt _)). apply Rsqr_sqrt. lra. }
  assert (H : forall a, a ^ 2 <= (r / 2) ^ 2 -> Rabs a <= r / 2).
  { intros a Ha. rewrite <- !Rsqr_pow2 in Ha; apply Rsqr_le_abs_0 in Ha. rewrite (Rabs_right (r / 2)) in Ha by lra. exact Ha. }
  pose proof (pow2_ge_0 (fst p - fst q)) as G1. pose proof (pow2_ge_0 (snd p - snd q)) as G2.
  assert (X1 : fst p - x = (fst p - fst q) / 2) by lra. assert (X2 : fst q - x = - (fst p - fst q) / 2) by lra.
  assert (X3 : snd p - y = (snd p - snd q) / 2) by lra. assert (X4 : snd q - y = - (snd p - snd q) / 2) by lra.
  rewrite X1, X2, X3, X4. set (u := fst p - fst q) in *. set (v := snd p - snd q) in *. clearbody u v.
  repeat split; apply H; nra.
Qed.

Lemma largest_spec rs rl : largest rs = Ok rl -> is_largest rs rl.
Proof.
  intros E. split; [|intros; eapply largest_ge; eassumption].
  destruct rs as [|a t]; [discriminate|]. cbn in E. injection E as <-. induction t as [|b t IH]; [now left|].
  specialize (IH). cbn [fold_right]. unfold Rmax at 1. destruct (Rle_dec b (fold_right Rmax a t)); [|right; left; reflexivity].
  destruct IH as [IH|IH]; [left; exact IH|right; right; exact IH].
Qed.

Lemma map_nth_error2 {A B} (f : A -> B) l i a : nth_error l i = Some a -> nth_error (map f l) i = Some (f a).
Proof. intros. now apply map_nth_error. Qed.

Lemma axis_facts S N rl axis : 0 < S -> inner_axis S N rl = Ok axis ->
  exists h, 0 < h /\ arith h axis /\ (forall x, In x axis -> Rabs x <= S / 2 - rl) /\ rl < S / 2 /\
    (last axis 0 - hd 0 axis = S - 2 * rl \/ total (cells axis) (fun _ _ => 1) = 0 /\ (exists a, axis = [a])).
Proof.
  intros P H. destruct (inner_axis_inv S N rl axis P H) as (n & Hn & L & ->). destruct (Nat.eq_dec n 1) as [->|N1].
  - exists 1. split; [lra|split; [exact I|split; [|split; [lra|]]]].
    + cbn. intros x [<-|[]]. unfold Rabs. destruct (Rcase_abs _); lra.
    + right. split; [unfold total, cells; cbn; lra|]. cbn. eauto.
  - exists ((S / 2 - rl - - (S / 2 - rl)) / INR (n - 1)). assert (0 < INR (n - 1)) by (apply lt_0_INR; lia).
    split; [apply Rdiv_lt_0_compat; lra|]. split; [apply linspace_arith|]. split.
    + intros x I. apply linspace_in in I; [|lia|lra]. apply Rabs_le. lra.
    + split; [lra|]. left. rewrite linspace_last, linspace_hd by lia. lra.
Qed.

Lemma one_cell_zero a b : total (cells [a]) b = 0.
Proof. unfold total, cells. cbn. lra. Qed.

(** The estimator is the covariance of the map at the two ends of oriented pairs, over the pairs with both ends unmasked,
    taken with a cubature with non-negative weights of the inner square, divided by the survey area. *)
Theorem C91_covariance map_size Npix rs mus : 0 < map_size -> (forall r, In r rs -> 0 <= r) -> (forall mu, In mu mus -> -1 <= mu <= 1) ->
  exists cs, forall kap msk apply_mask r_min r_max normalise t, no_tie msk ->
    corr_kappa_with_mask kap msk map_size Npix rs mus apply_mask r_min r_max normalise = Ok t ->
    exists rl, is_largest rs rl /\ rl < map_size / 2 /\
    let W := map_size - 2 * rl in
    (forall w x y, In (w, x, y) cs -> 0 <= w /\ Rabs x <= W / 2 /\ Rabs y <= W / 2) /\
    (0 < total cs (fun _ _ => 1) -> total cs (fun _ _ => 1) = W ^ 2) /\
    List.length t = List.length rs /\ (forall row, In row t -> List.length row = List.length mus) /\
    forall i j r mu, nth_error rs i = Some r -> nth_error mus j = Some mu ->
      exists p q, (forall x y, oriented_pair r mu x y (p x y) (q x y)) /\
      let b := both apply_mask msk p q in
      let f := fun x y => value kap (p x y) in
      let g := fun x y => value kap (q x y) in
      let A := survey_area apply_mask r_min r_max W in
      (total cs b = 0 \/ A = 0 -> entry t i j = None) /\
      (total cs b <> 0 -> A <> 0 ->
        (normalise = false -> entry t i j = Some (wcov cs b f g / A)) /\
        (normalise = true -> wcov cs b f f * wcov cs b g g <> 0 ->
           entry t i j = Some (wcov cs b f g / A / (sqrt (wcov cs b f f * wcov cs b g g) / Rabs A)))).
Proof.
  intros P Hr Hm.
  destruct (largest rs) as [rl|e] eqn:EL.
  2:{ exists []. intros * _ H. unfold corr_kappa_with_mask in H. rewrite EL in H. discriminate. }
  destruct (inner_axis map_size Npix rl) as [axis|e] eqn:EA.
  2:{ exists []. intros * _ H. unfold corr_kappa_with_mask in H. rewrite EL in H. cbn [bind] in H. rewrite EA in H. discriminate. }
  exists (cells axis). intros * T H. unfold corr_kappa_with_mask in H. rewrite EL in H. cbn [bind] in H. rewrite EA in H. cbn [bind] in H.
  set (A0 := area apply_mask r_min r_max (hd 0 axis) (last axis 0)) in H.
  assert (Ht : t = map (fun r => map (fun mu => corr_entry kap msk apply_mask normalise A0 axis r mu) mus) rs) by congruence. clear H.
  destruct (axis_facts _ _ _ _ P EA) as (h & Ph & Ar & Bd & Lt & Wd). exists rl. split; [now apply largest_spec|]. split; [exact Lt|].
  cbv zeta. pose proof (cells_weights h axis Ph Ar) as CW. rewrite Forall_forall in CW.
  split; [|split; [|split; [|split]]].
  - intros w x y I. destruct (cells_points _ _ _ _ I) as [I1 I2]. apply Bd in I1. apply Bd in I2. split; [apply (CW _ I)|]. split; lra.
  - intros Q. rewrite cells_total by (apply (arith_incr h); assumption). destruct Wd as [-> |[Z _]]; [reflexivity|lra].
  - subst t. apply map_length.
  - subst t. intros row I. apply in_map_iff in I as (r & <- & _). apply map_length.
  - intros i j r mu Ei Ej. exists (first_point r mu), (second_point r mu).
    assert (R0 : 0 <= r) by (apply Hr; eapply nth_error_In; eassumption).
    assert (M0 : -1 <= mu <= 1) by (apply Hm; eapply nth_error_In; eassumption).
    split; [intros; now apply pair_oriented|]. cbv zeta.
    assert (EN : entry t i j = corr_entry kap msk apply_mask normalise A0 axis r mu).
    { unfold entry. subst t. rewrite (map_nth_error2 _ _ _ _ Ei), (map_nth_error2 _ _ _ _ Ej). reflexivity. }
    rewrite EN, corr_entry_cov by assumption. cbv zeta.
    set (b := both apply_mask msk (first_point r mu) (second_point r mu)).
    destruct Wd as [Wd|[_ [a ->]]].
    2:{ rewrite one_cell_zero. rewrite Reqb_refl. split; [intros; reflexivity|intros C; exfalso; apply C; reflexivity]. }
    assert (EAr : A0 = survey_area apply_mask r_min r_max (map_size - 2 * rl)).
    { unfold A0, area, survey_area. rewrite Wd. destruct apply_mask, r_max; ring. }
    rewrite <- EAr. split.
    + intros [Z|Z]; rewrite Z; rewrite Reqb_refl; [reflexivity|]. now destruct (Reqb _ 0).
    + intros N1 N2. apply Reqb_false in N1. rewrite N1. assert (N2' := N2). apply Reqb_false in N2. rewrite N2. split; intros ->; [reflexivity|].
      intros N3. assert (Fw : Forall (fun c => 0 <= fst (fst c)) (cells axis)) by (apply (cells_weights h); assumption).
      set (vf := wcov (cells axis) b (fun x y => value kap (first_point r mu x y)) (fun x y => value kap (first_point r mu x y))) in *.
      set (vg := wcov (cells axis) b (fun x y => value kap (second_point r mu x y)) (fun x y => value kap (second_point r mu x y))) in *.
      assert (Vf : 0 <= vf) by (apply (wcov_cs _ b _ (fun x y => 0) Fw); intros; apply both_binary).
      assert (Vg : 0 <= vg) by (apply (wcov_cs _ b _ (fun x y => 0) Fw); intros; apply both_binary).
      assert (E2 : vf / A0 * (vg / A0) = vf * vg / (A0 * A0)) by (field; assumption).
      assert (0 < A0 * A0) by nra. assert (0 < vf * vg) by nra.
      assert (E3 : sqrt (vf / A0 * (vg / A0)) = sqrt (vf * vg) / Rabs A0).
      { rewrite E2. rewrite sqrt_div_alt by assumption. f_equal. rewrite <- (sqrt_Rsqr_abs A0). reflexivity. }
      assert (0 < vf / A0 * (vg / A0)) by (rewrite E2; now apply Rdiv_lt_0_compat).
      replace (Rltb (vf / A0 * (vg / A0)) 0) with false by (symmetry; apply Rltb_false; lra).
      unfold fdiv. rewrite E3. assert (0 < sqrt (vf * vg)) by now apply sqrt_lt_R0. assert (0 < Rabs A0) by now apply Rabs_pos_lt.
      replace (Reqb (sqrt (vf * vg) / Rabs A0) 0) with false; [reflexivity|]. symmetry. apply Reqb_false.
      assert (0 < sqrt (vf * vg) / Rabs A0) by now apply Rdiv_lt_0_compat. lra.
Qed.

Lemma corr_inv kap msk S N rs mus ap r_min r_max nrm t i j v :
  corr_kappa_with_mask kap msk S N rs mus ap r_min r_max nrm = Ok t -> entry t i j = Some v ->
  exists r mu rl axis, nth_error rs i = Some r /\ nth_error mus j = Some mu /\ largest rs = Ok rl /\ inner_axis S N rl = Ok axis /\
    corr_entry kap msk ap nrm (area ap r_min r_max (hd 0 axis) (last axis 0)) axis r mu = Some v.
Proof.
  unfold corr_kappa_with_mask. destruct (largest rs) as [rl|] eqn:EL; [cbn [bind]|discriminate].
  destruct (inner_axis S N rl) as [axis|] eqn:EA; [cbn [bind]|discriminate].
  set (A0 := area ap r_min r_max (hd 0 axis) (last axis 0)). intros H. assert (Ht : t = map (fun r => map (fun mu => corr_entry kap msk ap nrm A0 axis r mu) mus) rs) by congruence. clear H.
  subst t. unfold entry. rewrite nth_error_map. destruct (nth_error rs i) as [r|]; [cbn|discriminate].
  rewrite nth_error_map. destruct (nth_error mus j) as [mu|]; [cbn|discriminate]. intros E. exists r, mu, rl, axis. auto.
Qed.

(** Every value read from the map or from the mask lies on the map: nothing is extrapolated. *)
Theorem C91_inside kap msk map_size Npix rs mus apply_mask r_min r_max normalise t :
  0 < map_size -> (forall r, In r rs -> 0 <= r) -> (forall mu, In mu mus -> -1 <= mu <= 1) ->
  corr_kappa_with_mask kap msk map_size Npix rs mus apply_mask r_min r_max normalise = Ok t ->
  forall kap' msk', (forall y x, Rabs x <= map_size / 2 -> Rabs y <= map_size / 2 -> kap' y x = kap y x /\ msk' y x = msk y x) ->
  corr_kappa_with_mask kap' msk' map_size Npix rs mus apply_mask r_min r_max normalise = Ok t.
Proof.
  intros P Hr Hm H kap' msk' Ag. rewrite <- H. unfold corr_kappa_with_mask in *. destruct (largest rs) as [rl|] eqn:EL; [cbn [bind] in *|discriminate].
  destruct (inner_axis map_size Npix rl) as [axis|] eqn:EA; [cbn [bind] in *|discriminate]. f_equal.
  destruct (axis_facts _ _ _ _ P EA) as (h & Ph & Ar & Bd & Lt & Wd).
  apply map_ext_in. intros r Ir. apply map_ext_in. intros mu Im. specialize (Hr _ Ir). specialize (Hm _ Im).
  pose proof (largest_ge _ _ _ EL Ir) as Rl.
  assert (In1 : forall w x y, In (w, x, y) (cells axis) -> forall s, s = first_point r mu x y \/ s = second_point r mu x y ->
     kap' (snd s) (fst s) = kap (snd s) (fst s) /\ msk' (snd s) (fst s) = msk (snd s) (fst s)).
  { intros w x y I s Es. destruct (cells_points _ _ _ _ I) as [I1 I2]. apply Bd in I1. apply Bd in I2.
    pose proof (pair_close r mu x y _ _ Hr (pair_oriented r mu x y Hr Hm)) as (C1 & C2 & C3 & C4).
    assert (Tri : forall a c, Rabs (a - c) <= r / 2 -> Rabs c <= map_size / 2 - rl -> Rabs a <= map_size / 2).
    { intros a c Q1 Q2. replace a with ((a - c) + c) by ring. eapply Rle_trans; [apply Rabs_triang|]. lra. }
    destruct Es as [->| ->]; apply Ag; eauto. }
  unfold corr_entry. cbv zeta. rewrite !simpson2_cells.
  assert (Tot : forall (F : R -> R -> (R * R -> R) -> (R * R -> R) -> R),
     (forall x y k k' m m', (forall s, s = first_point r mu x y \/ s = second_point r mu x y -> k s = k' s /\ m s = m' s) -> F x y k m = F x y k' m') ->
     total (cells axis) (fun x y => F x y (fun s => kap' (snd s) (fst s)) (fun s => msk' (snd s) (fst s))) =
     total (cells axis) (fun x y => F x y (fun s => kap (snd s) (fst s)) (fun s => msk (snd s) (fst s)))).
  { intros F HF. apply total_ext. intros w x y I. apply HF. intros s Es. apply (In1 w x y I s Es). }
  pose (k1 := fun (x y : R) (k : R * R -> R) => let '(p1, _) := pair_points r mu x y in k p1).
  pose (k2 := fun (x y : R) (k : R * R -> R) => let '(_, p2) := pair_points r mu x y in k p2).
  pose (m1 := fun (x y : R) (m : R * R -> R) => let '(p1, _) := pair_points r mu x y in binarise (if apply_mask then m p1 else 1)).
  pose (m2 := fun (x y : R) (m : R * R -> R) => let '(_, p2) := pair_points r mu x y in binarise (if apply_mask then m p2 else 1)).
  assert (Ek1 : forall x y k k' m m', (forall s, s = first_point r mu x y \/ s = second_point r mu x y -> k s = k' s /\ m s = m' s) ->
      k1 x y k = k1 x y k' /\ k2 x y k = k2 x y k' /\ m1 x y m = m1 x y m' /\ m2 x y m = m2 x y m').
  { intros x y k k' m m' Hk. unfold k1, k2, m1, m2, first_point, second_point in *. destruct (pair_points r mu x y) as [p1 p2]. cbn [fst snd] in Hk.
    destruct (Hk p1 (or_introl eq_refl)) as [Q1 Q2]. destruct (Hk p2 (or_intror eq_refl)) as [Q3 Q4]. rewrite Q1, Q2, Q3, Q4. auto. }
  pose proof (Tot (fun x y k m => k1 x y k * m1 x y m * (k2 x y k * m2 x y m))) as T1.
  pose proof (Tot (fun x y k m => k1 x y k * m1 x y m * m2 x y m)) as T2.
  pose proof (Tot (fun x y k m => m1 x y m * (k2 x y k * m2 x y m))) as T3.
  pose proof (Tot (fun x y k m => m1 x y m * m2 x y m)) as T4.
  pose proof (Tot (fun x y k m => (k1 x y k * m1 x y m) ^ 2 * m2 x y m)) as T5.
  pose proof (Tot (fun x y k m => m1 x y m * (k2 x y k * m2 x y m) ^ 2)) as T6.
  unfold k1, k2, m1, m2 in T1, T2, T3, T4, T5, T6. 
  unfold k1, k2, m1, m2 in Ek1.
  rewrite T1, T2, T3, T4, T5, T6; [reflexivity|..]; clear - Ek1; intros x y k k' m m' Hk; destruct (Ek1 x y k k' m m' Hk) as (Q1 & Q2 & Q3 & Q4); rewrite ?Q1, ?Q2, ?Q3, ?Q4; reflexivity.
Qed.

(** The normalised correlation lies between -1 and 1. *)
Theorem C91_bounded kap msk map_size Npix rs mus apply_mask r_min r_max t i j v :
  0 < map_size -> no_tie msk -> corr_kappa_with_mask kap msk map_size Npix rs mus apply_mask r_min r_max true = Ok t ->
  entry t i j = Some v -> -1 <= v <= 1.
Proof.
  intros P T H E. destruct (corr_inv _ _ _ _ _ _ _ _ _ _ _ _ _ _ H E) as (r & mu & rl & axis & _ & _ & EL & EA & V).
  destruct (axis_facts _ _ _ _ P EA) as (h & Ph & Ar & _). pose proof (cells_weights h axis Ph Ar) as F.
  rewrite corr_entry_cov in V by assumption. cbv zeta in V. set (A := area _ _ _ _ _) in V.
  destruct (Reqb (total _ _) 0); [discriminate|]. destruct (Reqb A 0) eqn:EA0; [discriminate|]. apply Reqb_false in EA0.
  set (b := both apply_mask msk (first_point r mu) (second_point r mu)) in *.
  set (f := fun x y => value kap (first_point r mu x y)) in *. set (g := fun x y => value kap (second_point r mu x y)) in *.
  destruct (wcov_cs (cells axis) b f g F (both_binary _ _ _ _)) as [CS Vf].
  destruct (wcov_cs (cells axis) b g f F (both_binary _ _ _ _)) as [_ Vg].
  set (c := wcov (cells axis) b f g) in *. set (vf := wcov (cells axis) b f f) in *. set (vg := wcov (cells axis) b g g) in *. clearbody c vf vg.
  destruct (Rltb _ 0) eqn:EN; [discriminate|]. apply Rltb_false in EN. unfold fdiv in V. destruct (Reqb (sqrt _) 0) eqn:ES; [discriminate|]. apply Reqb_false in ES.
  injection V as <-. set (s := sqrt (vf / A * (vg / A))) in *. assert (S0 : 0 <= s) by apply sqrt_pos.
  assert (SS : s * s = vf / A * (vg / A)) by now apply sqrt_sqrt. clearbody s.
  assert (Q : (c / A) ^ 2 <= s ^ 2).
  { replace (s ^ 2) with (s * s) by ring. rewrite SS. replace ((c / A) ^ 2) with (c ^ 2 * / (A * A)) by (field; assumption).
    replace (vf / A * (vg / A)) with (vf * vg * / (A * A)) by (field; assumption). apply Rmult_le_compat_r; [|exact CS].
    left. apply Rinv_0_lt_compat. nra. }
  assert (s <> 0) by lra. assert (0 < s) by lra. set (x := c / A) in *. clearbody x.
  assert (- s <= x <= s) by (split; nra).
  split; [apply Rmult_le_reg_r with s|apply Rmult_le_reg_r with s]; try assumption; unfold Rdiv; rewrite Rmult_assoc, Rinv_l by lra; lra.
Qed.

(** At zero separation the estimator is a variance: the normalised one is 1 and the other one is not negative for a positive area. *)
Theorem C91_zero_separation kap msk map_size Npix rs mus apply_mask r_min r_max normalise t i j v :
  0 < map_size -> no_tie msk -> corr_kappa_with_mask kap msk map_size Npix rs mus apply_mask r_min r_max normalise = Ok t ->
  nth_error rs i = Some 0 -> entry t i j = Some v ->
  (forall rl, is_largest rs rl -> 0 < survey_area apply_mask r_min r_max (map_size - 2 * rl)) ->
  if normalise then v = 1 else 0 <= v.
Proof.
  intros P T H E0 E PA. destruct (corr_inv _ _ _ _ _ _ _ _ _ _ _ _ _ _ H E) as (r & mu & rl & axis & Er & _ & EL & EA & V).
  assert (r = 0) by congruence. subst r.
  destruct (axis_facts _ _ _ _ P EA) as (h & Ph & Ar & _ & _ & Wd). pose proof (cells_weights h axis Ph Ar) as F.
  specialize (PA rl (largest_spec _ _ EL)).
  rewrite corr_entry_cov in V by assumption. cbv zeta in V. set (A := area _ _ _ _ _) in V.
  destruct Wd as [Wd|[_ [a ->]]].
  2:{ rewrite one_cell_zero, Reqb_refl in V. discriminate. }
  assert (A0 : 0 < A).
  { replace A with (survey_area apply_mask r_min r_max (map_size - 2 * rl)); [assumption|]. unfold A, area, survey_area. rewrite Wd. destruct apply_mask, r_max; ring. }
  destruct (Reqb (total _ _) 0); [discriminate|]. destruct (Reqb A 0) eqn:EA0; [discriminate|].
  set (b := both apply_mask msk (first_point 0 mu) (second_point 0 mu)) in *.
  assert (SP : forall x y, second_point 0 mu x y = first_point 0 mu x y).
  { intros. unfold second_point, first_point, pair_points. cbn [fst snd]. f_equal; field. }
  set (f := fun x y => value kap (first_point 0 mu x y)) in *.
  assert (Eg : forall u w, wcov (cells axis) b (fun x y => value kap (second_point 0 mu x y)) u = wcov (cells axis) b f u /\
     wcov (cells axis) b w (fun x y => value kap (second_point 0 mu x y)) = wcov (cells axis) b w f).
  { intros u w. split; apply wcov_ext; intros; try reflexivity; now rewrite SP. }
  rewrite !(proj1 (Eg (fun x y => value kap (second_point 0 mu x y)) f)) in V.
  rewrite !(proj2 (Eg f f)) in V.
  destruct (wcov_cs (cells axis) b f f F (both_binary _ _ _ _)) as [_ Vf]. set (vf := wcov (cells axis) b f f) in *. clearbody vf.
  destruct normalise.
  - destruct (Rltb _ 0) eqn:EN; [discriminate|]. unfold fdiv in V. destruct (Reqb (sqrt _) 0) eqn:ES; [discriminate|]. apply Reqb_false in ES.
    injection V as <-. assert (0 <= vf / A) by (apply Rmult_le_pos; [assumption|left; now apply Rinv_0_lt_compat]).
    rewrite sqrt_square in * by assumption. field. split; [lra|]. intros ->. apply ES. unfold Rdiv. ring.
  - injection V as <-. apply Rmult_le_pos; [assumption|left; now apply Rinv_0_lt_compat].
Qed.

(** A mass sheet (constant offset of the map) does not change the result, and rescaling the map rescales it quadratically. *)
Theorem C91_affine kap msk map_size Npix rs mus apply_mask r_min r_max s k t :
  no_tie msk -> corr_kappa_with_mask kap msk map_size Npix rs mus apply_mask r_min r_max false = Ok t ->
  exists t', corr_kappa_with_mask (fun y x => s * kap y x + k) msk map_size Npix rs mus apply_mask r_min r_max false = Ok t' /\
    forall i j, entry t' i j = match entry t i j with Some v => Some (s ^ 2 * v) | None => None end.
Proof.
  intros T. unfold corr_kappa_with_mask. destruct (largest rs) as [rl|] eqn:EL; [cbn [bind]|discriminate].
  destruct (inner_axis map_size Npix rl) as [axis|] eqn:EA; [cbn [bind]|discriminate]. set (A := area _ _ _ _ _).
  intros H. eexists. split; [reflexivity|]. intros i j.
  assert (Ht : t = map (fun r => map (fun mu => corr_entry kap msk apply_mask false A axis r mu) mus) rs) by congruence. subst t. clear H.
  unfold entry. rewrite !nth_error_map. destruct (nth_error rs i) as [r|]; [cbn|reflexivity]. rewrite !nth_error_map. destruct (nth_error mus j) as [mu|]; [cbn|reflexivity].
  rewrite !corr_entry_cov by assumption. cbv zeta. set (b := both _ _ _ _).
  destruct (Reqb (total _ b) 0) eqn:E0; [reflexivity|]. apply Reqb_false in E0. destruct (Reqb A 0); [reflexivity|]. f_equal.
  assert (M : forall f, wmean (cells axis) b (fun x y => s * f x y + k) = s * wmean (cells axis) b f + k).
  { intros f. unfold wmean. replace (total (cells axis) (fun x y => b x y * (s * f x y + k))) with (s * total (cells axis) (fun x y => b x y * f x y) + k * total (cells axis) b).
    - field. exact E0.
    - rewrite <- !total_scale, <- total_plus. apply total_ext. intros. ring. }
  unfold wcov. change (fun x y : R => value (fun y0 x0 : R => s * kap y0 x0 + k) (first_point r mu x y)) with (fun x y : R => s * value kap (first_point r mu x y) + k).
  change (fun x y : R => value (fun y0 x0 : R => s * kap y0 x0 + k) (second_point r mu x y)) with (fun x y : R => s * value kap (second_point r mu x y) + k).
  rewrite !M. unfold Rdiv. rewrite <- Rmult_assoc. f_equal. rewrite <- total_scale. apply total_ext. intros. cbv beta. unfold value. ring.
Qed.

(** Masked parts of the map have no influence. *)
Theorem C91_mask_only kap kap' msk map_size Npix rs mus r_min r_max normalise :
  no_tie msk -> (forall p, 9 / 10 < value msk p -> value kap p = value kap' p) ->
  corr_kappa_with_mask kap msk map_size Npix rs mus true r_min r_max normalise =
  corr_kappa_with_mask kap' msk map_size Npix rs mus true r_min r_max normalise.
Proof.
  intros T Ag. unfold corr_kappa_with_mask. destruct (largest rs) as [rl|] eqn:EL; [cbn [bind]|reflexivity].
  destruct (inner_axis map_size Npix rl) as [axis|] eqn:EA; [cbn [bind]|reflexivity]. f_equal.
  apply map_ext. intros r. apply map_ext. intros mu. rewrite !corr_entry_cov by assumption. cbv zeta. set (b := both _ _ _ _).
  set (f := fun x y => value kap (first_point r mu x y)). set (g := fun x y => value kap (second_point r mu x y)).
  set (f' := fun x y => value kap' (first_point r mu x y)). set (g' := fun x y => value kap' (second_point r mu x y)).
  assert (Bf : forall x y, b x y * f x y = b x y * f' x y /\ b x y * g x y = b x y * g' x y).
  { intros. unfold b, both, counted. destruct (Rltb (9/10) (value msk (first_point r mu x y))) eqn:E1; cbn [andb]; [|lra].
    destruct (Rltb (9/10) (value msk (second_point r mu x y))) eqn:E2; cbn; [|lra]. apply Rltb_true in E1, E2. unfold f, f', g, g'. rewrite (Ag _ E1), (Ag _ E2). lra. }
  clearbody f g f' g'.
  assert (M : forall u u', (forall x y, b x y * u x y = b x y * u' x y) -> wmean (cells axis) b u = wmean (cells axis) b u').
  { intros u u' Hu. unfold wmean. f_equal. apply total_ext. intros. apply Hu. }
  assert (Cv : forall u u' w w', (forall x y, b x y * u x y = b x y * u' x y) -> (forall x y, b x y * w x y = b x y * w' x y) -> wcov (cells axis) b u w = wcov (cells axis) b u' w').
  { intros u u' w w' Hu Hw. unfold wcov. rewrite (M u u' Hu), (M w w' Hw). apply total_ext. intros _ x y _. specialize (Hu x y). specialize (Hw x y).
    destruct (both_binary true msk (first_point r mu) (second_point r mu) x y) as [Z|Z]; fold b in Z; rewrite Z in *; [ring|]. 
    replace (u x y) with (u' x y) by lra. replace (w x y) with (w' x y) by lra. reflexivity. }
  rewrite (Cv f f' g g'), (Cv f f' f f'), (Cv g g' g g'); try reflexivity; intros; apply Bf.
Qed.

(** The annular mask keeps exactly the pixels strictly between the two radii. *)
Theorem C91_annulus cx cy x y r_min r_max :
  mask_annular cx cy x y r_min r_max = 1 \/ mask_annular cx cy x y r_min r_max = 0.
Proof. unfold mask_annular. destruct r_max; repeat (destruct (Rleb _ _)); auto. Qed.
Theorem C91_annulus_kept cx cy x y r_min r_max :
  mask_annular cx cy x y r_min r_max = 1 <->
  r_min < dist2 (x, y) (cx, cy) /\ match r_max with Some rm => dist2 (x, y) (cx, cy) < rm | None => True end.
Proof.
  unfold mask_annular, dist2. cbn [fst snd]. replace ((x - cx) ^ 2 + (y - cy) ^ 2) with ((x - cx) * (x - cx) + (y - cy) * (y - cy)) by ring.
  destruct r_max; rdec; split; intros; try lra; try (split; [lra|auto; lra]); destruct H; lra.
Qed.

(* ---------- non-vacuity ---------- *)
Lemma demo_axis : inner_axis 4 4 (1/2) = Ok (np_linspace (- (4 / 2 - 1 / 2)) (4 / 2 - 1 / 2) 3).
Proof.
  unfold inner_axis. replace (py_int (INR 4 / (4 / 2) * (4 / 2 - 1 / 2))) with 3%Z; [reflexivity|].
  unfold py_int. replace (INR 4 / (4 / 2) * (4 / 2 - 1 / 2)) with 3 by (cbn [INR]; field). rdec.
  pose proof (base_Int_part 3) as [B1 B2]. assert (2 < Int_part 3 < 4)%Z; [|lia]. split; apply lt_IZR; simpl IZR; lra.
Qed.

(** a 4 x 4 map of a linear gradient without a mask: the estimator at zero separation is a positive variance *)
Example C91_nonvacuous : no_tie (fun _ _ => 1) /\ exists t v, corr_kappa_with_mask (fun y x => x) (fun _ _ => 1) 4 4 [0; 1/2] [-1; 1] false (1/2) None false = Ok t /\
  entry t 0 0 = Some v /\ 0 < v.
Proof.
  split; [intros p; unfold value; lra|].
  unfold corr_kappa_with_mask. replace (largest [0; 1/2]) with (Ok (1/2)).
  2:{ cbn. f_equal. unfold Rmax. destruct (Rle_dec _ _); lra. }
  cbn [bind]. rewrite demo_axis. cbn [bind]. eexists. eexists. split; [reflexivity|]. unfold entry. cbn [map nth_error].
  rewrite corr_entry_cov by (intros p; unfold value; lra). cbv zeta.
  assert (AX : np_linspace (- (4 / 2 - 1 / 2)) (4 / 2 - 1 / 2) 3 = [-3/2; 0; 3/2]).
  { unfold np_linspace. cbn [seq map Nat.sub INR]. f_equal; [lra|]. f_equal; [lra|]. f_equal; lra. }
  rewrite AX. set (b := both _ _ _ _). assert (B : forall x y, b x y = 1) by reflexivity.
  assert (FP : forall x y, first_point 0 (-1) x y = (x, y)) by (intros; unfold first_point, pair_points; cbn [fst snd]; f_equal; field).
  assert (SP : forall x y, second_point 0 (-1) x y = (x, y)) by (intros; unfold second_point, pair_points; cbn [fst snd]; f_equal; field).
  assert (TB : total (cells [-3/2; 0; 3/2]) b = 9).
  { rewrite (total_ext _ _ (fun _ _ => 1)) by (intros; apply B). rewrite cells_total by (cbn; lra). cbn. lra. }
  rewrite TB. replace (Reqb 9 0) with false by (symmetry; apply Reqb_false; lra).
  replace (area false (1/2) None (hd 0 [-3/2; 0; 3/2]) (last [-3/2; 0; 3/2] 0)) with 9 by (cbn; lra).
  replace (Reqb 9 0) with false by (symmetry; apply Reqb_false; lra). split; [reflexivity|].
  fold b. apply Rdiv_lt_0_compat; [|lra]. rewrite wcov_expand by (rewrite TB; lra). rewrite TB.
  rewrite (total_ext _ (fun x y => b x y * (value (fun _ x => x) (first_point 0 (-1) x y) * value (fun _ x => x) (second_point 0 (-1) x y))) (fun x y => x * x))
    by (intros; rewrite B, FP, SP; unfold value; cbn; ring).
  rewrite (total_ext _ (fun x y => b x y * value (fun _ x => x) (first_point 0 (-1) x y)) (fun x y => x)) by (intros; rewrite B, FP; unfold value; cbn; ring).
  rewrite (total_ext _ (fun x y => b x y * value (fun _ x => x) (second_point 0 (-1) x y)) (fun x y => x)) by (intros; rewrite B, SP; unfold value; cbn; ring).
  unfold total, cells, simpson_weights. cbn. lra.
Qed.
Example C91_annulus_nonvacuous : mask_annular 0 0 1 0 (1/2) (Some (3/2)) = 1.
Proof. apply C91_annulus_kept. unfold dist2. cbn [fst snd]. replace ((1 - 0) ^ 2 + (0 - 0) ^ 2) with 1 by ring. rewrite sqrt_1. lra. Qed.

Print Assumptions C91_covariance.
Print Assumptions C91_inside.
Print Assumptions C91_bounded.
Print Assumptions C91_zero_separation.
Print Assumptions C91_affine.
Print Assumptions C91_mask_only.
Print Assumptions C91_annulus.
Print Assumptions C91_annulus_kept.
