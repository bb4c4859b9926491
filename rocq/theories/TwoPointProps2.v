(** C92: multipoles, power spectrum and power-law fit of the two-point correlation function. *)
From Verif Require Import Prelude SpaceModel TwoPointModel TwoPointSpec TwoPointProofs.
From Coquelicot Require Import Coquelicot.
From Coq Require Import Lra Psatz.
Local Open Scope R_scope.
Local Open Scope list_scope.

(** ** Specification *)
(** a correlation function given by its multipoles a_k, a_(k+1), ...: sum of a_m cos(m theta) at mu = cos theta *)
Fixpoint multipoles (k : nat) (a : list R) (theta : R) : R :=
  match a with nil => 0 | c :: t => c * cos (INR k * theta) + multipoles (S k) t theta end.

(** a grid of cosines that is symmetric about zero *)
Definition symmetric (mus : list R) : Prop := rev mus = map Ropp mus.

(** angles measured from the opposite direction, one for each cosine, in the order of the cosines *)
Definition angles (mus : list R) : list R := map (fun mu => PI - acos mu) mus.

(** sum of squared residuals *)
Definition sse (model : R -> R -> R -> R) (data : list (R * R)) (q : R * R) : R :=
  rsum (map (fun p => (model (fst p) (fst q) (snd q) - snd p) ^ 2) data).
Definition least_squares (fit : (R -> R -> R -> R) -> list (R * R) -> R * R) : Prop :=
  forall model data q, sse model data (fit model data) <= sse model data q.

(** ** Proofs *)
Lemma chebyt2_cos l theta : chebyt2 l (cos theta) = (cos (INR l * theta), cos (INR (S l) * theta)).
Proof.
  induction l as [|l IH].
  - cbn [chebyt2 INR]. f_equal; [rewrite Rmult_0_l, cos_0; reflexivity|f_equal; ring].
  - cbn [chebyt2]. rewrite IH. f_equal. replace (INR (S (S l)) * theta) with (INR (S l) * theta + theta) by (rewrite !S_INR; ring).
    replace (INR l * theta) with (INR (S l) * theta - theta) by (rewrite S_INR; ring).
    rewrite cos_plus, cos_minus. ring.
Qed.
(** The weight function is the Chebyshev polynomial: cos(l theta) at mu = cos theta. *)
Theorem C92_chebyshev l theta : chebyt l (cos theta) = cos (INR l * theta).
Proof. unfold chebyt. now rewrite chebyt2_cos. Qed.

Lemma acos_opp' x : -1 <= x <= 1 -> acos (- x) = PI - acos x.
Proof.
  intros H. pose proof (acos_bound x). rewrite <- (acos_cos (PI - acos x)) by lra. f_equal.
  rewrite Rtrigo_facts.cos_pi_minus. now rewrite cos_acos.
Qed.
Lemma acos_inj x y : -1 <= x <= 1 -> -1 <= y <= 1 -> acos x = acos y -> x = y.
Proof. intros Hx Hy E. rewrite <- (cos_acos x Hx), <- (cos_acos y Hy). now rewrite E. Qed.
Lemma acos_decr x y : -1 <= x -> x < y -> y <= 1 -> acos y < acos x.
Proof.
  intros. pose proof (acos_bound x). pose proof (acos_bound y). destruct (Rlt_or_le (acos y) (acos x)) as [L|L]; [exact L|exfalso].
  assert (cos (acos y) <= cos (acos x)) by (apply cos_decr_1; lra). rewrite !cos_acos in * by lra. lra.
Qed.

(** The samples are paired with their own angles (measured from the opposite direction) exactly if the grid is symmetric. *)
Theorem C92_pairing mus : (forall mu, In mu mus -> -1 <= mu <= 1) ->
  (rev (map acos mus) = angles mus <-> symmetric mus).
Proof.
  intros H. unfold symmetric, angles. rewrite <- map_rev.
  assert (E : map (fun mu => PI - acos mu) mus = map acos (map Ropp mus)).
  { rewrite map_map. apply map_ext_in. intros mu I. now rewrite acos_opp' by auto. }
  rewrite E. split; [|now intros ->].
  assert (J : forall l l', (forall x, In x l -> -1 <= x <= 1) -> (forall x, In x l' -> -1 <= x <= 1) -> map acos l = map acos l' -> l = l').
  { induction l as [|x l IH]; intros [|y l'] H1 H2 EQ; cbn in EQ; try discriminate; [reflexivity|].
    inversion EQ. f_equal; [apply acos_inj; auto with datatypes|apply IH; auto with datatypes]. }
  apply J.
  - intros x I. apply H. now apply in_rev.
  - intros x I. apply in_map_iff in I as (m & <- & I). apply H in I. lra.
Qed.

(** On a symmetric grid the multipole is Simpson's rule applied to the integrand of the Chebyshev projection. *)
Theorem C92_projection l mus F : (forall mu, In mu mus -> -1 <= mu <= 1) -> symmetric mus ->
  xi_row l mus (map F mus) =
  xi_prefactor l * simpson (map (fun phi => F (cos (PI - phi)) * cos (INR l * (PI - phi))) (angles mus)) (angles mus).
Proof.
  intros H S. unfold xi_row. apply C92_pairing in S; [|assumption]. rewrite S. f_equal. f_equal.
  assert (E : forall l', (forall mu, In mu l' -> -1 <= mu <= 1) -> map (fun p => fst p * chebyt l (snd p)) (combine (map F l') l') =
     map (fun phi => F (cos (PI - phi)) * cos (INR l * (PI - phi))) (angles l')).
  { induction l' as [|mu l' IH]; intros Hl; [reflexivity|]. cbn [map combine angles]. rewrite IH by auto with datatypes. f_equal. cbn [fst snd].
    replace (PI - (PI - acos mu)) with (acos mu) by ring. rewrite <- C92_chebyshev, cos_acos by auto with datatypes. reflexivity. }
  apply E, H.
Qed.

Lemma sin_INR_PI n : sin (INR n * PI) = 0.
Proof. induction n as [|n IH]; [cbn [INR]; rewrite Rmult_0_l; apply sin_0|]. rewrite S_INR, Rmult_plus_distr_r, Rmult_1_l, neg_sin, IH. lra. Qed.

Lemma cos_prod_integral (d : R) (n : nat) : (d = INR n \/ d = - INR n) -> n <> 0%nat ->
  is_RInt (fun phi => cos (d * (PI - phi))) 0 PI 0.
Proof.
  intros D N. assert (INR n <> 0) by now apply not_0_INR. assert (D0 : d <> 0) by (destruct D; lra).
  assert (Z : sin (d * PI) = 0).
  { destruct D as [->| ->]; [apply sin_INR_PI|]. replace (- INR n * PI) with (- (INR n * PI)) by ring. rewrite sin_neg, sin_INR_PI. lra. }
  replace 0 with (minus (- sin (d * (PI - PI)) / d) (- sin (d * (PI - 0)) / d)) at 2.
  2:{ unfold minus, plus, opp; cbn. rewrite Rminus_0_r, Z. replace (d * (PI - PI)) with 0 by ring. rewrite sin_0. field. exact D0. }
  apply (is_RInt_derive (fun phi => - sin (d * (PI - phi)) / d)).
  - intros x _. auto_derive; [trivial|]. unfold Rminus. set (q := cos _). clearbody q. field. exact D0.
  - intros x _. apply (ex_derive_continuous (K:=R_AbsRing) (V:=R_NormedModule)). auto_derive. trivial.
Qed.

Lemma is_RInt_lin (f g : R -> R) (u v a b I J : R) : is_RInt f a b I -> is_RInt g a b J -> is_RInt (fun x => u * f x + v * g x) a b (u * I + v * J).
Proof.
  intros HI HJ. apply (is_RInt_plus (V:=R_NormedModule) (fun x => u * f x) (fun x => v * g x)); apply (is_RInt_scal (V:=R_NormedModule)); assumption.
Qed.
Lemma is_RInt_val (f g : R -> R) (a b I J : R) : is_RInt f a b I -> (forall x, f x = g x) -> I = J -> is_RInt g a b J.
Proof. intros H E <-. apply (is_RInt_ext f); [intros; apply E|exact H]. Qed.

Lemma cos_cos_integral m l : is_RInt (fun phi => cos (INR m * (PI - phi)) * cos (INR l * (PI - phi))) 0 PI
  (if Nat.eq_dec m l then if Nat.eq_dec l 0 then PI else PI / 2 else 0).
Proof.
  assert (C : forall n, is_RInt (fun phi => cos (INR n * (PI - phi))) 0 PI (if Nat.eq_dec n 0 then PI else 0)).
  { intros n. destruct (Nat.eq_dec n 0) as [->|N]; [|apply (cos_prod_integral _ n); auto].
    apply (is_RInt_val (fun _ => 1) _ _ _ ((PI - 0) * 1)).
    - apply (is_RInt_const (V:=R_NormedModule)).
    - intros. cbn [INR]. rewrite Rmult_0_l, cos_0. reflexivity.
    - ring. }
  assert (C2 : is_RInt (fun phi => cos ((INR m - INR l) * (PI - phi))) 0 PI (if Nat.eq_dec m l then PI else 0)).
  { destruct (Nat.eq_dec m l) as [->|N].
    - apply (is_RInt_val (fun phi => cos (INR 0 * (PI - phi))) _ _ _ PI); [apply (C 0%nat)| |reflexivity]. intros; f_equal; cbn [INR]; ring.
    - destruct (le_lt_dec m l) as [L|L]; [apply (cos_prod_integral _ (l - m))|apply (cos_prod_integral _ (m - l))]; try lia; rewrite minus_INR by lia; [right|left]; ring. }
  eapply is_RInt_val; [exact (is_RInt_lin _ _ (1/2) (1/2) _ _ _ _ C2 (C (m + l)%nat))| |].
  - intros x. cbv beta. rewrite plus_INR, Rmult_minus_distr_r, Rmult_plus_distr_r, cos_plus, cos_minus. field.
  - destruct (Nat.eq_dec m l), (Nat.eq_dec l 0), (Nat.eq_dec (m + l) 0); try lia; lra.
Qed.

Lemma multipoles_integral a l : forall k, is_RInt (fun phi => multipoles k a (PI - phi) * cos (INR l * (PI - phi))) 0 PI
  ((if Nat.eq_dec l 0 then PI else PI / 2) * (if le_lt_dec k l then nth (l - k) a 0 else 0)).
Proof.
  induction a as [|c a IH]; intros k; cbn [multipoles].
  - apply (is_RInt_val (fun _ => 0) _ _ _ ((PI - 0) * 0)).
    + apply (is_RInt_const (V:=R_NormedModule)).
    + intros. ring.
    + destruct (le_lt_dec k l); [destruct (l - k)%nat; cbn [nth]|]; ring.
  - eapply is_RInt_val; [exact (is_RInt_lin _ _ c 1 _ _ _ _ (cos_cos_integral k l) (IH (S k)))| |].
    + intros x. cbv beta. ring.
    + destruct (Nat.eq_dec k l) as [->|N].
      * destruct (le_lt_dec (S l) l); [lia|]. destruct (le_lt_dec l l); [|lia]. rewrite Nat.sub_diag. cbn [nth]. destruct (Nat.eq_dec l 0); lra.
      * destruct (le_lt_dec (S k) l) as [L|L].
        -- destruct (le_lt_dec k l); [|lia]. replace (l - k)%nat with (S (l - S k)) by lia. cbn [nth]. destruct (Nat.eq_dec l 0); lra.
        -- destruct (le_lt_dec k l); [lia|]. destruct (Nat.eq_dec l 0); lra.
Qed.

(** The projection that the rule approximates is the right one: of a finite sum of multipoles it returns the requested
    coefficient. *)
Theorem C92_orthogonality a l :
  is_RInt (fun phi => multipoles 0 a (PI - phi) * cos (INR l * (PI - phi))) 0 PI (nth l a 0 / xi_prefactor l).
Proof.
  pose proof (multipoles_integral a l 0) as H. destruct (le_lt_dec 0 l); [|lia]. rewrite Nat.sub_0_r in H.
  assert (PI <> 0) by apply PI_neq0.
  replace (nth l a 0 / xi_prefactor l) with ((if Nat.eq_dec l 0 then PI else PI / 2) * nth l a 0); [exact H|].
  unfold xi_prefactor. destruct l; cbn; field; lra.
Qed.

(** The monopole of a constant correlation function is that constant, for every increasing grid from -1 to 1. *)
Theorem C92_monopole_constant mus c : incr mus -> hd 0 mus = -1 -> last mus 0 = 1 ->
  xi_l 0 ((map (fun _ => c) mus) :: nil) mus = (c :: nil).
Proof.
  intros I H0 H1. cbn [xi_l map]. f_equal. unfold xi_row, simpson.
  assert (Ne : mus <> nil) by (intros ->; cbn in H0; lra).
  assert (B : forall mu, In mu mus -> -1 <= mu <= 1).
  { assert (G : forall l a, incr (a :: l) -> forall x, In x (a :: l) -> a <= x <= last (a :: l) 0).
    { induction l as [|b l IH]; intros a Ia x Ix.
      - destruct Ix as [->|[]]. cbn. lra.
      - destruct Ia as [L Ia]. change (last (a :: b :: l) 0) with (last (b :: l) 0). destruct Ix as [->|Ix].
        + specialize (IH b Ia b (or_introl eq_refl)). lra.
        + specialize (IH b Ia x Ix). lra. }
    destruct mus as [|a l]; [easy|]. cbn in H0. subst a. intros mu Im. specialize (G l (-1) I mu Im). rewrite H1 in G. exact G. }
  assert (Inc : incr (rev (map acos mus))).
  { clear H0 H1 Ne. induction mus as [|a l IH]; [exact Logic.I|]. cbn [map rev].
    assert (Il : incr l) by (destruct l; [exact Logic.I|apply I]). specialize (IH Il ltac:(auto with datatypes)).
    destruct l as [|b l]; [exact Logic.I|]. destruct I as [L _].
    assert (acos b < acos a) by (apply acos_decr; [apply B; auto with datatypes|exact L|apply B; auto with datatypes]).
    cbn [map rev] in *. rewrite <- app_assoc. cbn [app]. revert IH. generalize (rev (map acos l)). clear - H. intros r. induction r as [|x r IHr]; cbn.
    - auto.
    - destruct r as [|y r]; cbn in *; [tauto|]. intros [Q1 Q2]. split; [exact Q1|]. apply IHr, Q2. }
  assert (E : map (fun p => fst p * chebyt 0 (snd p)) (combine (map (fun _ : R => c) mus) mus) = map (fun _ => c) (rev (map acos mus))).
  { rewrite map_rev, map_map. transitivity (map (fun _ : R => c) mus).
    - induction mus as [|a l IH'] using list_ind; [reflexivity|]. clear. induction (a :: l) as [|x r IHr]; [reflexivity|]. cbn [map combine]. rewrite IHr. f_equal. cbn. ring.
    - clear. induction mus as [|a l IHl]; [reflexivity|]. cbn [map rev]. rewrite <- IHl.
      clear. induction l as [|b l IHl]; [reflexivity|]. cbn [map app]. now rewrite <- IHl. }
  rewrite E. set (X := rev (map acos mus)) in *.
  assert (D : forall ws xs, List.length ws = List.length xs -> dot ws (map (fun _ : R => c) xs) = c * rsum ws).
  { induction ws as [|w ws IHw]; intros [|x xs] L; cbn in *; try discriminate; [lra|]. rewrite IHw by lia. lra. }
  rewrite D by apply simpson_weights_length. rewrite simpson_weights_sum by assumption.
  assert (HX : hd 0 X = 0 /\ last X 0 = PI).
  { unfold X. split.
    - destruct (exists_last Ne) as (l & z & ->). rewrite last_last in H1. subst z. rewrite map_app, rev_app_distr. cbn. apply acos_1.
    - destruct mus as [|a l]; [easy|]. cbn in H0. subst a. cbn [map rev]. rewrite last_last. replace (-1) with (- (1)) by ring.
      rewrite acos_opp' by lra. rewrite acos_1. lra. }
  destruct HX as [-> ->]. assert (PI <> 0) by apply PI_neq0. unfold xi_prefactor. field. assumption.
Qed.

(** Multipoles are linear in the correlation function. *)
Theorem C92_linear l mus F G u v : xi_row l mus (map (fun mu => u * F mu + v * G mu) mus) = u * xi_row l mus (map F mus) + v * xi_row l mus (map G mus).
Proof.
  unfold xi_row, simpson. set (X := rev (map acos mus)). clearbody X.
  enough (E : forall (m : list R) ws, dot ws (map (fun p => fst p * chebyt l (snd p)) (combine (map (fun mu => u * F mu + v * G mu) m) m)) =
     u * dot ws (map (fun p => fst p * chebyt l (snd p)) (combine (map F m) m)) + v * dot ws (map (fun p => fst p * chebyt l (snd p)) (combine (map G m) m))) by (rewrite E; ring).
  induction m as [|a m IH]; intros [|w ws]; cbn [map combine dot]; try lra. rewrite IH. cbn [fst snd]. ring.
Qed.

(** On a grid that is not symmetric the samples are paired with the angles of other samples. *)
Theorem C92_pairing_refuted : exists mus F, (forall mu, In mu mus -> -1 <= mu <= 1) /\ incr mus /\
  xi_row 0 mus (map F mus) <> xi_prefactor 0 * simpson (rev (map F mus)) (rev (map acos mus)).
Proof.
  exists (0 :: (1/2) :: 1 :: nil), (fun mu => mu). split; [|split].
  - intros mu [<-|[<-|[<-|[]]]]; lra.
  - cbn. lra.
  - assert (H2 : acos (1/2) = PI / 3) by (rewrite <- cos_PI3; apply acos_cos; pose proof PI_RGT_0; lra).
    unfold xi_row. cbn [map rev app combine]. rewrite acos_0, acos_1, H2. unfold simpson, simpson_weights. cbn [List.length Nat.even].
    cbn [basic_simpson map dot]. unfold chebyt. cbn [chebyt2 fst snd]. unfold xi_prefactor. intros E. pose proof PI_RGT_0 as P.
    assert (E1 : (PI / 3 - 0 + (PI / 2 - PI / 3)) / 6 * (2 - (PI / 2 - PI / 3) / (PI / 3 - 0)) = PI / 8) by (field; lra).
    assert (E2 : (PI / 3 - 0 + (PI / 2 - PI / 3)) / 6 * (2 - (PI / 3 - 0) / (PI / 2 - PI / 3)) = 0) by (field; lra).
    rewrite E1, E2 in E. set (w := (PI / 3 - 0 + (PI / 2 - PI / 3)) / 6 * _) in E. clearbody w.
    apply Rmult_eq_reg_l in E; [lra|]. apply Rgt_not_eq. apply Rdiv_lt_0_compat; lra.
Qed.

(** The power spectrum of an odd multipole is reported as identically zero, whatever the correlation function; that of an
    even one is the Hankel transform with the sign (-1)^(l/2). *)
Theorem C92_power hankel r xi l : let q := filter (fun p => negb (Reqb (fst p) 0)) (combine r xi) in
  let hk := hankel l (map fst q) (map snd q) in
  xi_l_to_Pk_l hankel r xi l = (fst hk, map (fun p => if Nat.even l then 2 * PI * (-1) ^ (Nat.div2 l) * p else 0) (snd hk)).
Proof.
  cbv zeta. unfold xi_l_to_Pk_l, delete_zero.
  assert (Sp : forall q : list (R * R), split q = (map fst q, map snd q)).
  { induction q as [|[a b] q IH]; [reflexivity|]. cbn. now rewrite IH. }
  rewrite Sp. destruct (hankel l _ _) as [k pk]. cbn [fst snd]. f_equal. apply map_ext. intros p.
  assert (M : forall n, minus_i_pow n = (if Nat.even n then (-1) ^ (Nat.div2 n) else 0, if Nat.even n then 0 else - (-1) ^ (Nat.div2 n))).
  { assert (M2 : forall n, minus_i_pow n = (if Nat.even n then (-1) ^ (Nat.div2 n) else 0, if Nat.even n then 0 else - (-1) ^ (Nat.div2 n)) /\
      minus_i_pow (S n) = (if Nat.even (S n) then (-1) ^ (Nat.div2 (S n)) else 0, if Nat.even (S n) then 0 else - (-1) ^ (Nat.div2 (S n)))).
    { induction n as [|n [IH1 IH2]]; [split; cbn; f_equal; lra|]. split; [exact IH2|].
      change (minus_i_pow (S (S n))) with (let '(a, b) := minus_i_pow (S n) in (b, - a)).
      change (minus_i_pow (S n)) with (let '(a, b) := minus_i_pow n in (b, - a)). rewrite IH1.
      cbn [Nat.even Nat.div2]. destruct (Nat.even n); cbn [pow]; f_equal; ring. }
    intros n. apply M2. }
  rewrite M. cbn [fst]. destruct (Nat.even l); ring.
Qed.

(** A least-squares fit recovers the amplitude at the pivot and the slope of an exact power law, from the data strictly
    inside the range only. *)
Theorem C92_fit fit r xi r_min r_max A n r1 r2 : least_squares fit -> 0 <= r_min -> A <> 0 ->
  (forall x y, In (x, y) (combine r xi) -> r_min < x < r_max -> y = A * Rpower (x / ((r_min + r_max) / 2)) n) ->
  In r1 (map fst (combine r xi)) -> In r2 (map fst (combine r xi)) -> r_min < r1 < r_max -> r_min < r2 < r_max -> r1 <> r2 ->
  fit_correlation_multipole fit r xi r_min r_max = (A, n).
Proof.
  intros LS P0 NA D I1 I2 B1 B2 N12. unfold fit_correlation_multipole. cbv zeta.
  set (pv := (r_min + r_max) / 2) in *. assert (Ppv : 0 < pv) by (unfold pv; lra). clearbody pv.
  set (data := filter _ _). set (model := fun x As n0 => As * Rpower (x / pv) n0).
  assert (Z : sse model data (fit model data) <= 0).
  { replace 0 with (sse model data (A, n)); [apply LS|]. unfold sse. 
    assert (G : forall q, (forall x y, In (x, y) q -> y = A * Rpower (x / pv) n) -> rsum (map (fun p => (model (fst p) (fst (A, n)) (snd (A, n)) - snd p) ^ 2) q) = 0).
    { induction q as [|[x y] q IH]; intros Hq; cbn [map rsum]; [reflexivity|]. rewrite IH by auto with datatypes. cbn [fst snd]. rewrite (Hq x y) by auto with datatypes. unfold model. ring. }
    apply G. intros x y Ixy. apply filter_In in Ixy as [Ixy Bxy]. cbn [fst] in Bxy. apply andb_prop in Bxy as [Q1 Q2]. apply Rltb_true in Q1, Q2. apply D; auto. }
  destruct (fit model data) as [As m]. unfold sse in Z. cbn [fst snd] in Z.
  assert (Res : forall q, rsum (map (fun p => (model (fst p) As m - snd p) ^ 2) q) <= 0 -> forall x y, In (x, y) q -> model x As m = y).
  { induction q as [|[x' y'] q IH]; intros Hq x y Ixy; [easy|]. cbn [map rsum fst snd] in Hq.
    assert (0 <= rsum (map (fun p => (model (fst p) As m - snd p) ^ 2) q)).
    { apply rsum_nonneg. intros a Ia. apply in_map_iff in Ia as (p & <- & _). apply pow2_ge_0. }
    pose proof (pow2_ge_0 (model x' As m - y')). destruct Ixy as [E|Ixy]; [|apply IH; [lra|exact Ixy]].
    inversion E; subst. assert (Q : (model x As m - y) ^ 2 = 0) by lra. apply Rsqr_0_uniq in Q || (rewrite <- Rsqr_pow2 in Q; apply Rsqr_0_uniq in Q). lra. }
  assert (Pt : forall x, In x (map fst (combine r xi)) -> r_min < x < r_max -> As * Rpower (x / pv) m = A * Rpower (x / pv) n).
  { intros x Ix Bx. apply in_map_iff in Ix as ([x' y] & <- & Ixy). cbn [fst] in *. rewrite <- (D x' y Ixy Bx). apply (Res data Z).
    apply filter_In. split; [exact Ixy|]. cbn [fst]. apply andb_true_intro. split; apply Rltb_true; lra. }
  pose proof (Pt _ I1 B1) as E1. pose proof (Pt _ I2 B2) as E2.
  set (a1 := r1 / pv) in *. set (a2 := r2 / pv) in *.
  assert (A1 : 0 < a1) by (apply Rdiv_lt_0_compat; lra). assert (A2 : 0 < a2) by (apply Rdiv_lt_0_compat; lra).
  assert (A12 : ln a1 <> ln a2).
  { intros E. apply ln_inv in E; [|assumption..]. apply N12. apply Rmult_eq_reg_r with (/ pv); [exact E|]. apply Rinv_neq_0_compat. lra. }
  unfold Rpower in *. 
  assert (X1 : As = A * exp ((n - m) * ln a1)).
  { replace ((n - m) * ln a1) with (n * ln a1 + - (m * ln a1)) by ring. rewrite exp_plus, exp_Ropp. pose proof (exp_pos (m * ln a1)).
    apply Rmult_eq_reg_r with (exp (m * ln a1)); [|lra]. rewrite E1. field. lra. }
  assert (X2 : As = A * exp ((n - m) * ln a2)).
  { replace ((n - m) * ln a2) with (n * ln a2 + - (m * ln a2)) by ring. rewrite exp_plus, exp_Ropp. pose proof (exp_pos (m * ln a2)).
    apply Rmult_eq_reg_r with (exp (m * ln a2)); [|lra]. rewrite E2. field. lra. }
  assert (X3 : exp ((n - m) * ln a1) = exp ((n - m) * ln a2)) by (apply Rmult_eq_reg_l with A; [lra|assumption]).
  apply exp_inv in X3. assert (n = m) by nra. subst m. replace ((n - n) * ln a1) with 0 in X1 by ring. rewrite exp_0, Rmult_1_r in X1. rewrite X1. reflexivity.
Qed.

(* ---------- non-vacuity ---------- *)
Example C92_pairing_nonvacuous : symmetric ((-1) :: 0 :: 1 :: nil) /\ (forall mu, In mu ((-1) :: 0 :: 1 :: nil) -> -1 <= mu <= 1) /\ incr ((-1) :: 0 :: 1 :: nil).
Proof.
  split; [|split]. unfold symmetric. cbn. repeat f_equal; lra. intros mu [<-|[<-|[<-|[]]]]; lra. cbn. lra.
Qed.
(** a two-point data set and an exact least-squares solver *)
Example C92_fit_nonvacuous : exists r xi : list R, In 1 (map fst (combine r xi)) /\ In 2 (map fst (combine r xi)) /\
  (forall x y, In (x, y) (combine r xi) -> 1/2 < x < 5/2 -> y = 3 * Rpower (x / ((1/2 + 5/2) / 2)) 1).
Proof.
  exists (1 :: 2 :: nil), (2 :: 4 :: nil). cbn. split; [auto|split; [auto|]]. intros x y [E|[E|[]]] _; inversion E; subst; rewrite Rpower_1 by lra; lra.
Qed.

Print Assumptions C92_chebyshev.
Print Assumptions C92_pairing.
Print Assumptions C92_projection.
Print Assumptions C92_orthogonality.
Print Assumptions C92_monopole_constant.
Print Assumptions C92_linear.
Print Assumptions C92_pairing_refuted.
Print Assumptions C92_power.
Print Assumptions C92_fit.
