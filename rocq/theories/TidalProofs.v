(** Lemmas on the tidal tracks (C52). *)
From Verif Require Import Prelude MassFnModel MassFnProofs TidalModel TidalSpec.
From Coquelicot Require Import Coquelicot.
Local Open Scope R_scope.
Local Open Scope list_scope.

Lemma rle_cases x y : (x <= y /\ Rleb x y = true) \/ (y < x /\ Rleb x y = false).
Proof. destruct (Rle_or_lt x y) as [H|H]; [left|right]; split; auto; [apply Rleb_true|apply Rleb_false]; exact H. Qed.
Lemma rlt_cases x y : (x < y /\ Rltb x y = true) \/ (y <= x /\ Rltb x y = false).
Proof. destruct (Rle_or_lt y x) as [H|H]; [right|left]; split; auto; [apply Rltb_false|apply Rltb_true]; exact H. Qed.
Lemma Reqb_neq x y : x <> y -> Reqb x y = false.
Proof. intro H. apply Reqb_false. exact H. Qed.
Ltac reqb := repeat match goal with
  | |- context [Reqb ?x ?x] => rewrite (Reqb_refl x)
  | |- context [Reqb ?x ?y] => rewrite (Reqb_neq x y) by lra
  end.
Ltac supp H := destruct H as ([-> | ->] & [-> | ->] & [(-> & [-> | [-> | [-> | ->]]]) | (-> & ->)]).

Lemma rpow_pos x y : 0 < Rpower x y.
Proof. unfold Rpower. apply exp_pos. Qed.
Lemma rpow_lt E x y : 0 < E -> 0 < x -> x < y -> Rpower x E < Rpower y E.
Proof.
  intros HE Hx H. unfold Rpower. apply exp_increasing. apply Rmult_lt_compat_l; [exact HE|]. apply ln_increasing; assumption.
Qed.
Lemma rpow_1 E : Rpower 1 E = 1.
Proof. unfold Rpower. rewrite ln_1, Rmult_0_r. apply exp_0. Qed.
Lemma rpow_double x E : Rpower x (2 * E) = Rpower x E * Rpower x E.
Proof. rewrite <- Rpower_plus. f_equal. lra. Qed.
Lemma rpow_neg x E : Rpower x (- E) = / Rpower x E.
Proof. apply Rpower_Ropp. Qed.

(** the track as a function of u = x^E *)
Definition tr (D u : R) : R := (1 + D) * u / (1 + D * (u * u)).
Lemma track_tr D E x : track D E x = tr D (Rpower x E).
Proof. unfold track, tr. rewrite rpow_double. reflexivity. Qed.
Lemma tr_den D u : -1 < D -> 0 < u -> u <= 1 -> 0 < 1 + D * (u * u).
Proof. intros HD H0 H1. assert (0 < u * u <= 1) by nra. destruct (Rle_or_lt 0 D); nra. Qed.
Lemma tr_pos D u : -1 < D -> 0 < u -> u <= 1 -> 0 < tr D u.
Proof.
  intros HD H0 H1. unfold tr. apply Rdiv_lt_0_compat; [nra|]. apply tr_den; assumption.
Qed.
Lemma tr_lt1 D u : -1 < D -> 0 < u -> u <= 1 -> (tr D u < 1 <-> (1 - u) * (1 - D * u) > 0).
Proof.
  intros HD H0 H1. pose proof (tr_den D u HD H0 H1) as Hd. unfold tr. split; intro H.
  - apply (Rmult_lt_compat_r _ _ _ Hd) in H. unfold Rdiv in H. rewrite Rmult_assoc, Rinv_l, Rmult_1_r in H by lra. nra.
  - apply (Rmult_lt_reg_r _ _ _ Hd). unfold Rdiv. rewrite Rmult_assoc, Rinv_l by lra. nra.
Qed.
Lemma tr_mono D u v : -1 < D -> 0 < u -> u < v -> v <= 1 -> D * v <= 1 -> tr D u < tr D v.
Proof.
  intros HD H0 H1 H2 H3.
  pose proof (tr_den D u HD H0 ltac:(lra)) as Hu. pose proof (tr_den D v HD ltac:(lra) H2) as Hv.
  unfold tr. apply (Rmult_lt_reg_r ((1 + D * (u * u)) * (1 + D * (v * v)))); [nra|].
  replace ((1 + D) * u / (1 + D * (u * u)) * ((1 + D * (u * u)) * (1 + D * (v * v)))) with ((1 + D) * u * (1 + D * (v * v))) by (field; lra).
  replace ((1 + D) * v / (1 + D * (v * v)) * ((1 + D * (u * u)) * (1 + D * (v * v)))) with ((1 + D) * v * (1 + D * (u * u))) by (field; lra).
  assert (0 < (v - u) * (1 - D * (u * v))).
  { apply Rmult_lt_0_compat; [lra|]. destruct (Rle_or_lt D 0); [nra|].
    assert (D * (u * v) = u * (D * v)) by ring. nra. }
  nra.
Qed.

(** the coefficients for which the capped track is a valid normalisation *)
Definition good_DE (D E : R) : Prop := (-1 < D /\ 0 < E) \/ (0 < D /\ E < 0).
Lemma ft_fit_unfold D E x : ft_fit D E x = if Rleb x 1 then Rmin (track D E x) 1 else 1.
Proof.
  unfold ft_fit, track. destruct (rle_cases x 1) as [[H ->]|[H ->]].
  - cbv zeta. unfold Rmin. destruct (rle_cases ((1 + D) * Rpower x E / (1 + D * Rpower x (2 * E))) 1) as [[H1 ->]|[H1 ->]];
      destruct (Rle_dec _ _); lra || reflexivity.
  - cbv zeta. destruct (Rleb 1 1); reflexivity.
Qed.
(** the E < 0 entries are the same track with inverted coefficients *)
Lemma track_flip D E x : 0 < D -> 0 < x -> track D E x = track (/ D) (- E) x.
Proof.
  intros HD Hx. unfold track. rewrite !rpow_double, rpow_neg. pose proof (rpow_pos x E) as H. 
  field. repeat split; try lra; nra.
Qed.
Lemma good_reduce D E : good_DE D E -> exists D' E', -1 < D' /\ 0 < E' /\ forall x, 0 < x -> track D E x = track D' E' x.
Proof.
  intros [[H1 H2]|[H1 H2]].
  - exists D, E. repeat split; auto.
  - exists (/ D), (- E). repeat split; [pose proof (Rinv_0_lt_compat D H1); lra|lra|]. intros. apply track_flip; assumption.
Qed.
Lemma rpow_le1 E x : 0 < E -> 0 < x -> x <= 1 -> Rpower x E <= 1.
Proof.
  intros HE Hx H. destruct (Req_dec x 1) as [->|]; [rewrite rpow_1; lra|].
  rewrite <- (rpow_1 E). left. apply rpow_lt; lra.
Qed.
Lemma ft_range D E x : good_DE D E -> 0 < x -> 0 < ft_fit D E x <= 1.
Proof.
  intros HG Hx. rewrite ft_fit_unfold. destruct (rle_cases x 1) as [[H ->]|[H ->]]; [|lra].
  destruct (good_reduce D E HG) as (D' & E' & HD & HE & Heq). rewrite Heq by exact Hx.
  split; [|apply Rmin_r].
  rewrite track_tr. pose proof (tr_pos D' (Rpower x E') HD (rpow_pos _ _) (rpow_le1 E' x HE Hx H)).
  unfold Rmin. destruct (Rle_dec _ _); lra.
Qed.
Lemma ft_above D E x : -1 <> D -> 1 <= x -> ft_fit D E x = 1.
Proof.
  intros HD Hx. rewrite ft_fit_unfold. destruct (rle_cases x 1) as [[H ->]|[H ->]]; [|reflexivity].
  assert (x = 1) by lra. subst x. unfold track. rewrite !rpow_1.
  replace ((1 + D) * 1 / (1 + D * 1)) with 1 by (field; lra). unfold Rmin. destruct (Rle_dec 1 1); lra.
Qed.
(** value 1 exactly from a threshold on, strictly increasing below it, vanishing with x *)
Lemma ft_shape D E : good_DE D E -> exists xt, 0 < xt <= 1
  /\ (forall x, xt <= x -> ft_fit D E x = 1)
  /\ (forall x y, 0 < x -> x < y -> y <= xt -> ft_fit D E x < ft_fit D E y)
  /\ (forall x, 0 < x -> x < xt -> ft_fit D E x = track D E x)
  /\ (forall eps, 0 < eps -> exists x0, 0 < x0 /\ forall x, 0 < x -> x < x0 -> ft_fit D E x < eps).
Proof.
  intro HG. destruct (good_reduce D E HG) as (D' & E' & HD & HE & Heq).
  assert (HnD : -1 <> D) by (destruct HG as [[? ?]|[? ?]]; lra).
  assert (Hm : 0 < Rmax D' 1) by (pose proof (Rmax_r D' 1); lra).
  pose proof (Rinv_0_lt_compat _ Hm) as Hi.
  set (ut := / Rmax D' 1) in *.
  assert (Hut1 : ut <= 1).
  { unfold ut. pose proof (Rinv_le_contravar 1 (Rmax D' 1) ltac:(lra) (Rmax_r D' 1)) as h. rewrite Rinv_1 in h. exact h. }
  set (xt := Rpower ut (/ E')).
  assert (HiE : 0 < / E') by (apply Rinv_0_lt_compat; exact HE).
  assert (Hxt : 0 < xt <= 1) by (split; [apply rpow_pos|apply rpow_le1; assumption]).
  assert (Hxu : Rpower xt E' = ut).
  { unfold xt. rewrite Rpower_mult, Rinv_l, Rpower_1 by lra. reflexivity. }
  assert (HDu : D' * ut <= 1).
  { unfold ut. unfold Rmax. destruct (Rle_dec D' 1) as [h|h]; [rewrite Rinv_1; lra|]. rewrite Rinv_r; lra. }
  assert (Hub : forall x, 0 < x -> x < xt -> Rpower x E' < ut /\ tr D' (Rpower x E') < 1).
  { intros x Hx H. assert (Hu : Rpower x E' < ut) by (rewrite <- Hxu; apply rpow_lt; assumption).
    split; [exact Hu|]. pose proof (rpow_pos x E') as Hp.
    apply tr_lt1; [exact HD|exact Hp|lra|]. apply Rmult_gt_0_compat; [lra|].
    destruct (Rle_or_lt D' 0) as [h|h]; [nra|]. assert (D' * Rpower x E' < D' * ut) by (apply Rmult_lt_compat_l; lra). lra. }
  assert (Heq1 : forall x, 0 < x -> x < xt -> ft_fit D E x = track D E x).
  { intros x Hx H. rewrite ft_fit_unfold, (proj2 (Rleb_true x 1)) by lra. rewrite Heq by exact Hx. rewrite track_tr.
    destruct (Hub x Hx H) as [_ H1]. unfold Rmin. destruct (Rle_dec _ _); lra. }
  assert (Htop : forall x, xt <= x -> ft_fit D E x = 1).
  { intros x H. destruct (Rle_or_lt 1 x) as [h|h]; [apply ft_above; assumption|].
    rewrite ft_fit_unfold, (proj2 (Rleb_true x 1)) by lra. rewrite Heq by lra. rewrite track_tr.
    assert (Hu : ut <= Rpower x E').
    { rewrite <- Hxu. destruct (Req_dec xt x) as [->|]; [lra|]. left. apply rpow_lt; lra. }
    pose proof (rpow_le1 E' x HE ltac:(lra) ltac:(lra)) as Hu1.
    assert (~ tr D' (Rpower x E') < 1).
    { intro Hc. apply tr_lt1 in Hc; [|exact HD|apply rpow_pos|exact Hu1].
      assert (Hx1 : Rpower x E' < 1) by (rewrite <- (rpow_1 E'); apply rpow_lt; lra).
      assert (1 - D' * Rpower x E' <= 0).
      { assert (1 <= D' * Rpower x E'); [|lra]. assert (h2 : 1 < D').
        { apply Rnot_le_lt. intro hh. unfold ut in Hu. rewrite Rmax_right in Hu by lra. rewrite Rinv_1 in Hu. lra. }
        assert (D' * ut = 1) by (unfold ut; rewrite Rmax_left by lra; apply Rinv_r; lra). nra. }
      nra. }
    unfold Rmin. destruct (Rle_dec _ _); lra. }
  exists xt. split; [exact Hxt|]. split; [exact Htop|]. split; [|split; [exact Heq1|]].
  - intros x y Hx Hxy Hy. rewrite (Heq1 x) by lra. rewrite Heq by lra. rewrite track_tr.
    destruct (Req_dec y xt) as [->|Hne].
    + rewrite Htop by lra. apply Hub; lra.
    + rewrite (Heq1 y) by lra. rewrite Heq by lra. rewrite track_tr.
      destruct (Hub y ltac:(lra) ltac:(lra)) as [h1 _]. destruct (Hub x Hx ltac:(lra)) as [h2 _].
      apply tr_mono; [exact HD|apply rpow_pos|apply rpow_lt; lra|lra|].
      pose proof (rpow_pos y E'). destruct (Rle_or_lt D' 0) as [h|h]; [nra|].
      assert (D' * Rpower y E' < D' * ut) by (apply Rmult_lt_compat_l; lra). lra.
  - intros eps Heps.
    (* tr D u <= k u with k = (1+D)/min(1,1+D) *)
    set (k := (1 + D') / Rmin 1 (1 + D')).
    assert (Hmn : 0 < Rmin 1 (1 + D')) by (unfold Rmin; destruct (Rle_dec _ _); lra).
    assert (Hk : 0 < k) by (apply Rdiv_lt_0_compat; lra).
    set (x0 := Rpower (eps / (2 * k)) (/ E')).
    assert (Hek : 0 < eps / (2 * k)) by (apply Rdiv_lt_0_compat; lra).
    exists (Rmin x0 xt). split; [unfold Rmin; destruct (Rle_dec _ _); [apply rpow_pos|lra]|].
    intros x Hx H. pose proof (Rmin_l x0 xt). pose proof (Rmin_r x0 xt).
    rewrite Heq1 by lra. rewrite Heq by exact Hx. rewrite track_tr.
    destruct (Hub x Hx ltac:(lra)) as [h1 _]. pose proof (rpow_pos x E') as Hp. set (u := Rpower x E') in *.
    assert (Hu : u < eps / (2 * k)).
    { replace (eps / (2 * k)) with (Rpower x0 E'); [apply rpow_lt; lra|].
      unfold x0. rewrite Rpower_mult, Rinv_l, Rpower_1; lra. }
    assert (Hden : Rmin 1 (1 + D') <= 1 + D' * (u * u)).
    { unfold Rmin. destruct (Rle_dec 1 (1 + D')) as [h|h]; [nra|]. assert (u * u <= 1) by nra. nra. }
    assert (tr D' u <= k * u).
    { unfold tr, k. replace ((1 + D') / Rmin 1 (1 + D') * u) with ((1 + D') * u * / Rmin 1 (1 + D')) by (field; lra).
      apply Rmult_le_compat_l; [nra|]. apply Rinv_le_contravar; assumption. }
    assert (k * u < k * (eps / (2 * k))) by (apply Rmult_lt_compat_l; assumption).
    replace (k * (eps / (2 * k))) with (eps / 2) in * by (field; lra). lra.
Qed.
Lemma coef_supported alpha beta gamma delta : supported alpha beta gamma delta ->
  exists D E, ft_coef alpha beta gamma delta = Ok (D, E) /\ good_DE D E /\ In (alpha, beta, gamma, delta, D, E) track_table.
Proof.
  intro H. unfold ft_coef.
  supp H; reqb; do 2 eexists; (split; [reflexivity|]); (split; [unfold good_DE; lra|]); unfold track_table; cbn [In]; tauto.
Qed.
Ltac rcase x y := let h := fresh "h" in destruct (Reqb x y) eqn:h; [apply Reqb_true in h; subst|apply Reqb_false in h].
Lemma coef_unsupported alpha beta gamma delta : ~ supported alpha beta gamma delta -> ft_coef alpha beta gamma delta = Err EException.
Proof.
  intro H. unfold ft_coef, supported in *.
  rcase delta 2; [|rcase delta 3]; try reflexivity;
  (rcase alpha 1; [|rcase alpha 2]); try reflexivity;
  (rcase beta 3; [|rcase beta 4]); try reflexivity;
  rcase gamma 0; try (exfalso; apply H; lra); try reflexivity;
  rcase gamma 0.5; try (exfalso; apply H; lra);
  rcase gamma 1; try (exfalso; apply H; lra);
  rcase gamma 1.5; try (exfalso; apply H; lra); reflexivity.
Qed.
