(** Vectorised NFW parameters, thermal relic conversion, circular velocity and SIDM clock (C55, C74-C77). *)
From Coq Require Import Reals Machin.
From Verif Require Import Prelude TnfwSpec TnfwProofs NfwModel NfwSpec NfwProofs NfwProofs2.
From Coquelicot Require Import Coquelicot.
Local Open Scope R_scope.
Local Open Scope list_scope.

(** ** vectorised = scalar *)
Definition quad4 : Type := R * R * R * bool.
Definition q_m (q : quad4) : R := fst (fst (fst q)).
Definition q_c (q : quad4) : R := snd (fst (fst q)).
Definition q_z (q : quad4) : R := snd (fst q).
Definition q_p (q : quad4) : bool := snd q.
Definition triple (C : cosmo) (q : quad4) : R * R * R :=
  let r200 := r200_M C (q_m q * co_h C) (q_z q) / co_h C in
  let rho0 := if q_p q then rho0_c_pseudoNFW C (q_c q) (q_z q) * co_h C ^ 2 else rho0_c C (q_c q) (q_z q) * co_h C ^ 2 in
  (rho0 * / 1000 ^ 3, r200 / q_c q * 1000, r200 * 1000).
Lemma triple_scalar C q : NFW_params_physical C (q_m q) (q_c q) (q_z q) (Some (q_p q)) = Ok (triple C q).
Proof. reflexivity. Qed.
Lemma zip_map {A B D E} (f : A -> B -> D) (g : E -> A) (h : E -> B) l :
  zip_with f (map g l) (map h l) = map (fun e => f (g e) (h e)) l.
Proof. induction l as [|e l IH]; [reflexivity|]. cbn [map zip_with]. rewrite IH. reflexivity. Qed.
Lemma vectorised C l : nfw_params_physical_vectorized C (map q_m l) (map q_c l) (map q_z l) (map q_p l)
  = (map (fun q => fst (fst (triple C q))) l, map (fun q => snd (fst (triple C q))) l, map (fun q => snd (triple C q)) l).
Proof.
  unfold nfw_params_physical_vectorized. rewrite !map_map, !zip_map, !map_map.
  apply f_equal2; [apply f_equal2|]; apply map_ext; intros q; try reflexivity.
  cbn [fst snd]. unfold triple. cbn [fst snd]. destruct (q_p q); reflexivity.
Qed.

Definition as_quad (o : nhalo) : quad4 := (nh_mass o, nh_c o, nh_z o, flag o).
Definition cached (C : cosmo) (o : nhalo) : nhalo :=
  if has_flag o then {| nh_mass := nh_mass o; nh_c := nh_c o; nh_z := nh_z o; nh_pseudo := nh_pseudo o; nh_cache := Some (triple C (as_quad o)) |} else o.
Lemma store_spec C l :
  store l (map (fun q => fst (fst (triple C q))) (map as_quad (filter has_flag l)),
           map (fun q => snd (fst (triple C q))) (map as_quad (filter has_flag l)),
           map (fun q => snd (triple C q)) (map as_quad (filter has_flag l))) = map (cached C) l.
Proof.
  induction l as [|o l IH]; [reflexivity|]. cbn [filter store map]. unfold cached at 1. destruct (has_flag o).
  - cbn [map]. rewrite IH. destruct (triple C (as_quad o)) as [[a b] d]. reflexivity.
  - rewrite IH. reflexivity.
Qed.
Lemma precompute_spec C l : precompute_nfw_params C l = map (cached C) l.
Proof.
  unfold precompute_nfw_params. destruct (Nat.eqb_spec (List.length (filter has_flag l)) 0) as [E|N].
  - apply length_zero_iff_nil in E. clear -E. induction l as [|o l IH]; [reflexivity|]. cbn [filter] in E. cbn [map].
    unfold cached. destruct (has_flag o) eqn:F; [discriminate|]. f_equal. apply IH. exact E.
  - rewrite <- store_spec. rewrite <- vectorised. rewrite !map_map. reflexivity.
Qed.

(** ** thermal relics *)
Definition thermal_norm (C : cosmo) : R := 2.32 * Rpower (co_Om0 C / 0.25) 0.4 * Rpower (co_h C / 0.7) 0.8.
Lemma thermal_norm_pos C : 0 < thermal_norm C.
Proof.
  unfold thermal_norm. apply Rmult_lt_0_compat; [|apply exp_pos]. apply Rmult_lt_0_compat; [lra|apply exp_pos].
Qed.
Definition halfmode_of (C : cosmo) (t : R) : R := 10 ^ 9 * Rpower (t / thermal_norm C) (- (1 / 0.3)).
Lemma thermal_of_halfmode C t : 0 < t -> halfmode_to_thermal C (halfmode_of C t) = t.
Proof.
  intros Ht. unfold halfmode_to_thermal, halfmode_of. fold (thermal_norm C). pose proof (thermal_norm_pos C) as P.
  assert (Q : 0 < 10 ^ 9) by (apply pow_lt; lra).
  replace (10 ^ 9 * Rpower (t / thermal_norm C) (- (1 / 0.3)) / 10 ^ 9) with (Rpower (t / thermal_norm C) (- (1 / 0.3))) by (field; lra).
  rewrite Rpower_mult. replace (- (1 / 0.3) * - 0.3) with 1 by lra.
  rewrite Rpower_1 by (apply Rdiv_lt_0_compat; assumption). field. lra.
Qed.
Lemma thermal_decr C m m' : 0 < m -> m < m' -> halfmode_to_thermal C m' < halfmode_to_thermal C m.
Proof.
  intros Hm L. unfold halfmode_to_thermal. fold (thermal_norm C). apply Rmult_lt_compat_l; [apply thermal_norm_pos|].
  assert (Q : 0 < 10 ^ 9) by (apply pow_lt; lra).
  assert (a : 0 < m / 10 ^ 9) by (apply Rdiv_lt_0_compat; lra).
  assert (b : m / 10 ^ 9 < m' / 10 ^ 9) by (apply Rmult_lt_compat_r; [apply Rinv_0_lt_compat; exact Q|exact L]).
  unfold Rpower. apply exp_increasing. pose proof (ln_increasing _ _ a b). lra.
Qed.

(** ** numerical bounds on pi and logarithms *)
Lemma atan_bounds x : 0 < x -> x - x ^ 3 / 3 < atan x < x - x ^ 3 / 3 + x ^ 5 / 5.
Proof.
  intros Hx. split.
  - set (f := fun t => atan t - (t - t ^ 3 / 3)). assert (f0 : f 0 = 0) by (unfold f; rewrite atan_0; field).
    assert (D : forall t, is_derive f t (t ^ 4 / (1 + t ^ 2))).
    { intros t. unfold f. auto_derive; [exact I|]. simpl. pose proof (osq t). simpl in *. field. unfold Rsqr in *. lra. }
    destruct (MVT_cor2 f (fun t => t ^ 4 / (1 + t ^ 2)) 0 x Hx) as (c & E & Hc).
    { intros c _. apply is_derive_Reals, D. }
    rewrite f0 in E. assert (0 < c ^ 4 / (1 + c ^ 2) * (x - 0)).
    { apply Rmult_lt_0_compat; [|lra]. apply Rdiv_lt_0_compat; [apply pow_lt; lra|apply osq]. }
    unfold f in E. lra.
  - set (f := fun t => t - t ^ 3 / 3 + t ^ 5 / 5 - atan t). assert (f0 : f 0 = 0) by (unfold f; rewrite atan_0; field).
    assert (D : forall t, is_derive f t (t ^ 6 / (1 + t ^ 2))).
    { intros t. unfold f. auto_derive; [exact I|]. simpl. pose proof (osq t). simpl in *. field. unfold Rsqr in *. lra. }
    destruct (MVT_cor2 f (fun t => t ^ 6 / (1 + t ^ 2)) 0 x Hx) as (c & E & Hc).
    { intros c _. apply is_derive_Reals, D. }
    rewrite f0 in E. assert (0 < c ^ 6 / (1 + c ^ 2) * (x - 0)).
    { apply Rmult_lt_0_compat; [|lra]. apply Rdiv_lt_0_compat; [apply pow_lt; lra|apply osq]. }
    unfold f in E. lra.
Qed.
Lemma PI_bounds : 3.1405 < PI < 3.1417.
Proof.
  pose proof Machin_4_5_239 as M. pose proof (atan_bounds (/ 5) ltac:(lra)) as A. pose proof (atan_bounds (/ 239) ltac:(lra)) as B. lra.
Qed.
(** ln ((1 + t) / (1 - t)) against its series *)
Lemma ln_bounds t : 0 < t < 1 -> 2 * (t + t ^ 3 / 3) < ln ((1 + t) / (1 - t)) < 2 * (t + t ^ 3 / (3 * (1 - t ^ 2))).
Proof.
  intros Ht.
  assert (dl : forall s, 0 <= s < 1 -> is_derive (fun s => ln ((1 + s) / (1 - s))) s (2 / (1 - s ^ 2))).
  { intros s Hs. auto_derive; [split; [lra|]; split; [apply Rmult_lt_0_compat; [lra|apply Rinv_0_lt_compat; lra]|exact I]|]. simpl. field. split; [|lra].
    assert (s * s < 1) by nra. lra. }
  assert (l0 : ln ((1 + 0) / (1 - 0)) = 0) by (replace ((1 + 0) / (1 - 0)) with 1 by field; apply ln_1).
  split.
  - set (f := fun s => ln ((1 + s) / (1 - s)) - 2 * (s + s ^ 3 / 3)). assert (f0 : f 0 = 0) by (unfold f; rewrite l0; field).
    destruct (MVT_cor2 f (fun s => 2 * s ^ 4 / (1 - s ^ 2)) 0 t) as (c & E & Hc); [lra| |].
    { intros c Hc. apply is_derive_Reals. unfold f.
      replace (2 * c ^ 4 / (1 - c ^ 2)) with (minus (2 / (1 - c ^ 2)) (2 * (1 + c ^ 2))).
      - apply (is_derive_minus (fun s => ln ((1 + s) / (1 - s))) (fun s => 2 * (s + s ^ 3 / 3))); [apply dl; lra|].
        auto_derive; [exact I|]. simpl. field.
      - unfold minus, plus, opp. simpl. field. assert (c * c < 1) by nra. lra. }
    rewrite f0 in E. assert (0 < 2 * c ^ 4 / (1 - c ^ 2) * (t - 0)).
    { apply Rmult_lt_0_compat; [|lra]. apply Rdiv_lt_0_compat; [apply Rmult_lt_0_compat; [lra|apply pow_lt; lra]|nra]. }
    unfold f in E. lra.
  - set (f := fun s => 2 * (s + s ^ 3 / (3 * (1 - s ^ 2))) - ln ((1 + s) / (1 - s))). assert (f0 : f 0 = 0) by (unfold f; rewrite l0; field).
    destruct (MVT_cor2 f (fun s => 4 * s ^ 4 / (3 * (1 - s ^ 2) ^ 2)) 0 t) as (c & E & Hc); [lra| |].
    { intros c Hc. apply is_derive_Reals. unfold f. assert (c * c < 1) by nra.
      replace (4 * c ^ 4 / (3 * (1 - c ^ 2) ^ 2)) with (minus (2 * (1 + (3 * c ^ 2 - c ^ 4) / (3 * (1 - c ^ 2) ^ 2))) (2 / (1 - c ^ 2))).
      - apply (is_derive_minus (fun s => 2 * (s + s ^ 3 / (3 * (1 - s ^ 2)))) (fun s => ln ((1 + s) / (1 - s)))); [|apply dl; lra].
        auto_derive; [simpl; lra|]. simpl. field. lra.
      - unfold minus, plus, opp. simpl. field. lra. }
    rewrite f0 in E. assert (0 < 4 * c ^ 4 / (3 * (1 - c ^ 2) ^ 2) * (t - 0)).
    { apply Rmult_lt_0_compat; [|lra]. apply Rdiv_lt_0_compat; [apply Rmult_lt_0_compat; [lra|apply pow_lt; lra]|].
      apply Rmult_lt_0_compat; [lra|apply pow_lt; nra]. }
    unfold f in E. lra.
Qed.

(** ** circular velocity *)
Lemma peak_low : 0.216 < Func0 (175 / 81) / (175 / 81).
Proof.
  unfold Func0. pose proof (ln_bounds (1 / 7) ltac:(lra)) as [L _].
  replace ((1 + 1 / 7) / (1 - 1 / 7)) with (4 / 3) in L by field.
  replace (1 + 175 / 81) with ((4 / 3) ^ 4) by field. rewrite ln_pow by lra.
  replace (INR 4) with 4 by (simpl; ring). lra.
Qed.
Lemma ln_3_1 : ln 3.1 < 1.1325.
Proof.
  pose proof (ln_bounds (327 / 2327) ltac:(lra)) as [_ U].
  replace ((1 + 327 / 2327) / (1 - 327 / 2327)) with (1327 / 1000) in U by field.
  assert (L : ln 3.1 < ln ((1327 / 1000) ^ 4)) by (apply ln_increasing; lra).
  rewrite ln_pow in L by lra. replace (INR 4) with 4 in L by (simpl; ring). lra.
Qed.
Lemma peak_high x : 0 < x -> Func0 x / x <= 210 / 961.
Proof.
  intros Hx.
  set (g := fun x => 210 / 961 * x - Func0 x).
  assert (D : forall t, 0 <= t -> is_derive g t (210 / 961 - nu0 t)).
  { intros t Ht. unfold g. apply (is_derive_minus (fun x => 210 / 961 * x) Func0); [|apply Func0_derive; exact Ht].
    auto_derive; [exact I|]. simpl. ring. }
  assert (S : forall t, 0 <= t -> 210 / 961 - nu0 t = 210 / 961 * ((t - 2.1) * (t - 10 / 21)) / (1 + t) ^ 2).
  { intros t Ht. unfold nu0. replace 2.1 with (21 / 10) by lra. field. lra. }
  assert (g0 : g 0 = 0) by (unfold g; rewrite Func0_0; ring).
  assert (g1 : 0 < g 2.1).
  { unfold g, Func0. pose proof ln_3_1. replace (1 + 2.1) with 3.1 by lra. lra. }
  assert (up : forall a b, 0 <= a -> a < b -> (forall t, a < t < b -> 0 <= 210 / 961 - nu0 t) -> g a <= g b).
  { intros a b Ha Hab H. destruct (MVT_cor2 g (fun t => 210 / 961 - nu0 t) a b Hab) as (c & E & Hc).
    - intros c Hc. apply is_derive_Reals, D. lra.
    - specialize (H c Hc). pose proof (Rmult_le_pos _ (b - a) H). lra. }
  assert (down : forall a b, 0 <= a -> a < b -> (forall t, a < t < b -> 210 / 961 - nu0 t <= 0) -> g b <= g a).
  { intros a b Ha Hab H. destruct (MVT_cor2 g (fun t => 210 / 961 - nu0 t) a b Hab) as (c & E & Hc).
    - intros c Hc. apply is_derive_Reals, D. lra.
    - specialize (H c Hc). assert (0 <= (- (210 / 961 - nu0 c)) * (b - a)) by (apply Rmult_le_pos; lra). lra. }
  assert (sg : forall t, 0 <= t -> 0 < / (1 + t) ^ 2) by (intros t Ht; apply Rinv_0_lt_compat, sq_pos; lra).
  assert (G : 0 <= g x).
  { destruct (Rle_lt_dec x (10 / 21)) as [A|A].
    - rewrite <- g0. apply up; [lra|exact Hx|]. intros t Ht. rewrite S by lra. unfold Rdiv at 1.
      apply Rmult_le_pos; [|left; apply sg; lra]. apply Rmult_le_pos; [lra|]. nra.
    - destruct (Rle_lt_dec x 2.1) as [B|B].
      + destruct (Req_dec x 2.1) as [->|N]; [lra|]. apply Rle_trans with (g 2.1); [lra|]. apply down; [lra|lra|].
        intros t Ht. rewrite S by lra. assert (0 <= 210 / 961 * ((2.1 - t) * (t - 10 / 21)) / (1 + t) ^ 2).
        { unfold Rdiv at 1. apply Rmult_le_pos; [|left; apply sg; lra]. apply Rmult_le_pos; [lra|]. nra. }
        unfold Rdiv in *. lra.
      + apply Rle_trans with (g 2.1); [lra|]. apply up; [lra|exact B|]. intros t Ht. rewrite S by lra. unfold Rdiv at 1.
        apply Rmult_le_pos; [|left; apply sg; lra]. apply Rmult_le_pos; [lra|]. nra. }
  unfold g in G. apply (Rmult_le_reg_r x); [exact Hx|]. unfold Rdiv at 1. rewrite Rmult_assoc, Rinv_l by lra. lra.
Qed.
Lemma v_circ_nfw G rhos rs r : 0 < rs -> 0 < r ->
  v_circ2 G (rho_nfw rhos rs) r = 4 * PI * (Func0 (r / rs) / (r / rs)) * (G * rhos * rs ^ 2).
Proof.
  intros Hs Hr. unfold v_circ2. assert (Hx : 0 <= r / rs) by (left; apply Rdiv_lt_0_compat; assumption).
  replace r with (r / rs * rs) at 1 by (field; lra). rewrite (proj2 (nfw_mass rhos rs (r / rs) Hs Hx)). field. split; lra.
Qed.
