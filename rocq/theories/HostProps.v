(** C114: subhalos are placed inside their host. *)
From Verif Require Import Prelude Interp SpaceModel SpaceSpec SpaceProofs SpaceProofs3 SpaceProps RenderModel TnfwSpec NfwModel NfwSpec NfwProofs NfwProps HostModel.
From Coq Require Import String.
Open Scope string_scope.
Open Scope R_scope.

(** ** Specification *)
(** mean density of mass [m] inside radius [r] *)
Definition mean_density (m r : R) : R := m / (4 / 3 * PI * r ^ 3).
(** the i-th of the radii that divide lo .. hi into 19999 steps, and the mass (or projected mass) of a density between
    two of them, up to a constant: density at the inner edge times the volume (p = 3) or area (p = 2) in units of 4 pi / 3, pi *)
Definition radius_at (lo hi : R) (i : nat) : R := lo + INR i * ((hi - lo) / 19999).
Definition shell_mass (p : nat) (rho : R -> R) (lo hi : R) (i : nat) : R :=
  rho (radius_at lo hi i) * (radius_at lo hi (S i) ^ p - radius_at lo hi i ^ p).
(** mass between the first and the k-th shell *)
Definition mass_up_to (p : nat) (rho : R -> R) (lo hi : R) (k : nat) : R := rsum (map (shell_mass p rho lo hi) (seq 1 k)).

(** ** Lemmas *)
Fixpoint smono_from (y0 : R) (t : list (R * R)) : Prop :=
  match t with [] => True | (_, y1) :: t' => y0 < y1 /\ smono_from y1 t' end.
Lemma interp_gt_start x0 y0 t x : incr_from x0 t -> smono_from y0 t -> x0 < x -> x <= fst (last t (x0, y0)) -> y0 < interp_from x0 y0 t x.
Proof.
  revert x0 y0; induction t as [|[x1 y1] t IH]; intros x0 y0 H M Hx L. simpl in L; lra.
  rewrite last_cons_irrel in L. simpl in *.
  destruct H as [H1 H2], M as [M1 M2]. unfold Rleb; destruct (Rle_dec x x1).
  - assert (0 < (y1 - y0) / (x1 - x0)) by (apply Rdiv_lt_0_compat; lra). nra.
  - pose proof (IH x1 y1 H2 M2 ltac:(lra) L). lra.
Qed.
Lemma interp_strict x0 y0 t x x' : incr_from x0 t -> smono_from y0 t -> x0 <= x -> x < x' -> x' <= fst (last t (x0, y0)) ->
  interp_from x0 y0 t x < interp_from x0 y0 t x'.
Proof.
  revert x0 y0; induction t as [|[x1 y1] t IH]; intros x0 y0 H M Hx Hxx L. simpl in L; lra.
  rewrite last_cons_irrel in L. simpl in *.
  destruct H as [H1 H2], M as [M1 M2].
  assert (S : 0 < (y1 - y0) / (x1 - x0)) by (apply Rdiv_lt_0_compat; lra).
  unfold Rleb; destruct (Rle_dec x x1), (Rle_dec x' x1); try lra.
  - nra.
  - pose proof (interp_gt_start x1 y1 t x' H2 M2 ltac:(lra) L).
    assert (y0 + (y1 - y0) / (x1 - x0) * (x - x0) <= y1).
    { replace y1 with (y0 + (y1 - y0) / (x1 - x0) * (x1 - x0)) at 2 by (field; lra).
      apply Rplus_le_compat_l, Rmult_le_compat_l; lra. }
    lra.
  - apply IH; auto; lra.
Qed.
(** a strictly increasing table inverts: the value is at most a tabulated ordinate iff the argument is at most its abscissa *)
Lemma interp_invert x0 y0 t u r a b : incr_from x0 t -> smono_from y0 t -> interp1d ((x0, y0) :: t) u = Ok r -> In (a, b) ((x0, y0) :: t) ->
  (r <= b <-> u <= a).
Proof.
  intros H M E I. pose proof (interp1d_node ((x0, y0) :: t) a b H I) as N.
  assert (A : x0 <= a). { destruct I as [I|I]; [injection I as <- <-; lra|]. left. eapply incr_from_In; eauto. }
  unfold interp1d in E, N.
  destruct (Rltb u x0) eqn:E1; [discriminate|]. apply Rltb_false in E1.
  destruct (Rltb _ u) eqn:E2; [discriminate|]. apply Rltb_false in E2. injection E as <-.
  destruct (Rltb a x0) eqn:E3; [discriminate|]. apply Rltb_false in E3.
  destruct (Rltb _ a) eqn:E4; [discriminate|]. apply Rltb_false in E4. injection N as N.
  split; intros Q.
  - destruct (Rle_or_lt u a) as [|G]; [assumption|]. pose proof (interp_strict x0 y0 t a u H M E3 G E2). lra.
  - destruct Q as [Q|Q]; [|subst; lra]. pose proof (interp_strict x0 y0 t u a H M E1 Q E4). lra.
Qed.

Lemma shells_seq p rho (f : nat -> R) m : forall s,
  shells p rho (map f (seq s (S m))) = map (fun i => rho (f i) * (f (S i) ^ p - f i ^ p)) (seq s m).
Proof.
  induction m as [|m IH]; intros s; [reflexivity|].
  cbn [seq map]. specialize (IH (S s)). cbn [seq map] in IH. cbn [shells]. f_equal. exact IH.
Qed.
Lemma cumsum_nth (g : nat -> R) m : forall acc s k, (k < m)%nat ->
  nth k (cumsum_from acc (map g (seq s m))) 0 = acc + rsum (map g (seq s (S k))).
Proof.
  induction m as [|m IH]; intros acc s k K; [lia|]. cbn [seq map cumsum_from]. destruct k as [|k]; [simpl; lra|].
  cbn [nth]. rewrite IH by lia. cbn [rsum]. cbn [seq map rsum]. lra.
Qed.
Lemma combine_smono (cs xs : list R) x0 : StronglySorted Rlt (x0 :: xs) -> List.length cs = List.length xs -> smono_from x0 (combine cs xs).
Proof.
  revert xs x0. induction cs as [|c cs IH]; intros [|x xs] x0 S L; try discriminate; simpl; auto.
  inversion S as [|? ? S' F]; subst. split; [inversion F; assumption|]. apply IH; auto.
Qed.
Lemma combine_nth_In (cs xs : list R) k : (k < List.length cs)%nat -> List.length cs = List.length xs -> In (nth k cs 0, nth k xs 0) (combine cs xs).
Proof. intros K L. rewrite <- combine_nth by auto. apply nth_In. rewrite combine_length. lia. Qed.

Lemma last_nth' (l : list R) : last l 0 = nth (List.length l - 1) l 0.
Proof. induction l as [|a [|b t] IH]; [reflexivity|reflexivity|]. change (last (a :: b :: t) 0) with (last (b :: t) 0). rewrite IH. simpl. rewrite Nat.sub_0_r. reflexivity. Qed.

(** sampling from a table of cumulative masses *)
Lemma its_law (xs cdf : list R) u r k : StronglySorted Rlt cdf -> (forall c, In c cdf -> 0 < c) -> StronglySorted Rlt xs ->
  List.length xs = List.length cdf -> (k < List.length xs)%nat -> its_from_cdf xs cdf u = Ok r ->
  (r <= nth k xs 0 <-> u * (nth (List.length cdf - 1) cdf 0 - nth 0 cdf 0) <= nth k cdf 0 - nth 0 cdf 0).
Proof.
  intros S P Sx L K E. assert (N : cdf <> []) by (destruct cdf; [simpl in L; lia|discriminate]).
  set (m := np_max cdf) in *.
  assert (Hm : 0 < m).
  { unfold m. destruct cdf as [|a t]; [congruence|]. simpl. eapply Rlt_le_trans; [apply P; left; auto|apply fold_max_ge]. }
  unfold its_from_cdf in E. fold m in E. set (c := map (fun v => v * / m) cdf) in *.
  assert (Hi : 0 < / m) by (apply Rinv_0_lt_compat; exact Hm).
  assert (Sc : StronglySorted Rlt c) by (apply scale_sorted; auto).
  assert (Lc : List.length c = List.length xs) by (unfold c; rewrite map_length; auto).
  assert (T : increasing_table (combine c xs)). { apply combine_table; auto. destruct cdf; [congruence|discriminate]. }
  assert (Cn : forall i, nth i c 0 = nth i cdf 0 * / m).
  { intros i. unfold c. replace 0 with ((fun v => v * / m) 0) at 1 by (cbn; ring). apply (map_nth (fun v => v * / m)). }
  pose proof (combine_nth_In c xs k ltac:(lia) Lc) as I.
  rewrite last_nth', !Cn in E. replace (List.length c) with (List.length cdf) in E by lia.
  set (w := nth 0 cdf 0 * / m + u * (nth (List.length cdf - 1) cdf 0 * / m - nth 0 cdf 0 * / m)) in *.
  rewrite Cn in I. clear Cn. clearbody c.
  destruct c as [|c0 c']; [destruct xs; simpl in *; lia|]. destruct xs as [|x0 xs']; [discriminate|]. cbn [combine] in *.
  assert (SM : smono_from x0 (combine c' xs')) by (apply combine_smono; [exact Sx|simpl in Lc; lia]).
  rewrite (interp_invert c0 x0 (combine c' xs') w r _ _ T SM E I).
  unfold w. split; intros Q.
  - apply (Rmult_le_reg_r (/ m)); [exact Hi|]. lra.
  - assert (Q' : u * (nth (List.length cdf - 1) cdf 0 - nth 0 cdf 0) * / m <= (nth k cdf 0 - nth 0 cdf 0) * / m) by (apply Rmult_le_compat_r; lra). lra.
Qed.

Lemma radius_law_gen (n p : nat) (rho : R -> R) lo hi u r k :
  (3 <= n)%nat -> (0 < p)%nat -> 0 < lo < hi -> (forall r, 0 < r -> 0 < rho r) -> (k < n - 1)%nat ->
  let x := np_linspace lo hi n in
  let xs := removelast x in
  let at_ i := lo + INR i * ((hi - lo) / INR (n - 1)) in
  let m i := rho (at_ i) * (at_ (S i) ^ p - at_ i ^ p) in
  inverse_transform_sampling xs (interp1d (combine xs (shells p rho x))) u = Ok r ->
  (r <= at_ k <-> u * rsum (map m (seq 1 (n - 2))) <= rsum (map m (seq 1 k))).
Proof.
  intros Hn Hp Hlo Hr Hk x xs at_ m E.
  assert (Hs : 0 < (hi - lo) / INR (n - 1)) by (apply Rdiv_lt_0_compat; [lra|apply lt_0_INR; lia]).
  assert (Sx : StronglySorted Rlt x) by (apply linspace_sorted; auto; lra || lia).
  assert (Px : forall r, In r x -> 0 < r).
  { intros y Hin. unfold x, np_linspace in Hin. apply in_map_iff in Hin. destruct Hin as (i & <- & Hi).
    pose proof (pos_INR i). nra. }
  assert (Ex : x = map at_ (seq 0 (S (n - 1)))) by (unfold x, np_linspace; replace (S (n - 1)) with n by lia; reflexivity).
  assert (Exs : xs = map at_ (seq 0 (n - 1))) by (unfold xs; rewrite Ex, seq_S, map_app; apply removelast_last).
  assert (Em : shells p rho x = map m (seq 0 (n - 1))) by (rewrite Ex; apply shells_seq).
  assert (Sxs : StronglySorted Rlt xs) by (apply removelast_sorted; auto).
  assert (Lxs : List.length xs = (n - 1)%nat) by (rewrite Exs, map_length, seq_length; reflexivity).
  assert (Lm : List.length (map m (seq 0 (n - 1))) = (n - 1)%nat) by (rewrite map_length, seq_length; reflexivity).
  assert (Psh : forall y, In y (shells p rho x) -> 0 < y) by (intros y Hy; apply (shells_pos p rho x y Hp Hr Sx); auto).
  destruct (cumsum_sorted 0 (shells p rho x) Psh) as [Sc Fc].
  assert (T : increasing_table (combine xs (shells p rho x))).
  { apply combine_table; auto. apply shells_length. intros Z. rewrite Z in Lxs. simpl in Lxs. lia. }
  assert (Esh : mapM (interp1d (combine xs (shells p rho x))) xs = Ok (shells p rho x)) by (apply mapM_nodes; auto; apply shells_length).
  unfold inverse_transform_sampling in E. rewrite Esh in E. cbn [bind] in E.
  pose proof (its_law xs (cumsum (shells p rho x)) u r k) as LAW.
  assert (Lc : List.length (cumsum (shells p rho x)) = (n - 1)%nat) by (unfold cumsum; rewrite cumsum_from_length, Em; exact Lm).
  rewrite Lc, Lxs in LAW. specialize (LAW Sc).
  assert (X : nth k xs 0 = at_ k).
  { rewrite Exs. rewrite (nth_indep _ 0 (at_ 0%nat)) by (rewrite map_length, seq_length; lia). rewrite map_nth, seq_nth by lia. reflexivity. }
  assert (Cn : forall j, (j < n - 1)%nat -> nth j (cumsum (shells p rho x)) 0 = m 0%nat + rsum (map m (seq 1 j))).
  { intros j J. unfold cumsum. rewrite Em, cumsum_nth by exact J. cbn [seq map rsum]. lra. }
  rewrite X, !Cn in LAW by lia. replace (n - 1 - 1)%nat with (n - 2)%nat in LAW by lia.
  replace (rsum (map m (seq 1 0))) with 0 in LAW by reflexivity.
  assert (G : r <= at_ k <-> u * (m 0%nat + rsum (map m (seq 1 (n - 2))) - (m 0%nat + 0)) <= m 0%nat + rsum (map m (seq 1 k)) - (m 0%nat + 0)).
  { apply LAW; auto. intros c Hc. eapply Forall_forall in Fc; eauto. }
  rewrite G. split; intros Q; lra.
Qed.
Lemma radius_law p rho lo hi u r k : (0 < p)%nat -> 0 < lo < hi -> (forall r, 0 < r -> 0 < rho r) -> (k < n_grid - 1)%nat ->
  nfw_radius p rho lo hi u = Ok r ->
  (r <= radius_at lo hi k <-> u * mass_up_to p rho lo hi (n_grid - 2) <= mass_up_to p rho lo hi k).
Proof.
  intros Hp Hlo Hr Hk E.
  assert (N3 : (3 <= n_grid)%nat) by (unfold n_grid; apply Nat2Z.inj_le; rewrite Z2Nat.id; lia).
  pose proof (radius_law_gen n_grid p rho lo hi u r k N3 Hp Hlo Hr Hk) as G. cbn zeta in G. rewrite n_grid_INR in G. apply G. exact E.
Qed.

Lemma from_Mhost_eq C median g m z rmax2d ratio c : expanding C -> 0 <= z -> 0 < m -> 0 < c -> 0 < co_kpc C z ->
  exists h rhos, from_Mhost C median g m z rmax2d ratio (Some c) = Ok h /\ pn_rmax2d h = rmax2d /\ pn_a2k h = co_kpc C z /\
    describes_halo false m c (critical_kpc C z) rhos (pn_rs h * pn_a2k h) (pn_rmax3d h * pn_a2k h) /\
    pn_rcore h = ratio * pn_rs h /\ pn_x3dmax h = c /\ 0 < pn_rs h /\ 0 < pn_rmax3d h.
Proof.
  intros K Hz Hm Hc Hk. destruct (C55_nfw_parameters C m c z false K Hz Hm Hc) as (rhos & rs & r2 & E & P & D).
  unfold NFW_params_physical in E. unfold from_Mhost. destruct (nfwParam_physical C m c z (Some false)) as [[[a b] d]|e] eqn:Q; [|discriminate].
  cbn [bind fst snd] in *. injection E as <- <- <-. do 2 eexists. split; [reflexivity|]. cbn [pn_init pn_rmax2d pn_a2k pn_rs pn_rmax3d pn_rcore pn_x3dmax].
  assert (S1 : b * 1000 / co_kpc C z * co_kpc C z = b * 1000) by (field; lra).
  assert (S2 : d * 1000 / co_kpc C z * co_kpc C z = d * 1000) by (field; lra).
  rewrite S1, S2. pose proof (dh_rs _ _ _ _ _ _ _ D) as H1. pose proof (dh_conc _ _ _ _ _ _ _ D) as H2.
  assert (Hd : 0 < d * 1000) by (rewrite H2; nra).
  split; [reflexivity|]. split; [reflexivity|]. split; [exact D|]. split; [reflexivity|].
  split; [rewrite H2; field; repeat split; try lra; intros Z; subst; lra|]. split; apply Rdiv_lt_0_compat; lra.
Qed.

(** ** Theorems *)
(** The distribution built for a host of mass [m] and concentration [c] has the scale radius and r_200 (in arcsec at the lens)
    of the NFW halo of that mass and concentration, and a core of [ratio] scale radii, whatever the random state. *)
Theorem C114_host : forall C median g m z rmax2d ratio c, expanding C -> 0 <= z -> 0 < m -> 0 < c -> 0 < co_kpc C z ->
  exists h rhos, from_Mhost C median g m z rmax2d ratio (Some c) = Ok h /\
    describes_halo false m c (critical_kpc C z) rhos (pn_rs h * co_kpc C z) (pn_rmax3d h * co_kpc C z) /\
    pn_rcore h = ratio * pn_rs h /\ pn_rmax2d h = rmax2d /\ pn_a2k h = co_kpc C z.
Proof.
  intros C median g m z rmax2d ratio c K Hz Hm Hc Hk.
  destruct (from_Mhost_eq C median g m z rmax2d ratio c K Hz Hm Hc Hk) as (h & rhos & E & A & B & D & F & _ & _ & _).
  exists h, rhos. rewrite <- B at 1 2. auto.
Qed.
Example C114_host_nonvacuous : exists h rhos, from_Mhost demo (fun _ _ => 5) 0 (10 ^ 13) 0.5 3 0.25 (Some 4) = Ok h /\
    describes_halo false (10 ^ 13) 4 (critical_kpc demo 0.5) rhos (pn_rs h * 6) (pn_rmax3d h * 6) /\
    pn_rcore h = 0.25 * pn_rs h /\ pn_rmax2d h = 3 /\ pn_a2k h = 6.
Proof. apply (C114_host demo); try lra. exact demo_expanding. cbn. lra. Qed.

(** Two hosts of one mass at one redshift have the same r_200 whatever their concentrations (given or drawn) and random
    states; the more concentrated one has the smaller scale radius and core. *)
Theorem C114_concentration : forall C median g g' m z rmax2d ratio c c', expanding C -> 0 <= z -> 0 < m -> 0 < c < c' -> 0 < co_kpc C z -> 0 < ratio ->
  exists h h', from_Mhost C median g m z rmax2d ratio (Some c) = Ok h /\ from_Mhost C median g' m z rmax2d ratio (Some c') = Ok h' /\
    pn_rmax3d h = pn_rmax3d h' /\ pn_rs h' < pn_rs h /\ pn_rcore h' < pn_rcore h /\
    from_Mhost C median g' m z rmax2d ratio (Some c) = Ok h.
Proof.
  intros C median g g' m z rmax2d ratio c c' K Hz Hm Hc Hk Hr.
  destruct (from_Mhost_eq C median g m z rmax2d ratio c K Hz Hm ltac:(lra) Hk) as (h & rhos & E & A & B & D & F & G & P & P2).
  destruct (from_Mhost_eq C median g' m z rmax2d ratio c' K Hz Hm ltac:(lra) Hk) as (h' & rhos' & E' & A' & B' & D' & F' & G' & P' & P2').
  exists h, h'. split; [exact E|]. split; [exact E'|].
  assert (R : pn_rmax3d h = pn_rmax3d h').
  { unfold from_Mhost, nfwParam_physical in E, E'. cbn [bind fst snd] in E, E'. injection E as <-. injection E' as <-. reflexivity. }
  assert (Q : pn_rmax3d h = c * pn_rs h).
  { pose proof (dh_conc _ _ _ _ _ _ _ D) as X. rewrite B in X. apply (Rmult_eq_reg_r (co_kpc C z)); [|lra]. lra. }
  assert (Q' : pn_rmax3d h' = c' * pn_rs h').
  { pose proof (dh_conc _ _ _ _ _ _ _ D') as X. rewrite B' in X. apply (Rmult_eq_reg_r (co_kpc C z)); [|lra]. lra. }
  assert (L : pn_rs h' < pn_rs h) by (rewrite R, Q' in Q; nra).
  split; [exact R|]. split; [exact L|]. split; [rewrite F, F'; apply Rmult_lt_compat_l; assumption|exact E].
Qed.
Example C114_concentration_nonvacuous : expanding demo /\ 0 < co_kpc demo 0.5 /\ 0 < 4 < 8 /\ 0 < 0.25.
Proof. split; [exact demo_expanding|]. cbn. lra. Qed.

(** Without a concentration the host gets a random one, never below 1.2, log-normal about the median relation; two
    otherwise equal calls give different scale radii, but the same r_200. *)
Theorem C114_unspecified : forall C median g m z rmax2d ratio,
  exists c, 1.2 <= c /\ from_Mhost C median g m z rmax2d ratio None = from_Mhost C median g m z rmax2d ratio (Some c) /\
    (forall L, 1.2 <= L -> 0 < median m z -> (c <= L <-> ln (median m z) + 0.2 * g <= ln L)).
Proof.
  intros. exists (default_concentration median g m z). split; [apply Rmax_r|]. split; [reflexivity|].
  intros L HL Hm. unfold default_concentration. replace ((0.2 + 0.0 * z) * g) with (0.2 * g) by lra.
  split; intros Q.
  - pose proof (Rmax_l (exp (ln (median m z) + 0.2 * g)) 1.2) as M.
    destruct (Rle_or_lt (ln (median m z) + 0.2 * g) (ln L)) as [|W]; [assumption|]. apply exp_increasing in W. rewrite exp_ln in W by lra. lra.
  - apply Rmax_lub; [|lra]. rewrite <- (exp_ln L) by lra. destruct Q as [Q|Q]; [left; apply exp_increasing; exact Q|rewrite Q; lra].
Qed.
Theorem C114_unspecified_refuted : ~ (forall C median g g' m z rmax2d ratio h h', expanding C -> 0 <= z -> 0 < m -> 0 < co_kpc C z ->
  from_Mhost C median g m z rmax2d ratio None = Ok h -> from_Mhost C median g' m z rmax2d ratio None = Ok h' -> pn_rs h = pn_rs h').
Proof.
  intros H. set (f := fun _ _ : R => 4).
  assert (Ec : forall g, 0 <= g -> default_concentration f g (10 ^ 13) 0.5 = 4 * exp (0.2 * g)).
  { intros g Hg. unfold default_concentration, f. replace ((0.2 + 0.0 * 0.5) * g) with (0.2 * g) by lra.
    rewrite exp_plus, exp_ln by lra. apply Rmax_left. pose proof (exp_ineq1_le (0.2 * g)). nra. }
  set (c := default_concentration f 0 (10 ^ 13) 0.5). set (c' := default_concentration f 1 (10 ^ 13) 0.5).
  assert (C0 : c = 4) by (unfold c; rewrite Ec by lra; rewrite Rmult_0_r, exp_0; ring).
  assert (C1 : c < c').
  { rewrite C0. unfold c'. rewrite Ec by lra. pose proof (exp_ineq1_le (0.2 * 1)). lra. }
  assert (K : 0 < co_kpc demo 0.5) by (cbn; lra).
  destruct (C114_concentration demo f 0 1 (10 ^ 13) 0.5 3 0.25 c c' demo_expanding ltac:(lra) ltac:(lra) ltac:(lra) K ltac:(lra)) as (h & h' & E & E' & _ & L & _).
  pose proof (H demo f 0 1 (10 ^ 13) 0.5 3 0.25 h h' demo_expanding ltac:(lra) ltac:(lra) K E E'). lra.
Qed.
Example C114_unspecified_nonvacuous : exists c, 1.2 <= c /\ from_Mhost demo (fun _ _ => 4) 1 (10 ^ 13) 0.5 3 0.25 None = from_Mhost demo (fun _ _ => 4) 1 (10 ^ 13) 0.5 3 0.25 (Some c) /\ c <= 20.
Proof.
  destruct (C114_unspecified demo (fun _ _ => 4) 1 (10 ^ 13) 0.5 3 0.25) as (c & A & B & L). exists c. split; [exact A|]. split; [exact B|].
  apply L; try lra. assert (X : ln 4 + 1 <= ln 20); [|lra].
  replace 20 with (4 * 5) by ring. rewrite ln_mult by lra. assert (1 <= ln 5); [|lra].
  rewrite <- (ln_exp 1). destruct (Rle_or_lt (exp 1) 5) as [Q|Q]; [|pose proof exp_le_3; lra].
  destruct Q as [Q|Q]; [left; apply ln_increasing; [apply exp_pos|exact Q]|rewrite Q; lra].
Qed.

Lemma mapM_total {A B} (f : A -> result B) (P : A -> B -> Prop) l : (forall a, In a l -> exists b, f a = Ok b /\ P a b) ->
  exists bs, mapM f l = Ok bs /\ Forall2 P l bs.
Proof.
  induction l as [|a l IH]; intros H; [exists []; split; [reflexivity|constructor]|].
  destruct (H a (or_introl eq_refl)) as (b & Eb & Pb). destruct (IH (fun x I => H x (or_intror I))) as (bs & Ebs & F).
  exists (b :: bs). cbn [mapM]. rewrite Eb. cbn [bind]. rewrite Ebs. cbn [bind]. split; [reflexivity|constructor; assumption].
Qed.
Lemma Forall2_nth_seq {B} (P : nat -> B -> Prop) n s bs d : Forall2 P (seq s n) bs -> forall j, (j < n)%nat -> P (s + j)%nat (nth j bs d).
Proof.
  revert s bs. induction n as [|n IH]; intros s bs F j J; [lia|]. cbn [seq] in F. inversion F; subst. destruct j as [|j].
  - rewrite Nat.add_0_r. assumption.
  - cbn [nth]. replace (s + S j)%nat with (S s + j)%nat by lia. apply IH; [assumption|lia].
Qed.

Definition nfw_ok (h : projected_nfw) (cn2 cn3 : R -> R -> R -> R -> R) : Prop :=
  0 < pn_rmax2d h /\ 1e-3 * pn_rmax2d h < pn_rmax3d h /\ 0 < pn_a2k h /\
  (forall r, 0 < r -> 0 < cn2 r (pn_rs h) 1 (pn_rcore h)) /\ (forall r, 0 < r -> 0 < cn3 r (pn_rs h) 1 (pn_rcore h)).
Lemma positions_spec e h cn2 cn3 devs n : nfw_ok h cn2 cn3 -> re_kpc e (re_zlens e) = Ok (pn_a2k h) ->
  (forall j, (j < n)%nat -> 0 <= fst (fst (devs 0%nat j)) <= 1 /\ 0 <= snd (devs 0%nat j) <= 1) ->
  exists l, sub_positions e (pn_spatial cn2 cn3 h devs) n = Ok l /\ List.length l = n /\
    forall j, (j < n)%nat -> exists x y r2 r3, nth j l (0, 0, None) = (x, y, Some (r3 * pn_a2k h)) /\
      dist2 x y 0 0 <= pn_rmax2d h /\ 1e-3 * pn_rmax2d h <= r3 <= pn_rmax3d h /\
      dist2 x y 0 0 = r2 /\ 1e-3 * pn_rmax2d h <= r2 /\
      nfw_radius 2 (fun r => cn2 r (pn_rs h) 1 (pn_rcore h)) (1e-3 * pn_rmax2d h) (pn_rmax2d h) (fst (fst (devs 0%nat j))) = Ok r2 /\
      nfw_radius 3 (fun r => cn3 r (pn_rs h) 1 (pn_rcore h)) (1e-3 * pn_rmax2d h) (pn_rmax3d h) (snd (devs 0%nat j)) = Ok r3.
Proof.
  intros (H2 & H3 & Hk & P2 & P3) Ek U.
  set (rho2 := fun r => cn2 r (pn_rs h) 1 (pn_rcore h)) in *. set (rho3 := fun r => cn3 r (pn_rs h) 1 (pn_rcore h)) in *.
  set (k := pn_a2k h) in *.
  pose (Pt := fun (j : nat) (q : R * R * R) => exists r2 r3,
    nfw_radius 2 rho2 (1e-3 * pn_rmax2d h) (pn_rmax2d h) (fst (fst (devs 0%nat j))) = Ok r2 /\
    nfw_radius 3 rho3 (1e-3 * pn_rmax2d h) (pn_rmax3d h) (snd (devs 0%nat j)) = Ok r3 /\
    1e-3 * pn_rmax2d h <= r2 <= pn_rmax2d h /\ 1e-3 * pn_rmax2d h <= r3 <= pn_rmax3d h /\
    q = (r2 * k * cos (2 * PI * snd (fst (devs 0%nat j))), r2 * k * sin (2 * PI * snd (fst (devs 0%nat j))), r3 * k)).
  destruct (mapM_total (fun j => let '(u2, ut, u3) := devs 0%nat j in nfw_point (pn_rmax2d h) (pn_rmax3d h) k rho2 rho3 u2 ut u3) Pt (seq 0 n)) as (pts & E & F).
  { intros j J. apply in_seq in J. destruct (U j ltac:(lia)) as [U2 U3]. unfold Pt. destruct (devs 0%nat j) as [[u2 ut] u3]. cbn [fst snd] in *.
    destruct (nfw_radius_spec 2 rho2 (1e-3 * pn_rmax2d h) (pn_rmax2d h) ltac:(lia) ltac:(lra) P2) as (A & _).
    destruct (nfw_radius_spec 3 rho3 (1e-3 * pn_rmax2d h) (pn_rmax3d h) ltac:(lia) ltac:(lra) P3) as (B & _).
    destruct (A u2 U2) as (r2 & E2 & B2). destruct (B u3 U3) as (r3 & E3 & B3).
    unfold nfw_point. rewrite E2. cbn [bind]. rewrite E3. cbn [bind]. eexists. split; [reflexivity|]. exists r2, r3. auto 10. }
  assert (L : List.length pts = n) by (pose proof (mapM_length _ _ _ E) as X; rewrite seq_length in X; exact X).
  pose (g := fun p : R * R * R => (fst (fst p) * / k, snd (fst p) * / k, Some (snd p))).
  assert (EQ : sub_positions e (pn_spatial cn2 cn3 h devs) n = Ok (map g pts)).
  { unfold sub_positions, pn_spatial. cbn [sp_what sp_devs]. fold rho2 rho3 k. rewrite E. cbn [bind].
    destruct pts; [reflexivity|]. rewrite Ek. reflexivity. }
  exists (map g pts). split; [exact EQ|]. split; [rewrite map_length; exact L|]. intros j J.
  pose proof (Forall2_nth_seq Pt n 0 pts (0, 0, 0) F j J) as (r2 & r3 & E2 & E3 & B2 & B3 & Eq).
  rewrite (nth_indep _ _ (g (0, 0, 0))) by (rewrite map_length; lia). rewrite map_nth, Eq. unfold g. cbn [fst snd Nat.add] in *.
  exists (r2 * k * cos (2 * PI * snd (fst (devs 0%nat j))) * / k), (r2 * k * sin (2 * PI * snd (fst (devs 0%nat j))) * / k), r2, r3.
  set (th := 2 * PI * snd (fst (devs 0%nat j))).
  assert (D : dist2 (r2 * k * cos th * / k) (r2 * k * sin th * / k) 0 0 = r2).
  { unfold dist2. rewrite !Rminus_0_r. replace (r2 * k * cos th * / k) with (r2 * cos th) by (field; lra).
    replace (r2 * k * sin th * / k) with (r2 * sin th) by (field; lra). rewrite !(Rpow_mult_distr _ _ 2), <- Rmult_plus_distr_l.
    replace (cos th ^ 2 + sin th ^ 2) with 1. 2:{ pose proof (sin2_cos2 th) as Q. unfold Rsqr in Q. simpl. lra. }
    rewrite Rmult_1_r. apply sqrt_pow2. lra. }
  rewrite D. repeat split; auto; lra.
Qed.

(** Every subhalo rendered around a host is inside the rendering disc on the sky (arcsec) and inside the host: the host's mass
    spread over the sphere through the subhalo has at least 200 times the critical density. *)
Theorem C114_inside : forall C median g m rmax2d ratio c e cn2 cn3 devs n h, expanding C -> 0 <= re_zlens e -> 0 < m -> 0 < c ->
  re_kpc e (re_zlens e) = Ok (co_kpc C (re_zlens e)) -> 0 < co_kpc C (re_zlens e) ->
  from_Mhost C median g m (re_zlens e) rmax2d ratio (Some c) = Ok h ->
  0 < rmax2d -> 1e-3 * rmax2d < pn_rmax3d h ->
  (forall r, 0 < r -> 0 < cn2 r (pn_rs h) 1 (pn_rcore h)) -> (forall r, 0 < r -> 0 < cn3 r (pn_rs h) 1 (pn_rcore h)) ->
  (forall j, (j < n)%nat -> 0 <= fst (fst (devs 0%nat j)) <= 1 /\ 0 <= snd (devs 0%nat j) <= 1) ->
  exists l, sub_positions e (pn_spatial cn2 cn3 h devs) n = Ok l /\ List.length l = n /\
    forall x y r, In (x, y, r) l -> dist2 x y 0 0 <= rmax2d /\
      exists r3d, r = Some r3d /\ 0 < r3d /\ 200 * critical_kpc C (re_zlens e) <= mean_density m r3d.
Proof.
  intros C median g m rmax2d ratio c e cn2 cn3 devs n h K Hz Hm Hc Ek Hk Eh Hr Hr3 P2 P3 U.
  destruct (from_Mhost_eq C median g m (re_zlens e) rmax2d ratio c K Hz Hm Hc Hk) as (h' & rhos & E & A & B & D & F & G & P & P').
  rewrite Eh in E. injection E as <-. rewrite <- A in Hr, Hr3. rewrite <- B in Ek, Hk.
  destruct (positions_spec e h cn2 cn3 devs n (conj Hr (conj Hr3 (conj Hk (conj P2 P3)))) Ek U) as (l & El & L & Q).
  exists l. split; [exact El|]. split; [exact L|]. intros x y r I.
  destruct (In_nth l (x, y, r) (0, 0, None) I) as (j & J & Ej). rewrite L in J. destruct (Q j J) as (x' & y' & r2 & r3 & E' & D2 & D3 & _).
  rewrite Ej in E'. injection E' as <- <- ->. split; [lra|]. exists (r3 * pn_a2k h).
  assert (R3 : 0 < r3) by lra. assert (0 < r3 * pn_a2k h) by (apply Rmult_lt_0_compat; assumption). split; [reflexivity|]. split; [assumption|].
  rewrite <- (dh_mean _ _ _ _ _ _ _ D). unfold mean_density, Rdiv. apply Rmult_le_compat_l; [lra|]. pose proof PI_RGT_0.
  apply Rinv_le_contravar.
  - apply Rmult_lt_0_compat; [lra|apply pow_lt; assumption].
  - apply Rmult_le_compat_l; [lra|]. apply pow_incr. split; [lra|]. apply Rmult_le_compat_r; lra.
Qed.

(** Where they are: the three-dimensional radius is below the k-th tabulated radius iff the deviate is at most the fraction of
    the (cored NFW) mass tabulated below it; the projected radius likewise with the projected mass. *)
Theorem C114_radial_law : forall h cn2 cn3 e devs n, nfw_ok h cn2 cn3 -> re_kpc e (re_zlens e) = Ok (pn_a2k h) ->
  (forall j, (j < n)%nat -> 0 <= fst (fst (devs 0%nat j)) <= 1 /\ 0 <= snd (devs 0%nat j) <= 1) ->
  let rho2 r := cn2 r (pn_rs h) 1 (pn_rcore h) in
  let rho3 r := cn3 r (pn_rs h) 1 (pn_rcore h) in
  let lo := 1e-3 * pn_rmax2d h in
  let last := Z.to_nat 19998 in
  exists l, sub_positions e (pn_spatial cn2 cn3 h devs) n = Ok l /\
    forall j k, (j < n)%nat -> (Z.of_nat k < 19999)%Z -> exists x y r3d, nth j l (0, 0, None) = (x, y, Some r3d) /\
      (dist2 x y 0 0 <= radius_at lo (pn_rmax2d h) k <->
         fst (fst (devs 0%nat j)) * mass_up_to 2 rho2 lo (pn_rmax2d h) last <= mass_up_to 2 rho2 lo (pn_rmax2d h) k) /\
      (r3d <= radius_at lo (pn_rmax3d h) k * pn_a2k h <->
         snd (devs 0%nat j) * mass_up_to 3 rho3 lo (pn_rmax3d h) last <= mass_up_to 3 rho3 lo (pn_rmax3d h) k).
Proof.
  intros h cn2 cn3 e devs n OK Ek U rho2 rho3 lo last. destruct (positions_spec e h cn2 cn3 devs n OK Ek U) as (l & El & L & Q).
  exists l. split; [exact El|]. intros j k J Kk. destruct (Q j J) as (x & y & r2 & r3 & E & _ & B3 & D & B2 & E2 & E3).
  destruct OK as (H2 & H3 & Hk & P2 & P3). exists x, y, (r3 * pn_a2k h). split; [exact E|].
  assert (NZ : Z.of_nat n_grid = 20000%Z) by (unfold n_grid; rewrite Z2Nat.id; lia).
  assert (NK : (k < n_grid - 1)%nat) by lia.
  assert (NE : last = (n_grid - 2)%nat) by (unfold last; lia).
  rewrite NE. split.
  - rewrite D. apply radius_law; try assumption; try lia; unfold lo; lra.
  - rewrite <- (radius_law 3 rho3 lo (pn_rmax3d h) (snd (devs 0%nat j)) r3 k); try assumption; try lia; try (unfold lo; lra).
    split; intros W; [apply (Rmult_le_reg_r (pn_a2k h)); assumption|apply Rmult_le_compat_r; lra].
Qed.

(** an environment and host for the examples *)
Definition demo_env : renv := {| re_zlens := 0.5; re_zsource := 2; re_cone := 6; re_kpc := fun _ => Ok 6; re_scale := fun _ => 1; re_area := fun _ => 1;
  re_sigma_crit_mass := fun _ _ => 1; re_DC := fun _ => 1; re_twohalo := fun _ _ _ => 1; re_r200 := fun _ => 1; re_quad := fun _ _ _ => 0 |}.
Definition flat (r rs rho0 rc : R) : R := rho0.
Definition half (i j : nat) : R * R * R := (0.5, 0.25, 0.5).
Lemma demo_host : exists h, from_Mhost demo (fun _ _ => 5) 0 (10 ^ 13) 0.5 3 0.25 (Some 4) = Ok h /\ 1e-3 * 3 < pn_rmax3d h /\ pn_rmax2d h = 3 /\ pn_a2k h = 6.
Proof.
  destruct C114_host_nonvacuous as (h & rhos & E & D & _ & A & B). exists h. split; [exact E|]. split; [|auto].
  destruct (Rle_or_lt (pn_rmax3d h) (1e-3 * 3)) as [Q|Q]; [exfalso|exact Q].
  pose proof (dh_mean _ _ _ _ _ _ _ D) as M. pose proof (dh_conc _ _ _ _ _ _ _ D) as X. pose proof (dh_rs _ _ _ _ _ _ _ D) as Y.
  set (r := pn_rmax3d h * 6) in *. assert (R0 : 0 < r) by (rewrite X; lra). assert (R1 : r <= 1) by (unfold r; lra).
  assert (R3 : 0 < r ^ 3 <= 1). { split; [apply pow_lt; exact R0|]. rewrite <- (pow1 3). apply pow_incr. lra. }
  assert (EQ : 10 ^ 13 = 200 * critical_kpc demo 0.5 * (4 / 3 * PI * r ^ 3)). { rewrite <- M. field. split; [apply Rgt_not_eq; lra|apply PI_neq0]. }
  assert (CR : critical_kpc demo 0.5 <= 1000) by (unfold critical_kpc; cbn [co_rhoc co_E co_h demo]; lra).
  assert (CP : 0 <= critical_kpc demo 0.5) by (unfold critical_kpc; cbn [co_rhoc co_E co_h demo]; lra).
  pose proof PI_4 as P4. pose proof PI_RGT_0 as P0.
  assert (V : 0 <= 4 / 3 * PI * r ^ 3 <= 6) by nra.
  assert (200 * critical_kpc demo 0.5 * (4 / 3 * PI * r ^ 3) <= 200000 * 6) by (apply Rmult_le_compat; lra).
  lra.
Qed.
Example C114_inside_nonvacuous : exists h l, from_Mhost demo (fun _ _ => 5) 0 (10 ^ 13) 0.5 3 0.25 (Some 4) = Ok h /\
  sub_positions demo_env (pn_spatial flat flat h half) 2 = Ok l /\ List.length l = 2%nat /\
  forall x y r, In (x, y, r) l -> dist2 x y 0 0 <= 3 /\ exists r3d, r = Some r3d /\ 0 < r3d /\ 200 * critical_kpc demo 0.5 <= mean_density (10 ^ 13) r3d.
Proof.
  destruct demo_host as (h & E & B & A & K). exists h.
  destruct (C114_inside demo (fun _ _ => 5) 0 (10 ^ 13) 3 0.25 4 demo_env flat flat half 2 h) as (l & El & L & Q); try exact E; try lra; try reflexivity.
  - exact demo_expanding.
  - cbn. lra.
  - cbn. lra.
  - intros. unfold flat. lra.
  - intros. unfold flat. lra.
  - intros. cbn. lra.
  - exists l. auto.
Qed.
Example C114_radial_law_nonvacuous : exists h, nfw_ok h flat flat /\ re_kpc demo_env (re_zlens demo_env) = Ok (pn_a2k h) /\
  mass_up_to 3 (fun _ => 1) (1e-3 * pn_rmax2d h) (pn_rmax3d h) 0 < mass_up_to 3 (fun _ => 1) (1e-3 * pn_rmax2d h) (pn_rmax3d h) 1.
Proof.
  destruct demo_host as (h & E & B & A & K). exists h. unfold nfw_ok. rewrite A, K.
  split; [|split; [reflexivity|]].
  - repeat split; try lra; intros; unfold flat; lra.
  - unfold mass_up_to, shell_mass, radius_at. cbn [seq map rsum INR]. set (s := (pn_rmax3d h - 1e-3 * 3) / 19999).
    assert (S0 : 0 < s) by (apply Rdiv_lt_0_compat; lra).
    assert ((1e-3 * 3 + 1 * s) ^ 3 < (1e-3 * 3 + (1 + 1) * s) ^ 3) by (apply pow_lt_incr; [lra|lia]). lra.
Qed.

(** Which class places a population, and from what: subhalos are placed by Uniform, LensConeUniform (from their own keywords)
    or ProjectedNFW (from the host); a class of the user is used for subhalos only under one of the two uniform names,
    otherwise from_Mhost of the base class raises.  Other populations take the class as it is. *)
Theorem C114_choice : forall C median g population k w o,
  spatial_model C median g population k w = Ok o <->
  (exists r, k = KUniform /\ w = WUniform r /\ o = OUniform r) \/
  (exists a, k = KCone /\ w = WCone a /\ o = OCone a) \/
  (population = "SUBHALOS" /\ k = KNfw /\ exists m z rmax2d ratio c h, w = WHost m z rmax2d ratio c /\
     from_Mhost C median g m z rmax2d ratio c = Ok h /\ o = ONfw h) \/
  (population <> "SUBHALOS" /\ k = KNfw /\ exists rmax2d rs rcore r200 a2k, w = WNfw rmax2d rs rcore r200 a2k /\
     o = ONfw (pn_init rmax2d rs rcore r200 a2k)) \/
  (exists n, k = KCustom n /\ o = OCustom /\ (population = "SUBHALOS" -> n = "UNIFORM" \/ n = "LENS_CONE_UNIFORM")).
Proof.
  intros C median g population k w o. unfold spatial_model.
  destruct (String.eqb population "SUBHALOS") eqn:P.
  - apply String.eqb_eq in P. destruct k as [| | |n]; cbn [sclass_name].
    + cbn [String.eqb orb Ascii.eqb Bool.eqb]. split.
      * destruct w; cbn; try discriminate. intros E. injection E as <-. left. eauto.
      * intros [(r & _ & -> & ->)|[(a & Z & _)|[(_ & Z & _)|[(_ & Z & _)|(n & Z & _)]]]]; try discriminate. reflexivity.
    + cbn [String.eqb orb Ascii.eqb Bool.eqb]. split.
      * destruct w; cbn; try discriminate. intros E. injection E as <-. right. left. eauto.
      * intros [(r & Z & _)|[(a & _ & -> & ->)|[(_ & Z & _)|[(_ & Z & _)|(n & Z & _)]]]]; try discriminate. reflexivity.
    + cbn [String.eqb orb Ascii.eqb Bool.eqb call_from_Mhost]. split.
      * destruct w as [| |m z rmax2d ratio c|]; try discriminate. destruct (from_Mhost C median g m z rmax2d ratio c) as [h|] eqn:E; [|discriminate].
        cbn [bind]. intros X. injection X as <-. right. right. left. split; [exact P|]. split; [reflexivity|]. exists m, z, rmax2d, ratio, c, h. auto.
      * intros [(r & Z & _)|[(a & Z & _)|[(_ & _ & m & z & rmax2d & ratio & c & h & -> & E & ->)|[(Z & _)|(n & Z & _)]]]]; try discriminate; try contradiction.
        rewrite E. reflexivity.
    + destruct (orb (String.eqb n "UNIFORM") (String.eqb n "LENS_CONE_UNIFORM")) eqn:N.
      * apply orb_true_iff in N. rewrite !String.eqb_eq in N. cbn [call_init]. split.
        -- intros E. injection E as <-. do 4 right. exists n. auto.
        -- intros [(r & Z & _)|[(a & Z & _)|[(_ & Z & _)|[(_ & Z & _)|(n' & _ & -> & _)]]]]; try discriminate. reflexivity.
      * apply orb_false_iff in N. rewrite !String.eqb_neq in N. cbn [call_from_Mhost]. split; [discriminate|].
        intros [(r & Z & _)|[(a & Z & _)|[(_ & Z & _)|[(_ & Z & _)|(n' & Z & _ & F)]]]]; try discriminate. injection Z as <-. specialize (F P). tauto.
  - apply String.eqb_neq in P. destruct k as [| | |n]; cbn [call_init].
    + split.
      * destruct w; cbn; try discriminate. intros E. injection E as <-. left. eauto.
      * intros [(r & _ & -> & ->)|[(a & Z & _)|[(_ & Z & _)|[(_ & Z & _)|(n & Z & _)]]]]; try discriminate. reflexivity.
    + split.
      * destruct w; cbn; try discriminate. intros E. injection E as <-. right. left. eauto.
      * intros [(r & Z & _)|[(a & _ & -> & ->)|[(_ & Z & _)|[(_ & Z & _)|(n & Z & _)]]]]; try discriminate. reflexivity.
    + split.
      * destruct w; cbn; try discriminate. intros E. injection E as <-. do 3 right. left. split; [exact P|]. split; [reflexivity|]. eauto 10.
      * intros [(r & Z & _)|[(a & Z & _)|[(Z & _)|[(_ & _ & r1 & r2 & r3 & r4 & r5 & -> & ->)|(n & Z & _)]]]]; try discriminate; try contradiction. reflexivity.
    + split.
      * intros E. injection E as <-. do 4 right. exists n. split; [reflexivity|]. split; [reflexivity|]. intros; contradiction.
      * intros [(r & Z & _)|[(a & Z & _)|[(Z & _)|[(_ & Z & _)|(n' & _ & -> & _)]]]]; try discriminate; try contradiction. reflexivity.
Qed.
Example C114_choice_nonvacuous : exists h, spatial_model demo (fun _ _ => 5) 0 "SUBHALOS" KNfw (WHost (10 ^ 13) 0.5 3 0.25 (Some 4)) = Ok (ONfw h) /\
  spatial_model demo (fun _ _ => 5) 0 "SUBHALOS" (KCustom "RING") (WUniform 3) = Err EException /\
  spatial_model demo (fun _ _ => 5) 0 "LINE_OF_SIGHT" KCone (WCone 6) = Ok (OCone 6).
Proof. eexists. split; [reflexivity|]. split; reflexivity. Qed.

(** A subhalo population placed without a host (the uniform classes) has no three-dimensional radius at all; a population of
    the line of sight placed around a host raises for every number of objects, even none. *)
Theorem C114_three_dimensional : forall cn2 cn3 devs e o n sp, as_spatial cn2 cn3 devs o = Ok sp ->
  (forall l, (exists r, o = OUniform r) \/ (exists a, o = OCone a) -> sub_positions e sp n = Ok l -> forall p, In p l -> snd p = None) /\
  (forall h l, o = ONfw h -> sub_positions e sp n = Ok l -> forall p, In p l -> exists r, snd p = Some r) /\
  (forall h z i, o = ONfw h -> render_xy e sp i n z = Err EValueError).
Proof.
  intros cn2 cn3 devs e o n sp Es. split; [|split].
  - intros l Ho E p I.
    assert (X : exists q, render_xy e sp 0 n (re_zlens e) = Ok q /\ l = map (fun q => (fst q, snd q, None)) q).
    { unfold sub_positions in E. destruct Ho as [[r ->]|[a ->]]; cbn in Es; injection Es as <-; cbn [sp_what] in E;
        match type of E with context [render_xy ?a ?b ?c ?d ?f] => destruct (render_xy a b c d f) as [q|] eqn:Q end; try discriminate;
        cbn [bind] in E; injection E as <-; eauto. }
    destruct X as (q & _ & ->). apply in_map_iff in I. destruct I as (y & <- & _). reflexivity.
  - intros h l -> E p I. cbn in Es. injection Es as <-. unfold sub_positions, pn_spatial in E. cbn [sp_what sp_devs] in E.
    match type of E with bind ?m _ = _ => destruct m as [pts|] end; [|discriminate]. cbn [bind] in E. destruct pts as [|a t].
    + injection E as <-. destruct I.
    + destruct (re_kpc e (re_zlens e)) as [r|]; [|discriminate]. cbn [bind] in E. injection E as <-.
      apply (in_map_iff (fun p => (fst (fst p) * / r, snd (fst p) * / r, Some (snd p))) (a :: t)) in I. destruct I as (y & <- & _). exists (snd y). reflexivity.
  - intros h0 z i ->. cbn in Es. injection Es as <-. reflexivity.
Qed.
Example C114_three_dimensional_nonvacuous : exists sp l, as_spatial flat flat half (OUniform 3) = Ok sp /\ sub_positions demo_env sp 2 = Ok l /\ List.length l = 2%nat.
Proof. eexists. eexists. split; [reflexivity|]. split; reflexivity. Qed.

Print Assumptions C114_host.
Print Assumptions C114_concentration.
Print Assumptions C114_unspecified.
Print Assumptions C114_unspecified_refuted.
Print Assumptions C114_inside.
Print Assumptions C114_radial_law.
Print Assumptions C114_choice.
Print Assumptions C114_three_dimensional.
