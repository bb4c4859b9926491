From Coquelicot Require Import Coquelicot.
From Verif Require Import Prelude MassFnModel MassFnProofs Interp InfallModel InfallSpec.
Local Open Scope string_scope.
Local Open Scope R_scope.
Local Open Scope list_scope.

Lemma s2pi : 0 < sqrt (2 * PI).
Proof. apply sqrt_lt_R0. pose proof PI_RGT_0. lra. Qed.
Lemma gauss_pos t : 0 < gauss t.
Proof. unfold gauss. apply Rdiv_lt_0_compat; [apply exp_pos|apply s2pi]. Qed.
Lemma gauss_cont t : continuous gauss t.
Proof. unfold gauss. apply (ex_derive_continuous (V := R_NormedModule)). auto_derive. auto. Qed.
Lemma gauss_ex a b : ex_RInt gauss a b.
Proof. apply (ex_RInt_continuous (V := R_CompleteNormedModule)). intros. apply gauss_cont. Qed.
Lemma ndtr_diff a b : ndtr b - ndtr a = RInt gauss a b.
Proof.
  unfold ndtr. pose proof (RInt_Chasles gauss 0 a b (gauss_ex _ _) (gauss_ex _ _)) as H. change (RInt gauss 0 a + RInt gauss a b = RInt gauss 0 b) in H. lra.
Qed.
Lemma ndtr_lt a b : a < b -> ndtr a < ndtr b.
Proof.
  intros H. pose proof (ndtr_diff a b) as E. assert (0 < RInt gauss a b); [|lra].
  apply RInt_gt_0; auto; intros; [apply gauss_pos|apply gauss_cont].
Qed.
Lemma ndtr_le a b : a <= b -> ndtr a <= ndtr b.
Proof. intros [H | ->]; [left; apply ndtr_lt; auto|lra]. Qed.
Lemma ndtr_le_iff a b : ndtr a <= ndtr b <-> a <= b.
Proof. split; [|apply ndtr_le]. intros H. destruct (Rle_lt_dec a b); auto. pose proof (ndtr_lt _ _ r). lra. Qed.
Lemma ndtr_cont x : continuous ndtr x.
Proof.
  apply (ex_derive_continuous (V := R_NormedModule)). exists (gauss x). unfold ndtr.
  replace (gauss x) with (0 + gauss x) by ring. apply @is_derive_plus. apply @is_derive_const.
  apply (is_derive_RInt gauss (RInt gauss 0) 0 x).
  - exists (mkposreal 1 Rlt_0_1). intros y _. apply (RInt_correct (V := R_CompleteNormedModule)), gauss_ex.
  - apply gauss_cont.
Qed.

Lemma ndtri_range a b u : ndtr a <= u <= ndtr b -> a <= ndtri u <= b.
Proof.
  intros [H1 H2]. unfold ndtri. destruct (Lub_Rbar_correct (fun x => ndtr x <= u)) as [L1 L2].
  assert (U : Rbar_le (Lub_Rbar (fun x => ndtr x <= u)) b). { apply L2. intros x Hx. cbn. apply ndtr_le_iff. lra. }
  pose proof (L1 a H1) as G. destruct (Lub_Rbar _); cbn in *; tauto.
Qed.
Lemma ndtri_le_iff a b u t : ndtr a <= u <= ndtr b -> a <= t <= b -> (ndtri u <= t <-> u <= ndtr t).
Proof.
  intros Hu Ht. pose proof (ndtri_range _ _ _ Hu) as RG. unfold ndtri in *.
  destruct (Lub_Rbar_correct (fun x => ndtr x <= u)) as [L1 L2].
  assert (U : Rbar_le (Lub_Rbar (fun x => ndtr x <= u)) b). { apply L2. intros x Hx. cbn. apply ndtr_le_iff. lra. }
  pose proof (L1 a (proj1 Hu)) as G. destruct (Lub_Rbar (fun x => ndtr x <= u)) as [l| |] eqn:E; cbn in *; try tauto.
  split; intros H.
  - destruct (Rle_lt_dec u (ndtr t)) as [|C]; auto. exfalso.
    assert (EPS : 0 < u - ndtr t) by lra.
    destruct (proj2 (continuity_pt_filterlim ndtr t) (ndtr_cont t) (u - ndtr t) EPS) as (d & D1 & D2).
    specialize (D2 (t + d / 2)). unfold dist in D2; cbn in D2. unfold R_dist in D2.
    assert (N : Rabs (ndtr (t + d / 2) - ndtr t) < u - ndtr t).
    { apply D2. split. split. exact I. lra. replace (t + d / 2 - t) with (d / 2) by ring. rewrite Rabs_pos_eq; lra. }
    rewrite Rabs_pos_eq in N by (pose proof (ndtr_le t (t + d / 2)); lra).
    pose proof (L1 (t + d / 2)). cbn in H0. lra.
  - apply (L2 t). intros x Hx. cbn. apply ndtr_le_iff. lra.
Qed.

Lemma normal_mass_ndtr mu s a b : 0 < s -> normal_mass mu s a b = ndtr ((b - mu) / s) - ndtr ((a - mu) / s).
Proof.
  intros S. rewrite ndtr_diff. unfold normal_mass.
  pose proof (RInt_comp_lin gauss (/ s) (- mu / s) a b) as H.
  replace (/ s * a + - mu / s) with ((a - mu) / s) in H by (field; lra).
  replace (/ s * b + - mu / s) with ((b - mu) / s) in H by (field; lra).
  rewrite <- H by apply gauss_ex. apply RInt_ext. intros x _. unfold scal; cbn; unfold mult; cbn. unfold normal_density, gauss.
  pose proof s2pi. replace (/ s * x + - mu / s) with ((x - mu) / s) by (field; lra). field. lra.
Qed.
Lemma div_le_iff x y s : 0 < s -> (x / s <= y / s <-> x <= y).
Proof. intros. pose proof (Rinv_0_lt_compat s H). unfold Rdiv. split; intros; nra. Qed.
Lemma truncated_normal_spec mu s v : 0 < s -> 0 <= v <= 1 -> truncated_quantile mu s 15 v (truncated_normal mu s v).
Proof.
  intros S V. unfold truncated_quantile, truncated_normal. rewrite !normal_mass_ndtr by auto.
  set (a := (0 - mu) / s). set (b := (15 - mu) / s).
  assert (AB : a < b). { unfold a, b, Rdiv. apply Rmult_lt_compat_r; [now apply Rinv_0_lt_compat|lra]. }
  pose proof (ndtr_lt a b AB) as L. set (u := ndtr a + (ndtr b - ndtr a) * v).
  assert (U : ndtr a <= u <= ndtr b) by (unfold u; split; nra).
  pose proof (ndtri_range a b u U) as G.
  assert (EA : mu + s * a = 0) by (unfold a; field; lra). assert (EB : mu + s * b = 15) by (unfold b; field; lra).
  split. { split; nra. }
  intros t Ht. rewrite normal_mass_ndtr by auto. fold a. set (c := (t - mu) / s).
  assert (C : a <= c <= b). { unfold a, b, c. split; apply div_le_iff; lra. }
  assert (EC : mu + s * c = t) by (unfold c; field; lra).
  transitivity (ndtri u <= c). { rewrite <- EC. split; intros; nra. }
  rewrite (ndtri_le_iff a b u c U C). unfold u. split; lra.
Qed.

Lemma ratio_limited m_host m_sub : 0 < m_host -> 0 < m_sub ->
  exists L, limited (1 / 2) 5 (decades m_host m_sub) L /\ - log10 (mass_ratio_in_bounds (m_sub / m_host)) = L.
Proof.
  intros H M. exists (- log10 (mass_ratio_in_bounds (m_sub / m_host))). split; [|reflexivity].
  assert (Q : 0 < m_sub / m_host) by (apply Rdiv_lt_0_compat; auto).
  assert (D : decades m_host m_sub = - log10 (m_sub / m_host)).
  { rewrite log10_div by auto. unfold decades, log10. pose proof ln10_pos. field. lra. }
  rewrite D. set (q := m_sub / m_host) in *.
  assert (P5 : log10 (pow10 (-5)) = -5) by apply log10_pow10. assert (PH : log10 (pow10 (-0.5)) = -0.5) by apply log10_pow10.
  pose proof (pow10_lt (-5) (-0.5) ltac:(lra)) as LT. pose proof (pow10_pos (-5)). pose proof (pow10_pos (-0.5)).
  unfold mass_ratio_in_bounds. split; [|split]; intros C.
  - assert (pow10 (-0.5) < q). { destruct (Rle_lt_dec q (pow10 (-0.5))) as [X|X]; auto. exfalso.
      destruct X as [X | X]; [pose proof (log10_lt q (pow10 (-0.5)) Q X)|rewrite X in C]; lra. }
    rewrite Rmax_right, Rmin_left by lra. lra.
  - assert (q <= pow10 (-0.5)). { destruct (Rle_lt_dec q (pow10 (-0.5))) as [X|X]; auto. exfalso. pose proof (log10_lt _ _ (pow10_pos (-0.5)) X). lra. }
    assert (pow10 (-5) <= q). { destruct (Rle_lt_dec (pow10 (-5)) q) as [X|X]; auto. exfalso. pose proof (log10_lt _ _ Q X). lra. }
    rewrite Rmax_right, Rmin_right by lra. lra.
  - assert (q < pow10 (-5)). { destruct (Rle_lt_dec (pow10 (-5)) q) as [X|X]; auto. exfalso.
      destruct X as [X | X]; [pose proof (log10_lt _ _ (pow10_pos (-5)) X)|rewrite <- X in C]; lra. }
    rewrite Rmax_left, Rmin_right by lra. lra.
Qed.

(** weakly increasing abscissae with a strict first step: linear interpolation stays within the ordinates *)
Lemma interp_weak_bounds t : forall x0 y0 x lo hi, x0 < x -> x <= fst (last t (x0, y0)) ->
  lo <= y0 <= hi -> (forall a b, In (a, b) t -> lo <= b <= hi) -> lo <= interp_from x0 y0 t x <= hi.
Proof.
  induction t as [|[x1 y1] t IH]; intros x0 y0 x lo hi Hx Hl Hy Ht. simpl; auto.
  cbn [interp_from]. rewrite last_cons_irrel in Hl.
  assert (Hy1 : lo <= y1 <= hi) by (apply (Ht x1 y1); left; reflexivity).
  destruct (Rleb x x1) eqn:E; [apply Rleb_true in E|apply Rleb_false in E].
  - set (w := (x - x0) / (x1 - x0)).
    assert (0 <= w) by (apply Rmult_le_pos; [lra|left; apply Rinv_0_lt_compat; lra]).
    assert (w <= 1). { apply Rmult_le_reg_r with (x1 - x0); [lra|]. unfold w, Rdiv. rewrite Rmult_assoc, Rinv_l by lra. lra. }
    replace (y0 + (y1 - y0) / (x1 - x0) * (x - x0)) with ((1 - w) * y0 + w * y1) by (unfold w; field; lra).
    split; nra.
  - apply IH; auto. intros; apply (Ht a b); right; auto.
Qed.

(** dictionaries *)
Lemma kget_kset_eq k v d : kget k (kset k v d) = Some v.
Proof.
  induction d as [|[k' v'] t IH]; cbn; [now rewrite String.eqb_refl|].
  destruct (String.eqb k' k) eqn:E; cbn; [now rewrite String.eqb_refl|]. now rewrite E.
Qed.
Lemma kget_kset_ne k k2 v d : k2 <> k -> kget k2 (kset k v d) = kget k2 d.
Proof.
  intros N. assert (NE : String.eqb k k2 = false) by (apply String.eqb_neq; congruence).
  induction d as [|[k' v'] t IH]; cbn; [now rewrite NE|].
  destruct (String.eqb k' k) eqn:E; cbn; [|now rewrite IH]. apply String.eqb_eq in E. subst k'. now rewrite NE.
Qed.
Lemma kdel_cons k k' v d : kdel k ((k', v) :: d) = if String.eqb k' k then kdel k d else (k', v) :: kdel k d.
Proof. unfold kdel. cbn. destruct (String.eqb k' k); reflexivity. Qed.
Lemma kget_kdel_eq k d : kget k (kdel k d) = None.
Proof. induction d as [|[k' v'] t IH]; auto. rewrite kdel_cons. destruct (String.eqb k' k) eqn:E; auto. cbn [kget]. now rewrite E. Qed.
Lemma kget_kdel_ne k k2 d : k2 <> k -> kget k2 (kdel k d) = kget k2 d.
Proof.
  intros N. induction d as [|[k' v'] t IH]; auto. rewrite kdel_cons. cbn [kget]. destruct (String.eqb k' k) eqn:E; cbn [kget]; rewrite IH; auto.
  apply String.eqb_eq in E. subst. assert (String.eqb k k2 = false) as -> by (apply String.eqb_neq; congruence). auto.
Qed.
Lemma kset_same k v d : kget k d = Some v -> kset k v d = d.
Proof.
  induction d as [|[k' v'] t IH]; cbn; [discriminate|]. destruct (String.eqb k' k) eqn:E.
  - apply String.eqb_eq in E. intros H. injection H as ->. now subst.
  - intros H. now rewrite IH.
Qed.
Lemma convert_none d : kget "m_host" d = None -> convert_host d = d.
Proof. unfold convert_host. now intros ->. Qed.
Lemma convert_m_host d : kget "m_host" (convert_host d) = None.
Proof. unfold convert_host. destruct (kget "m_host" d) eqn:E; auto. apply kget_kdel_eq. Qed.
Lemma convert_log d : kget "log_m_host" (convert_host d) = match kget "m_host" d with Some m => Some (log10 m) | None => kget "log_m_host" d end.
Proof.
  unfold convert_host. destruct (kget "m_host" d) eqn:E; auto. rewrite kget_kdel_ne by discriminate. apply kget_kset_eq.
Qed.
Lemma convert_other k d : k <> "m_host" -> k <> "log_m_host" -> kget k (convert_host d) = kget k d.
Proof. intros. unfold convert_host. destruct (kget "m_host" d); auto. rewrite kget_kdel_ne by auto. now apply kget_kset_ne. Qed.
Lemma default_other k d : k <> "log_m_host" -> kget k (with_default d) = kget k d.
Proof. intros. unfold with_default. destruct (kget "log_m_host" d); auto. now apply kget_kset_ne. Qed.
Lemma default_log d : kget "log_m_host" (with_default d) = Some (match kget "log_m_host" d with Some l => l | None => 13 end).
Proof. unfold with_default. destruct (kget "log_m_host" d) eqn:E; auto. apply kget_kset_eq. Qed.
Lemma default_some d l : kget "log_m_host" d = Some l -> with_default d = d.
Proof. unfold with_default. now intros ->. Qed.
