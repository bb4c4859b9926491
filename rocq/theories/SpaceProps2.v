(** C33, continued: how accurate the interpolation tables of the cosmology object are. *)
From Verif Require Import Prelude MassFnModel Interp InterpError SpaceModel SpaceSpec SpaceProofs SpaceProps.
Local Open Scope R_scope.
Local Open Scope list_scope.

(** * Specification *)
(** [K] bounds the curvature of [g] within a distance [w] of [x], as far as this lies in [lo, hi] *)
Definition curved_near (g : R -> R) (lo hi w x K : R) : Prop := curvature g (Rmax lo (x - w)) (Rmin hi (x + w)) K.

(** * Proofs *)
Lemma interp_from_line x0 y0 t pre a b a' b' post x :
  incr_from x0 t -> (x0, y0) :: t = pre ++ (a, b) :: (a', b') :: post -> a <= x <= a' ->
  a < a' /\ interp_from x0 y0 t x = (a' - x) / (a' - a) * b + (x - a) / (a' - a) * b'.
Proof.
  revert x0 y0 pre; induction t as [|[x1 y1] t IH]; intros x0 y0 pre H E Hx.
  - destruct pre as [|p [|q pre]]; discriminate.
  - destruct pre as [|p pre].
    + cbn [app] in E. injection E as <- <- <- <- <-. cbn [incr_from] in H. destruct H as [H _]. split; [exact H|]. cbn [interp_from].
      rewrite (proj2 (Rleb_true _ _)) by lra. field. lra.
    + cbn [app] in E. injection E as _ E. cbn [incr_from] in H. destruct H as [H1 H2]. destruct (IH x1 y1 pre H2 E Hx) as [L V]. split; [exact L|].
      cbn [interp_from]. destruct (Rleb x x1) eqn:Lx; [|exact V]. apply Rleb_true in Lx.
      assert (X1 : x1 <= a).
      { assert (I : In (a, b) ((x1, y1) :: t)) by (rewrite E; apply in_or_app; right; now left). destruct I as [I|I]; [injection I as <- <-; lra|].
        pose proof (incr_from_In _ _ _ _ H2 I). lra. }
      assert (x = x1) by lra. subst x. rewrite <- V. rewrite (interp_from_start _ _ _ H2). field. lra.
Qed.
Lemma grid_line a s m f z : 0 < s -> (0 < m)%nat -> a <= z <= a + INR m * s ->
  exists i, (i < m)%nat /\ a + INR i * s <= z <= a + INR (S i) * s /\
    interp1d (map (fun z => (z, f z)) (grid a s (S m))) z = Ok ((a + INR (S i) * s - z) / s * f (a + INR i * s) + (z - (a + INR i * s)) / s * f (a + INR (S i) * s)).
Proof.
  intros Hs Hm Hz. destruct (grid_index a s m z Hs Hm Hz) as (i & Hi & B). exists i. split; [exact Hi|]. split; [exact B|].
  destruct (proj2 (grid_domain a s m f z Hs) Hz) as [v E]. rewrite E. f_equal.
  destruct (grid_split a s (S m) i ltac:(lia)) as (pre & post & G).
  pose proof (grid_table a s (S m) f Hs ltac:(lia)) as T. rewrite G in E, T. clear G. rewrite map_app in E, T. cbn [map] in E, T.
  remember (map (fun z => (z, f z)) pre) as P. remember (map (fun z => (z, f z)) post) as Q.
  destruct (P ++ (a + INR i * s, f (a + INR i * s)) :: (a + INR (S i) * s, f (a + INR (S i) * s)) :: Q) as [|[x0 y0] t] eqn:EE; [discriminate|].
  unfold interp1d in E. destruct (Rltb z x0); [discriminate|]. destruct (Rltb _ z); [discriminate|]. injection E as <-.
  destruct (interp_from_line x0 y0 t P (a + INR i * s) (f (a + INR i * s)) (a + INR (S i) * s) (f (a + INR (S i) * s)) Q z T (eq_sym EE) B) as [_ V].
  rewrite V. rewrite S_INR. replace (a + (INR i + 1) * s - (a + INR i * s)) with s by ring. reflexivity.
Qed.
Lemma grid_error a s m f z K : 0 < s -> (0 < m)%nat -> a <= z <= a + INR m * s -> curved_near f a (a + INR m * s) s z K ->
  exists v, interp1d (map (fun z => (z, f z)) (grid a s (S m))) z = Ok v /\ Rabs (v - f z) <= K * s ^ 2 / 8.
Proof.
  intros Hs Hm Hz C. destruct (grid_line a s m f z Hs Hm Hz) as (i & Hi & B & E). eexists. split; [exact E|].
  set (l := a + INR i * s) in *. assert (LS : a + INR (S i) * s = l + s) by (unfold l; rewrite S_INR; ring). rewrite LS in *.
  assert (L0 : a <= l) by (unfold l; pose proof (pos_INR i); nra).
  assert (L1 : l + s <= a + INR m * s) by (rewrite <- LS; assert (INR (S i) <= INR m) by (apply le_INR; lia); nra).
  pose proof (blend_error f l (l + s) K ((z - l) / s) ltac:(lra)) as Q.
  assert (S01 : 0 <= (z - l) / s <= 1). { split; [apply Rmult_le_pos; [lra|left; now apply Rinv_0_lt_compat]|]. apply Rmult_le_reg_r with s; [lra|]. unfold Rdiv. rewrite Rmult_assoc, Rinv_l by lra. lra. }
  assert (CC : curvature f l (l + s) K).
  { destruct C as (g' & g'' & H). exists g', g''. intros x I. apply H. split; [apply Rmax_lub; lra|]. apply Rmin_glb; lra. }
  specialize (Q S01 CC). replace (1 - (z - l) / s) with ((l + s - z) / s) in Q by (field; lra).
  replace ((l + s - z) / s * l + (z - l) / s * (l + s)) with z in Q by (field; lra). replace (l + s - l) with s in Q by ring. exact Q.
Qed.

(** * Theorems *)
(** Angular diameter distance, comoving distance and kpc per arcsecond: the replies differ from the underlying cosmology by at most K h^2/8,
    h being the spacing of the table and K a bound on the second derivative near the redshift. *)
Theorem C33_accuracy : forall a qs z K,
  (0.02 <= z <= 4 -> curved_near (as_DA a 0) 0.02 4 0.02 z K -> exists v, reply a qs (QDAz z) = Ok v /\ Rabs (v - as_DA a 0 z) <= K * 0.02 ^ 2 / 8) /\
  (0.02 <= z <= 4 -> curved_near (as_DC a) 0.02 4 0.02 z K -> exists v, reply a qs (QDCz z) = Ok v /\ Rabs (v - as_DC a z) <= K * 0.02 ^ 2 / 8) /\
  (0.001 <= z <= 4.001 -> curved_near (fun z => / as_asec_per_kpc a z) 0.001 4.001 0.025 z K ->
     exists v, reply a qs (QKpc z) = Ok v /\ Rabs (v - / as_asec_per_kpc a z) <= K * 0.025 ^ 2 / 8).
Proof.
  intros a qs z K. assert (N : INR 199 = 199) by (rewrite INR_IZR_INZ; reflexivity). assert (N' : INR 160 = 160) by (rewrite INR_IZR_INZ; reflexivity).
  assert (E4 : 0.02 + INR 199 * 0.02 = 4) by (rewrite N; lra). assert (E41 : 0.001 + INR 160 * 0.025 = 4.001) by (rewrite N'; lra).
  rewrite !reply_answer. cbn [answer]. unfold v_DAz, v_DCz. rewrite DA_table_eq, DC_table_eq, kpc_table_eq.
  split; [|split]; intros Z C.
  - destruct (grid_error 0.02 0.02 199 (as_DA a 0) z K ltac:(lra) ltac:(lia)) as (v & E & B); rewrite ?E4; auto. rewrite E. eauto.
  - destruct (grid_error 0.02 0.02 199 (as_DC a) z K ltac:(lra) ltac:(lia)) as (v & E & B); rewrite ?E4; auto. rewrite E. eauto.
  - destruct (grid_error 0.001 0.025 160 (fun z => / as_asec_per_kpc a z) z K ltac:(lra) ltac:(lia)) as (v & E & B); rewrite ?E41; auto.
    change (grid 0.001 0.025 161) with (grid 0.001 0.025 (S 160)). rewrite E. eauto.
Qed.
(** Ages and times since infall, with the table's spacing 20/249. *)
Theorem C33_age_accuracy : forall a qs z zform K K', 0 <= z -> z <= zform -> zform <= 20 ->
  curved_near (as_age a) 0 20 (20 / 249) z K -> curved_near (as_age a) 0 20 (20 / 249) zform K' ->
  exists v, reply a qs (QAge z zform) = Ok v /\ Rabs (v - (as_age a z - as_age a zform)) <= (K + K') * (20 / 249) ^ 2 / 8.
Proof.
  intros a qs z zf K K' P L M C C'. assert (N : INR 249 = 249) by (rewrite INR_IZR_INZ; reflexivity).
  assert (E20 : 0 + INR 249 * (20 / 249) = 20) by (rewrite N; lra).
  rewrite reply_answer. cbn [answer]. unfold v_age. rewrite age_table_eq.
  destruct (grid_error 0 (20 / 249) 249 (as_age a) z K ltac:(lra) ltac:(lia)) as (v & E & B); rewrite ?E20; auto; [lra|].
  destruct (grid_error 0 (20 / 249) 249 (as_age a) zf K' ltac:(lra) ltac:(lia)) as (v' & E' & B'); rewrite ?E20; auto; [lra|].
  rewrite E'. cbn [bind]. rewrite (proj2 (Rltb_false _ _)) by lra. rewrite E. cbn [bind]. exists (v - v'). split; [reflexivity|].
  assert (U : forall u k, Rabs u <= k -> - k <= u <= k) by (intros u k; unfold Rabs; destruct (Rcase_abs u); lra).
  apply U in B, B'. apply Rabs_le. lra.
Qed.
Example C33_accuracy_nonvacuous : curved_near (fun z => 3 * z - z ^ 2) 0.02 4 0.02 0.5 2 /\ curved_near (fun z => 14 - z) 0 20 (20 / 249) 3 0.
Proof.
  split.
  - exists (fun z => 3 - 2 * z), (fun _ => -2). intros x _. split; [|split].
    + replace (fun z => 3 * z - z ^ 2) with (fun z => 3 * z - z * z) by (apply FunctionalExtensionality.functional_extensionality; intros; ring).
      replace (3 - 2 * x) with (3 * 1 - (1 * x + x * 1)) by ring. apply derivable_pt_lim_minus; [apply derivable_pt_lim_scal, derivable_pt_lim_id|].
      apply (derivable_pt_lim_mult (fun t => t) (fun t => t)); apply derivable_pt_lim_id.
    + replace (-2) with (0 - 2 * 1) by ring. apply derivable_pt_lim_minus; [apply derivable_pt_lim_const|apply derivable_pt_lim_scal, derivable_pt_lim_id].
    + rewrite Rabs_left; lra.
  - exists (fun _ => -1), (fun _ => 0). intros x _. split; [|split; [apply derivable_pt_lim_const|rewrite Rabs_R0; lra]].
    replace (-1) with (0 - 1) by ring. apply derivable_pt_lim_minus; [apply derivable_pt_lim_const|apply derivable_pt_lim_id].
Qed.

Print Assumptions C33_accuracy.
Print Assumptions C33_age_accuracy.
