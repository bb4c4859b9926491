(** C101: rescaled and moved halos, class by class; C102: halos imported with physical parameters. *)
From Verif Require Import Prelude RescaleModel.

(** ** Specification *)
(** the documented effect of rescale_normalization: the factors that count are the forced ones and the ones before a logged one *)
Fixpoint factor (once : bool) (ops : list op) : R :=
  match ops with
  | [] => 1
  | ORescale f force log :: t => if force || negb once then f * factor (once || log) t else factor once t
  | _ :: t => factor once t
  end.
(** total displacement *)
Fixpoint shift_x (ops : list op) : R := match ops with [] => 0 | OMove dx _ :: t => dx + shift_x t | _ :: t => shift_x t end.
Fixpoint shift_y (ops : list op) : R := match ops with [] => 0 | OMove _ dy :: t => dy + shift_y t | _ :: t => shift_y t end.
Definition no_query (ops : list op) : Prop := ~ In OQuery ops.
Definition no_rescale (ops : list op) : Prop := forall f a b, ~ In (ORescale f a b) ops.

(** classes whose amplitude is meant to be multiplied *)
Definition responds (c : lclass) : Prop := match c with LNFW | LCNFW | LTNFW | LEmulator => True | _ => False end.
(** classes that keep their keywords for good once they were asked for them *)
Definition keeps (c : lclass) : Prop := match c with LGalaxy | LPJaffe | LGNFW | LPowerLaw | LCluster | LCollapsed | LBlackHole => True | _ => False end.
(** classes that keep them until the next rescaling *)
Definition keeps_until_rescaled (c : lclass) : Prop := match c with LTNFW | LEmulator | LTNFWC | LSIS => True | _ => False end.
(** classes that compute them every time *)
Definition recomputes (c : lclass) : Prop := match c with LNFW | LCNFW | LULDM => True | _ => False end.
(** the centre for a halo at x: rounded by most classes *)
Definition centre (k : cfg) (c : lclass) (x : R) : R := match c with LPJaffe | LPowerLaw | LCluster | LBlackHole => x | _ => k_round k x end.

(** ** Lemmas *)
Definition scaled (k : cfg) (c : lclass) (s : lstate) : list R :=
  match c with LNFW | LCNFW | LTNFW | LEmulator => map (fun a => s_norm s * a) (k_base k) | _ => k_base k end.
Definition inv (k : cfg) (c : lclass) (s : lstate) : Prop :=
  (forall v, s_kwargs s = Some v -> l_amps v = scaled k c s) /\
  (slot_of c <> SKwargs -> s_kwargs s = None) /\
  (forall v, s_args s = Some v -> slot_of c = SArgs /\ l_amps v = scaled k c s) /\
  (forall v, s_params s = Some v -> slot_of c = SParams /\ l_amps v = scaled k c s).

Lemma compute_amps k c s : l_amps (compute k c s) = scaled k c s.
Proof. destruct c; reflexivity. Qed.
Lemma scaled_same k c s s' : s_norm s = s_norm s' -> scaled k c s = scaled k c s'.
Proof. intros E. destruct c; simpl; rewrite ?E; reflexivity. Qed.
Lemma inv_new k c x y : inv k c (new_halo x y).
Proof. repeat split; simpl; intros; discriminate. Qed.
Lemma frozen_scaled k c s s' : slot_of c = SArgs \/ slot_of c = SParams -> scaled k c s = scaled k c s'.
Proof. destruct c; simpl; intros [H|H]; try discriminate; reflexivity. Qed.

Lemma inv_query k c s : inv k c s -> inv k c (snd (query k c s)) /\ l_amps (fst (query k c s)) = scaled k c s /\
  s_norm (snd (query k c s)) = s_norm s /\ s_once (snd (query k c s)) = s_once s /\ s_x (snd (query k c s)) = s_x s /\ s_y (snd (query k c s)) = s_y s.
Proof.
  intros I. pose proof I as (A & B & C & D). unfold query. case_eq (slot_of c); intros E.
  - simpl. split; [exact I|]. split; [apply compute_amps | auto].
  - case_eq (s_kwargs s); [intros v K | intros K]; simpl.
    + split; [exact I|]. split; [apply A; auto | auto].
    + split; [|split; [apply compute_amps | auto]]. split; [|split; [|split]]; simpl.
      * intros v [= <-]. rewrite compute_amps. apply scaled_same. reflexivity.
      * congruence.
      * intros v H. destruct (C v H). congruence.
      * intros v H. destruct (D v H). congruence.
  - case_eq (s_args s); [intros v K | intros K]; simpl.
    + split; [exact I|]. split; [apply (proj2 (C v K)) | auto].
    + split; [|split; [apply compute_amps | auto]]. split; [|split; [|split]]; simpl.
      * intros v H. rewrite B in H by congruence. discriminate.
      * intros _. apply B. congruence.
      * intros v [= <-]. split; auto. rewrite compute_amps. apply scaled_same. reflexivity.
      * intros v H. destruct (D v H). congruence.
  - case_eq (s_params s); [intros v K | intros K]; simpl.
    + split; [exact I|]. split; [apply (proj2 (D v K)) | auto].
    + split; [|split; [apply compute_amps | auto]]. split; [|split; [|split]]; simpl.
      * intros v H. rewrite B in H by congruence. discriminate.
      * intros _. apply B. congruence.
      * intros v H. destruct (C v H). congruence.
      * intros v [= <-]. split; auto. rewrite compute_amps. apply scaled_same. reflexivity.
Qed.

Lemma inv_rescale_go k c s f l : inv k c s -> inv k c (mkL (s_x s) (s_y s) (s_norm s * f) l None (s_args s) (s_params s)).
Proof.
  intros (A & B & C & D). split; [|split; [|split]]; simpl; try (intros; discriminate); auto.
  - intros v H. destruct (C v H) as [C1 C2]. split; auto. rewrite C2. apply frozen_scaled. auto.
  - intros v H. destruct (D v H) as [D1 D2]. split; auto. rewrite D2. apply frozen_scaled. auto.
Qed.
Lemma inv_step k c s o : inv k c s -> inv k c (step k c s o).
Proof.
  intros I. destruct o; simpl.
  - apply inv_query; auto.
  - unfold rescale. destruct force; [apply inv_rescale_go; auto|]. destruct (s_once s) eqn:E; [auto|]. apply inv_rescale_go; auto.
  - destruct I as (A & B & C & D). split; [|split; [|split]]; simpl; auto.
Qed.
Lemma inv_run k c ops s : inv k c s -> inv k c (run k c s ops).
Proof. revert s. induction ops; simpl; auto using inv_step. Qed.

Lemma run_norm k c ops s : inv k c s -> s_norm (run k c s ops) = s_norm s * factor (s_once s) ops.
Proof.
  revert s. induction ops as [|o t IH]; intros s I; [simpl; lra|]. simpl run. rewrite IH by (apply inv_step; auto).
  destruct o; simpl.
  - destruct (inv_query k c s I) as (_ & _ & -> & -> & _). reflexivity.
  - unfold rescale. destruct force; simpl; [|destruct (s_once s) eqn:E; simpl; rewrite ?E].
    + replace (if log then true else s_once s) with (s_once s || log)%bool by (destruct log, (s_once s); auto). lra.
    + reflexivity.
    + replace (if log then true else false) with log by (destruct log; auto). lra.
  - reflexivity.
Qed.
Lemma step_pos k c s o : s_x (step k c s o) = s_x s + shift_x [o] /\ s_y (step k c s o) = s_y s + shift_y [o].
Proof.
  destruct o; simpl; try lra.
  - unfold query. destruct (slot_of c); [| destruct (s_kwargs s) | destruct (s_args s) | destruct (s_params s)]; simpl; lra.
  - unfold rescale. destruct force; [|destruct (s_once s)]; simpl; lra.
Qed.
Lemma shift_cons o t : shift_x (o :: t) = shift_x [o] + shift_x t /\ shift_y (o :: t) = shift_y [o] + shift_y t.
Proof. destruct o; simpl; lra. Qed.
Lemma run_pos k c ops s : s_x (run k c s ops) = s_x s + shift_x ops /\ s_y (run k c s ops) = s_y s + shift_y ops.
Proof.
  revert s. induction ops as [|o t IH]; intros s; [simpl; lra|]. simpl run. destruct (IH (step k c s o)) as [-> ->].
  destruct (step_pos k c s o) as [-> ->]. destruct (shift_cons o t) as [-> ->]. lra.
Qed.

(** ** C101: amplitudes *)
(** NFW, cored NFW, truncated NFW and emulator halos: the amplitude a caller sees is the original one times the product of the
    rescalings that count, whenever the keywords were asked for before. *)
Theorem C101_rescaled k c x y ops : responds c -> l_amps (answer k c x y ops) = map (fun a => factor false ops * a) (k_base k).
Proof.
  intros Rc. unfold answer. pose proof (inv_run k c ops _ (inv_new k c x y)) as I.
  destruct (inv_query k c _ I) as (_ & -> & _). pose proof (run_norm k c ops _ (inv_new k c x y)) as N. simpl in N.
  destruct c; try contradiction; unfold scaled; rewrite N, Rmult_1_l; reflexivity.
Qed.
(** All other classes ignore every rescaling. *)
Theorem C101_ignored k c x y ops : ~ responds c -> l_amps (answer k c x y ops) = k_base k.
Proof.
  intros Rc. unfold answer. pose proof (inv_run k c ops _ (inv_new k c x y)) as I.
  destruct (inv_query k c _ I) as (_ & -> & _). destruct c; simpl in *; try tauto; reflexivity.
Qed.
(** So a rescaling, documented as setting the rescaling factor for the normalization, leaves a dozen classes as they are. *)
Theorem C101_ignored_refuted : forall c, ~ responds c -> exists k f, f <> 1 /\ k_base k <> [] /\ forall x y,
  l_amps (answer k c x y [ORescale f true true]) <> map (fun a => f * a) (k_base k).
Proof.
  intros c Rc. exists (mkCfg [1] (fun x => x) (0, 0)), 2. split; [lra|]. split; [discriminate|].
  intros x y. rewrite C101_ignored by auto. simpl. intros [= H]. lra.
Qed.

(** ** C101: positions *)
Lemma compute_centre k c s : match c with LGaussian | LHybrid => True | _ => l_x (compute k c s) = centre k c (s_x s) /\ l_y (compute k c s) = centre k c (s_y s) end.
Proof. destruct c; simpl; auto. Qed.
Theorem C101_recomputed k c x y ops : recomputes c ->
  l_x (answer k c x y ops) = centre k c (x + shift_x ops) /\ l_y (answer k c x y ops) = centre k c (y + shift_y ops).
Proof.
  intros Rc. unfold answer. destruct (run_pos k c ops (new_halo x y)) as [A B]. simpl in A, B.
  destruct c; try contradiction; unfold query; simpl; rewrite A, B; auto.
Qed.

Lemma fresh_slots k c ops s : no_query ops -> s_kwargs s = None -> s_args s = None -> s_params s = None ->
  s_kwargs (run k c s ops) = None /\ s_args (run k c s ops) = None /\ s_params (run k c s ops) = None.
Proof.
  revert s. induction ops as [|o t IH]; intros s Q A B C; [auto|]. simpl run. apply IH.
  - intros H. apply Q. right. auto.
  - destruct o; simpl; auto; [exfalso; apply Q; left; auto|]. unfold rescale. destruct force; [|destruct (s_once s)]; auto.
  - destruct o; simpl; auto; [exfalso; apply Q; left; auto|]. unfold rescale. destruct force; [|destruct (s_once s)]; auto.
  - destruct o; simpl; auto; [exfalso; apply Q; left; auto|]. unfold rescale. destruct force; [|destruct (s_once s)]; auto.
Qed.
Lemma query_fresh k c s : s_kwargs s = None -> s_args s = None -> s_params s = None -> fst (query k c s) = compute k c s.
Proof. intros A B C. unfold query. rewrite A, B, C. destruct (slot_of c); reflexivity. Qed.

(** Asked for the first time, every class but the Gaussian and the hybrid reports where the halo is now. *)
Theorem C101_first_query k c x y ops : no_query ops -> c <> LGaussian -> c <> LHybrid ->
  l_x (answer k c x y ops) = centre k c (x + shift_x ops) /\ l_y (answer k c x y ops) = centre k c (y + shift_y ops).
Proof.
  intros Q G H. unfold answer. destruct (fresh_slots k c ops (new_halo x y) Q eq_refl eq_refl eq_refl) as (A & B & C).
  rewrite query_fresh by auto. destruct (run_pos k c ops (new_halo x y)) as [X Y]. simpl in X, Y. rewrite <- X, <- Y.
  pose proof (compute_centre k c (run k c (new_halo x y) ops)). destruct c; try congruence; auto.
Qed.

(** Seven classes keep for good the position they had when they were first asked. *)
Lemma kept k c ops s v : keeps c -> (slot_of c = SArgs -> s_args s = Some v) -> (slot_of c = SParams -> s_params s = Some v) ->
  fst (query k c (run k c s ops)) = v.
Proof.
  revert s. induction ops as [|o t IH]; intros s K A B.
  - simpl. unfold query. destruct c; try contradiction; simpl in *; rewrite ?A, ?B by auto; reflexivity.
  - simpl run. apply IH; auto.
    + intros E. specialize (A E). destruct o; simpl; auto.
      * unfold query. rewrite E, A. simpl. auto.
      * unfold rescale. destruct force; [|destruct (s_once s)]; simpl; auto.
    + intros E. specialize (B E). destruct o; simpl; auto.
      * unfold query. rewrite E, B. simpl. auto.
      * unfold rescale. destruct force; [|destruct (s_once s)]; simpl; auto.
Qed.
Theorem C101_kept k c x y pre post : keeps c -> no_query pre ->
  answer k c x y (pre ++ OQuery :: post) = answer k c x y pre /\
  l_x (answer k c x y (pre ++ OQuery :: post)) = centre k c (x + shift_x pre) /\ l_y (answer k c x y (pre ++ OQuery :: post)) = centre k c (y + shift_y pre).
Proof.
  intros K Q. assert (E : answer k c x y (pre ++ OQuery :: post) = answer k c x y pre).
  { unfold answer at 1. unfold run. rewrite fold_left_app. simpl. fold (run k c (new_halo x y) pre).
    destruct (fresh_slots k c pre (new_halo x y) Q eq_refl eq_refl eq_refl) as (A & B & C).
    change (fst (query k c (run k c (snd (query k c (run k c (new_halo x y) pre))) post)) = answer k c x y pre).
    unfold answer. apply kept; auto; intros E; unfold query; rewrite E, ?A, ?B, ?C; reflexivity. }
  split; auto. rewrite E. apply C101_first_query; auto; intros ->; exact K.
Qed.

(** Four classes keep it until the next rescaling that counts. *)
Lemma kept_kw k c ops s v : slot_of c = SKwargs -> no_rescale ops -> s_kwargs s = Some v -> fst (query k c (run k c s ops)) = v.
Proof.
  revert s. induction ops as [|o t IH]; intros s K N A.
  - simpl. unfold query. rewrite K, A. reflexivity.
  - simpl run. apply IH; auto.
    + intros f a b H. apply (N f a b). right. auto.
    + destruct o; simpl; auto.
      * unfold query. rewrite K, A. simpl. auto.
      * exfalso. eapply N. left. reflexivity.
Qed.
Theorem C101_kept_until_rescaled k c x y pre f log mid post : keeps_until_rescaled c -> no_query mid -> no_rescale post ->
  let ops := pre ++ ORescale f true log :: mid ++ OQuery :: post in
  l_x (answer k c x y ops) = centre k c (x + shift_x pre + shift_x mid) /\ l_y (answer k c x y ops) = centre k c (y + shift_y pre + shift_y mid).
Proof.
  intros K Q N ops. unfold ops, answer, run. rewrite fold_left_app. cbn [fold_left]. rewrite fold_left_app. cbn [fold_left].
  fold (run k c (new_halo x y) pre). set (s0 := run k c (new_halo x y) pre).
  set (s1 := step k c s0 (ORescale f true log)). fold (run k c s1 mid). set (s2 := run k c s1 mid). fold (run k c (step k c s2 OQuery) post).
  assert (SK : slot_of c = SKwargs) by (destruct c; try contradiction; reflexivity).
  assert (I0 : inv k c s0) by (apply inv_run, inv_new).
  assert (I1 : inv k c s1) by (apply inv_step; auto).
  assert (A0 : s_args s1 = None). { destruct (s_args s1) eqn:E; auto. destruct I1 as (_ & _ & C & _). destruct (C _ E). congruence. }
  assert (P0 : s_params s1 = None). { destruct (s_params s1) eqn:E; auto. destruct I1 as (_ & _ & _ & D). destruct (D _ E). congruence. }
  destruct (fresh_slots k c mid s1 Q eq_refl A0 P0) as (A & B & C). fold s2 in A, B, C.
  assert (V : fst (query k c (run k c (step k c s2 OQuery) post)) = compute k c s2).
  { apply kept_kw; auto. simpl. unfold query. rewrite SK, A. reflexivity. }
  rewrite V. destruct (run_pos k c mid s1) as [X Y]. fold s2 in X, Y.
  destruct (run_pos k c pre (new_halo x y)) as [X0 Y0]. fold s0 in X0, Y0. simpl in X0, Y0.
  assert (X1 : s_x s1 = s_x s0 /\ s_y s1 = s_y s0) by (split; reflexivity). destruct X1 as [X1 Y1].
  rewrite <- X0, <- Y0, <- X1, <- Y1, <- X, <- Y.
  pose proof (compute_centre k c s2). destruct c; try contradiction; auto.
Qed.
(** The same from the start of the halo's life. *)
Theorem C101_kept_until_first_rescaling k c x y mid post : keeps_until_rescaled c -> no_query mid -> no_rescale post ->
  answer k c x y (mid ++ OQuery :: post) = answer k c x y mid.
Proof.
  intros K Q N. unfold answer at 1. unfold run. rewrite fold_left_app. cbn [fold_left]. fold (run k c (new_halo x y) mid).
  destruct (fresh_slots k c mid (new_halo x y) Q eq_refl eq_refl eq_refl) as (A & B & C).
  fold (run k c (step k c (run k c (new_halo x y) mid) OQuery) post). unfold answer.
  assert (SK : slot_of c = SKwargs) by (destruct c; try contradiction; reflexivity).
  apply kept_kw; auto. simpl. unfold query. rewrite SK, A. reflexivity.
Qed.
(** Hybrid halos never follow their position: they report the place of the two halos they were built from.  Gaussian fluctuations
    report the centre in their arguments. *)
Theorem C101_own_centre k x y ops : l_x (answer k LHybrid x y ops) = k_round k (fst (k_own k)) /\ l_y (answer k LHybrid x y ops) = k_round k (snd (k_own k)) /\
  l_x (answer k LGaussian x y ops) = fst (k_own k) /\ l_y (answer k LGaussian x y ops) = snd (k_own k).
Proof.
  assert (H : forall s, (forall v, s_kwargs s = Some v -> l_x v = k_round k (fst (k_own k)) /\ l_y v = k_round k (snd (k_own k))) ->
    let r := fst (query k LHybrid (run k LHybrid s ops)) in l_x r = k_round k (fst (k_own k)) /\ l_y r = k_round k (snd (k_own k))).
  { induction ops as [|o t IH]; intros s A.
    - simpl. unfold query. simpl. destruct (s_kwargs s) as [v|] eqn:E; simpl; auto.
    - simpl run. apply IH. intros v. destruct o; simpl.
      + unfold query. simpl. destruct (s_kwargs s) eqn:E; simpl; [rewrite E; auto|]. intros [= <-]. auto.
      + unfold rescale. destruct force; [|destruct (s_once s)]; simpl; auto; discriminate.
      + auto. }
  destruct (H (new_halo x y)) as [A B]; [discriminate|]. repeat split; auto.
Qed.
(** Hence a halo that was asked for its keywords and then moved reports the old place, in all classes but the three that recompute. *)
Theorem C101_moved_refuted c : ~ recomputes c -> exists k x y dx dy, (forall z, k_round k z = z) /\ dx <> 0 /\ k_own k = (x, y) /\
  l_x (answer k c x y [OQuery; OMove dx dy]) = x /\ l_y (answer k c x y [OQuery; OMove dx dy]) = y.
Proof.
  intros Rc. exists (mkCfg [1] (fun x => x) (0, 0)), 0, 0, 1, 0. repeat split; auto; try lra; destruct c; simpl in *; try tauto; reflexivity.
Qed.

(** ** C102: halos imported with physical parameters *)
(** Without rescaling, any number of queries in any order returns what was imported. *)
Inductive fquery := FParams | FArgs | FLens.
Definition fstep (fuel : nat) (theta : R -> R -> R) (nfw : R * R) (s : fstate) (q : fquery) : option fstate :=
  match q with
  | FParams => match fp_params fuel nfw s with Some (_, s') => Some s' | None => None end
  | FArgs => match fp_profile_args fuel nfw s with Some (_, s') => Some s' | None => None end
  | FLens => match fp_lenstronomy fuel theta nfw s with Some (_, s') => Some s' | None => None end
  end.
Fixpoint frun (fuel : nat) (theta : R -> R -> R) (nfw : R * R) (s : fstate) (qs : list fquery) : option fstate :=
  match qs with [] => Some s | q :: t => match fstep fuel theta nfw s q with Some s' => frun fuel theta nfw s' t | None => None end end.

Definition imported (theta : R -> R -> R) (p : phys) (s : fstate) : Prop :=
  fp_norm s = 1 /\ fp_phys s = Some p /\ (fp_args s = None \/ fp_args s = Some (ph_rt p)) /\ (fp_lens s = None \/ fp_lens s = Some (theta (ph_rhos p) (ph_rs p))).
Lemma imported_step n theta nfw p s q : imported theta p s -> exists s', fstep (S n) theta nfw s q = Some s' /\ imported theta p s'.
Proof.
  intros (N & P & A & L). destruct q; simpl.
  - rewrite P. exists s. repeat split; auto.
  - unfold fp_profile_args. destruct (fp_args s) eqn:E.
    + exists s. repeat split; auto. destruct A; [congruence|]. right. congruence.
    + simpl. rewrite P. eexists. split; [reflexivity|]. repeat split; simpl; auto.
  - unfold fp_lenstronomy. destruct (fp_lens s) eqn:E.
    + exists s. repeat split; auto. right. destruct L; congruence.
    + simpl. rewrite P. eexists. split; [reflexivity|]. repeat split; simpl; auto. right. rewrite N, Rmult_1_l. reflexivity.
Qed.
Theorem C102_imported theta nfw p n qs : exists s, frun (S n) theta nfw (fp_new p) qs = Some s /\
  (exists s', fp_params (S n) nfw s = Some (p, s')) /\ (exists s', fp_profile_args (S n) nfw s = Some (ph_rt p, s')) /\
  (exists s', fp_lenstronomy (S n) theta nfw s = Some (theta (ph_rhos p) (ph_rs p), s')).
Proof.
  assert (G : forall qs s, imported theta p s -> exists s', frun (S n) theta nfw s qs = Some s' /\ imported theta p s').
  { clear qs. induction qs as [|q t IH]; intros s I; [exists s; auto|]. simpl frun.
    destruct (imported_step n theta nfw p s q I) as (s1 & E & I1). rewrite E. apply IH. auto. }
  destruct (G qs (fp_new p)) as (s & E & (N & P & A & L)); [repeat split; auto|].
  exists s. split; auto. split; [|split].
  - simpl. rewrite P. eauto.
  - unfold fp_profile_args. destruct (fp_args s) eqn:Q; [destruct A as [A|A]; [discriminate|]; injection A as ->; eauto|]. simpl. rewrite P. eauto.
  - unfold fp_lenstronomy. destruct (fp_lens s) eqn:Q; [destruct L as [L|L]; [discriminate|]; injection L as ->; eauto|]. simpl. rewrite P, N, Rmult_1_l. eauto.
Qed.

(** A rescaling makes the halo unusable: unless profile_args had been asked for before, no call stack is deep enough for its lens
    keywords, its physical parameters or its truncation radius. *)
Lemma no_params fuel nfw s : fp_phys s = None -> fp_args s = None -> fp_params fuel nfw s = None.
Proof. intros P A. induction fuel as [|n IH]; simpl; auto. rewrite P, A, IH. reflexivity. Qed.
Theorem C102_rescaled_refuted theta nfw p f n qs s : ~ In FArgs qs -> frun (S n) theta nfw (fp_new p) qs = Some s ->
  forall fuel, fp_params fuel nfw (fp_rescale f s) = None /\ fp_profile_args fuel nfw (fp_rescale f s) = None /\
    fp_lenstronomy fuel theta nfw (fp_rescale f s) = None.
Proof.
  intros NA E fuel.
  assert (A : forall qs s0, ~ In FArgs qs -> fp_args s0 = None -> fp_phys s0 <> None -> frun (S n) theta nfw s0 qs = Some s -> fp_args s = None).
  { clear. induction qs as [|q t IH]; intros s0 NI A P E; simpl in E; [congruence|].
    destruct (fstep (S n) theta nfw s0 q) as [s1|] eqn:Q; [|discriminate]. apply (IH s1); auto; [intros H; apply NI; right; auto | |].
    - destruct q; simpl in Q.
      + destruct (fp_phys s0); [|congruence]. injection Q as <-. auto.
      + exfalso. apply NI. left. auto.
      + unfold fp_lenstronomy in Q. destruct (fp_lens s0); [injection Q as <-; auto|]. simpl in Q. destruct (fp_phys s0); [|congruence]. injection Q as <-. auto.
    - destruct q; simpl in Q.
      + destruct (fp_phys s0) eqn:P'; [|congruence]. injection Q as <-. congruence.
      + exfalso. apply NI. left. auto.
      + unfold fp_lenstronomy in Q. destruct (fp_lens s0); [injection Q as <-; auto|]. simpl in Q. destruct (fp_phys s0) eqn:P'; [|congruence]. injection Q as <-. simpl. congruence. }
  assert (A0 : fp_args s = None) by (apply (A qs (fp_new p)); auto; simpl; discriminate).
  assert (N : fp_params fuel nfw (fp_rescale f s) = None) by (apply no_params; auto).
  repeat split; auto.
  - unfold fp_profile_args. simpl fp_args. rewrite A0, N. reflexivity.
  - unfold fp_lenstronomy. simpl fp_lens. rewrite N. reflexivity.
Qed.
(** If profile_args had been asked for, the imported density and scale radius are replaced by those of an NFW halo of the same mass and
    concentration, and the amplitude carries the factor twice when the deflection is linear in the density. *)
Theorem C102_replaced_refuted theta nfw p f n s a : (forall k r s, theta (k * r) s = k * theta r s) -> fp_profile_args (S n) nfw (fp_new p) = Some (a, s) ->
  exists s1 s2, fp_params (S n) nfw (fp_rescale f s) = Some (mkPhys (f * fst nfw) (snd nfw) (ph_rt p), s1) /\
    fp_lenstronomy (S n) theta nfw (fp_rescale f s) = Some (f * (f * theta (fst nfw) (snd nfw)), s2).
Proof.
  intros L E. unfold fp_profile_args in E. simpl in E. injection E as <- <-.
  unfold fp_rescale, fp_lenstronomy. simpl. rewrite Rmult_1_l, (Rmult_comm (fst nfw) f), L. eexists. eexists. split; reflexivity.
Qed.

(** ** The hypotheses are met *)
Example C101_rescaled_nonvacuous : responds LTNFW /\ factor false [OQuery; ORescale 2 true false; OQuery; ORescale 3 false true; ORescale 5 false true] = 6.
Proof. split; [exact I|]. simpl. lra. Qed.
Example C101_kept_nonvacuous : keeps LPowerLaw /\ keeps_until_rescaled LTNFW /\ recomputes LNFW /\ ~ responds LPowerLaw /\ no_query [OMove 1 2; ORescale 2 true true] /\ no_rescale [OMove 1 2; OQuery].
Proof.
  repeat split; simpl; auto; intros H; simpl in *; try (intuition congruence).
Qed.
Example C102_rescaled_nonvacuous : forall p, exists s, ~ In FArgs [FParams; FLens] /\ frun 1 (fun r s => r * s) (1, 1) (fp_new p) [FParams; FLens] = Some s.
Proof. intros p. eexists. split; [simpl; intuition congruence | reflexivity]. Qed.
Example C102_replaced_nonvacuous : forall p, exists a s, (forall k r s, (k * r) * s = k * (r * s)) /\ fp_profile_args 1 (1, 1) (fp_new p) = Some (a, s).
Proof. intros p. eexists. eexists. split; [intros; ring | reflexivity]. Qed.

Print Assumptions C101_rescaled.
Print Assumptions C101_ignored.
Print Assumptions C101_ignored_refuted.
Print Assumptions C101_recomputed.
Print Assumptions C101_first_query.
Print Assumptions C101_kept.
Print Assumptions C101_kept_until_rescaled.
Print Assumptions C101_kept_until_first_rescaling.
Print Assumptions C101_own_centre.
Print Assumptions C101_moved_refuted.
Print Assumptions C102_imported.
Print Assumptions C102_rescaled_refuted.
Print Assumptions C102_replaced_refuted.
