(** Frame properties of the operations of [HaloStateModel]: what each of them can change. *)
From Verif Require Import Prelude HaloStateModel HaloStateProofs.

Section Pres.
Variable R : St -> St -> Prop.
Hypothesis Rrefl : forall s, R s s.
Hypothesis Rtrans : forall a b c, R a b -> R b c -> R a c.
Definition pres {A} (m : M A) : Prop := forall s, R s (snd (m s)).
Lemma pres_bind {A B} (m : M A) (k : A -> M B) : pres m -> (forall a, pres (k a)) -> pres (mbind m k).
Proof.
  intros H1 H2 s. unfold mbind. specialize (H1 s). destruct (m s) as [[a|e] s']; simpl in *; auto.
  eapply Rtrans; [exact H1|apply H2].
Qed.
Lemma pres_gets {A} (f : St -> A) : pres (gets f). Proof. intros s; apply Rrefl. Qed.
Lemma pres_ret {A} (a : A) : pres (ret a). Proof. intros s; apply Rrefl. Qed.
Lemma pres_raise {A} e : pres (@raise A e). Proof. intros s; apply Rrefl. Qed.
Lemma pres_modify f : (forall s, R s (f s)) -> pres (modify f). Proof. intros H s; apply H. Qed.
Lemma pres_unit {A} (m : M A) : pres m -> pres (unit_of m).
Proof. intros H s. rewrite unit_snd. apply H. Qed.
End Pres.

Ltac pres_tac tr rf leaf :=
  repeat (cbv zeta;
    match goal with
    | |- pres _ (mbind _ _) => apply (pres_bind _ tr); [|intros]
    | |- pres _ (gets _) => apply (pres_gets _ rf)
    | |- pres _ (ret _) => apply (pres_ret _ rf)
    | |- pres _ (raise _) => apply (pres_raise _ rf)
    | |- pres _ (unit_of _) => apply pres_unit
    | |- pres _ (let '(_, _) := ?p in _) => destruct p
    | |- pres _ (match ?x with _ => _ end) => destruct x
    | |- pres _ (if ?b then _ else _) => destruct b
    | |- pres _ (modify _) => apply pres_modify; intro
    | _ => leaf
    end).

Section Frames.
Variable E : Env.
Variable H : Static.

(** ** Nothing but [OMove] changes the position. *)
Definition Rxy (s s' : St) : Prop := s_x s' = s_x s /\ s_y s' = s_y s.
Lemma Rxy_refl s : Rxy s s. Proof. split; reflexivity. Qed.
Lemma Rxy_trans a b c : Rxy a b -> Rxy b c -> Rxy a c. Proof. unfold Rxy; intuition congruence. Qed.
Ltac pxy := pres_tac Rxy_trans Rxy_refl ltac:(first [assumption | solve [split; reflexivity]]).
Lemma xy_zinf : pres Rxy (z_infall E H). Proof. unfold z_infall. pxy. Qed.
Lemma xy_zeval : pres Rxy (z_eval E H). Proof. pose proof xy_zinf. unfold z_eval. pxy. Qed.
Lemma xy_time : pres Rxy (time_since_infall E H). Proof. pose proof xy_zinf. unfold time_since_infall. pxy. Qed.
Lemma xy_conc : pres Rxy (conc E H). Proof. pose proof xy_zeval. unfold conc. pxy. Qed.
Lemma xy_nfw : pres Rxy (nfw_params E H). Proof. pose proof xy_zeval. pose proof xy_conc. unfold nfw_params. pxy. Qed.
Lemma xy_draw st : pres Rxy (draw_number st). Proof. unfold draw_number. pxy. Qed.
Lemma xy_loss st a t c : pres Rxy (mass_loss E st a t c).
Proof. pose proof (xy_draw st). unfold mass_loss. pxy. Qed.
Lemma xy_rescale f fo lg s : Rxy s (rescale_normalization f fo lg s).
Proof. unfold rescale_normalization. destruct fo, (s_once s); split; reflexivity. Qed.
Lemma xy_struct m c : pres Rxy (structure_from_mbound E H m c).
Proof.
  pose proof xy_zeval. unfold structure_from_mbound.
  pres_tac Rxy_trans Rxy_refl ltac:(first [assumption | apply xy_rescale]).
Qed.
Lemma xy_trunc : pres Rxy (truncation_radius_halo E H).
Proof.
  pose proof xy_zeval. pose proof xy_conc. pose proof xy_time. pose proof xy_zinf. pose proof xy_nfw.
  unfold truncation_radius_halo.
  pres_tac Rxy_trans Rxy_refl ltac:(first [assumption | apply xy_draw | apply xy_loss | apply xy_struct | solve [split; reflexivity]]).
Qed.
Lemma xy_mb : pres Rxy (calculate_mbound E H).
Proof.
  pose proof xy_conc. pose proof xy_time. pose proof xy_zinf. unfold calculate_mbound.
  pres_tac Rxy_trans Rxy_refl ltac:(first [assumption | apply xy_draw | apply xy_loss]).
Qed.
Lemma xy_mbdef : pres Rxy (bound_mass_galacticus_definition E H).
Proof. pose proof xy_mb. unfold bound_mass_galacticus_definition. pxy. Qed.
Lemma xy_pargs : pres Rxy (profile_args E H).
Proof.
  pose proof xy_mbdef. pose proof xy_conc. pose proof xy_trunc. unfold profile_args.
  pres_tac Rxy_trans Rxy_refl ltac:(first [assumption | apply xy_struct | solve [split; reflexivity]]).
Qed.
Lemma xy_phys : pres Rxy (params_physical E H).
Proof. pose proof xy_pargs. pose proof xy_nfw. unfold params_physical. pxy. Qed.
Lemma xy_kw : pres Rxy (lenstronomy_params E H).
Proof. pose proof xy_pargs. pose proof xy_nfw. unfold lenstronomy_params. pxy. Qed.
Lemma xy_ask q : pres Rxy (ask E H q).
Proof.
  pose proof xy_pargs. pose proof xy_nfw. pose proof xy_phys. pose proof xy_kw. pose proof xy_conc.
  pose proof xy_zinf. pose proof xy_zeval. pose proof xy_time. pose proof xy_mbdef.
  destruct q; unfold ask, vmax_nfw, bound_mass, mass_3d, density_profile_3d; pxy.
Qed.

(** ** Without a lensing query no lensing keywords are stored. *)
Definition Rnk (s s' : St) : Prop := s_kw s = None -> s_kw s' = None.
Lemma Rnk_refl s : Rnk s s. Proof. intros X; exact X. Qed.
Lemma Rnk_trans a b c : Rnk a b -> Rnk b c -> Rnk a c. Proof. unfold Rnk; auto. Qed.
Ltac pnk := pres_tac Rnk_trans Rnk_refl ltac:(first [assumption | solve [intros X; exact X]]).
Lemma nk_zinf : pres Rnk (z_infall E H). Proof. unfold z_infall. pnk. Qed.
Lemma nk_zeval : pres Rnk (z_eval E H). Proof. pose proof nk_zinf. unfold z_eval. pnk. Qed.
Lemma nk_time : pres Rnk (time_since_infall E H). Proof. pose proof nk_zinf. unfold time_since_infall. pnk. Qed.
Lemma nk_conc : pres Rnk (conc E H). Proof. pose proof nk_zeval. unfold conc. pnk. Qed.
Lemma nk_nfw : pres Rnk (nfw_params E H). Proof. pose proof nk_zeval. pose proof nk_conc. unfold nfw_params. pnk. Qed.
Lemma nk_draw st : pres Rnk (draw_number st). Proof. unfold draw_number. pnk. Qed.
Lemma nk_loss st a t c : pres Rnk (mass_loss E st a t c).
Proof. pose proof (nk_draw st). unfold mass_loss. pnk. Qed.
Lemma nk_rescale f fo lg s : Rnk s (rescale_normalization f fo lg s).
Proof. unfold rescale_normalization, Rnk. destruct fo, (s_once s); simpl; auto. Qed.
Lemma nk_struct m c : pres Rnk (structure_from_mbound E H m c).
Proof.
  pose proof nk_zeval. unfold structure_from_mbound.
  pres_tac Rnk_trans Rnk_refl ltac:(first [assumption | apply nk_rescale]).
Qed.
Lemma nk_trunc : pres Rnk (truncation_radius_halo E H).
Proof.
  pose proof nk_zeval. pose proof nk_conc. pose proof nk_time. pose proof nk_zinf. pose proof nk_nfw.
  unfold truncation_radius_halo.
  pres_tac Rnk_trans Rnk_refl ltac:(first [assumption | apply nk_draw | apply nk_loss | apply nk_struct | solve [intros X; exact X]]).
Qed.
Lemma nk_mb : pres Rnk (calculate_mbound E H).
Proof.
  pose proof nk_conc. pose proof nk_time. pose proof nk_zinf. unfold calculate_mbound.
  pres_tac Rnk_trans Rnk_refl ltac:(first [assumption | apply nk_draw | apply nk_loss]).
Qed.
Lemma nk_mbdef : pres Rnk (bound_mass_galacticus_definition E H).
Proof. pose proof nk_mb. unfold bound_mass_galacticus_definition. pnk. Qed.
Lemma nk_pargs : pres Rnk (profile_args E H).
Proof.
  pose proof nk_mbdef. pose proof nk_conc. pose proof nk_trunc. unfold profile_args.
  pres_tac Rnk_trans Rnk_refl ltac:(first [assumption | apply nk_struct | solve [intros X; exact X]]).
Qed.
Lemma nk_phys : pres Rnk (params_physical E H).
Proof. pose proof nk_pargs. pose proof nk_nfw. unfold params_physical. pnk. Qed.
Lemma nk_ask q : q <> QLensing -> pres Rnk (ask E H q).
Proof.
  intros Hq.
  pose proof nk_pargs. pose proof nk_nfw. pose proof nk_phys. pose proof nk_conc.
  pose proof nk_zinf. pose proof nk_zeval. pose proof nk_time. pose proof nk_mbdef.
  destruct q; try congruence; unfold ask, vmax_nfw, bound_mass, mass_3d, density_profile_3d; pnk.
Qed.

(** ** Lensing keywords are only stored after the profile arguments. *)
Definition Rw (s s' : St) : Prop :=
  (s_pargs s <> None -> s_pargs s' <> None) /\
  ((s_kw s <> None -> s_pargs s <> None) -> s_kw s' <> None -> s_pargs s' <> None).
Lemma Rw_refl s : Rw s s. Proof. split; auto. Qed.
Lemma Rw_trans a b c : Rw a b -> Rw b c -> Rw a c. Proof. unfold Rw; intuition. Qed.
Ltac trivw := first [assumption | solve [split; simpl; auto] | solve [split; simpl; discriminate]].
Ltac pw := pres_tac Rw_trans Rw_refl ltac:(trivw).
Lemma w_zinf : pres Rw (z_infall E H). Proof. unfold z_infall. pw. Qed.
Lemma w_zeval : pres Rw (z_eval E H). Proof. pose proof w_zinf. unfold z_eval. pw. Qed.
Lemma w_time : pres Rw (time_since_infall E H). Proof. pose proof w_zinf. unfold time_since_infall. pw. Qed.
Lemma w_conc : pres Rw (conc E H). Proof. pose proof w_zeval. unfold conc. pw. Qed.
Lemma w_nfw : pres Rw (nfw_params E H). Proof. pose proof w_zeval. pose proof w_conc. unfold nfw_params. pw. Qed.
Lemma w_draw st : pres Rw (draw_number st). Proof. unfold draw_number. pw. Qed.
Lemma w_loss st a t c : pres Rw (mass_loss E st a t c).
Proof. pose proof (w_draw st). unfold mass_loss. pw. Qed.
Lemma w_rescale f fo lg s : Rw s (rescale_normalization f fo lg s).
Proof. unfold rescale_normalization, Rw. destruct fo, (s_once s); simpl; split; auto; congruence. Qed.
Lemma w_struct m c : pres Rw (structure_from_mbound E H m c).
Proof.
  pose proof w_zeval. unfold structure_from_mbound.
  pres_tac Rw_trans Rw_refl ltac:(first [assumption | apply w_rescale]).
Qed.
Lemma w_trunc : pres Rw (truncation_radius_halo E H).
Proof.
  pose proof w_zeval. pose proof w_conc. pose proof w_time. pose proof w_zinf. pose proof w_nfw.
  unfold truncation_radius_halo.
  pres_tac Rw_trans Rw_refl ltac:(first [assumption | apply w_draw | apply w_loss | apply w_struct | trivw]).
Qed.
Lemma w_mb : pres Rw (calculate_mbound E H).
Proof.
  pose proof w_conc. pose proof w_time. pose proof w_zinf. unfold calculate_mbound.
  pres_tac Rw_trans Rw_refl ltac:(first [assumption | apply w_draw | apply w_loss]).
Qed.
Lemma w_mbdef : pres Rw (bound_mass_galacticus_definition E H).
Proof. pose proof w_mb. unfold bound_mass_galacticus_definition. pw. Qed.
Lemma w_pargs : pres Rw (profile_args E H).
Proof.
  pose proof w_mbdef. pose proof w_conc. pose proof w_trunc. unfold profile_args.
  pres_tac Rw_trans Rw_refl ltac:(first [assumption | apply w_struct | trivw]).
Qed.
Lemma w_phys : pres Rw (params_physical E H).
Proof. pose proof w_pargs. pose proof w_nfw. unfold params_physical. pw. Qed.
Lemma pargs_set s a s' : profile_args E H s = (Ok a, s') -> s_pargs s' = Some a.
Proof.
  unfold profile_args. rewrite bind_gets. destruct (s_pargs s) as [p|] eqn:Ep.
  - unfold ret. intros X. injection X as <- <-. exact Ep.
  - intros X. match type of X with mbind ?m ?k s = _ => destruct (m s) as [[rt|e] s1] eqn:E1 end.
    + rewrite (bind_ok _ _ _ _ _ E1) in X. destruct (conc E H s1) as [[c|e] s2] eqn:E2.
      * rewrite (bind_ok _ _ _ _ _ E2), bind_modify in X. unfold ret in X. injection X as <- <-. reflexivity.
      * rewrite (bind_err _ _ _ _ _ E2) in X. discriminate.
    + rewrite (bind_err _ _ _ _ _ E1) in X. discriminate.
Qed.
Lemma w_kw : pres Rw (lenstronomy_params E H).
Proof.
  intros s. unfold lenstronomy_params. rewrite bind_gets. destruct (s_kw s) as [k|] eqn:Ek.
  - apply Rw_refl.
  - pose proof (w_pargs s) as W1. destruct (profile_args E H s) as [[a|e] s1] eqn:E1.
    + rewrite (bind_ok _ _ _ _ _ E1). pose proof (pargs_set _ _ _ E1) as P1.
      pose proof (w_nfw s1) as W2. destruct (nfw_params E H s1) as [[p|e] s2] eqn:E2.
      * rewrite (bind_ok _ _ _ _ _ E2). destruct p as [[rhos rs] r200].
        destruct (e_angle E (rhos * 10 ^ 9) (rs * / 10 ^ 3) (h_z H)) as [Rs th].
        cbv beta iota delta [mbind gets modify ret]. simpl in W1, W2 |- *.
        assert (s_pargs s2 <> None) by (destruct W2 as [W2 _]; apply W2; rewrite P1; discriminate). split; simpl; auto.
      * rewrite (bind_err _ _ _ _ _ E2). simpl in *. eapply Rw_trans; eassumption.
    + rewrite (bind_err _ _ _ _ _ E1). exact W1.
Qed.
Lemma w_ask q : pres Rw (ask E H q).
Proof.
  pose proof w_pargs. pose proof w_nfw. pose proof w_phys. pose proof w_kw. pose proof w_conc.
  pose proof w_zinf. pose proof w_zeval. pose proof w_time. pose proof w_mbdef.
  destruct q; unfold ask, vmax_nfw, bound_mass, mass_3d, density_profile_3d; pw.
Qed.
Lemma w_act o s : Rw s (act E H o s).
Proof.
  destruct o; simpl.
  - apply w_ask.
  - unfold set_infall_redshift. destruct (h_sub H); simpl; [split; auto|apply Rw_refl].
  - apply w_rescale.
  - split; auto.
Qed.
Lemma w_history l : forall s, Rw s (history E H l s).
Proof.
  induction l as [|o l IH]; simpl; intros s; [apply Rw_refl|]. eapply Rw_trans; [apply w_act|apply IH].
Qed.

(** ** The basic queries do not touch the derived parameters. *)
Definition F (s s' : St) : Prop :=
  s_norm s' = s_norm s /\ s_once s' = s_once s /\ s_pargs s' = s_pargs s /\
  s_phys s' = s_phys s /\ s_kw s' = s_kw s.
Lemma F_refl s : F s s. Proof. repeat split. Qed.
Lemma F_trans a b c : F a b -> F b c -> F a c. Proof. unfold F; intuition congruence. Qed.
Ltac pf := pres_tac F_trans F_refl ltac:(first [assumption | solve [repeat split]]).
Lemma f_zinf : pres F (z_infall E H). Proof. unfold z_infall. pf. Qed.
Lemma f_zeval : pres F (z_eval E H). Proof. pose proof f_zinf. unfold z_eval. pf. Qed.
Lemma f_time : pres F (time_since_infall E H). Proof. pose proof f_zinf. unfold time_since_infall. pf. Qed.
Lemma f_conc : pres F (conc E H). Proof. pose proof f_zeval. unfold conc. pf. Qed.
Lemma f_nfw : pres F (nfw_params E H). Proof. pose proof f_zeval. pose proof f_conc. unfold nfw_params. pf. Qed.
Lemma f_draw st : pres F (draw_number st). Proof. unfold draw_number. pf. Qed.
Lemma f_loss st a t c : pres F (mass_loss E st a t c).
Proof. pose proof (f_draw st). unfold mass_loss. pf. Qed.
Lemma f_mb : pres F (calculate_mbound E H).
Proof.
  pose proof f_conc. pose proof f_time. pose proof f_zinf. unfold calculate_mbound.
  pres_tac F_trans F_refl ltac:(first [assumption | apply f_draw | apply f_loss]).
Qed.
Lemma f_mbdef : pres F (bound_mass_galacticus_definition E H).
Proof. pose proof f_mb. unfold bound_mass_galacticus_definition. pf. Qed.

(** ** Once the profile arguments exist, queries keep every stored derived parameter. *)
Definition Rk (s s' : St) : Prop :=
  forall a, s_pargs s = Some a ->
    s_pargs s' = Some a /\ s_norm s' = s_norm s /\ s_once s' = s_once s /\
    (forall k, s_kw s = Some k -> s_kw s' = Some k) /\
    (forall p, s_phys s = Some p -> s_phys s' = Some p).
Lemma Rk_refl s : Rk s s. Proof. unfold Rk; auto 10. Qed.
Lemma Rk_trans a b c : Rk a b -> Rk b c -> Rk a c.
Proof.
  intros H1 H2 q Hq. destruct (H1 q Hq) as (A1 & A2 & A3 & A4 & A5).
  destruct (H2 q A1) as (B1 & B2 & B3 & B4 & B5). repeat split; auto; congruence.
Qed.
Lemma F_Rk {A} (m : M A) : pres F m -> pres Rk m.
Proof.
  intros Hm s a Ha. destruct (Hm s) as (A1 & A2 & A3 & A4 & A5). repeat split; congruence.
Qed.
Lemma k_pargs : pres Rk (profile_args E H).
Proof.
  intros s a Ha. unfold profile_args. rewrite bind_gets, Ha. simpl. repeat split; auto.
Qed.
Lemma pargs_cached s a : s_pargs s = Some a -> profile_args E H s = (Ok a, s).
Proof. intros Ha. unfold profile_args. rewrite bind_gets, Ha. reflexivity. Qed.
Lemma k_phys : pres Rk (params_physical E H).
Proof.
  intros s a Ha. unfold params_physical. rewrite bind_gets. destruct (s_phys s) as [p|] eqn:Ep.
  - simpl. repeat split; intros; congruence.
  - rewrite (bind_ok _ _ _ _ _ (pargs_cached s a Ha)).
    pose proof (f_nfw s) as (A1 & A2 & A3 & A4 & A5).
    destruct (nfw_params E H s) as [[p|e] s2] eqn:E2; simpl in *.
    + rewrite (bind_ok _ _ _ _ _ E2). destruct p as [[rhos rs] r200].
      cbv beta iota delta [mbind gets modify ret]. simpl. repeat split; try congruence.
    + rewrite (bind_err _ _ _ _ _ E2). simpl. repeat split; congruence.
Qed.
Lemma k_kw : pres Rk (lenstronomy_params E H).
Proof.
  intros s a Ha. unfold lenstronomy_params. rewrite bind_gets. destruct (s_kw s) as [p|] eqn:Ep.
  - simpl. repeat split; intros; congruence.
  - rewrite (bind_ok _ _ _ _ _ (pargs_cached s a Ha)).
    pose proof (f_nfw s) as (A1 & A2 & A3 & A4 & A5).
    destruct (nfw_params E H s) as [[p|e] s2] eqn:E2; simpl in A1, A2, A3, A4, A5.
    + rewrite (bind_ok _ _ _ _ _ E2). destruct p as [[rhos rs] r200].
      destruct (e_angle E (rhos * 10 ^ 9) (rs * / 10 ^ 3) (h_z H)) as [Rs th].
      cbv beta iota delta [mbind gets modify ret]. simpl. repeat split; congruence.
    + rewrite (bind_err _ _ _ _ _ E2). simpl. repeat split; congruence.
Qed.
Lemma k_ask q : pres Rk (ask E H q).
Proof.
  pose proof k_pargs. pose proof (F_Rk _ f_nfw). pose proof k_phys. pose proof k_kw. pose proof (F_Rk _ f_conc).
  pose proof (F_Rk _ f_zinf). pose proof (F_Rk _ f_zeval). pose proof (F_Rk _ f_time). pose proof (F_Rk _ f_mbdef).
  destruct q; unfold ask, vmax_nfw, bound_mass, mass_3d, density_profile_3d;
  pres_tac Rk_trans Rk_refl ltac:(first [assumption | solve [intros q Hq; simpl; auto 10]]).
Qed.

(** ** Sampling: what was drawn stays, and nothing is drawn twice. *)
Definition drawn_once (s : St) : Prop :=
  ((s_zinf s = None -> n_z s = 0%nat) /\ (n_z s <= 1)%nat) /\
  ((s_c s = None -> n_c s = 0%nat) /\ (n_c s <= 1)%nat).
Definition Rd (s s' : St) : Prop :=
  (forall v, s_zinf s = Some v -> s_zinf s' = Some v) /\
  (forall v, s_zeval s = Some v -> s_zeval s' = Some v) /\
  (forall v, s_tsi s = Some v -> s_tsi s' = Some v) /\
  (forall v, s_c s = Some v -> s_c s' = Some v) /\
  (drawn_once s -> drawn_once s').
Lemma Rd_refl s : Rd s s. Proof. unfold Rd; auto. Qed.
Lemma Rd_trans a b c : Rd a b -> Rd b c -> Rd a c.
Proof. unfold Rd. intros (A1 & A2 & A3 & A4 & A5) (B1 & B2 & B3 & B4 & B5). repeat split; auto; apply B5, A5, H0. Qed.
Ltac trivd := first [assumption | solve [unfold Rd, drawn_once; simpl; auto]].
Ltac pd := pres_tac Rd_trans Rd_refl ltac:(trivd).
Ltac brute s :=
  unfold Rd, drawn_once; cbv beta iota delta [mbind gets modify ret raise pres];
  repeat (match goal with |- context [match ?x with _ => _ end] => destruct x eqn:? end; simpl; try congruence);
  repeat split; intros; simpl in *; try congruence; try tauto; intuition (try congruence; try lia).
Lemma d_zinf : pres Rd (z_infall E H).
Proof.
  intros s. unfold z_infall. rewrite bind_gets. destruct (s_zinf s) eqn:Ez; [apply Rd_refl|].
  rewrite bind_gets, !bind_modify. unfold Rd, drawn_once; simpl.
  repeat split; intros; try congruence; try tauto; intuition lia.
Qed.
Lemma zinf_frame s : s_zeval (snd (z_infall E H s)) = s_zeval s /\ s_c (snd (z_infall E H s)) = s_c s /\
  s_tsi (snd (z_infall E H s)) = s_tsi s /\ n_c (snd (z_infall E H s)) = n_c s.
Proof. unfold z_infall. rewrite bind_gets. destruct (s_zinf s); simpl; auto. Qed.
Lemma zinf_ok s : exists v s', z_infall E H s = (Ok v, s') /\ s_zinf s' = Some v.
Proof. unfold z_infall. rewrite bind_gets. destruct (s_zinf s) eqn:Ez; simpl; do 2 eexists; split; try reflexivity; auto. Qed.
Lemma d_zeval : pres Rd (z_eval E H).
Proof.
  intros s. unfold z_eval. rewrite bind_gets. destruct (s_zeval s) eqn:Ez; [apply Rd_refl|].
  destruct (h_sub H).
  - pose proof (d_zinf s) as D. pose proof (zinf_frame s) as Fr.
    destruct (zinf_ok s) as (v & s1 & E1 & Hv). rewrite E1 in D, Fr. rewrite (bind_ok _ _ _ _ _ E1), bind_modify.
    simpl in *. destruct D as (D1 & D2 & D3 & D4 & D5). unfold Rd; simpl.
    repeat split; auto; try congruence; apply D5; assumption.
  - rewrite bind_ret, bind_modify. unfold Rd; simpl. repeat split; auto; try congruence; apply H0.
Qed.
Lemma d_time : pres Rd (time_since_infall E H).
Proof.
  intros s. unfold time_since_infall. destruct (h_sub H); simpl; [|apply Rd_refl].
  rewrite bind_gets. destruct (s_tsi s) eqn:Ez; [apply Rd_refl|].
  pose proof (d_zinf s) as D. pose proof (zinf_frame s) as Fr.
  destruct (zinf_ok s) as (v & s1 & E1 & Hv). rewrite E1 in D, Fr. rewrite (bind_ok _ _ _ _ _ E1), bind_modify.
  simpl in *. destruct D as (D1 & D2 & D3 & D4 & D5).
  destruct (Rleb 0 (e_age E (h_z H) v)); unfold Rd; simpl; repeat split; auto; try congruence; apply D5; assumption.
Qed.
Lemma zeval_frame s : s_c (snd (z_eval E H s)) = s_c s /\ n_c (snd (z_eval E H s)) = n_c s.
Proof.
  unfold z_eval. rewrite bind_gets. destruct (s_zeval s); [simpl; auto|]. destruct (h_sub H); [|simpl; auto].
  destruct (zinf_ok s) as (v & s1 & E1 & Hv). pose proof (zinf_frame s) as Fr. rewrite E1 in Fr.
  rewrite (bind_ok _ _ _ _ _ E1), bind_modify. simpl in *. tauto.
Qed.
Lemma zeval_ok s : exists v s', z_eval E H s = (Ok v, s') /\ s_zeval s' = Some v.
Proof.
  unfold z_eval. rewrite bind_gets. destruct (s_zeval s) eqn:Ez; [do 2 eexists; split; [reflexivity|exact Ez]|].
  destruct (h_sub H); [|simpl; do 2 eexists; split; reflexivity].
  destruct (zinf_ok s) as (v & s1 & E1 & Hv). rewrite (bind_ok _ _ _ _ _ E1), bind_modify.
  do 2 eexists; split; reflexivity.
Qed.
Lemma d_conc : pres Rd (conc E H).
Proof.
  intros s. unfold conc. rewrite bind_gets. destruct (s_c s) eqn:Ez; [apply Rd_refl|].
  pose proof (d_zeval s) as D. pose proof (zeval_frame s) as Fr.
  destruct (zeval_ok s) as (v & s1 & E1 & Hv). rewrite E1 in D, Fr.
  rewrite (bind_ok _ _ _ _ _ E1), bind_gets, !bind_modify. simpl in *.
  destruct D as (D1 & D2 & D3 & D4 & D5). destruct Fr as [F1 F2]. unfold Rd; simpl.
  split; [exact D1|]. split; [exact D2|]. split; [exact D3|]. split; [congruence|].
  intros DO. pose proof (D5 DO) as (X1 & X2). destruct DO as (_ & Y1 & Y2). unfold drawn_once; simpl.
  split; [exact X1|]. split; [congruence|]. rewrite F2, (Y1 Ez). lia.
Qed.
Lemma conc_ok s : exists v s', conc E H s = (Ok v, s') /\ s_c s' = Some v.
Proof.
  unfold conc. rewrite bind_gets. destruct (s_c s) eqn:Ez; [do 2 eexists; split; [reflexivity|exact Ez]|].
  destruct (zeval_ok s) as (v & s1 & E1 & Hv). rewrite (bind_ok _ _ _ _ _ E1), bind_gets, !bind_modify.
  do 2 eexists; split; reflexivity.
Qed.
Lemma d_nfw : pres Rd (nfw_params E H). Proof. pose proof d_zeval. pose proof d_conc. unfold nfw_params. pd. Qed.
Lemma d_draw st : pres Rd (draw_number st). Proof. unfold draw_number. pd. Qed.
Lemma d_loss st a t c : pres Rd (mass_loss E st a t c).
Proof. pose proof (d_draw st). unfold mass_loss. pd. Qed.
Lemma d_rescale f fo lg s : Rd s (rescale_normalization f fo lg s).
Proof. unfold rescale_normalization. destruct fo, (s_once s); unfold Rd, drawn_once; simpl; auto. Qed.
Lemma d_struct m c : pres Rd (structure_from_mbound E H m c).
Proof.
  pose proof d_zeval. unfold structure_from_mbound.
  pres_tac Rd_trans Rd_refl ltac:(first [assumption | apply d_rescale]).
Qed.
Lemma d_trunc : pres Rd (truncation_radius_halo E H).
Proof.
  pose proof d_zeval. pose proof d_conc. pose proof d_time. pose proof d_zinf. pose proof d_nfw.
  unfold truncation_radius_halo.
  pres_tac Rd_trans Rd_refl ltac:(first [assumption | apply d_draw | apply d_loss | apply d_struct | trivd]).
Qed.
Lemma d_mb : pres Rd (calculate_mbound E H).
Proof.
  pose proof d_conc. pose proof d_time. pose proof d_zinf. unfold calculate_mbound.
  pres_tac Rd_trans Rd_refl ltac:(first [assumption | apply d_draw | apply d_loss]).
Qed.
Lemma d_mbdef : pres Rd (bound_mass_galacticus_definition E H).
Proof. pose proof d_mb. unfold bound_mass_galacticus_definition. pd. Qed.
Lemma d_pargs : pres Rd (profile_args E H).
Proof.
  pose proof d_mbdef. pose proof d_conc. pose proof d_trunc. unfold profile_args.
  pres_tac Rd_trans Rd_refl ltac:(first [assumption | apply d_struct | trivd]).
Qed.
Lemma d_phys : pres Rd (params_physical E H).
Proof. pose proof d_pargs. pose proof d_nfw. unfold params_physical. pd. Qed.
Lemma d_kw : pres Rd (lenstronomy_params E H).
Proof. pose proof d_pargs. pose proof d_nfw. unfold lenstronomy_params. pd. Qed.
Lemma d_ask q : pres Rd (ask E H q).
Proof.
  pose proof d_pargs. pose proof d_nfw. pose proof d_phys. pose proof d_kw. pose proof d_conc.
  pose proof d_zinf. pose proof d_zeval. pose proof d_time. pose proof d_mbdef.
  destruct q; unfold ask, vmax_nfw, bound_mass, mass_3d, density_profile_3d; pd.
Qed.
End Frames.
