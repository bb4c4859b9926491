(** C121: cored halos and hybrids under any history of queries and rescalings.  Model: CoredModel.v *)
From Verif Require Import Prelude CoredModel.
From Coq Require Import Lra.

(** ** Specification *)
(** the product of the rescalings that count: a forced one always, an un-forced one until a logged one has happened *)
Fixpoint counted (once : bool) (ops : list cop) : R :=
  match ops with
  | [] => 1
  | CRescale f force log :: t => if force || negb once then f * counted (once || log) t else counted once t
  | _ :: t => counted once t
  end.
(** the peak velocity is not asked for *)
Definition no_vmax (ops : list cop) : Prop := Forall (fun o => o <> CVmax) ops.

(** what the halo answers after a history *)
Definition lens_answer q ops := fst (cparams q (after q ops)).
Definition density_answer q r ops := fst (cdensity q r (after q ops)).
Definition physical_answer q ops := fst (cphysical q (after q ops)).
Definition vmax_answer q ops := fst (cvmax q (after q ops)).

(** ** Invariants *)
Definition good (q : cored) (s : cstate) : Prop :=
  (forall v, c_kw s = Some v -> v = mkLensing (q_alpha q) (q_rs q / q_kpa q) (q_rc q / q_kpa q) (q_rt q / q_kpa q)) /\
  (forall v, c_phys s = Some v -> v = mkPhys (q_alpha q * c_norm s) (q_rs q) (q_r200 q) (q_rt q) (q_rc q)) /\
  (forall v, c_nfw s = Some v -> v = (q_nrhos q, q_nrs q, q_nr200 q)).

Lemma good_born q : good q born.
Proof. repeat split; intros v E; discriminate E. Qed.

Ltac opt := repeat match goal with
  | |- forall v, Some _ = Some v -> _ => let v := fresh in let E := fresh in intros v E; injection E as <-
  | |- forall v, None = Some v -> _ => let v := fresh in let E := fresh in intros v E; discriminate E end.

Lemma good_step q s o : good q s -> good q (cstep q s o).
Proof.
  intros G. destruct G as (K & P & N). destruct s as [n b ph kw nf vm]. cbn in K, P, N.
  destruct o; cbn.
  - unfold cparams; cbn. destruct kw; cbn; (split; [|split]); cbn; auto; opt; auto.
  - unfold cdensity, cparams; cbn. destruct kw; cbn; (split; [|split]); cbn; auto; opt; auto.
  - unfold cphysical; cbn. destruct ph; cbn; (split; [|split]); cbn; auto; opt; auto.
  - unfold cnfw; cbn. destruct nf; cbn; (split; [|split]); cbn; auto; opt; auto.
  - unfold cvmax, cnfw; cbn. destruct vm; cbn; [(split; [|split]); cbn; auto|].
    destruct nf as [[[a b'] c]|]; cbn; (split; [|split]); cbn; auto; opt; auto.
  - unfold crescale; cbn. destruct force; [|destruct b]; (split; [|split]); cbn; auto; opt.
Qed.

Lemma good_run q ops s : good q s -> good q (fold_left (cstep q) ops s).
Proof. revert s. induction ops as [|o t IH]; intros s G; [exact G|]. apply IH, good_step, G. Qed.

Lemma step_norm q s o : c_norm (cstep q s o) = c_norm s * counted (c_once s) [o] /\
  c_once (cstep q s o) = match o with CRescale _ force log => if force || negb (c_once s) then c_once s || log else c_once s | _ => c_once s end.
Proof.
  destruct s as [n b ph kw nf vm]. destruct o; cbn.
  - unfold cparams; cbn. destruct kw; cbn; split; auto; lra.
  - unfold cdensity, cparams; cbn. destruct kw; cbn; split; auto; lra.
  - unfold cphysical; cbn. destruct ph; cbn; split; auto; lra.
  - unfold cnfw; cbn. destruct nf; cbn; split; auto; lra.
  - unfold cvmax, cnfw; cbn. destruct vm; cbn; [split; auto; lra|]. destruct nf as [[[a b'] c]|]; cbn; split; auto; lra.
  - unfold crescale; cbn. destruct force, b, log; cbn; split; auto; lra.
Qed.

Lemma run_norm q ops s : c_norm (fold_left (cstep q) ops s) = c_norm s * counted (c_once s) ops.
Proof.
  revert s. induction ops as [|o t IH]; intros s; [cbn; lra|].
  cbn [fold_left]. rewrite IH. destruct (step_norm q s o) as [-> ->].
  destruct o; cbn; try (rewrite Rmult_1_r; reflexivity).
  destruct (force || negb (c_once s)); [lra|rewrite Rmult_1_r; reflexivity].
Qed.

Lemma after_norm q ops : c_norm (after q ops) = counted false ops.
Proof. unfold after. rewrite run_norm. cbn. lra. Qed.

Lemma vmax_kept q ops s v : c_vmax s = Some v -> c_vmax (fold_left (cstep q) ops s) = Some v.
Proof.
  revert s. induction ops as [|o t IH]; intros s E; [exact E|]. cbn [fold_left]. apply IH.
  destruct s as [n b ph kw nf vm]. cbn in E. subst vm. destruct o; cbn.
  - unfold cparams; cbn; destruct kw; reflexivity.
  - unfold cdensity, cparams; cbn; destruct kw; reflexivity.
  - unfold cphysical; cbn; destruct ph; reflexivity.
  - unfold cnfw; cbn; destruct nf; reflexivity.
  - reflexivity.
  - unfold crescale; cbn. destruct force; [|destruct b]; reflexivity.
Qed.
Lemma vmax_none q ops s : no_vmax ops -> c_vmax s = None -> c_vmax (fold_left (cstep q) ops s) = None.
Proof.
  intros F. revert s. induction F as [|o t O _ IH]; intros s E; [exact E|]. cbn [fold_left]. apply IH.
  destruct s as [n b ph kw nf vm]. cbn in E. subst vm. destruct o; cbn.
  - unfold cparams; cbn; destruct kw; reflexivity.
  - unfold cdensity, cparams; cbn; destruct kw; reflexivity.
  - unfold cphysical; cbn; destruct ph; reflexivity.
  - unfold cnfw; cbn; destruct nf; reflexivity.
  - congruence.
  - unfold crescale; cbn. destruct force; [|destruct b]; reflexivity.
Qed.

Lemma cvmax_fresh q s : good q s -> c_vmax s = None ->
  fst (cvmax q s) = q_vmax q (c_norm s * q_nrhos q) (q_nrs q) /\ c_vmax (snd (cvmax q s)) = Some (q_vmax q (c_norm s * q_nrhos q) (q_nrs q)).
Proof.
  intros (_ & _ & N) E. destruct s as [n b ph kw nf vm]. cbn in N, E. subst vm. unfold cvmax, cnfw; cbn.
  destruct nf as [[[a b'] c]|]; cbn; [|split; reflexivity].
  specialize (N _ eq_refl). injection N as -> -> ->. split; reflexivity.
Qed.

(** ** C121 *)
(** Whatever was asked before and however the halo was rescaled, its lens keywords and its density are those of the halo that was
    never rescaled. *)
Theorem C121_lensing : forall q ops r,
  lens_answer q ops = mkLensing (q_alpha q) (q_rs q / q_kpa q) (q_rc q / q_kpa q) (q_rt q / q_kpa q) /\
  density_answer q r ops = q_dens q (r / q_kpa q) (q_rs q / q_kpa q) (q_alpha q) (q_rc q / q_kpa q) (q_rt q / q_kpa q).
Proof.
  intros q ops r. destruct (good_run q ops born (good_born q)) as (K & _ & _). fold (after q ops) in K.
  unfold lens_answer, density_answer, cdensity, cparams. destruct (c_kw (after q ops)) as [v|].
  - rewrite (K v eq_refl). split; reflexivity.
  - split; reflexivity.
Qed.

(** The density normalisation it reports is the original one times the rescalings that count; its radii never change. *)
Theorem C121_physical : forall q ops,
  physical_answer q ops = mkPhys (q_alpha q * counted false ops) (q_rs q) (q_r200 q) (q_rt q) (q_rc q).
Proof.
  intros q ops. destruct (good_run q ops born (good_born q)) as (_ & P & _). fold (after q ops) in P.
  unfold physical_answer, cphysical. rewrite <- (after_norm q ops).
  destruct (c_phys (after q ops)) as [v|]; [exact (P v eq_refl)|reflexivity].
Qed.

(** The peak velocity is that of the NFW halo with the rescalings that counted before the first time it was asked for. *)
Theorem C121_vmax : forall q pre post, no_vmax pre ->
  vmax_answer q pre = q_vmax q (counted false pre * q_nrhos q) (q_nrs q) /\
  vmax_answer q (pre ++ CVmax :: post) = q_vmax q (counted false pre * q_nrhos q) (q_nrs q).
Proof.
  intros q pre post F.
  assert (G := good_run q pre born (good_born q)). assert (E := vmax_none q pre born F eq_refl).
  fold (after q pre) in G, E. destruct (cvmax_fresh q (after q pre) G E) as [A B]. rewrite (after_norm q pre) in A, B.
  split; [exact A|]. unfold vmax_answer, after. rewrite fold_left_app. cbn [fold_left cstep]. fold (after q pre).
  unfold cvmax at 1. rewrite (vmax_kept q post _ _ B). reflexivity.
Qed.

Definition demo_cored : cored := mkCored 0.5 1 0.2 3 10 4 1 10 2 (fun rhos rs => rhos * rs) (fun r Rs a rc rt => a * (r + Rs + rc + rt)).
Definition demo_history : list cop := [CLens; CPhysical; CRescale 2 false true; CPhysical; CRescale 5 false true; CDensity 1; CRescale 3 true false].
Example C121_nonvacuous : no_vmax demo_history /\ counted false demo_history = 6 /\
  y_rhos (physical_answer demo_cored demo_history) = 3 /\ w_alpha (lens_answer demo_cored demo_history) = 0.5 /\
  vmax_answer demo_cored demo_history = 24 /\ vmax_answer demo_cored (CVmax :: demo_history) = 4.
Proof.
  assert (F : no_vmax demo_history) by (repeat constructor; discriminate).
  assert (C : counted false demo_history = 6) by (cbn; lra).
  split; [exact F|]. split; [exact C|]. rewrite C121_physical, C. split; [cbn; lra|].
  split; [rewrite (proj1 (C121_lensing demo_cored demo_history 0)); reflexivity|].
  split; [rewrite (proj1 (C121_vmax demo_cored demo_history [] F)), C; cbn; lra|].
  pose proof (proj2 (C121_vmax demo_cored [] demo_history (Forall_nil _))) as V. cbn [app] in V. rewrite V. cbn. lra.
Qed.

(** So rescaling makes the reported normalisation disagree with the lens model, for every halo and every factor but one ... *)
Theorem C121_rescaled_refuted : forall q f, f <> 1 -> q_alpha q <> 0 ->
  y_rhos (physical_answer q []) = w_alpha (lens_answer q []) /\
  y_rhos (physical_answer q [CRescale f false true]) <> w_alpha (lens_answer q [CRescale f false true]).
Proof.
  intros q f F A. rewrite !C121_physical. rewrite !(fun ops => proj1 (C121_lensing q ops 0)). cbn. split; [lra|].
  intros E. apply F. apply (Rmult_eq_reg_l (q_alpha q)); [lra|exact A].
Qed.
Example C121_rescaled_refuted_nonvacuous : (2 : R) <> 1 /\ q_alpha demo_cored <> 0.
Proof. cbn. lra. Qed.

(** ... and the peak velocity remembers whether it was asked for before the rescaling. *)
Theorem C121_vmax_refuted : forall q f, q_vmax q (1 * q_nrhos q) (q_nrs q) <> q_vmax q (f * 1 * q_nrhos q) (q_nrs q) ->
  vmax_answer q [CVmax; CRescale f true true] <> vmax_answer q [CRescale f true true; CVmax].
Proof.
  intros q f N.
  pose proof (proj2 (C121_vmax q [] [CRescale f true true] (Forall_nil _))) as A. cbn [app counted] in A. rewrite A.
  assert (F : no_vmax [CRescale f true true]) by (repeat constructor; discriminate).
  pose proof (proj2 (C121_vmax q _ [] F)) as B. cbn [app counted orb] in B. rewrite B. exact N.
Qed.
Example C121_vmax_refuted_nonvacuous : q_vmax demo_cored (1 * q_nrhos demo_cored) (q_nrs demo_cored) <> q_vmax demo_cored (2 * 1 * q_nrhos demo_cored) (q_nrs demo_cored).
Proof. cbn. lra. Qed.

(** ** Hybrids *)
(** the rescalings of the truncated constituent *)
Fixpoint of_tnfw (ops : list hop) : R := match ops with [] => 1 | HRescaleTNFW f :: t => f * of_tnfw t | _ :: t => of_tnfw t end.
Definition hybrid_answer p ops := fst (hparams p (hafter p ops)).
Definition no_hybrid_query (ops : list hop) : Prop := Forall (fun o => o <> HLens) ops.
Definition no_own_rescaling (ops : list hop) : Prop := Forall (fun o => forall f force log, o <> HRescale f force log) ops.

Lemma h_step p s o : good (p_cored p) (h_cored s) ->
  good (p_cored p) (h_cored (hstep p s o)) /\ t_norm (hstep p s o) = t_norm s * of_tnfw [o].
Proof.
  intros G. destruct s as [n b kw tn c]. cbn in G. destruct o; cbn.
  - unfold hparams; cbn. destruct kw; cbn; [split; [exact G|lra]|].
    pose proof (good_step _ _ CLens G) as G'. cbn in G'. destruct (cparams (p_cored p) c) as [k c']. cbn in *. split; [exact G'|lra].
  - unfold hrescale; cbn. destruct force; [|destruct b]; cbn; (split; [exact G|lra]).
  - split; [exact G|lra].
  - split; [exact (good_step _ _ (CRescale f true true) G)|lra].
Qed.
Lemma h_run p ops s : good (p_cored p) (h_cored s) ->
  good (p_cored p) (h_cored (fold_left (hstep p) ops s)) /\ t_norm (fold_left (hstep p) ops s) = t_norm s * of_tnfw ops.
Proof.
  revert s. induction ops as [|o t IH]; intros s G; [split; [exact G|cbn; lra]|]. cbn [fold_left].
  destruct (h_step p s o G) as [G' E]. destruct (IH _ G') as [A B]. split; [exact A|]. rewrite B, E. destruct o; cbn; lra.
Qed.
Lemma h_answer p s : good (p_cored p) (h_cored s) -> h_kw s = None ->
  let v := (t_norm s * t_alpha p * (1 - p_weight p), q_alpha (p_cored p) * p_weight p) in
  fst (hparams p s) = v /\ h_kw (snd (hparams p s)) = Some v.
Proof.
  intros (K & _ & _) E. unfold hparams. rewrite E. unfold cparams. destruct (c_kw (h_cored s)) as [k|]; [rewrite (K k eq_refl)|]; split; reflexivity.
Qed.
Lemma h_none p ops s : no_hybrid_query ops -> h_kw s = None -> h_kw (fold_left (hstep p) ops s) = None.
Proof.
  intros F. revert s. induction F as [|o t O _ IH]; intros s E; [exact E|]. cbn [fold_left]. apply IH.
  destruct o; cbn; [congruence| | exact E | exact E]. unfold hrescale. destruct force; [|destruct (h_once s)]; cbn; auto.
Qed.
Lemma h_kept p ops s v : no_own_rescaling ops -> h_kw s = Some v -> h_kw (fold_left (hstep p) ops s) = Some v.
Proof.
  intros F. revert s. induction F as [|o t O _ IH]; intros s E; [exact E|]. cbn [fold_left]. apply IH.
  destruct o; cbn; [|exfalso; eapply O; reflexivity|exact E|exact E]. unfold hparams. rewrite E. exact E.
Qed.

(** Rescaling the hybrid itself, or its cored constituent, never changes the amplitudes it hands out. *)
Theorem C121_hybrid : forall p ops, Forall (fun o => forall f, o <> HRescaleTNFW f) ops ->
  hybrid_answer p ops = (t_alpha p * (1 - p_weight p), q_alpha (p_cored p) * p_weight p).
Proof.
  intros p ops F.
  assert (I : forall s, good (p_cored p) (h_cored s) -> t_norm s = 1 ->
    (forall v, h_kw s = Some v -> v = (t_alpha p * (1 - p_weight p), q_alpha (p_cored p) * p_weight p)) ->
    fst (hparams p (fold_left (hstep p) ops s)) = (t_alpha p * (1 - p_weight p), q_alpha (p_cored p) * p_weight p)).
  { induction F as [|o t O _ IH]; intros s G T K.
    - cbn [fold_left]. destruct (h_kw s) as [v|] eqn:E; [unfold hparams; rewrite E; exact (K v eq_refl)|].
      pose proof (h_answer p s G E) as [A _]. rewrite A, T. f_equal. lra.
    - cbn [fold_left]. destruct (h_step p s o G) as [G' T']. apply IH; [exact G'| |].
      + rewrite T', T. destruct o; cbn; try lra. exfalso. exact (O f eq_refl).
      + intros v E. destruct o; cbn in E.
        * destruct (h_kw s) as [w|] eqn:W.
          -- unfold hparams in E. rewrite W in E. cbn in E. rewrite W in E. injection E as <-. exact (K w eq_refl).
          -- pose proof (h_answer p s G W) as [_ A]. rewrite A in E. injection E as <-. rewrite T. f_equal. lra.
        * unfold hrescale in E. destruct force; [discriminate E|]. destruct (h_once s); [exact (K v E)|discriminate E].
        * exact (K v E).
        * exact (K v E). }
  apply I; [apply good_born|reflexivity|intros v E; discriminate E].
Qed.

(** Rescaling the truncated constituent is seen as long as the hybrid's keywords were not asked for, and not seen afterwards until the
    hybrid itself is rescaled. *)
Theorem C121_hybrid_constituent : forall p pre post, no_hybrid_query pre ->
  hybrid_answer p pre = (of_tnfw pre * t_alpha p * (1 - p_weight p), q_alpha (p_cored p) * p_weight p) /\
  (no_own_rescaling post ->
   hybrid_answer p (pre ++ HLens :: post) = (of_tnfw pre * t_alpha p * (1 - p_weight p), q_alpha (p_cored p) * p_weight p)).
Proof.
  intros p pre post F. destruct (h_run p pre hborn (good_born _)) as [G T]. fold (hafter p pre) in G, T.
  assert (E := h_none p pre hborn F eq_refl). fold (hafter p pre) in E.
  destruct (h_answer p _ G E) as [A B]. cbn in T. rewrite Rmult_1_l in T. rewrite T in A, B. split; [exact A|]. intros O.
  unfold hybrid_answer, hafter. rewrite fold_left_app. cbn [fold_left hstep]. fold (hafter p pre).
  unfold hparams at 1. rewrite (h_kept p post _ _ O B). reflexivity.
Qed.
Theorem C121_hybrid_refreshed : forall p pre f log mid, no_hybrid_query mid ->
  hybrid_answer p (pre ++ HRescale f true log :: mid) =
  (of_tnfw (pre ++ mid) * t_alpha p * (1 - p_weight p), q_alpha (p_cored p) * p_weight p).
Proof.
  intros p pre f log mid M.
  destruct (h_run p (pre ++ HRescale f true log :: mid) hborn (good_born _)) as [G T]. fold (hafter p (pre ++ HRescale f true log :: mid)) in G, T.
  assert (E : h_kw (hafter p (pre ++ HRescale f true log :: mid)) = None).
  { unfold hafter. rewrite fold_left_app. cbn [fold_left]. apply h_none; [exact M|reflexivity]. }
  destruct (h_answer p _ G E) as [A _]. unfold hybrid_answer. rewrite A, T. cbn [t_norm hborn]. rewrite Rmult_1_l.
  assert (C : of_tnfw (pre ++ HRescale f true log :: mid) = of_tnfw (pre ++ mid)).
  { clear. induction pre as [|o t IH]; [reflexivity|]. destruct o; cbn; rewrite ?IH; reflexivity. }
  rewrite C. reflexivity.
Qed.
Definition demo_pair : pair := mkPair 2 demo_cored 0.25.
Example C121_hybrid_nonvacuous :
  Forall (fun o => forall f, o <> HRescaleTNFW f) [HLens; HRescale 3 false true; HRescaleTNFWC 4] /\
  no_hybrid_query [HRescaleTNFW 3] /\ no_own_rescaling [HRescaleTNFW 7] /\
  hybrid_answer demo_pair [HRescaleTNFW 3; HLens; HRescaleTNFW 7] = (3 * 1 * 2 * (1 - 0.25), 0.5 * 0.25) /\
  hybrid_answer demo_pair [HLens; HRescaleTNFW 7; HRescale 9 true true] = (7 * 1 * 2 * (1 - 0.25), 0.5 * 0.25).
Proof.
  assert (N : no_hybrid_query [HRescaleTNFW 3]) by (repeat constructor; discriminate).
  assert (O : no_own_rescaling [HRescaleTNFW 7]) by (repeat constructor; discriminate).
  split; [repeat constructor; discriminate|]. split; [exact N|]. split; [exact O|]. split.
  - exact (proj2 (C121_hybrid_constituent demo_pair [HRescaleTNFW 3] [HRescaleTNFW 7] N) O).
  - exact (C121_hybrid_refreshed demo_pair [HLens; HRescaleTNFW 7] 9 true [] (Forall_nil _)).
Qed.

Print Assumptions C121_lensing.
Print Assumptions C121_physical.
Print Assumptions C121_vmax.
Print Assumptions C121_rescaled_refuted.
Print Assumptions C121_vmax_refuted.
Print Assumptions C121_hybrid.
Print Assumptions C121_hybrid_constituent.
Print Assumptions C121_hybrid_refreshed.
