(** Properties of ConcClassModel: one concentration per halo (C109). *)
From Verif Require Import Prelude ConcClassModel.
Import ListNotations.
Open Scope R_scope.

(** ** Specification *)
(** classes in which everything is computed from one cached concentration *)
Definition one_concentration (cl : cclass) : Prop := In cl [CNfw; CCored; CTnfw; CTnfwc; CUldm; CCollapsed].
(** classes in which profile_args asks the concentration-mass relation a second time *)
Definition two_concentrations (cl : cclass) : Prop := In cl [CGnfw; CJaffeSub; CJaffeField].
Definition reads_only (ops : list cop) : Prop := forall o, In o ops -> match o with OSetInfall _ => False | _ => True end.
(** the redshift at which a halo's concentration is to be evaluated: its own in the field, infall for a subhalo *)
Definition reference_redshift (V : cenv) (H : chalo) : R := if k_sub H then v_infall V 0 (k_mass H) else k_z H.
(** a concentration-mass relation without scatter *)
Definition no_scatter (V : cenv) : Prop := forall n m z, v_conc V n m z = v_conc V 0 m z.
(** the field classes are used for field halos (HaloLoaderModel) *)
Definition class_fits (H : chalo) : Prop := match k_class H with CJaffeField | CPowerField => k_sub H = false | CJaffeSub | CPowerSub => k_sub H = true | _ => True end.

(** ** Invariants *)
Lemma run_app V H a b : crun V H (a ++ b) = fold_left (cstep V H) b (crun V H a).
Proof. unfold crun. apply fold_left_app. Qed.
Lemma run_inv V H (I : cstate -> Prop) (P : cop -> Prop) : (forall s o, P o -> I s -> I (cstep V H s o)) ->
  forall ops s, Forall P ops -> I s -> I (fold_left (cstep V H) ops s).
Proof.
  intros K ops. induction ops as [|o t IH]; intros s F Is; cbn [fold_left]; [exact Is|]. inversion F; subst. apply IH; auto.
Qed.
Lemma reads_forall ops : reads_only ops <-> Forall (fun o => match o with OSetInfall _ => False | _ => True end) ops.
Proof. unfold reads_only. rewrite Forall_forall. tauto. Qed.

(** one concentration, any history *)
Definition inv1 (s : cstate) : Prop :=
  (a_c s = None /\ a_pargs s = None /\ n_conc s = 0%nat) \/
  (exists c, a_c s = Some c /\ n_conc s = 1%nat /\ (a_pargs s = None \/ a_pargs s = Some c)).
(** one concentration, reading histories: the redshifts *)
Definition invz (V : cenv) (H : chalo) (s : cstate) : Prop :=
  ((a_zinf s = None /\ n_inf s = 0%nat) \/ (a_zinf s = Some (v_infall V 0 (k_mass H)) /\ n_inf s = 1%nat)) /\
  (a_zeval s = None \/ a_zeval s = Some (reference_redshift V H)).
(** all remembered concentrations belong to the reference redshift *)
Definition invc (V : cenv) (H : chalo) (s : cstate) : Prop :=
  (forall c, a_c s = Some c -> exists n, (n < n_conc s)%nat /\ c = v_conc V n (k_mass H) (reference_redshift V H)) /\
  (forall c, a_pargs s = Some c -> exists n, (n < n_conc s)%nat /\ c = v_conc V n (k_mass H) (reference_redshift V H)).

(** effect of the redshift queries on the concentrations: none *)
Lemma infall_frame V H s : let s' := fst (q_infall V H s) in
  a_c s' = a_c s /\ a_pargs s' = a_pargs s /\ n_conc s' = n_conc s /\ a_zeval s' = a_zeval s.
Proof. unfold q_infall. destruct (a_zinf s); cbn; auto. Qed.
Lemma zeval_frame V H s : let s' := fst (q_zeval V H s) in a_c s' = a_c s /\ a_pargs s' = a_pargs s /\ n_conc s' = n_conc s.
Proof.
  unfold q_zeval. pose proof (infall_frame V H s) as F. destruct (q_infall V H s) as [si zi]; cbn in F.
  destruct F as (A & B & C & _).
  destruct (k_class H), (a_zeval s), (k_sub H), (k_at_zlens H); cbn; auto.
Qed.
Lemma infall_invz V H s : invz V H s -> invz V H (fst (q_infall V H s)) /\ snd (q_infall V H s) = v_infall V 0 (k_mass H).
Proof.
  intros [[[A B]|[A B]] C]; unfold q_infall; rewrite A; cbn; split; try reflexivity.
  - split; [right; cbn; rewrite B; auto|exact C].
  - rewrite B. reflexivity.
  - split; [right; auto|exact C].
Qed.
Definition plain_class (cl : cclass) : Prop := cl <> CPowerSub /\ cl <> CPowerField.
Lemma zeval_invz V H s : plain_class (k_class H) -> invz V H s ->
  invz V H (fst (q_zeval V H s)) /\ snd (q_zeval V H s) = reference_redshift V H.
Proof.
  intros [NP NF] I. destruct (infall_invz V H s I) as [Ii Vi]. destruct I as [A [B|B]].
  - assert (E : q_zeval V H s = if k_sub H then (let '(s', z) := q_infall V H s in (set_zeval z s', z)) else (set_zeval (k_z H) s, k_z H)).
    { unfold q_zeval. rewrite B. destruct (k_class H); try reflexivity; congruence. }
    rewrite E. unfold reference_redshift in *. destruct (k_sub H) eqn:S.
    + destruct (q_infall V H s) as [si zi]; cbn in Ii, Vi |- *. split; [|exact Vi].
      destruct Ii as [Ai _]. split; [exact Ai|]. right. unfold reference_redshift. rewrite S. cbn. rewrite Vi. reflexivity.
    + cbn. split; [|reflexivity]. split; [exact A|]. right. unfold reference_redshift. rewrite S. reflexivity.
  - assert (E : q_zeval V H s = (s, reference_redshift V H)).
    { unfold q_zeval. rewrite B. destruct (k_class H); try reflexivity; congruence. }
    rewrite E. cbn. split; [|reflexivity]. split; [exact A|right; exact B].
Qed.

(** the property c *)
Lemma c_cached V H s c : plain_class (k_class H) -> a_c s = Some c -> q_c V H s = (s, Ok c).
Proof. intros [P F] E. unfold q_c. rewrite E. destruct (k_class H); try reflexivity; congruence. Qed.
Lemma c_fresh V H s : plain_class (k_class H) -> a_c s = None ->
  exists s' z, snd (q_zeval V H s) = z /\ q_c V H s = (s', Ok (v_conc V (n_conc s) (k_mass H) z)) /\
    a_c s' = Some (v_conc V (n_conc s) (k_mass H) z) /\ a_pargs s' = a_pargs s /\ n_conc s' = S (n_conc s) /\
    a_zinf s' = a_zinf (fst (q_zeval V H s)) /\ n_inf s' = n_inf (fst (q_zeval V H s)) /\ a_zeval s' = a_zeval (fst (q_zeval V H s)).
Proof.
  intros [P F] E. pose proof (zeval_frame V H s) as Fr.
  assert (U : q_c V H s = let '(s1, z) := q_zeval V H s in let '(s2, c) := q_draw V H z s1 in (set_conc c s2, Ok c)).
  { unfold q_c. rewrite E. destruct (k_class H); try reflexivity; congruence. }
  rewrite U. destruct (q_zeval V H s) as [s1 z]. cbn in Fr. destruct Fr as (A & B & C). cbn.
  eexists. exists z. rewrite C, B. repeat split; reflexivity.
Qed.

Lemma one_plain cl : one_concentration cl -> plain_class cl.
Proof. intros I. split; intros ->; cbn in I; intuition discriminate. Qed.
Lemma one_args V H s : one_concentration (k_class H) ->
  q_args V H s = match a_pargs s with Some c => (s, Ok c) | None =>
    match q_c V H s with (s1, Ok c) => (set_args c s1, Ok c) | (s1, Err e) => (s1, Err e) end end.
Proof. intros I. unfold q_args. destruct (a_pargs s); [reflexivity|]. destruct (k_class H); try reflexivity; exfalso; cbn in I; intuition discriminate. Qed.

Lemma inv1_c V H s : one_concentration (k_class H) -> inv1 s ->
  exists c, snd (q_c V H s) = Ok c /\ a_c (fst (q_c V H s)) = Some c /\ n_conc (fst (q_c V H s)) = 1%nat /\
    (a_pargs (fst (q_c V H s)) = None \/ a_pargs (fst (q_c V H s)) = Some c) /\ (forall c', a_c s = Some c' -> c' = c).
Proof.
  intros O [(A & B & C)|(c & A & B & C)].
  - destruct (c_fresh V H s (one_plain _ O) A) as (s' & z & _ & E & E1 & E2 & E3 & _). rewrite E. cbn.
    eexists. split; [reflexivity|]. split; [exact E1|]. rewrite E3, C. split; [reflexivity|]. rewrite E2, B. split; [left; reflexivity|].
    intros c' X. rewrite A in X. discriminate X.
  - rewrite (c_cached V H s c (one_plain _ O) A). cbn. exists c. repeat split; auto. intros c' X. rewrite A in X. injection X as X. auto.
Qed.
Lemma inv1_args V H s : one_concentration (k_class H) -> inv1 s ->
  exists c, snd (q_args V H s) = Ok c /\ a_c (fst (q_args V H s)) = Some c /\ n_conc (fst (q_args V H s)) = 1%nat /\
    a_pargs (fst (q_args V H s)) = Some c /\ snd (q_c V H s) = Ok c.
Proof.
  intros O I. rewrite (one_args V H s O). destruct (inv1_c V H s O I) as (c & E1 & E2 & E3 & E4 & E5).
  destruct (a_pargs s) as [c'|] eqn:P.
  - destruct I as [(_ & X & _)|(c0 & A & B & C)]; [congruence|].
    assert (c' = c0) by (destruct C as [C|C]; congruence). subst c'. pose proof (E5 _ A). subst c0. cbn.
    exists c. repeat split; auto.
  - destruct (q_c V H s) as [s1 r]. cbn in *. subst r. cbn. exists c. repeat split; auto.
Qed.
Lemma inv1_lens V H s : one_concentration (k_class H) -> inv1 s ->
  exists c, snd (q_lens V H s) = Ok (c, c) /\ snd (q_c V H s) = Ok c /\ inv1 (fst (q_lens V H s)) /\ a_c (fst (q_lens V H s)) = Some c.
Proof.
  intros O I. destruct (inv1_c V H s O I) as (c & E1 & E2 & E3 & E4 & E5). destruct (inv1_args V H s O I) as (c' & F1 & F2 & F3 & F4 & F5).
  assert (c' = c) by congruence. subst c'.
  assert (U : q_lens V H s = (match q_c V H s with (s1, Ok c) => (s1, Ok (c, c)) | (s1, Err e) => (s1, Err e) end) \/
              q_lens V H s = (match q_args V H s with
                | (s1, Ok _) => match q_c V H s1 with (s2, Ok c) => (s2, Ok (c, c)) | (s2, Err e) => (s2, Err e) end
                | (s1, Err e) => (s1, Err e) end)).
  { unfold q_lens. destruct (k_class H); auto; exfalso; cbn in O; intuition discriminate. }
  exists c. destruct U as [U|U]; rewrite U.
  - destruct (q_c V H s) as [s1 r]. cbn in *. subst r. cbn. repeat split; auto. right. exists c. auto.
  - destruct (q_args V H s) as [s1 r]. cbn in *. subst r. rewrite (c_cached V H s1 c (one_plain _ O) F2). cbn.
    repeat split; auto. right. exists c. auto.
Qed.
Lemma inv1_step V H s o : one_concentration (k_class H) -> inv1 s -> inv1 (cstep V H s o).
Proof.
  intros O I. destruct o; cbn [cstep].
  - destruct (infall_frame V H s) as (A & B & C & _). unfold inv1 in *. rewrite A, B, C. exact I.
  - destruct (zeval_frame V H s) as (A & B & C). unfold inv1 in *. rewrite A, B, C. exact I.
  - destruct (inv1_c V H s O I) as (c & E1 & E2 & E3 & E4 & _). right. exists c. auto.
  - destruct (inv1_args V H s O I) as (c & E1 & E2 & E3 & E4 & _). right. exists c. auto.
  - destruct (inv1_lens V H s O I) as (c & _ & _ & J & _). exact J.
  - unfold q_set_infall. destruct (k_sub H); exact I.
Qed.
Lemma inv1_run V H ops s : one_concentration (k_class H) -> inv1 s -> inv1 (fold_left (cstep V H) ops s).
Proof.
  intros O. apply (run_inv V H inv1 (fun _ => True)); [|apply Forall_forall; auto]. intros; apply inv1_step; assumption.
Qed.
Lemma inv1_fresh : inv1 cfresh. Proof. left. auto. Qed.
(** a remembered concentration is never replaced *)
Lemma keep_step V H s o c : one_concentration (k_class H) -> inv1 s -> a_c s = Some c -> a_c (cstep V H s o) = Some c.
Proof.
  intros O I E. destruct o; cbn [cstep].
  - destruct (infall_frame V H s) as (A & _). congruence.
  - destruct (zeval_frame V H s) as (A & _). congruence.
  - rewrite (c_cached V H s c (one_plain _ O) E). exact E.
  - destruct (inv1_args V H s O I) as (c' & _ & A & _ & _ & B). rewrite (c_cached V H s c (one_plain _ O) E) in B. cbn in B. congruence.
  - destruct (inv1_lens V H s O I) as (c' & _ & B & _ & A). rewrite (c_cached V H s c (one_plain _ O) E) in B. cbn in B. congruence.
  - unfold q_set_infall. destruct (k_sub H); exact E.
Qed.
Lemma keep_run V H ops s c : one_concentration (k_class H) -> inv1 s -> a_c s = Some c -> a_c (fold_left (cstep V H) ops s) = Some c.
Proof.
  intros O I E. apply (run_inv V H (fun s => inv1 s /\ a_c s = Some c) (fun _ => True)); [|apply Forall_forall; auto|auto].
  intros s0 o _ [J K]. split; [apply inv1_step|apply keep_step]; assumption.
Qed.

(** ** The theorems *)
(** The property c, profile_args and the lensing keywords of these classes use one and the same number, after any history of queries and
    of manual changes of the infall redshift; it is drawn at most once and never changes after it was first used. *)
Theorem C109_one : forall V H ops, one_concentration (k_class H) -> let s := crun V H ops in
  exists c, snd (q_c V H s) = Ok c /\ snd (q_args V H s) = Ok c /\ snd (q_lens V H s) = Ok (c, c) /\ (n_conc s <= 1)%nat /\
    forall ops', (In OConc ops' \/ In OArgs ops' \/ In OLens ops' -> n_conc (crun V H (ops ++ ops')) = 1%nat) /\
      forall q, In q [OConc; OArgs; OLens] -> snd (q_c V H (crun V H (ops ++ q :: ops'))) = Ok c.
Proof.
  intros V H ops O s. pose proof (inv1_run V H ops cfresh O inv1_fresh) as I. change (inv1 s) in I.
  destruct (inv1_c V H s O I) as (c & C1 & C2 & C3 & C4 & _). destruct (inv1_args V H s O I) as (c' & A1 & A2 & A3 & A4 & A5).
  destruct (inv1_lens V H s O I) as (c'' & L1 & L2 & L3 & L4). assert (c' = c) by congruence. assert (c'' = c) by congruence. subst c' c''.
  exists c. do 3 (split; [assumption|]). split. { destruct I as [(_ & _ & N)|(? & _ & N & _)]; lia. }
  assert (W : forall q, In q [OConc; OArgs; OLens] -> inv1 (cstep V H s q) /\ a_c (cstep V H s q) = Some c).
  { intros q Hq. split; [apply inv1_step; assumption|]. cbn in Hq. destruct Hq as [<-|[<-|[<-|[]]]]; cbn [cstep]; assumption. }
  intros ops'. split.
  - intros Hin. assert (exists q, In q [OConc; OArgs; OLens] /\ In q ops') as (q & Q1 & Q2).
    { destruct Hin as [X|[X|X]]; [exists OConc|exists OArgs|exists OLens]; cbn; auto. }
    apply in_split in Q2. destruct Q2 as (l1 & l2 & ->). rewrite run_app. rewrite fold_left_app. cbn [fold_left].
    set (s1 := fold_left (cstep V H) l1 (crun V H ops)). assert (I1 : inv1 s1) by (apply inv1_run; assumption).
    assert (I2 : inv1 (cstep V H s1 q)) by (apply inv1_step; assumption).
    assert (exists c1, a_c (cstep V H s1 q) = Some c1) as (c1 & D).
    { cbn in Q1. destruct Q1 as [<-|[<-|[<-|[]]]]; cbn [cstep].
      - destruct (inv1_c V H s1 O I1) as (x & _ & X & _). eauto.
      - destruct (inv1_args V H s1 O I1) as (x & _ & X & _). eauto.
      - destruct (inv1_lens V H s1 O I1) as (x & _ & _ & _ & X). eauto. }
    pose proof (keep_run V H l2 _ c1 O I2 D) as K. pose proof (inv1_run V H l2 _ O I2) as J.
    destruct J as [(N & _)|(? & _ & N & _)]; [congruence|exact N].
  - intros q Hq. destruct (W q Hq) as [W1 W2]. rewrite run_app. cbn [fold_left].
    pose proof (keep_run V H ops' _ c O W1 W2) as K. rewrite (c_cached _ _ _ c (one_plain _ O) K). reflexivity.
Qed.

(** reading histories keep the redshifts *)
Lemma invz_fresh V H : invz V H cfresh. Proof. split; left; cbn; auto. Qed.
Lemma c_invz V H s : plain_class (k_class H) -> invz V H s -> invz V H (fst (q_c V H s)).
Proof.
  intros P I. destruct (a_c s) as [c|] eqn:E; [rewrite (c_cached V H s c P E); exact I|].
  destruct (c_fresh V H s P E) as (s' & z & _ & U & _ & _ & _ & A & B & C). rewrite U. cbn.
  destruct (zeval_invz V H s P I) as [J _]. unfold invz in *. rewrite A, B, C. exact J.
Qed.
Lemma args_invz_one V H s : one_concentration (k_class H) -> invz V H s -> invz V H (fst (q_args V H s)).
Proof.
  intros O I. rewrite (one_args V H s O). destruct (a_pargs s); [exact I|]. pose proof (c_invz V H s (one_plain _ O) I) as J.
  destruct (q_c V H s) as [s1 [c|e]]; exact J.
Qed.
Lemma lens_invz_one V H s : one_concentration (k_class H) -> invz V H s -> invz V H (fst (q_lens V H s)).
Proof.
  intros O I. pose proof (c_invz V H s (one_plain _ O) I) as J. pose proof (args_invz_one V H s O I) as K.
  assert (L : forall s1, invz V H s1 -> invz V H (fst (match q_c V H s1 with (s2, Ok c) => (s2, Ok (c, c)) | (s2, Err e) => (s2, Err e) end))).
  { intros s1 X. pose proof (c_invz V H s1 (one_plain _ O) X) as Y. destruct (q_c V H s1) as [s2 [c|e]]; exact Y. }
  unfold q_lens. destruct (k_class H) eqn:E; try (exfalso; cbn in O; intuition discriminate); try (apply L; exact I);
    destruct (q_args V H s) as [s1 [c|e]]; try (apply L; exact K); exact K.
Qed.
Definition inv1c (V : cenv) (H : chalo) (s : cstate) : Prop :=
  inv1 s /\ invz V H s /\ forall c, a_c s = Some c -> c = v_conc V 0 (k_mass H) (reference_redshift V H).
Lemma inv1c_value V H s : one_concentration (k_class H) -> inv1c V H s ->
  snd (q_c V H s) = Ok (v_conc V 0 (k_mass H) (reference_redshift V H)).
Proof.
  intros O (I & Z & C). destruct (a_c s) as [c|] eqn:E.
  - rewrite (c_cached V H s c (one_plain _ O) E). cbn. rewrite (C c eq_refl). reflexivity.
  - destruct (c_fresh V H s (one_plain _ O) E) as (s' & z & Ez & U & _). rewrite U. cbn.
    destruct (zeval_invz V H s (one_plain _ O) Z) as [_ R]. rewrite R in Ez. subst z.
    destruct I as [(_ & _ & N)|(c & X & _)]; [rewrite N; reflexivity|congruence].
Qed.
Lemma inv1c_step V H s o : one_concentration (k_class H) -> match o with OSetInfall _ => False | _ => True end ->
  inv1c V H s -> inv1c V H (cstep V H s o).
Proof.
  intros O R I. pose proof (inv1c_value V H s O I) as VAL. pose proof I as (I1 & Z & C). pose proof (one_plain _ O) as P.
  assert (I1' : inv1 (cstep V H s o)) by (apply inv1_step; assumption). split; [exact I1'|].
  destruct o; cbn [cstep] in *; [| | | | |contradiction].
  - split; [apply infall_invz; exact Z|]. destruct (infall_frame V H s) as (A & _). rewrite A. exact C.
  - split; [apply zeval_invz; assumption|]. destruct (zeval_frame V H s) as (A & _). rewrite A. exact C.
  - split; [apply c_invz; assumption|]. destruct (inv1_c V H s O I1) as (c & E1 & E2 & _). rewrite E2. congruence.
  - split; [apply args_invz_one; assumption|]. destruct (inv1_args V H s O I1) as (c & _ & E2 & _ & _ & E1). rewrite E2. congruence.
  - split; [apply lens_invz_one; assumption|]. destruct (inv1_lens V H s O I1) as (c & _ & E1 & _ & E2). rewrite E2. congruence.
Qed.
(** ... and without manual changes it is the first draw at the redshift of the halo (field) or of its infall (subhalo), whatever was asked
    before, and the infall redshift is drawn at most once. *)
Theorem C109_reference : forall V H ops, one_concentration (k_class H) -> reads_only ops ->
  let s := crun V H ops in let c := v_conc V 0 (k_mass H) (reference_redshift V H) in
  snd (q_c V H s) = Ok c /\ snd (q_args V H s) = Ok c /\ snd (q_lens V H s) = Ok (c, c) /\ snd (q_zeval V H s) = reference_redshift V H /\
  (n_inf s <= 1)%nat.
Proof.
  intros V H ops O R s c. assert (I : inv1c V H s).
  { apply (run_inv V H (inv1c V H) (fun o => match o with OSetInfall _ => False | _ => True end)).
    - intros; apply inv1c_step; assumption.
    - apply reads_forall. exact R.
    - split; [exact inv1_fresh|]. split; [apply invz_fresh|]. cbn. discriminate. }
  pose proof (inv1c_value V H s O I) as VAL. fold c in VAL. destruct I as (I1 & Z & _).
  destruct (inv1_args V H s O I1) as (x & A1 & _ & _ & _ & A2). destruct (inv1_lens V H s O I1) as (y & L1 & L2 & _).
  assert (x = c) by congruence. assert (y = c) by congruence. subst x y. do 3 (split; [assumption|]).
  split; [apply zeval_invz; [apply one_plain; exact O|exact Z]|]. destruct Z as [[[_ N]|[_ N]] _]; lia.
Qed.

(** A subhalo whose infall redshift was set before anything was asked takes its concentration at that redshift, without any draw of an
    infall redshift; on a field halo the request is refused and changes nothing. *)
Definition given_infall (V : cenv) (z : R) : cenv := {| v_infall := fun _ _ => z; v_conc := v_conc V |}.
Definition bump (s : cstate) : cstate :=
  {| a_zinf := a_zinf s; a_zeval := a_zeval s; a_c := a_c s; a_pargs := a_pargs s; n_inf := 1; n_conc := n_conc s |}.
Lemma given_step V H z s o : one_concentration (k_class H) -> a_zinf s = Some z -> match o with OSetInfall _ => False | _ => True end ->
  bump (cstep V H s o) = cstep (given_infall V z) H (bump s) o /\ a_zinf (cstep V H s o) = Some z /\ n_inf (cstep V H s o) = n_inf s.
Proof.
  intros O Z R. destruct s as [zi ze cc pa ni nc]. cbn in Z. subst zi.
  destruct o; try contradiction; cbn [cstep]; unfold q_lens, q_args, q_c, q_zeval, q_infall, q_draw, set_zeval, set_conc, set_args, bump, given_infall; cbn;
    destruct (k_class H) eqn:E; try (exfalso; cbn in O; intuition discriminate); destruct ze, cc, pa, (k_sub H); cbn; auto.
Qed.
Lemma given_out V H z s : one_concentration (k_class H) -> a_zinf s = Some z ->
  snd (q_c V H s) = snd (q_c (given_infall V z) H (bump s)) /\ snd (q_args V H s) = snd (q_args (given_infall V z) H (bump s)) /\
  snd (q_lens V H s) = snd (q_lens (given_infall V z) H (bump s)) /\ snd (q_zeval V H s) = snd (q_zeval (given_infall V z) H (bump s)).
Proof.
  intros O Z. destruct s as [zi ze cc pa ni nc]. cbn in Z. subst zi.
  unfold q_lens, q_args, q_c, q_zeval, q_infall, q_draw, set_zeval, set_conc, set_args, bump, given_infall; cbn;
    destruct (k_class H) eqn:E; try (exfalso; cbn in O; intuition discriminate); destruct ze, cc, pa, (k_sub H); cbn; auto.
Qed.
Lemma given_run V H z ops : one_concentration (k_class H) -> reads_only ops -> forall s, a_zinf s = Some z ->
  bump (fold_left (cstep V H) ops s) = fold_left (cstep (given_infall V z) H) ops (bump s) /\
  a_zinf (fold_left (cstep V H) ops s) = Some z /\ n_inf (fold_left (cstep V H) ops s) = n_inf s.
Proof.
  intros O. induction ops as [|o ops IH]; intros R s Z; cbn [fold_left]; [auto|].
  destruct (given_step V H z s o O Z (R o (or_introl eq_refl))) as (A & B & N).
  destruct (IH (fun o' I => R o' (or_intror I)) _ B) as (A' & B' & N'). rewrite A', B', N', A, N. auto.
Qed.
Theorem C109_set_infall : forall V H z ops, one_concentration (k_class H) -> reads_only ops ->
  (k_sub H = true -> let s := crun V H (OSetInfall z :: ops) in let c := v_conc V 0 (k_mass H) z in
     snd (q_c V H s) = Ok c /\ snd (q_args V H s) = Ok c /\ snd (q_lens V H s) = Ok (c, c) /\ snd (q_zeval V H s) = z /\ n_inf s = 0%nat) /\
  (k_sub H = false -> forall s, is_err (snd (q_set_infall H z s)) /\ fst (q_set_infall H z s) = s).
Proof.
  intros V H z ops O R. split; intros S; [|intros s; unfold q_set_infall; rewrite S; split; [eexists|]; reflexivity].
  intros s c. unfold s, crun. cbn [fold_left cstep]. unfold q_set_infall at 1 2 3 4 5. rewrite S. cbn [fst].
  set (s1 := {| a_zinf := Some z; a_zeval := a_zeval cfresh; a_c := a_c cfresh; a_pargs := a_pargs cfresh; n_inf := n_inf cfresh; n_conc := n_conc cfresh |}).
  destruct (given_run V H z ops O R s1 eq_refl) as (A & B & N). destruct (given_out V H z _ O B) as (X1 & X2 & X3 & X4).
  rewrite X1, X2, X3, X4, A, N.
  assert (E : bump s1 = cstep (given_infall V z) H cfresh OInfall) by reflexivity. rewrite E.
  assert (R' : reads_only (OInfall :: ops)) by (intros o [<-|I]; [exact Logic.I|apply R, I]).
  destruct (C109_reference (given_infall V z) H (OInfall :: ops) O R') as (Y1 & Y2 & Y3 & Y4 & _).
  unfold crun, reference_redshift in Y1, Y2, Y3, Y4. cbn [fold_left] in Y1, Y2, Y3, Y4. rewrite S in Y1, Y2, Y3, Y4.
  repeat split; assumption.
Qed.
(** *** Classes that ask twice *)
Definition inv2 (V : cenv) (H : chalo) (s : cstate) : Prop :=
  let v n := v_conc V n (k_mass H) (reference_redshift V H) in
  invz V H s /\
  match a_c s, a_pargs s with
  | None, None => n_conc s = 0%nat
  | Some c, None => n_conc s = 1%nat /\ c = v 0%nat
  | None, Some a => n_conc s = 1%nat /\ a = v 0%nat
  | Some c, Some a => n_conc s = 2%nat /\ ((c = v 0%nat /\ a = v 1%nat) \/ (c = v 1%nat /\ a = v 0%nat))
  end.
Lemma two_plain cl : two_concentrations cl -> plain_class cl.
Proof. intros I. split; intros ->; cbn in I; intuition discriminate. Qed.
Lemma two_args_fresh V H s : two_concentrations (k_class H) -> class_fits H -> invz V H s -> a_pargs s = None ->
  exists s', q_args V H s = (s', Ok (v_conc V (n_conc s) (k_mass H) (reference_redshift V H))) /\ invz V H s' /\ a_c s' = a_c s /\
    a_pargs s' = Some (v_conc V (n_conc s) (k_mass H) (reference_redshift V H)) /\ n_conc s' = S (n_conc s).
Proof.
  intros T F Z E.
  assert (U : q_args V H s = (let '(s1, z) := q_zeval V H s in let '(s2, c) := q_draw V H z s1 in (set_args c s2, Ok c)) \/
              (k_sub H = false /\ q_args V H s = let '(s1, c) := q_draw V H (k_z H) s in (set_args c s1, Ok c))).
  { unfold q_args, class_fits in *. rewrite E. destruct (k_class H); auto; exfalso; cbn in T; intuition discriminate. }
  destruct U as [U|[S U]]; rewrite U.
  - pose proof (zeval_frame V H s) as Fr. destruct (zeval_invz V H s (two_plain _ T) Z) as [J R].
    destruct (q_zeval V H s) as [s1 z]. cbn in Fr, J, R. destruct Fr as (A & B & C). subst z. cbn. rewrite C.
    eexists. split; [reflexivity|]. split; [exact J|]. cbn. auto.
  - cbn. assert (R : reference_redshift V H = k_z H) by (unfold reference_redshift; rewrite S; reflexivity). rewrite R.
    eexists. split; [reflexivity|]. split; [exact Z|]. cbn. auto.
Qed.
Lemma inv2_c V H s : two_concentrations (k_class H) -> inv2 V H s ->
  exists c, snd (q_c V H s) = Ok c /\ inv2 V H (fst (q_c V H s)) /\ a_c (fst (q_c V H s)) = Some c /\ a_pargs (fst (q_c V H s)) = a_pargs s.
Proof.
  intros T [Z I]. pose proof (two_plain _ T) as P. destruct (a_c s) as [c|] eqn:E.
  - rewrite (c_cached V H s c P E). cbn. exists c. split; [reflexivity|]. split; [|auto]. split; [exact Z|]. rewrite E. exact I.
  - destruct (c_fresh V H s P E) as (s' & z & Ez & U & A & B & C & D1 & D2 & D3). destruct (zeval_invz V H s P Z) as [J R].
    rewrite R in Ez. subst z. rewrite U. cbn. eexists. split; [reflexivity|]. split; [|auto]. split.
    + unfold invz in *. rewrite D1, D2, D3. exact J.
    + rewrite A, B, C. destruct (a_pargs s) as [a|].
      * destruct I as [N ->]. rewrite N. split; [reflexivity|]. right. auto.
      * rewrite I. auto.
Qed.
Lemma inv2_args V H s : two_concentrations (k_class H) -> class_fits H -> inv2 V H s ->
  exists a, snd (q_args V H s) = Ok a /\ inv2 V H (fst (q_args V H s)) /\ a_pargs (fst (q_args V H s)) = Some a /\ a_c (fst (q_args V H s)) = a_c s.
Proof.
  intros T F [Z I]. destruct (a_pargs s) as [a|] eqn:E.
  - unfold q_args. rewrite E. cbn. exists a. split; [reflexivity|]. split; [|auto]. split; [exact Z|]. rewrite E. exact I.
  - destruct (two_args_fresh V H s T F Z E) as (s' & U & J & A & B & C). rewrite U. cbn. eexists. split; [reflexivity|].
    split; [|auto]. split; [exact J|]. rewrite A, B, C. destruct (a_c s) as [c|].
    + destruct I as [N ->]. rewrite N. split; [reflexivity|]. left. auto.
    + rewrite I. auto.
Qed.
Lemma inv2_lens V H s : two_concentrations (k_class H) -> class_fits H -> inv2 V H s -> inv2 V H (fst (q_lens V H s)).
Proof.
  intros T F I. destruct (inv2_args V H s T F I) as (a & A1 & A2 & _).
  assert (U : q_lens V H s = (match q_args V H s with
      | (s1, Ok a) => match q_c V H s1 with (s2, Ok c) => (s2, Ok (c, a)) | (s2, Err e) => (s2, Err e) end
      | (s1, Err e) => (s1, Err e) end) \/
    q_lens V H s = match q_args V H s with (s1, Ok a) => (s1, Ok (a, a)) | (s1, Err e) => (s1, Err e) end).
  { unfold q_lens. destruct (k_class H); auto; exfalso; cbn in T; intuition discriminate. }
  destruct (q_args V H s) as [s1 r]. cbn in A1, A2. subst r. destruct U as [U|U]; rewrite U; [|exact A2].
  destruct (inv2_c V H s1 T A2) as (c & _ & K & _). destruct (q_c V H s1) as [s2 [c'|e]]; exact K.
Qed.
Lemma inv2_step V H s o : two_concentrations (k_class H) -> class_fits H -> match o with OSetInfall _ => False | _ => True end ->
  inv2 V H s -> inv2 V H (cstep V H s o).
Proof.
  intros T F R I. pose proof I as [Z K]. destruct o; cbn [cstep]; [| | | | |contradiction].
  - destruct (infall_frame V H s) as (A & B & C & _). split; [apply infall_invz; exact Z|]. rewrite A, B, C. exact K.
  - destruct (zeval_frame V H s) as (A & B & C). split; [apply zeval_invz; [apply two_plain; exact T|exact Z]|]. rewrite A, B, C. exact K.
  - destruct (inv2_c V H s T I) as (c & _ & J & _). exact J.
  - destruct (inv2_args V H s T F I) as (c & _ & J & _). exact J.
  - apply inv2_lens; assumption.
Qed.
Lemma inv2_run V H ops : two_concentrations (k_class H) -> class_fits H -> reads_only ops -> inv2 V H (crun V H ops).
Proof.
  intros T F R. apply (run_inv V H (inv2 V H) (fun o => match o with OSetInfall _ => False | _ => True end)).
  - intros; apply inv2_step; assumption.
  - apply reads_forall. exact R.
  - split; [apply invz_fresh|]. reflexivity.
Qed.

(** Generalised NFW and pseudo-Jaffe halos hold two independent draws at the same redshift: one is reported as c, the other is
    in profile_args; which is which depends on what was asked first.  Without scatter they coincide. *)
Theorem C109_two : forall V H ops, two_concentrations (k_class H) -> class_fits H -> reads_only ops ->
  let s := crun V H ops in let v n := v_conc V n (k_mass H) (reference_redshift V H) in
  (n_conc s <= 2)%nat /\
  exists c a, snd (q_c V H s) = Ok c /\ snd (q_args V H (fst (q_c V H s))) = Ok a /\
    ((c = v 0%nat /\ a = v 1%nat) \/ (c = v 1%nat /\ a = v 0%nat)) /\
    (no_scatter V -> c = v 0%nat /\ a = v 0%nat).
Proof.
  intros V H ops T F R s v. pose proof (inv2_run V H ops T F R) as I. change (inv2 V H s) in I. split.
  { destruct I as [_ K]. destruct (a_c s), (a_pargs s); try (destruct K; lia); lia. }
  destruct (inv2_c V H s T I) as (c & C1 & C2 & C3 & C4). destruct (inv2_args V H _ T F C2) as (a & A1 & A2 & A3 & A4).
  exists c, a. split; [exact C1|]. split; [exact A1|]. destruct A2 as [_ K]. rewrite A3, A4, C3 in K. destruct K as [_ K]. fold v in K.
  split; [exact K|]. intros N. assert (v 1%nat = v 0%nat) by (unfold v; apply N). destruct K as [[-> ->]|[-> ->]]; auto.
Qed.

(** With scatter the two answers differ, the reported concentration depends on the order of the queries, and a generalised NFW halo is
    rendered with the scale radius of one draw and the normalisation of the other. *)
Theorem C109_two_refuted : exists V H, k_class H = CGnfw /\
  snd (q_c V H cfresh) <> snd (q_args V H (fst (q_c V H cfresh))) /\
  snd (q_c V H (crun V H [OArgs])) <> snd (q_c V H (crun V H [])) /\
  exists c a, snd (q_lens V H cfresh) = Ok (c, a) /\ c <> a.
Proof.
  exists {| v_infall := fun _ _ => 1; v_conc := fun n _ _ => 10 + INR n |}.
  exists {| k_class := CGnfw; k_mass := 10 ^ 8; k_z := 0.5; k_sub := true; k_c := None; k_at_zlens := false |}.
  assert (N : forall a b : R, a <> b -> Ok a <> Ok b) by (intros a b D X; injection X as X; contradiction).
  cbn. split; [reflexivity|]. split; [|split].
  - apply N. lra.
  - apply N. lra.
  - eexists _, _. split; [reflexivity|]. lra.
Qed.

(** *** Power-law halos *)
(** A power-law halo has no property c.  A subhalo uses the value requested by the keyword 'c', otherwise one draw, at its own redshift with
    evaluate_mc_at_zlens and at infall without; a field halo uses one draw at its own redshift. *)
Definition power_redshift (V : cenv) (H : chalo) : R :=
  match k_class H with CPowerSub => if k_at_zlens H then k_z H else v_infall V 0 (k_mass H) | _ => k_z H end.
Definition invp (V : cenv) (H : chalo) (s : cstate) : Prop :=
  ((a_zinf s = None /\ n_inf s = 0%nat) \/ (a_zinf s = Some (v_infall V 0 (k_mass H)) /\ n_inf s = 1%nat)) /\
  (a_zeval s = None \/ a_zeval s = Some (power_redshift V H)) /\
  (a_pargs s = None /\ n_conc s = 0%nat \/
   a_pargs s = Some (match k_class H, k_c H with CPowerSub, Some c => c | _, _ => v_conc V 0 (k_mass H) (power_redshift V H) end) /\ (n_conc s <= 1)%nat).
Lemma power_zeval V H s : k_class H = CPowerSub \/ k_class H = CPowerField -> invp V H s ->
  invp V H (fst (q_zeval V H s)) /\ snd (q_zeval V H s) = power_redshift V H /\
  a_pargs (fst (q_zeval V H s)) = a_pargs s /\ n_conc (fst (q_zeval V H s)) = n_conc s.
Proof.
  intros [K|K] (A & B & C); unfold invp, q_zeval, power_redshift in *; rewrite K in *.
  - destruct B as [B|B]; rewrite B; [|cbn; auto 6]. destruct (k_at_zlens H); cbn; [auto 7|].
    unfold q_infall. destruct A as [[A N]|[A N]]; rewrite A; cbn; [rewrite N|]; auto 7.
  - cbn. auto 6.
Qed.
Lemma power_args V H s : k_class H = CPowerSub \/ k_class H = CPowerField -> invp V H s ->
  invp V H (fst (q_args V H s)) /\
  snd (q_args V H s) = Ok (match k_class H, k_c H with CPowerSub, Some c => c | _, _ => v_conc V 0 (k_mass H) (power_redshift V H) end).
Proof.
  intros K I. pose proof I as (A & B & C). destruct (power_zeval V H s K I) as (Z1 & Z2 & Z3 & Z4).
  destruct C as [[C N]|[C N]].
  - unfold q_args. rewrite C. destruct K as [K|K]; rewrite K in *.
    + destruct (k_c H) as [c|] eqn:KC.
      * cbn. split; [|reflexivity]. split; [exact A|]. split; [exact B|]. right. rewrite K, KC. cbn. split; [reflexivity|lia].
      * destruct (q_zeval V H s) as [s1 z]. cbn in *. subst z. destruct Z1 as (Y1 & Y2 & _). rewrite Z4, N. split; [|reflexivity].
        split; [exact Y1|]. split; [exact Y2|]. right. rewrite K, KC. cbn. split; [reflexivity|lia].
    + cbn. rewrite N. assert (P : power_redshift V H = k_z H) by (unfold power_redshift; rewrite K; reflexivity).
      split; [|rewrite P; reflexivity]. split; [exact A|]. split; [exact B|]. right. rewrite K, P. cbn. split; [reflexivity|lia].
  - unfold q_args. rewrite C. cbn. split; [|reflexivity]. exact I.
Qed.
Theorem C109_power_law : forall V H ops, k_class H = CPowerSub \/ k_class H = CPowerField -> reads_only ops ->
  let s := crun V H ops in
  let c := match k_class H, k_c H with CPowerSub, Some c => c | _, _ => v_conc V 0 (k_mass H) (power_redshift V H) end in
  snd (q_c V H s) = Err EException /\ snd (q_args V H s) = Ok c /\ snd (q_lens V H s) = Ok (c, c) /\ (n_conc s <= 1)%nat.
Proof.
  intros V H ops K R s c. assert (I : invp V H s).
  { apply (run_inv V H (invp V H) (fun o => match o with OSetInfall _ => False | _ => True end)).
    - intros s0 o Ro I. destruct o; cbn [cstep]; [| | | | |contradiction].
      + destruct I as (A & B & C). unfold q_infall. destruct A as [[A N]|[A N]]; rewrite A; cbn; [|split; auto].
        split; [right; cbn; rewrite N; auto|]. cbn. auto.
      + apply power_zeval; assumption.
      + unfold q_c. destruct K as [K|K]; rewrite K; exact I.
      + apply power_args; assumption.
      + destruct (power_args V H s0 K I) as [J E].
        assert (U : q_lens V H s0 = match q_args V H s0 with (s1, Ok a) => (s1, Ok (a, a)) | (s1, Err e) => (s1, Err e) end).
        { unfold q_lens. destruct K as [K|K]; rewrite K; reflexivity. }
        rewrite U. destruct (q_args V H s0) as [s1 r]. cbn in E. rewrite E. exact J.
    - apply reads_forall. exact R.
    - split; [left; auto|]. split; [left; auto|]. left. auto. }
  destruct (power_args V H s K I) as [J E]. fold c in E.
  assert (U : q_lens V H s = match q_args V H s with (s1, Ok a) => (s1, Ok (a, a)) | (s1, Err e) => (s1, Err e) end).
  { unfold q_lens. destruct K as [K|K]; rewrite K; reflexivity. }
  split. { unfold q_c. destruct K as [K|K]; rewrite K; reflexivity. }
  split; [exact E|]. split. { rewrite U. destruct (q_args V H s) as [s1 r]. cbn in E. rewrite E. reflexivity. }
  destruct I as (_ & _ & [[_ N]|[_ N]]); lia.
Qed.
(** The keyword 'c' of a power-law field halo has no effect. *)
Theorem C109_power_law_refuted : forall V m z c0, v_conc V 0 m z <> c0 ->
  let H := {| k_class := CPowerField; k_mass := m; k_z := z; k_sub := false; k_c := Some c0; k_at_zlens := true |} in
  snd (q_args V H cfresh) <> Ok c0.
Proof. intros V m z c0 N H. cbn. intros X. injection X as X. contradiction. Qed.

(** ** The hypotheses are met *)
Definition demo_V : cenv := {| v_infall := fun n _ => 1 + INR n; v_conc := fun n _ z => 10 + INR n - z |}.
Definition demo_H (cl : cclass) : chalo := {| k_class := cl; k_mass := 10 ^ 8; k_z := 0.5; k_sub := true; k_c := None; k_at_zlens := false |}.
Example C109_set_infall_nonvacuous : one_concentration (k_class (demo_H CTnfw)) /\ reads_only [OZeval; OLens] /\ k_sub (demo_H CTnfw) = true /\
  snd (q_c demo_V (demo_H CTnfw) (crun demo_V (demo_H CTnfw) [OSetInfall 2; OZeval; OLens])) = Ok (10 + 0 - 2) /\
  snd (q_c demo_V (demo_H CTnfw) (crun demo_V (demo_H CTnfw) [OZeval; OLens])) = Ok (10 + 0 - (1 + 0)).
Proof. split; [cbn; auto|]. split; [intros o [<-|[<-|[]]]; exact I|]. repeat split. Qed.
Example C109_one_nonvacuous : one_concentration CUldm /\ reads_only [OLens; OInfall; OConc] /\
  snd (q_c demo_V (demo_H CUldm) (crun demo_V (demo_H CUldm) [OLens; OInfall; OConc])) = Ok (10 + 0 - (1 + 0)) /\
  n_conc (crun demo_V (demo_H CUldm) [OLens; OSetInfall 3; OConc; OArgs]) = 1%nat.
Proof.
  split; [cbn; tauto|]. split; [|split; reflexivity]. intros o Ho. cbn in Ho. destruct Ho as [<-|[<-|[<-|[]]]]; exact I.
Qed.
Example C109_two_nonvacuous : two_concentrations CGnfw /\ class_fits (demo_H CJaffeSub) /\
  snd (q_lens demo_V (demo_H CGnfw) cfresh) = Ok (10 + 1 - (1 + 0), 10 + 0 - (1 + 0)) /\
  no_scatter {| v_infall := fun _ _ => 1; v_conc := fun _ m z => 10 - z |}.
Proof. split; [cbn; tauto|]. split; [reflexivity|]. split; [reflexivity|]. intros n m z. reflexivity. Qed.
Example C109_power_law_nonvacuous :
  snd (q_args demo_V (demo_H CPowerSub) (crun demo_V (demo_H CPowerSub) [OArgs; OLens])) = Ok (10 + 0 - (1 + 0)) /\ v_conc demo_V 0 1 0.5 <> 12.
Proof. split; [reflexivity|]. cbn. lra. Qed.

Print Assumptions C109_one.
Print Assumptions C109_reference.
Print Assumptions C109_set_infall.
Print Assumptions C109_two.
Print Assumptions C109_two_refuted.
Print Assumptions C109_power_law.
Print Assumptions C109_power_law_refuted.
