(** Every halo class names lens models the ray-tracing package knows and gives each the keywords it takes (C107). *)
From Coq Require Import String.
From Verif Require Import Prelude RealizationModel RealizationSpec RealizationProofs RealizationProps InterfaceModel.
Import ListNotations.
Open Scope string_scope.

(** ** Specification *)
(** lenstronomy's lens models: name, keywords without a default value, keywords with one. *)
Definition lenstronomy_models : list (string * (list string * list string)) :=
  [ ("NFW", (["Rs"; "alpha_Rs"], ["center_x"; "center_y"]));
    ("CNFW", (["Rs"; "alpha_Rs"; "r_core"], ["center_x"; "center_y"]));
    ("TNFW", (["Rs"; "alpha_Rs"; "r_trunc"], ["center_x"; "center_y"]));
    ("TNFWC", (["Rs"; "alpha_Rs"; "r_core"; "r_trunc"], ["center_x"; "center_y"]));
    ("PJAFFE", (["sigma0"; "Ra"; "Rs"], ["center_x"; "center_y"]));
    ("ULDM", (["kappa_0"; "theta_c"], ["slope"; "center_x"; "center_y"]));
    ("POINT_MASS", (["theta_E"], ["center_x"; "center_y"]));
    ("CORE_COLLAPSED_HALO", (["Rs_inner"; "Rs_outer"; "alpha_Rs_inner"; "alpha_Rs_outer"; "r_trunc"; "gamma_inner"; "gamma_outer"],
                             ["center_x"; "center_y"]));
    ("CORE_COLLAPSED_HALO_BH", (["theta_E_inner"; "Rs_outer"; "alpha_Rs_outer"; "r_trunc"], ["center_x"; "center_y"]));
    ("GAUSSIAN", (["amp"; "sigma"], ["center_x"; "center_y"]));
    ("PSEUDO_DPL", (["Rs"; "alpha_Rs"; "gamma_inner"; "gamma_outer"], ["center_x"; "center_y"]));
    ("SPL_CORE", (["sigma0"; "r_core"; "gamma"], ["center_x"; "center_y"]));
    ("SIS", (["theta_E"], ["center_x"; "center_y"]));
    ("CONVERGENCE", (["kappa"], ["ra_0"; "dec_0"])) ].
(** the call model(x, y, d...) is accepted: the name is known, no keyword twice, none missing, none unknown *)
Definition accepted (name : string) (d : kw) : Prop :=
  exists req opt, In (name, (req, opt)) lenstronomy_models /\ NoDup (map fst d) /\
    incl req (map fst d) /\ incl (map fst d) (req ++ opt).
(** the position is given, not left at its default *)
Definition placed (d : kw) : Prop := exists x y, kw_get d "center_x" = Some x /\ kw_get d "center_y" = Some y.

(** ** Proofs *)
Ltac dec_incl := let k := fresh in let H := fresh in intros k H; cbn in H |- *; tauto.
Ltac dec_nodup := repeat (constructor; [cbn; intuition discriminate|]); constructor.
Ltac acc := eexists; eexists; split; [unfold lenstronomy_models; cbn [In]; repeat (first [left; reflexivity|right]) |
  split; [cbn; dec_nodup|split; dec_incl]].

(** C107. *)
Theorem C107_classes : forall c v, Forall2 accepted (lens_id c) (lens_dicts v c) /\ List.Forall placed (lens_dicts v c).
Proof.
  intros c v. split.
  - destruct c; cbn [lens_id lens_dicts]; repeat constructor; acc.
  - destruct c; cbn [lens_dicts]; repeat constructor; unfold placed, kw_get; cbn; eauto.
Qed.

(** a sheet as the rendering classes and the exact mode hand it out, before its centre is filled in *)
Definition plain_sheet (p : string) (k : kw) : Prop := p = "CONVERGENCE" /\ exists x, k = [("kappa", x)].

Lemma fill_accepted DC cx cy : forall ps ks zs, Forall2 plain_sheet ps ks -> List.length zs = List.length ps ->
  exists ks', fill_centers DC cx cy ks ps zs = Ok ks' /\ Forall2 accepted ps ks'.
Proof.
  intros ps ks zs F. revert zs. induction F as [|p k ps ks [-> [x ->]] F IH]; intros zs L; destruct zs as [|z zs]; try discriminate.
  - exists nil. split; [reflexivity|constructor].
  - cbn in L. destruct (IH zs) as [ks' [E A]]; [lia|]. cbn. rewrite E. cbn. eexists. split; [reflexivity|]. constructor; [acc|exact A].
Qed.

Lemma class_plain a cs :
  (forall c, In (Some c) cs -> forall k l h z1 z2 u, let '(ks, ps, zs) := rc_sheets c k l h z1 z2 u in
     Forall2 plain_sheet ps ks /\ List.length zs = List.length ps) ->
  let '(ks, ps, zs) := class_sheets a cs in Forall2 plain_sheet ps ks /\ List.length zs = List.length ps.
Proof.
  induction cs as [|[c|] cs IH]; intros H; cbn.
  - split; [constructor|reflexivity].
  - assert (H1 := H c (or_introl eq_refl) (if String.eqb (rc_name c) "SUBHALOS" then sa_kappa_sub a else sa_kappa a)
                  (sa_mlow a) (sa_mhigh a) (sa_zmin a) (sa_zmax a) (sa_class_ranges a)).
    assert (H2 := IH (fun d D => H d (or_intror D))).
    destruct (rc_sheets c _ _ _ _ _ _) as [[k p] z]. destruct (class_sheets a cs) as [[k' p'] z'].
    destruct H1 as [A1 L1], H2 as [A2 L2]. split; [apply Forall2_app; assumption|]. rewrite !app_length. lia.
  - apply IH. intros d D. apply H. right. exact D.
Qed.

Lemma lq_accepted hp : forall hs, (forall r, In r hs -> exists c v, h_ids (hp r) = lens_id c /\ h_kwargs (hp r) = lens_dicts v c) ->
  let '(ids, zs, ks, ni) := lq_loop hp hs in Forall2 accepted ids ks /\ List.length zs = List.length ids.
Proof.
  induction hs as [|r hs IH]; intros H; cbn.
  - split; [constructor|reflexivity].
  - assert (H2 := IH (fun d D => H d (or_intror D))). destruct (lq_loop hp hs) as [[[ids zs] ks] ni]. destruct H2 as [A L].
    destruct (H r (or_introl eq_refl)) as [c [v [E1 E2]]]. split.
    + apply Forall2_app; [|exact A]. rewrite E1, E2. apply C107_classes.
    + rewrite !app_length, repeat_length. lia.
Qed.

(** For a realization made of halos of these classes, in any mixture, the lists handed to the ray-tracing package are accepted
    entry by entry, with and without convergence sheets. *)
Theorem C107_realization : forall zl DC sc area hp rz add a,
  in_sync hp rz ->
  (forall r, In r (rz_halos rz) -> exists c v, h_ids (hp r) = lens_id c /\ h_kwargs (hp r) = lens_dicts v c) ->
  (forall r, In r (rz_halos rz) -> h_sub (hp r) = true -> h_z (hp r) = zl -> h_bound (hp r) <> None) ->
  (forall c, In (Some c) (rz_classes rz) -> forall k l h z1 z2 u, let '(ks, ps, zs) := rc_sheets c k l h z1 z2 u in
     Forall2 plain_sheet ps ks /\ List.length zs = List.length ps) ->
  exists names zs ks ni, lensing_quantities zl DC sc area hp rz add a = Ok (names, zs, ks, ni) /\
    Forall2 accepted names ks /\ List.length zs = List.length names.
Proof.
  intros zl DC sc area hp rz add a HS HC HB HR. unfold lensing_quantities.
  pose proof (lq_accepted hp (rz_halos rz) HC) as Q. destruct (lq_loop hp (rz_halos rz)) as [[[ids zs] ks] ni]. destruct Q as [A L].
  destruct (rz_sheet rz && add); [|exists ids, zs, ks, ni; auto].
  unfold mass_sheet_correction.
  assert (G : exists k p z, (if sa_exact a then exact_sheets zl sc area hp rz else Ok (class_sheets a (rz_classes rz))) = Ok (k, p, z) /\
              Forall2 plain_sheet p k /\ List.length z = List.length p).
  { destruct (sa_exact a).
    - destruct (exact_sheets_spec zl sc area hp rz HS HB) as [ms [_ [E LM]]]. rewrite E. do 3 eexists. split; [reflexivity|].
      rewrite repeat_length. split; [|reflexivity]. revert LM. generalize (rz_uniq rz) ms. clear.
      induction l as [|u l IH]; intros [|m ms] LM; try discriminate; cbn; constructor.
      + split; [reflexivity|]. eexists. reflexivity.
      + apply IH. injection LM as LM. exact LM.
    - pose proof (class_plain a (rz_classes rz) HR) as P. destruct (class_sheets a (rz_classes rz)) as [[k p] z].
      exists k, p, z. split; [reflexivity|exact P]. }
  destruct G as [k [p [z [-> [P LP]]]]]. cbn [bind].
  destruct (fill_accepted DC (rz_cx rz) (rz_cy rz) p k z P LP) as [k' [-> A']]. cbn [bind].
  do 4 eexists. split; [reflexivity|]. split; [apply Forall2_app; assumption|]. rewrite !app_length. lia.
Qed.

(** a hybrid halo and a wave dark matter halo on one plane, with exact sheets *)
Definition mixed_heap : heap := fun r =>
  match r with
  | O => mkHalo 1 0 0 (1/2) "TNFWC_HYBRID" 0 false false None (lens_id HHybrid) (lens_dicts (fun i k => 1) HHybrid) None
  | _ => mkHalo 2 0 0 (1/2) "ULDM" 1 false false None (lens_id HULDM) (lens_dicts (fun i k => 2) HULDM) None
  end.
Example C107_nonvacuous : exists names zs ks ni,
  lensing_quantities 1 (fun z => z) (fun _ _ => 1) (fun _ => 1) mixed_heap
    (from_halos mixed_heap [0; 1]%nat true [] (fun _ => 0) (fun _ => 0)) true (mkSheetArgs true 1 1 7 10 None None false)
    = Ok (names, zs, ks, ni) /\ Forall2 accepted names ks /\ (4 <= List.length names)%nat.
Proof.
  destruct (C107_realization 1 (fun z => z) (fun _ _ => 1) (fun _ => 1) mixed_heap
    (from_halos mixed_heap [0; 1]%nat true [] (fun _ => 0) (fun _ => 0)) true (mkSheetArgs true 1 1 7 10 None None false))
    as [names [zs [ks [ni [E [A L]]]]]].
  - apply from_halos_sync.
  - intros r [<-|[<-|[]]]; [exists HHybrid, (fun i k => 1)|exists HULDM, (fun i k => 2)]; split; reflexivity.
  - intros r [<-|[<-|[]]]; cbn; discriminate.
  - intros c [].
  - exists names, zs, ks, ni. split; [exact E|]. split; [exact A|].
    revert E. unfold lensing_quantities. cbn [lq_loop rz_halos from_halos rz_sheet andb].
    destruct (mass_sheet_correction _ _ _ _ _ _ _) as [[[k2 p2] z2]|]; intros E; [|discriminate E]. cbn in E. injection E as <- _ _ _.
    cbn. lia.
Qed.

Print Assumptions C107_classes.
Print Assumptions C107_realization.
