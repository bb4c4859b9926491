(** C17. Which class each halo of a rendered realization gets. *)
From Verif Require Import Prelude LoaderModel LoaderSpec LoaderProofs.

(** The loader succeeds exactly on rows of positive redshift with a documented mass definition and a
    dictionary with the needed entries, and then builds the documented class with the truncation and
    concentration model of the population and the unmodified row data. *)
Theorem C17_loader : forall d w mdef tag h,
  load_halo_model d w mdef tag = Ok h <-> 0 < w_z w /\ halo_of_row d w mdef h /\ ld_tag h = tag.
Proof. exact load_ok. Qed.

(** Errors when the dictionary is complete: NameError for 'TNFWC_SIDM' (listed but unusable),
    ValueError for any other unknown string, AssertionError for a non-positive redshift; success otherwise. *)
Theorem C17_loader_errors : forall d w mdef tag,
  complete_for d (w_sub w) ->
  (mdef = "TNFWC_SIDM"%string -> load_halo_model d w mdef tag = Err ENameError) /\
  (mdef <> "TNFWC_SIDM"%string -> ~ supported mdef -> load_halo_model d w mdef tag = Err EValueError) /\
  (supported mdef -> 0 < w_z w -> exists h, load_halo_model d w mdef tag = Ok h) /\
  (supported mdef -> w_z w <= 0 -> load_halo_model d w mdef tag = Err EAssertionError).
Proof. exact load_err. Qed.

(** In a created realization the i-th halo is the halo of the i-th row, with its own tag, but under the
    *other* population's mass definition. *)
Theorem C17_created_realization : forall d tags mdef_subhalos mdef_field_halos rows hs,
  create_realization d tags mdef_subhalos mdef_field_halos rows = Ok hs ->
  Forall2 (fun w h => 0 < w_z w /\
             halo_of_row d w (if w_sub w then mdef_field_halos else mdef_subhalos) h) rows hs /\
  map ld_tag hs = map tags (seq 0 (List.length rows)).
Proof. intros. apply load_rows_ok. assumption. Qed.

(** ... and creation succeeds whenever the definitions in use are supported. *)
Theorem C17_created_realization_total : forall d tags mdef_subhalos mdef_field_halos rows,
  (forall w, In w rows -> complete_for d (w_sub w) /\ 0 < w_z w) ->
  (forall w, In w rows -> supported (if w_sub w then mdef_field_halos else mdef_subhalos)) ->
  exists hs, create_realization d tags mdef_subhalos mdef_field_halos rows = Ok hs.
Proof. intros; apply load_rows_total; assumption. Qed.

(** If both populations have the same definition every halo gets the class documented for it. *)
Theorem C17_same_definition : forall d tags mdef rows hs,
  create_realization d tags mdef mdef rows = Ok hs ->
  Forall2 (fun w h => documented mdef (w_sub w) (ld_class h)) rows hs.
Proof.
  intros d tags m rows hs H. apply C17_created_realization in H. destruct H as [H _].
  induction H as [|w h rows hs [_ Hh]]; constructor; auto. destruct Hh as [Hh _]. destruct (w_sub w); exact Hh.
Qed.

Definition demo_dict : dict :=
  [("truncation_model_subhalos", 1%Z); ("truncation_model_field_halos", 2%Z);
   ("concentration_model", 3%Z); ("kwargs_density_profile", 4%Z)]%string.
Definition demo_rows : list Row :=
  [mkRow 1e8 0.5 0.25 10 0.5 true; mkRow 2e7 (-1) 0 20 0.75 false].

(** The claim "mdef_subhalos sets the profile of subhalos" is false for [render]. *)
Theorem C17_mdef_subhalos_refuted :
  exists d tags ms mf rows hs w h,
    create_realization d tags ms mf rows = Ok hs /\
    nth_error rows 0 = Some w /\ nth_error hs 0 = Some h /\ w_sub w = true /\
    ~ documented ms true (ld_class h) /\ documented mf true (ld_class h).
Proof.
  exists demo_dict, (fun i => Z.of_nat i), "TNFW"%string, "NFW"%string, demo_rows.
  unfold create_realization, demo_rows. simpl.
  unfold load_halo_model. cbn -[Rltb].
  assert (E1 : Rltb 0 0.5 = true) by (apply Rltb_true; lra).
  assert (E2 : Rltb 0 0.75 = true) by (apply Rltb_true; lra).
  rewrite E1. cbn -[Rltb]. rewrite E2. cbn -[Rltb].
  do 3 eexists. split; [reflexivity|]. split; [reflexivity|]. split; [reflexivity|].
  split; [reflexivity|]. simpl. split.
  - intros H. assert (X := documented_fun _ _ _ "TNFWSubhalo"%string H).
    enough ("NFWSubhhalo"%string = "TNFWSubhalo"%string) by discriminate. apply X.
    apply model_class_ok. reflexivity.
  - apply model_class_ok. reflexivity.
Qed.

(** A case that meets the hypotheses of the theorems above. *)
Example C17_demo : exists hs, create_realization demo_dict (fun i => Z.of_nat i) "TNFW" "TNFW" demo_rows = Ok hs
  /\ map ld_class hs = ["TNFWSubhalo"; "TNFWFieldHalo"]%string /\ map ld_trunc hs = [1; 2]%Z.
Proof.
  unfold create_realization, demo_rows. simpl. unfold load_halo_model. cbn -[Rltb].
  assert (E1 : Rltb 0 0.5 = true) by (apply Rltb_true; lra).
  assert (E2 : Rltb 0 0.75 = true) by (apply Rltb_true; lra).
  rewrite E1. cbn -[Rltb]. rewrite E2. cbn -[Rltb]. eexists; repeat split; reflexivity.
Qed.
Example C17_demo_complete : forall w, In w demo_rows -> complete_for demo_dict (w_sub w) /\ 0 < w_z w.
Proof.
  unfold demo_rows, complete_for, population_model. simpl.
  intros w [<-|[<-|[]]]; simpl; (split; [|lra]); repeat split; eauto.
Qed.

Print Assumptions C17_loader.
Print Assumptions C17_loader_errors.
Print Assumptions C17_created_realization.
Print Assumptions C17_created_realization_total.
Print Assumptions C17_same_definition.
Print Assumptions C17_mdef_subhalos_refuted.
