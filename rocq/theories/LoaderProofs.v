From Verif Require Import Prelude LoaderModel LoaderSpec.

Ltac eqbs :=
  repeat match goal with
  | |- context [String.eqb ?a ?b] => destruct (String.eqb_spec a b); [subst; simpl|]
  | H : context [String.eqb ?a ?b] |- _ => destruct (String.eqb_spec a b); [subst; simpl in *|]
  end.

Lemma model_class_ok m s cl : model_class m s = Ok cl <-> documented m s cl.
Proof.
  unfold documented, class_table. split.
  - unfold model_class. intros H. eqbs; try discriminate; injection H as <-;
    do 2 eexists; (split; [simpl; repeat (first [left; reflexivity | right]) | destruct s; reflexivity]).
  - intros (a & b & Hin & ->). simpl in Hin.
    repeat (destruct Hin as [Hin|Hin]; [injection Hin as <- <- <-; destruct s; reflexivity|]). contradiction.
Qed.

Lemma model_class_err m s :
  (m = "TNFWC_SIDM"%string -> model_class m s = Err ENameError) /\
  (m <> "TNFWC_SIDM"%string -> ~ supported m -> model_class m s = Err EValueError).
Proof.
  split.
  - intros ->. reflexivity.
  - unfold supported, class_table, model_class. simpl. intros Hs H.
    eqbs; try tauto; exfalso; apply H; tauto.
Qed.

Lemma supported_documented m s : supported m <-> exists cl, documented m s cl.
Proof.
  unfold supported, documented. rewrite in_map_iff. split.
  - intros ([a [b c]] & <- & Hin). exists (if s then b else c), b, c. auto.
  - intros (cl & a & b & Hin & ->). exists (m, (a, b)). auto.
Qed.

Lemma documented_fun m s c1 c2 : documented m s c1 -> documented m s c2 -> c1 = c2.
Proof. intros H1 H2. apply model_class_ok in H1, H2. congruence. Qed.

Lemma pick_model_ok key s d h :
  pick_model key s d = Ok h <->
  population_model d key (key ++ "_subhalos") (key ++ "_field_halos") s h.
Proof.
  unfold pick_model, population_model, dhas, ditem. destruct (dget key d) as [v|] eqn:E; cbv iota.
  - split; [intros H; left; congruence|]. intros [H|[H _]]; [congruence|discriminate].
  - destruct s; cbv iota;
    match goal with |- context [dget ?k d] => destruct (dget k d) as [v|] eqn:F end; cbv iota;
    (split; [intros H; try discriminate; injection H as H; subst; right; split; reflexivity
            | intros [H|[_ H]]; try discriminate; injection H as H; subst; reflexivity]).
Qed.

Lemma pick_model_cases key s d :
  (exists h, pick_model key s d = Ok h) \/ pick_model key s d = Err EKeyError.
Proof.
  unfold pick_model, dhas, ditem. destruct (dget key d); eauto.
  destruct s; destruct (dget _ d); eauto.
Qed.

Lemma load_ok d w m t h :
  load_halo_model d w m t = Ok h <-> 0 < w_z w /\ halo_of_row d w m h /\ ld_tag h = t.
Proof.
  unfold load_halo_model, halo_of_row. split.
  - intros H.
    destruct (pick_model "truncation_model" (w_sub w) d) as [tr|] eqn:E1; simpl in H; [|discriminate].
    destruct (pick_model "concentration_model" (w_sub w) d) as [cn|] eqn:E2; simpl in H; [|discriminate].
    destruct (ditem "kwargs_density_profile" d) as [ar|] eqn:E3; simpl in H; [|discriminate].
    destruct (model_class m (w_sub w)) as [cl|] eqn:E4; simpl in H; [|discriminate].
    destruct (Rltb 0 (w_z w)) eqn:E5; [|discriminate]. injection H as <-. simpl.
    apply Rltb_true in E5. apply pick_model_ok in E1, E2. apply model_class_ok in E4.
    unfold ditem in E3. destruct (dget "kwargs_density_profile" d); [|discriminate]. injection E3 as ->.
    repeat split; auto.
  - intros (Hz & (H1 & H2 & H3 & H4 & H5 & H6 & H7 & H8 & H9 & H10) & H11).
    apply model_class_ok in H1.
    assert (A : pick_model "truncation_model" (w_sub w) d = Ok (ld_trunc h)) by (apply pick_model_ok; exact H8).
    assert (B : pick_model "concentration_model" (w_sub w) d = Ok (ld_conc h)) by (apply pick_model_ok; exact H9).
    rewrite A, B. unfold ditem. rewrite H10. simpl. rewrite H1. simpl.
    apply Rltb_true in Hz. rewrite Hz. destruct h; simpl in *. subst. reflexivity.
Qed.

Lemma load_err d w m t :
  complete_for d (w_sub w) ->
  (m = "TNFWC_SIDM"%string -> load_halo_model d w m t = Err ENameError) /\
  (m <> "TNFWC_SIDM"%string -> ~ supported m -> load_halo_model d w m t = Err EValueError) /\
  (supported m -> 0 < w_z w -> exists h, load_halo_model d w m t = Ok h) /\
  (supported m -> w_z w <= 0 -> load_halo_model d w m t = Err EAssertionError).
Proof.
  intros ([tr H1] & [cn H2] & [ar H3]). unfold load_halo_model.
  apply pick_model_ok with (key := "truncation_model"%string) in H1.
  apply pick_model_ok with (key := "concentration_model"%string) in H2.
  rewrite H1, H2. unfold ditem. rewrite H3. simpl.
  destruct (model_class_err m (w_sub w)) as [E1 E2].
  repeat split; intros.
  - rewrite E1; auto.
  - rewrite E2; auto.
  - apply (supported_documented m (w_sub w)) in H. destruct H as [cl Hc]. apply model_class_ok in Hc.
    rewrite Hc. simpl. apply Rltb_true in H0. rewrite H0. eauto.
  - apply (supported_documented m (w_sub w)) in H. destruct H as [cl Hc]. apply model_class_ok in Hc.
    rewrite Hc. simpl. apply Rltb_false in H0. rewrite H0. reflexivity.
Qed.

Lemma load_rows_ok d tags ms mf : forall rows i hs,
  load_rows d tags i (combine rows (mdef_list ms mf rows)) = Ok hs ->
  Forall2 (fun w h => 0 < w_z w /\ halo_of_row d w (if w_sub w then mf else ms) h) rows hs /\
  map ld_tag hs = map tags (seq i (List.length rows)).
Proof.
  induction rows as [|w rows IH]; simpl; intros i hs H.
  - injection H as <-. split; [constructor|reflexivity].
  - destruct (load_halo_model d w (if w_sub w then mf else ms) (tags i)) as [h|] eqn:E; simpl in H; [|discriminate].
    destruct (load_rows d tags (S i) (combine rows (mdef_list ms mf rows))) as [hs'|] eqn:F; simpl in H; [|discriminate].
    injection H as <-. apply load_ok in E. destruct E as (Hz & Hh & Ht).
    destruct (IH _ _ F) as [A B]. split; [constructor; auto|]. simpl. rewrite Ht, B. reflexivity.
Qed.

Lemma load_rows_total d tags ms mf : forall rows i,
  (forall w, In w rows -> complete_for d (w_sub w) /\ 0 < w_z w) ->
  (forall w, In w rows -> supported (if w_sub w then mf else ms)) ->
  exists hs, load_rows d tags i (combine rows (mdef_list ms mf rows)) = Ok hs.
Proof.
  induction rows as [|w rows IH]; simpl; intros i H1 H2; [eauto|].
  destruct (H1 w (or_introl eq_refl)) as [Hc Hz].
  destruct (load_err d w (if w_sub w then mf else ms) (tags i) Hc) as (_ & _ & H & _).
  destruct (H (H2 w (or_introl eq_refl)) Hz) as [h ->]. simpl.
  destruct (IH (S i)) as [hs ->]; [intros; apply H1; auto|intros; apply H2; auto|]. simpl. eauto.
Qed.
