(** C106. A realization from the population models to the halo objects.

    Specification: [halo_for q enc r h] says that the halo object [h] is made from the rendered object [r]: same mass, position,
    3d radius, redshift and subhalo flag, of a class documented for one of the two mass definitions of the request.  The rendered
    objects are described by [population_rows] (RenderSpec: one block per population, with the masses drawn), the lens planes by C34. *)
From Coq Require Import String Sorted.
From Verif Require Import Prelude MassFnModel SpaceModel SpaceSpec SpaceProps RenderModel RenderSpec RenderProofs RenderProofs2 RenderProps LoaderModel LoaderSpec LoaderProps WholeModel.
Import ListNotations.
Local Open Scope R_scope.

Definition halo_for (q : request) (enc : option R -> R) (r : row) (h : Loaded) : Prop :=
  documented (if r_sub r then q_mdef_field q else q_mdef_sub q) (r_sub r) (ld_class h) /\
  ld_mass h = r_m r /\ ld_x h = r_x r /\ ld_y h = r_y r /\ ld_r3d h = enc (r_r3d r) /\ ld_z h = r_z r /\ ld_sub h = r_sub r /\ 0 < ld_z h.

Lemma len2 {A B} (P : A -> B -> Prop) l l' : Forall2 P l l' -> List.length l = List.length l'.
Proof. induction 1; cbn; lia. Qed.
Lemma zip_columns enc a rows : columns a rows ->
  zip_rows enc (a_m a) (a_x a) (a_y a) (a_r3d a) (a_z a) (a_sub a)
  = map (fun r => mkRow (r_m r) (r_x r) (r_y r) (enc (r_r3d r)) (r_z r) (r_sub r)) rows.
Proof.
  intros (-> & -> & -> & -> & -> & ->). induction rows as [|r t IH]; [reflexivity|]. cbn [map zip_rows]. now rewrite IH.
Qed.
Lemma render_from_spec enc zs q ls n : forall i out, render_from enc zs q ls i n = Ok out ->
  List.length out = n /\ forall k, (k < n)%nat -> exists h, nth_error out k = Some h /\ one_realization enc zs q (ls (i + k)%nat) = Ok h.
Proof.
  induction n as [|n IH]; intros i out H; cbn [render_from] in H.
  - inversion H. split; [reflexivity|]. intros; lia.
  - destruct (one_realization enc zs q (ls i)) as [r|] eqn:E1; [|discriminate]. cbn [bind] in H.
    destruct (render_from enc zs q ls (S i) n) as [rs|] eqn:E2; [|discriminate]. cbn [bind] in H. inversion H; subst.
    destruct (IH _ _ E2) as [L P]. split; [cbn; now rewrite L|]. intros [|k] Hk.
    + exists r. rewrite Nat.add_0_r. auto.
    + destruct (P k ltac:(lia)) as (h & A & B). exists h. replace (i + S k)%nat with (S i + k)%nat by lia. auto.
Qed.

(** One realization per pass; every realization consists of exactly the halos of its populations, in order. *)
Theorem C106_realizations : forall enc zsource q ls n out, render enc zsource q ls n = Ok out ->
  List.length out = n /\
  forall k, (k < n)%nat -> exists halos planes dz blocks,
    nth_error out k = Some halos /\
    generate_lens_plane_redshifts (Some (re_zlens (l_env (ls k)))) zsource (q_spacing q) = Ok (planes, dz) /\
    Forall2 (population_rows (l_env (ls k)) (combine planes dz)) (combine (q_names q) (l_args (ls k))) blocks /\
    (List.length (q_names q) <= List.length (l_args (ls k)))%nat /\
    Forall2 (halo_for q enc) (List.concat blocks) halos /\
    map ld_tag halos = map (l_tags (ls k)) (seq 0 (List.length halos)).
Proof.
  intros enc zs q ls n out H. destruct (render_from_spec _ _ _ _ _ _ _ H) as [L P]. split; [exact L|].
  intros k Hk. destruct (P k Hk) as (hs & N & O). cbn [Nat.add] in O. unfold one_realization, render_masses_positions in O.
  destruct (generate_lens_plane_redshifts _ zs (q_spacing q)) as [[planes dz]|] eqn:G; [|discriminate]. cbn [bind fst snd] in O.
  destruct (render_population _ _ _ _ _ _ _) as [a|] eqn:R; [|discriminate]. cbn [bind] in O.
  destruct (C35_rendered _ _ _ _ _ _ _ _ R) as (LA & blocks & C & F). cbn [zipped] in F.
  rewrite (zip_columns enc a _ C) in O. destruct (C17_created_realization _ _ _ _ _ _ O) as [A T].
  exists hs, planes, dz, blocks. split; [exact N|]. split; [reflexivity|]. split; [exact F|]. split; [exact LA|]. split.
  - clear -A. remember (map _ (List.concat blocks)) as rows eqn:E. revert E. generalize (List.concat blocks).
    induction A as [|w h rows hs [Z (D & M & X & Y & R3 & ZZ & SB & _)] A IH]; intros [|r t] E; inversion E; subst; constructor.
    + cbn in *. unfold halo_for. rewrite ZZ. repeat split; auto.
    + apply IH. reflexivity.
  - rewrite T, map_length. f_equal. f_equal. apply len2 in A. rewrite map_length in A. exact A.
Qed.
(** Redshifts: with the lens and source to two decimals, every halo lies between the first plane and the source; only subhalos and
    two-halo objects can be anywhere else than on a lens plane, and those are at the lens, which is a plane too. *)
Theorem C106_redshifts : forall enc zsource q ls n out, render enc zsource q ls n = Ok out ->
  forall k halos h, nth_error out k = Some halos -> In h halos ->
  let zlens := re_zlens (l_env (ls k)) in
  0 < zlens < zsource -> two_decimals zlens -> two_decimals zsource -> 0 < step_of (q_spacing q) -> two_decimals (step_of (q_spacing q)) ->
  exists planes dz, generate_lens_plane_redshifts (Some zlens) zsource (q_spacing q) = Ok (planes, dz) /\ In (ld_z h) planes /\
    Rmin 0.01 zlens <= ld_z h < zsource /\ (ld_sub h = true -> ld_z h = zlens).
Proof.
  intros enc zs q ls n out H k halos h N I zl B D1 D2 S D3.
  destruct (C106_realizations _ _ _ _ _ _ H) as [L P].
  assert (Hk : (k < n)%nat) by (rewrite <- L; apply nth_error_Some; rewrite N; discriminate).
  destruct (P k Hk) as (halos' & planes & dz & blocks & N' & G & F & LA & A & _). rewrite N in N'. inversion N'; subst halos'.
  exists planes, dz. split; [exact G|].
  destruct (C34_planes_tile (Some zl) zs (q_spacing q) S) as (p & d & G' & _ & _ & IL & RG & TI & _); [cbn; lra|exact D1|exact D2|exact D3|].
  fold zl in G. rewrite G in G'. inversion G'; subst p d. specialize (IL zl eq_refl).
  destruct (Forall2_In_r _ _ _ _ A I) as (r & Ir & (_ & _ & _ & _ & _ & ZR & SB & _)). rewrite ZR, SB.
  apply in_concat in Ir as (blk & Ib & Ir). destruct (Forall2_In_r _ _ _ _ F Ib) as ([nm a] & _ & [[[_ Q]|[[_ Q]|[_ Q]]] _]); cbn [snd] in Q.
  - destruct (los_rows_field _ _ _ _ Q Ir) as (z & Hz & (Z & SF & _)). rewrite Z, SF.
    assert (Hp : In z planes). { apply in_map_iff in Hz as ([z' d'] & <- & Hz). eapply in_combine_l. exact Hz. }
    split; [exact Hp|]. split; [apply RG, Hp|discriminate].
  - destruct Q as (? & ? & _ & Q). rewrite Forall_forall in Q. destruct (Q r Ir) as (Z & _). fold zl in Z. rewrite Z.
    split; [exact IL|]. split; [apply (RG zl IL)|reflexivity].
  - destruct Q as (? & ? & ? & ? & _ & _ & _ & Q). rewrite Forall_forall in Q. destruct (Q r Ir) as (Z & _). fold zl in Z. rewrite Z.
    split; [exact IL|]. split; [apply (RG zl IL)|reflexivity].
Qed.
(** Passes are independent: asking for more realizations (or with other random numbers for the later ones) leaves the first ones as
    they are, and nothing is returned if any pass fails. *)
Theorem C106_passes : forall enc zsource q ls n,
  (forall out, render enc zsource q ls n = Ok out <->
     List.length out = n /\ forall k, (k < n)%nat -> exists h, nth_error out k = Some h /\ render enc zsource q (fun _ => ls k) 1 = Ok [h]) /\
  (forall m ls' out out', (m <= n)%nat -> (forall k, (k < m)%nat -> ls' k = ls k) ->
     render enc zsource q ls n = Ok out -> render enc zsource q ls' m = Ok out' -> out' = firstn m out).
Proof.
  intros enc zs q ls n.
  assert (ONE : forall l h, render enc zs q (fun _ => l) 1 = Ok [h] <-> one_realization enc zs q l = Ok h).
  { intros l h. unfold render. cbn [render_from]. destruct (one_realization enc zs q l); cbn; split; intros X; inversion X; reflexivity. }
  assert (IFF : forall n i out, render_from enc zs q ls i n = Ok out <->
    List.length out = n /\ forall k, (k < n)%nat -> exists h, nth_error out k = Some h /\ one_realization enc zs q (ls (i + k)%nat) = Ok h).
  { clear n. intros n i out. split; [apply render_from_spec|]. revert i out. induction n as [|n IH]; intros i out [L P].
    - destruct out; [reflexivity|discriminate].
    - destruct out as [|h t]; [discriminate|]. cbn [render_from]. destruct (P O ltac:(lia)) as (h' & E & O1). cbn in E. inversion E; subst h'.
      rewrite Nat.add_0_r in O1. rewrite O1. cbn [bind]. rewrite (IH (S i) t); [reflexivity|]. split; [cbn in L; lia|].
      intros k Hk. destruct (P (S k) ltac:(lia)) as (g & Eg & Og). exists g. cbn in Eg. replace (S i + k)%nat with (i + S k)%nat by lia. auto. }
  split.
  - intros out. unfold render. rewrite IFF. split; intros [L P]; (split; [exact L|]); intros k Hk; destruct (P k Hk) as (h & A & B); exists h;
      (split; [exact A|]); apply ONE; exact B.
  - intros m ls' out out' Lm Same R1 R2. apply IFF in R1 as [L1 P1]. apply render_from_spec in R2 as [L2 P2].
    assert (EXT : forall (l1 l2 : list (list Loaded)), List.length l1 = List.length l2 ->
      (forall k, (k < List.length l1)%nat -> nth_error l1 k = nth_error l2 k) -> l1 = l2).
    { induction l1 as [|a t IH]; intros [|b u] LL PP; try discriminate; [reflexivity|].
      pose proof (PP O ltac:(cbn; lia)) as E. cbn in E. inversion E; subst. f_equal. apply IH; [cbn in LL; lia|].
      intros k Hk. apply (PP (S k)). cbn. lia. }
    apply EXT; [rewrite firstn_length; lia|].
    intros k Hk. rewrite L2 in Hk. destruct (P2 k Hk) as (h2 & A2 & B2). destruct (P1 k ltac:(lia)) as (h1 & A1 & B1).
    cbn [Nat.add] in *. rewrite (Same k Hk), B1 in B2. injection B2 as EQ. rewrite <- EQ in A2. rewrite A2.
    rewrite <- A1. rewrite <- (firstn_skipn m out) at 1. rewrite nth_error_app1; [reflexivity|]. rewrite firstn_length. lia.
Qed.
(** A request succeeds as soon as the populations can be rendered and the halo models are known. *)
Theorem C106_success : forall enc zsource q ls n,
  0 < step_of (q_spacing q) -> two_decimals (step_of (q_spacing q)) -> two_decimals zsource ->
  (forall k, (k < n)%nat -> 0 < re_zlens (l_env (ls k)) < zsource /\ two_decimals (re_zlens (l_env (ls k)))) ->
  (forall k, (k < n)%nat -> exists a, render_masses_positions zsource q (ls k) = Ok a) ->
  complete_for (q_dict q) true -> complete_for (q_dict q) false -> supported (q_mdef_sub q) -> supported (q_mdef_field q) ->
  exists out, render enc zsource q ls n = Ok out.
Proof.
  intros enc zs q ls n S D3 D2 B R C1 C2 M1 M2.
  assert (X : forall n i, (forall k, (i <= k < i + n)%nat -> exists h, one_realization enc zs q (ls k) = Ok h) -> exists out, render_from enc zs q ls i n = Ok out).
  { clear. induction n as [|n IH]; intros i H; [eexists; reflexivity|]. cbn [render_from]. destruct (H i ltac:(lia)) as (h & ->). cbn [bind].
    destruct (IH (Datatypes.S i)) as (t & ->); [intros k Hk; apply H; lia|]. eexists. reflexivity. }
  apply X. intros k Hk. destruct (R k ltac:(lia)) as (a & Ea). destruct (B k ltac:(lia)) as [Bz Dz]. unfold one_realization. rewrite Ea. cbn [bind].
  unfold render_masses_positions in Ea. destruct (generate_lens_plane_redshifts _ zs (q_spacing q)) as [[planes dz]|] eqn:G; [|discriminate].
  cbn [bind fst snd] in Ea. destruct (C35_rendered _ _ _ _ _ _ _ _ Ea) as (_ & blocks & C & _).
  rewrite (zip_columns enc a _ C).
  assert (POS : forall r, In r (List.concat blocks) -> 0 < r_z r).
  { intros r Ir. destruct C as (_ & _ & _ & _ & CZ & _).
    destruct (proj1 (C35_redshifts_and_flags _ _ _ _ _ _ _ _ Ea) (r_z r)) as [->|I].
    - rewrite CZ. apply in_map, Ir.
    - lra.
    - cbn [zipped] in I. apply in_map_iff in I as ([z d] & <- & I). apply in_combine_l in I. cbn.
      destruct (C34_planes_tile (Some (re_zlens (l_env (ls k)))) zs (q_spacing q) S) as (p & d' & G' & _ & _ & _ & RG & _); [cbn; lra|exact Dz|exact D2|exact D3|].
      rewrite G in G'. inversion G'; subst. specialize (RG z I). cbn [first_of] in RG. revert RG. unfold Rmin. destruct (Rle_dec _ _); lra. }
  apply C17_created_realization_total.
  - intros w Iw. apply in_map_iff in Iw as (r & <- & Ir). cbn. split; [destruct (r_sub r); assumption|apply POS, Ir].
  - intros w Iw. apply in_map_iff in Iw as (r & <- & Ir). cbn. destruct (r_sub r); assumption.
Qed.
(** Non-vacuity: three populations of the demonstration environment, two realizations. *)
Definition demo_luck (i : nat) : luck := mkLuck demo_env [demo_args (SpCone 6); demo_args (SpUniform 3)] (fun k => Z.of_nat (100 * i + k)).
Definition demo_request : request := mkRequest ["LINE_OF_SIGHT"; "SUBHALOS"]%string "TNFW" "TNFW" demo_dict true 1 (Some 0.5).
Lemma demo_los_ok zs : forall i, exists r, los_loop demo_env demo_los (los_init demo_loskw) (pa_spatial (demo_args (SpCone 6))) i zs = Ok r.
Proof.
  induction zs as [|[z dz] t IH]; intros i; [eexists; reflexivity|]. destruct (IH (S i)) as ([[[a b] c] d] & E).
  cbn [los_loop]. unfold los_mass_fn. cbn [los_init demo_loskw lk_log_mlow lk_log_mhigh lk_norm lk_poisson orelse need bind demo_los mf_draw].
  destruct i as [|[|i]]; cbn [repeat List.length Nat.sub];
    unfold render_xy, draw_xy; cbn [demo_args pa_spatial sp_what sp_devs map seq]; unfold lens_cone_draw, uniform_draw;
    cbn [re_kpc demo_env bind]; unfold render_positions; cbn [map re_kpc demo_env bind]; cbn [demo_args pa_spatial] in E; rewrite E; eexists; reflexivity.
Qed.
Example C106_nonvacuous : exists a, render_masses_positions 2 demo_request (demo_luck 0) = Ok a /\
  0 < step_of (q_spacing demo_request) /\ two_decimals (step_of (q_spacing demo_request)) /\ two_decimals 2 /\
  0 < re_zlens demo_env < 2 /\ two_decimals (re_zlens demo_env) /\
  complete_for demo_dict true /\ complete_for demo_dict false /\ supported "TNFW" /\
  exists x y t, a_m a = x :: y :: t.
Proof.
  assert (S : 0 < step_of (Some 0.5)) by (cbn; lra).
  assert (D5 : two_decimals 0.5) by (exists 50%Z; lra). assert (D2 : two_decimals 2) by (exists 200%Z; lra).
  destruct (C34_planes_tile (Some 0.5) 2 (Some 0.5) S) as (p & d & G & _ & N0 & _); [cbn; lra|exact D5|exact D2|exact D5|].
  unfold render_masses_positions. cbn [demo_luck l_env l_args demo_request q_spacing q_names q_lazar q_scale2 re_zlens demo_env]. rewrite G. cbn [bind fst snd].
  unfold render_population. cbn [population_init mk_model String.eqb Ascii.eqb Bool.eqb bind population_render model_render].
  unfold los_render. cbn [demo_args pa_from_redshift pa_los pa_spatial].
  destruct (demo_los_ok (combine p d) 0) as ([[[m x] y] z] & E). cbn [demo_args pa_spatial] in E. rewrite E. cbn [bind].
  eexists. split; [reflexivity|]. cbn [arrays_app arrays_nil a_m].
  split; [exact S|]. split; [exact D5|]. split; [exact D2|]. split; [lra|]. split; [exact D5|].
  split; [|split; [|split; [cbn; tauto|]]].
  1, 2: unfold complete_for, population_model; cbn; repeat split; eexists; try (right; split; reflexivity); try (left; reflexivity); reflexivity.
  cbn [app]. destruct m as [|m0 [|m1 m]]; cbn; repeat eexists.
Qed.

Print Assumptions C106_realizations.
Print Assumptions C106_redshifts.
Print Assumptions C106_passes.
Print Assumptions C106_success.
