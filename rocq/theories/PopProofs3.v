(** Proofs about added populations: globular clusters, primordial black holes, sampling from a map. *)
From Verif Require Import Prelude MassFnModel MassFnSpec MassFnProofs SpaceModel SpaceProofs SpaceProofs3 SpaceProps.
From Verif Require Import RealizationModel RealizationSpec RealizationProofs RenderModel RenderProofs RenderProofs2 PopModel PopSpec PopProofs PopProofs2.
Local Open Scope string_scope.
Local Open Scope R_scope.
Local Open Scope list_scope.

(** ** masses *)
Lemma gf_draw_spec g k g01 ms : gf_poisson g = true -> gf_draw g k g01 = Ok ms ->
  poisson_number (gf_n_mean g) k (List.length ms) /\
  (forall j m, nth_error ms j = Some m -> m = ten_to (gf_mean g + gf_sigma g * g01 j)).
Proof.
  intros P H. unfold gf_draw in H. rewrite P in H. destruct (np_poisson _ k) as [n|] eqn:E; [|discriminate]. cbn [bind] in H.
  apply np_poisson_number in E. destruct (0 <? Z.of_nat n)%Z eqn:L.
  - destruct (Rltb _ 0); [discriminate|]. injection H as <-. rewrite Nat2Z.id, map_length, seq_length. split; [exact E|].
    intros j m N. apply seq_map_nth_error in N as [-> _]. reflexivity.
  - injection H as <-. assert (n = 0%nat) as -> by (apply Z.ltb_ge in L; lia). split; [exact E|]. intros [|j] m; discriminate.
Qed.
Lemma df_draw_spec d k ms : df_poisson d = true -> df_draw d k = Ok ms ->
  poisson_number (df_n_mean d) k (List.length ms) /\ Forall (fun m => m = df_mass d) ms.
Proof.
  intros P H. unfold df_draw in H. rewrite P in H. destruct (np_poisson _ k) as [n|] eqn:E; [|discriminate]. cbn [bind] in H.
  apply np_poisson_number in E. injection H as <-. destruct (0 <? Z.of_nat n)%Z eqn:L.
  - rewrite Nat2Z.id, repeat_length. split; [exact E|]. apply Forall_forall. intros m Hm. now apply repeat_spec in Hm.
  - assert (n = 0%nat) as -> by (apply Z.ltb_ge in L; lia). split; [exact E|constructor].
Qed.
Lemma uniform_pts r kpc z s cx cy devs pts k : uniform_draw r kpc z s cx cy devs = Ok pts -> kpc z = Ok k -> 0 < k ->
  (forall d, In d devs -> 0 <= snd d <= 1) ->
  List.length pts = List.length devs /\
  Forall (fun q => dist2 (fst q / k) (snd q / k) cx cy <= Rabs (r * s)) pts.
Proof.
  intros H K KP U. split; [eapply uniform_draw_length; eauto|].
  destruct (C31_uniform_in_disc r kpc z s cx cy devs k K KP) as (q & E & L & D). { intros ua ur I. exact (U _ I). }
  unfold rendered_uniform in E. rewrite H in E. cbn [bind] in E. unfold render_positions in E.
  destruct pts as [|p t]; [constructor|]. rewrite K in E. cbn [bind] in E. injection E as <-.
  apply Forall_forall. intros q Hq. apply D. apply (in_map (fun p => (fst p * / k, snd p * / k))) in Hq. exact Hq.
Qed.

(** ** globular clusters *)
Lemma py_int_nonneg x : 0 <= x -> IZR (py_int x) <= x < IZR (py_int x) + 1.
Proof.
  intros H. unfold py_int. apply Rleb_true in H. rewrite H. apply Rleb_true in H. pose proof (base_Int_part x). lra.
Qed.
(** [j]-th cluster of centre [i] *)
Definition gc_is (e : genv) (a : gc_args) (g : gc_rng) (kpc : R) (i j : nat) (c : R * R) (b : Halo) : Prop :=
  h_mass b = ten_to (ga_mean a + ga_sigma a * gr_normal g i j) /\
  dist2 (h_x b) (h_y b) (fst c) (snd c) <= Rabs (ga_radius a) /\ h_z b = ge_zlens e /\ h_fixed b = true /\ h_sub b = false /\
  gc_object e a kpc (gr_tag g i j) (gr_gamma g i j) (gr_size g i j) (h_mass b) (h_x b) (h_y b) = Ok b.
Definition gc_part (e : genv) (a : gc_args) (g : gc_rng) (kpc : R) (ic : nat * (R * R)) (part : list Halo) : Prop :=
  poisson_number (IZR (gc_number a kpc)) (gr_count g (fst ic)) (List.length part) /\
  map h_tag part = map (gr_tag g (fst ic)) (seq 0 (List.length part)) /\
  forall j b, nth_error part j = Some b -> gc_is e a g kpc (fst ic) j (snd ic) b.

Lemma gc_object_fields e a kpc tag ug us m x y b : gc_object e a kpc tag ug us m x y = Ok b ->
  h_mass b = m /\ h_x b = x /\ h_y b = y /\ h_z b = ge_zlens e /\ h_fixed b = true /\ h_sub b = false /\ h_tag b = tag.
Proof.
  unfold gc_object. destruct (String.eqb _ "SPL_CORE"); [|destruct (String.eqb _ "PTMASS"); [|discriminate]]; intros [= <-];
    repeat split; reflexivity.
Qed.
Lemma gc_objects_spec e a g kpc i : forall l j os, gc_objects e a g kpc i j l = Ok os ->
  List.length os = List.length l /\ map h_tag os = map (gr_tag g i) (seq j (List.length os)) /\
  forall k b, nth_error os k = Some b -> exists q, nth_error l k = Some q /\
    gc_object e a kpc (gr_tag g i (j + k)) (gr_gamma g i (j + k)) (gr_size g i (j + k)) (fst q) (fst (snd q) / kpc) (snd (snd q) / kpc) = Ok b.
Proof.
  induction l as [|[m [x y]] t IH]; intros j os H.
  - injection H as <-. split; [reflexivity|]. split; [reflexivity|]. intros [|k] b; discriminate.
  - cbn [gc_objects] in H. binds. injection H as <-. destruct (IH _ _ H1) as (L & T & P).
    cbn [List.length map seq]. split; [now rewrite L|]. split.
    + rewrite T. f_equal. now apply gc_object_fields in H0.
    + intros [|k] b N.
      * injection N as <-. eexists. split; [reflexivity|]. rewrite Nat.add_0_r. exact H0.
      * cbn in N. destruct (P _ _ N) as (q & Q1 & Q2). exists q. split; [exact Q1|]. replace (j + S k)%nat with (S j + k)%nat by lia. exact Q2.
Qed.
Lemma nth_error_combine {A B} (l : list A) (l' : list B) k a b :
  nth_error (combine l l') k = Some (a, b) -> nth_error l k = Some a /\ nth_error l' k = Some b.
Proof.
  revert l' k. induction l as [|x t IH]; intros [|y s] [|k] H; try discriminate.
  - now injection H as -> ->.
  - cbn in *. auto.
Qed.
Lemma gc_centre_spec e a g kpc i c os : ge_kpc e (ge_zlens e) = Ok kpc -> 0 < kpc -> (forall i j, 0 <= snd (gr_pos g i j) <= 1) ->
  gc_centre e a g kpc i c = Ok os -> gc_part e a g kpc (i, c) os.
Proof.
  intros K KP U H. unfold gc_centre in H. binds.
  destruct (gf_draw_spec (mk_gauss_fn (IZR (gc_number a kpc)) (ga_mean a) (ga_sigma a) true) _ _ _ eq_refl H0) as (P & M).
  destruct (uniform_pts _ _ _ _ _ _ _ _ _ H1 K KP) as (L & D). { intros d Hd. apply in_map_iff in Hd as (j & <- & _). apply U. }
  rewrite map_length, seq_length in L. destruct (gc_objects_spec _ _ _ _ _ _ _ _ H) as (LO & T & Q).
  rewrite combine_length, L, Nat.min_id in LO. split; [cbn [fst]; rewrite LO; exact P|]. split; [exact T|].
  intros j b N. destruct (Q _ _ N) as ([m [x' y']] & N1 & O). cbn [fst snd] in *. cbn [Nat.add] in O.
  apply nth_error_combine in N1 as (N1 & N2). pose proof (gc_object_fields _ _ _ _ _ _ _ _ _ _ O) as (E1 & E2 & E3 & E4 & E5 & E6 & _).
  split. { rewrite E1. apply (M j m N1). } split.
  { rewrite E2, E3. apply nth_error_In in N2. eapply Forall_forall in D; [|exact N2]. rewrite Rmult_1_r in D. exact D. }
  rewrite E1, E2, E3. repeat split; auto.
Qed.

Lemma tag_row (f : nat -> Z) n : (forall j j', f j = f j' -> j = j') -> NoDup (map f (seq 0 n)).
Proof.
  intros INJ. generalize (seq_NoDup n 0). induction (seq 0 n) as [|j js IHj]; intros NS; [constructor|].
  inversion NS; subst. cbn. constructor; [|auto]. intros Hj. apply in_map_iff in Hj as (j' & E & Hj'). apply INJ in E as ->. contradiction.
Qed.
(** tags of all clusters *)
Lemma gc_tags e a g kpc : (forall i j i' j', gr_tag g i j = gr_tag g i' j' -> i = i' /\ j = j') ->
  forall cs i parts, Forall2 (gc_part e a g kpc) (enum_from i cs) parts ->
  NoDup (map h_tag (List.concat parts)) /\
  (forall t, In t (map h_tag (List.concat parts)) -> exists i' j, (i <= i')%nat /\ t = gr_tag g i' j).
Proof.
  intros INJ. induction cs as [|c cs IH]; intros i parts F; cbn in F; inversion F as [|? p ? ps P F']; subst.
  - split; [constructor|]. intros t [].
  - destruct (IH _ _ F') as (N & T). destruct P as (_ & TP & _). cbn [List.concat fst] in *. rewrite map_app. split.
    + rewrite TP. clear -N T INJ. generalize (seq_NoDup (List.length p) 0). induction (seq 0 (List.length p)) as [|j js IHj]; intros NS; [exact N|].
      inversion NS; subst. cbn. constructor; [|auto]. intros H. apply in_app_or in H as [H|H].
      * apply in_map_iff in H as (j' & E & Hj'). apply INJ in E as (_ & ->). contradiction.
      * apply T in H as (i' & j' & L & E). apply INJ in E as (-> & _). lia.
    + intros t H. apply in_app_or in H as [H|H].
      * rewrite TP in H. apply in_map_iff in H as (j & <- & _). exists i, j. split; [lia|reflexivity].
      * apply T in H as (i' & j & L & ->). exists i', j. split; [lia|reflexivity].
Qed.
Definition acc_refs (acc : option Realz) : list ref := match acc with None => [] | Some r => rz_halos r end.
Lemma gc_loop_spec e a g kpc rz : ge_kpc e (ge_zlens e) = Ok kpc -> 0 < kpc -> (forall i j, 0 <= snd (gr_pos g i j) <= 1) ->
  (forall i j i' j', gr_tag g i j = gr_tag g i' j' -> i = i' /\ j = j') ->
  forall cs i hp n acc hp' acc', gc_loop e a g kpc rz i cs hp n acc = Ok (hp', acc') ->
  Forall (fun r => (r < n)%nat) (acc_refs acc) -> NoDup (map (fun r => h_tag (hp r)) (acc_refs acc)) ->
  (forall r, In r (acc_refs acc) -> exists i' j, (i' < i)%nat /\ h_tag (hp r) = gr_tag g i' j) ->
  exists parts, Forall2 (gc_part e a g kpc) (enum_from i cs) parts /\ untouched hp hp' n /\
    map hp' (seq n (List.length (List.concat parts))) = List.concat parts /\
    Permutation (acc_refs acc') (acc_refs acc ++ seq n (List.length (List.concat parts))) /\
    (acc' = None <-> cs = [] /\ acc = None).
Proof.
  intros K KP U INJ. induction cs as [|c cs IH]; intros i hp n acc hp' acc' H LT ND TG.
  - injection H as <- <-. exists []. split; [constructor|]. split; [intros r Hr; reflexivity|]. split; [reflexivity|].
    cbn. rewrite app_nil_r. split; [apply Permutation_refl|]. tauto.
  - cbn [gc_loop] in H. destruct (gc_centre e a g kpc i c) as [os|] eqn:EO; [|discriminate]. cbn [bind] in H.
    pose proof (gc_centre_spec _ _ _ _ _ _ _ K KP U EO) as GP.
    set (hp1 := alloc hp n os) in *.
    assert (TO : map (fun r => h_tag (hp1 r)) (acc_refs acc) = map (fun r => h_tag (hp r)) (acc_refs acc)).
    { apply tags_ext. intros r Hr. apply alloc_old. eapply Forall_forall in LT; eauto. }
    assert (TN : map (fun r => h_tag (hp1 r)) (new_refs n os) = map h_tag os).
    { rewrite <- (alloc_new hp n os) at 2. rewrite map_map. reflexivity. }
    assert (TAGS : NoDup (map (fun r => h_tag (hp1 r)) (acc_refs acc) ++ map (fun r => h_tag (hp1 r)) (new_refs n os))).
    { rewrite TO, TN. destruct GP as (_ & T & _). cbn [fst] in T. rewrite T.
      assert (N2 : NoDup (map (gr_tag g i) (seq 0 (List.length os)))).
      { apply tag_row. intros; eapply INJ; eauto. }
      clear -ND TG N2 INJ. induction (acc_refs acc) as [|r t IHt]; [exact N2|]. cbn in *. inversion ND; subst. constructor.
      - intros Hx. apply in_app_or in Hx as [Hx|Hx]; [contradiction|]. apply in_map_iff in Hx as (j & E & _).
        destruct (TG r (or_introl eq_refl)) as (i' & j' & L & E'). rewrite E' in E. apply INJ in E as (<- & _). lia.
      - apply IHt; [assumption|]. intros; apply TG; now right. }
    set (acc1 := Some (match acc with None => rebuild hp1 rz (new_refs n os) | Some old => join hp1 old (rebuild hp1 rz (new_refs n os)) false end)) in H.
    assert (PERM : Permutation (acc_refs acc1) (acc_refs acc ++ new_refs n os)).
    { unfold acc1. destruct acc as [old|]; [|apply Permutation_refl]. cbn [acc_refs] in *.
      change (new_refs n os) with (rz_halos (rebuild hp1 rz (new_refs n os))) at 2. apply join_disjoint. exact TAGS. }
    destruct (IH (S i) hp1 (n + List.length os)%nat acc1 hp' acc' H) as (parts & F & UT & MP & PM & NN).
    { eapply Permutation_Forall; [apply Permutation_sym; exact PERM|]. apply Forall_app. split; [|apply new_refs_lt].
      eapply Forall_impl; [|exact LT]. cbn. intros; lia. }
    { eapply Permutation_NoDup; [apply Permutation_map, Permutation_sym; exact PERM|]. rewrite map_app. exact TAGS. }
    { intros r Hr. eapply Permutation_in in Hr; [|exact PERM]. apply in_app_or in Hr as [Hr|Hr].
      - destruct (TG r Hr) as (i' & j & L & E). exists i', j. split; [lia|]. unfold hp1. rewrite alloc_old; [exact E|]. exact (proj1 (Forall_forall _ _) LT r Hr).
      - assert (In (h_tag (hp1 r)) (map h_tag os)) as I. { rewrite <- TN. apply (in_map (fun r => h_tag (hp1 r))). exact Hr. }
        destruct GP as (_ & T & _). cbn [fst] in T. rewrite T in I. apply in_map_iff in I as (j & E & _). exists i, j. split; [lia|now rewrite E]. }
    exists (os :: parts). split; [cbn [enum_from]; constructor; assumption|].
    split. { intros r Hr. rewrite UT by lia. apply alloc_old. exact Hr. }
    cbn [List.concat]. rewrite app_length, seq_app.
    assert (NEW : map hp' (seq n (List.length os)) = os).
    { rewrite <- (alloc_new hp n os) at 2. apply map_ext_in. intros r Hr. apply in_seq in Hr. apply UT. lia. }
    split. { etransitivity; [apply map_app|]. f_equal; [exact NEW|exact MP]. }
    split.
    + rewrite app_assoc. eapply Permutation_trans; [exact PM|]. apply Permutation_app_tail. exact PERM.
    + split; [|intros (X & _); discriminate X]. intros X. apply NN in X as (_ & X). discriminate X.
Qed.

(** ** primordial black holes *)
Lemma pbh_masses_spec e f inh logM ty r_max z dz count normal ms :
  pbh_masses e f inh logM ty r_max z dz count normal = Ok ms ->
  match ty with
  | PbhDelta => poisson_number ((1 - inh) * f * pe_rho e * pe_volume e (2 * r_max) z dz / ten_to logM) count (List.length ms) /\
                (forall j m, nth_error ms j = Some m -> m = ten_to logM)
  | PbhGauss s => poisson_number ((1 - inh) * f * pe_rho e * pe_volume e (2 * r_max) z dz / ten_to (logM + s ^ 2 * ln 10 / 2)) count (List.length ms) /\
                  (forall j m, nth_error ms j = Some m -> m = ten_to (logM + s * normal j))
  | PbhOther => False
  end.
Proof.
  unfold pbh_masses. destruct ty as [|s|]; intros H; [| |discriminate].
  - destruct (df_draw_spec (pbh_smooth_delta f inh (pe_rho e) (pe_volume e (2 * r_max) z dz) logM) _ _ eq_refl H) as (P & F). cbn in P. split; [exact P|]. intros j m N. apply nth_error_In in N.
    eapply Forall_forall in F; [|exact N]. exact F.
  - destruct (gf_draw_spec (pbh_smooth_gauss f inh (pe_rho e) (pe_volume e (2 * r_max) z dz) logM s) _ _ _ eq_refl H) as (P & F). split; [|exact F].
    unfold pbh_smooth_gauss, mk_gauss_fn, pbh_fractions in P. cbn [gf_n_mean fst] in P.
    replace (exp (ln (pow10 logM) + ln (pow10 s) ^ 2 / 2)) with (ten_to (logM + s ^ 2 * ln 10 / 2)) in P.
    + replace ((1 - inh) * f * pe_rho e * pe_volume e (2 * r_max) z dz) with (pe_volume e (2 * r_max) z dz * ((1 - inh) * f * pe_rho e)) by ring. exact P.
    + unfold pow10, ten_to, Rpower. rewrite !ln_exp. f_equal. field.
Qed.
(** the [i]-th plane of the [k]-th image *)
Definition pbh_cell (e : penv) (f inh logM : R) (ty : pbh_type) (ray : R -> R * R) (r_max : R) (g : pbh_rng) (k : nat)
    (iz : nat * (R * R)) (cell : list point) : Prop :=
  let i := fst iz in let z := fst (snd iz) in
  let smooth := (1 - inh) * f * pe_rho e * pe_volume e (2 * r_max) z (snd (snd iz)) in
  match ty with
  | PbhDelta => poisson_number (smooth / ten_to logM) (pr_count g k i) (List.length cell)
  | PbhGauss s => poisson_number (smooth / ten_to (logM + s ^ 2 * ln 10 / 2)) (pr_count g k i) (List.length cell)
  | PbhOther => False
  end /\
  forall j p, nth_error cell j = Some p ->
    pt_z p = z /\ dist2 (pt_x p) (pt_y p) (fst (ray z)) (snd (ray z)) <= Rabs (r_max * pe_scale e z) /\
    match ty with PbhGauss s => pt_m p = ten_to (logM + s * pr_normal g k i j) | _ => pt_m p = ten_to logM end.
Lemma pbh_planes_spec e f inh logM ty r_max ray g k : (forall z q, pe_kpc e z = Ok q -> 0 < q) ->
  (forall k i j, 0 <= snd (pr_pos g k i j) <= 1) ->
  forall zs i pts, pbh_planes e f inh logM ty r_max ray g k i zs = Ok pts ->
  exists row, pts = List.concat row /\ Forall2 (pbh_cell e f inh logM ty ray r_max g k) (enum_from i zs) row.
Proof.
  intros KP U. induction zs as [|[z dz] t IH]; intros i pts H.
  - injection H as <-. exists []. split; constructor.
  - cbn [pbh_planes] in H. binds. injection H as <-. destruct (IH _ _ H2) as (row & -> & F).
    exists (x0 :: row). split; [reflexivity|]. cbn [enum_from]. constructor; [|exact F]. clear IH F H2.
    pose proof (pbh_masses_spec _ _ _ _ _ _ _ _ _ _ _ H0) as M.
    assert (Q : List.length x0 = List.length x /\ forall j p, nth_error x0 j = Some p -> pt_z p = z /\
        dist2 (pt_x p) (pt_y p) (fst (ray z)) (snd (ray z)) <= Rabs (r_max * pe_scale e z) /\ nth_error x j = Some (pt_m p)).
    { destruct x as [|m0 ms]. { injection H1 as <-. split; [reflexivity|]. intros [|j] p; discriminate. }
      cbv zeta in H1. binds.
      assert (EX : x0 = map (fun q => {| pt_m := fst q; pt_x := fst (snd q) / x; pt_y := snd (snd q) / x; pt_z := z |}) (combine (m0 :: ms) x1)) by congruence.
      rewrite EX. clear EX H1. destruct (uniform_pts _ _ _ _ _ _ _ _ _ H2 H (KP _ _ H)) as (L & D).
      { intros d Hd. apply in_map_iff in Hd as (j & <- & _). apply U. }
      rewrite map_length, seq_length in L. rewrite map_length, combine_length, L, Nat.min_id. split; [reflexivity|].
      intros j p N. rewrite nth_error_map in N. destruct (nth_error (combine (m0 :: ms) x1) j) as [[m q]|] eqn:E; [|discriminate].
      cbn in N. injection N as <-. apply nth_error_combine in E as (E1 & E2). cbn [pt_z pt_x pt_y pt_m]. split; [reflexivity|]. split; [|exact E1].
      apply nth_error_In in E2. eapply Forall_forall in D; [|exact E2]. rewrite Rmult_1_r in D. exact D. }
    destruct Q as (L & Q). unfold pbh_cell. cbn [fst snd]. rewrite L. split.
    + destruct ty; tauto.
    + intros j p N. destruct (Q j p N) as (A & B & C). split; [exact A|]. split; [exact B|]. destruct ty; [|
      |destruct M]; apply (proj2 M j); exact C.
Qed.
Lemma pbh_images_spec e f inh logM ty g zs : (forall z q, pe_kpc e z = Ok q -> 0 < q) ->
  (forall k i j, 0 <= snd (pr_pos g k i j) <= 1) ->
  forall images k pts, pbh_images e f inh logM ty g zs k images = Ok pts ->
  exists grid, pts = List.concat (map (@List.concat point) grid) /\
    Forall2 (fun kim row => Forall2 (pbh_cell e f inh logM ty (fst (snd kim)) (snd (snd kim)) g (fst kim)) (enumerate zs) row) (enum_from k images) grid.
Proof.
  intros KP U. induction images as [|[ray r_max] t IH]; intros k pts H.
  - injection H as <-. exists []. split; constructor.
  - cbn [pbh_images] in H. binds. injection H as <-. destruct (IH _ _ H1) as (grid & -> & F).
    destruct (pbh_planes_spec _ _ _ _ _ _ _ _ _ KP U _ _ _ H0) as (row & -> & G).
    exists (row :: grid). split; [reflexivity|]. cbn [enum_from]. constructor; [exact G|exact F].
Qed.

(** every mass of the clustered part is that of the delta function *)
Lemma delta_masses logM fr po M count g r : render_masses_at_z (CDelta logM fr po) M count g = Ok r -> Forall (fun m => m = ten_to logM) (fst r).
Proof.
  unfold render_masses_at_z. intros H. binds. injection H as <-. cbn [fst]. unfold df_draw in H0. binds. injection H0 as <-.
  destruct (0 <? x0)%Z; [|constructor]. apply Forall_forall. intros m Hm. now apply repeat_spec in Hm.
Qed.
Lemma corr_loop_delta halos logM fr po ray rmax app_ : forall planes last ms xs ys zs f is,
  corr_loop halos (CDelta logM fr po) ray rmax app_ planes last = Ok (ms, xs, ys, zs, f, is) -> Forall (fun m => m = ten_to logM) ms.
Proof.
  induction planes as [|[z cp] t IH]; intros last ms xs ys zs f is H; [injection H as <- _ _ _ _ _; constructor|].
  cbn [corr_loop] in H. destruct (ray z) as [ax ay]. binds. destruct x0 as [[[[[ms' xs'] ys'] zs'] f'] is']. pose proof (IH _ _ _ _ _ _ _ H1) as F.
  assert (G : Forall (fun m => m = ten_to logM) (fst x)).
  { unfold render_at_z in H0. destruct (existsb _ _); [|injection H0 as <-; constructor]. binds. pose proof (delta_masses _ _ _ _ _ _ _ H2) as D.
    destruct (fst x0) eqn:EX; [injection H0 as <-; constructor|]. destruct (Reqb _ 0); [discriminate|]. injection H0 as <-. rewrite EX. exact D. }
  destruct (fst x) as [|r l]; injection H as <- _ _ _ _ _; [exact F|].
  change (Forall (fun m => m = ten_to logM) ((r :: l) ++ ms')). now apply Forall_app.
Qed.
Lemma corr_images_delta halos logM fr po rmax app_ : forall images last pts is f,
  corr_images halos (CDelta logM fr po) rmax app_ images last = Ok (pts, is, f) -> Forall (fun p => pt_m p = ten_to logM) pts.
Proof.
  induction images as [|[ray planes] t IH]; intros last pts is f H; [injection H as <- _ _; constructor|].
  cbn [corr_images] in H. binds. destruct x as [[[[[ms xs] ys] zs] f0] is0]. binds. destruct x as [[pts1 js] l]. injection H as <- _ _.
  apply Forall_app. split; [|eauto]. unfold corr_render in H0. destruct planes; [discriminate|]. binds.
  destruct x as [[[[[ms1 xs1] ys1] zs1] f1] is1]. injection H0 as <- <- <- <- <- <-. apply corr_loop_delta in H.
  apply Forall_forall. intros pt Hp. apply zip_points_In in Hp as (_ & Hp & _). eapply Forall_forall in H; [|exact Hp]. exact H.
Qed.

(** ** sampling from a map *)
Lemma choose_spec u : forall p acc i, acc <= u -> u < acc + sumR p ->
  exists k, choose u acc i p = (i + k)%nat /\ (k < List.length p)%nat /\
    acc + sumR (firstn k p) <= u < acc + sumR (firstn k p) + nth k p 0.
Proof.
  assert (S1 : forall a t, sumR (a :: t) = a + sumR t) by reflexivity.
  induction p as [|a t IH]; intros acc i L H; [cbn in H; lra|]. rewrite S1 in H. cbn [choose]. destruct (Rltb u (acc + a)) eqn:E.
  - apply Rltb_true in E. exists 0%nat. cbn. split; [lia|]. split; [lia|]. lra.
  - apply Rltb_false in E. destruct (IH (acc + a) (S i)) as (k & E1 & E2 & E3); [lra|lra|]. exists (S k). rewrite E1. split; [lia|].
    cbn [firstn nth List.length]. rewrite S1. split; [lia|]. lra.
Qed.
Lemma sumR_scale c l : sumR (map (fun d => d / c) l) = sumR l / c.
Proof.
  unfold Rdiv. induction l as [|a t IH]; [cbn; ring|]. cbn [map].
  unfold sumR in *. cbn [fold_right]. rewrite IH. ring.
Qed.
