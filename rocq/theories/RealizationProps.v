(** Properties C01-C16 of [Realization]: statements over the model (RealizationModel), phrased with
    the vocabulary of RealizationSpec. Beside each theorem an [Example] exhibits a non-trivial instance. *)
From Verif Require Import Prelude RealizationModel RealizationSpec RealizationProofs.

(** A small concrete population used by the examples: two subhalos in the lens plane z=1/2, a field halo
    behind it at z=1 and a fixed field halo in front at z=1/4. *)
Definition demo_halo (m x y z : R) (t : Z) (s f : bool) (b : option R) : Halo :=
  mkHalo m x y z "TNFW" t s f b ["TNFW"%string] [[("alpha_Rs"%string, m)]] None.
Definition demo_heap : heap := fun r =>
  match r with
  | 0%nat => demo_halo 100 0 0 (1/2) 10 true false (Some 50)
  | 1%nat => demo_halo 5 1 0 (1/2) 11 true false (Some 2)
  | 2%nat => demo_halo 7 (1/2) 0 1 12 false false None
  | _ => demo_halo 3 4 0 (1/4) 13 false true None
  end.
Definition demo : Realz :=
  from_halos demo_heap [0; 1; 2; 3]%nat true [None] (fun _ => 0) (fun _ => 0).
Lemma demo_sync : in_sync demo_heap demo.
Proof. apply from_halos_sync. Qed.
Lemma demo_nodup : NoDup (rz_halos demo).
Proof. repeat constructor; simpl; intuition discriminate. Qed.
Lemma demo_tags : tags_distinct demo_heap demo.
Proof. unfold tags_distinct; simpl. repeat constructor; simpl; intuition discriminate. Qed.
Lemma demo_bound : forall r, In r (rz_halos demo) -> h_sub (demo_heap r) = true -> h_bound (demo_heap r) <> None.
Proof. simpl. intros r [<-|[<-|[<-|[<-|[]]]]]; simpl; congruence. Qed.

(** C01. [subhalos] and [field_halos] partition the realization. *)
Theorem C01_partition : forall hp rz,
  kept (fun r => h_sub (hp r) = true) (rz_halos rz) (subhalos hp rz) /\
  kept (fun r => h_sub (hp r) = false) (rz_halos rz) (field_halos hp rz) /\
  Permutation (subhalos hp rz ++ field_halos hp rz) (rz_halos rz).
Proof. exact partition_lemma. Qed.
Example C01_example : subhalos demo_heap demo = [0; 1]%nat /\ field_halos demo_heap demo = [2; 3]%nat.
Proof. split; reflexivity. Qed.

(** C02. [filter] selects exactly the halos passing the documented cut. *)
Theorem C02_filter_exact : forall zs DC hp rz ap lm rx ry u g wmin,
  in_sync hp rz -> List.length rx = List.length ry -> rx <> [] -> u <> OtherUnits ->
  exists rz', rfilter zs DC hp rz ap lm rx ry u g wmin = Ok rz' /\
    plane_sorted_selection hp (passes_cut DC zs ap lm rx ry u g wmin) (rz_halos rz) (rz_halos rz') /\
    in_sync hp rz' /\ same_setup rz rz' /\ rz_shifted rz' = false.
Proof. exact filter_lemma. Qed.
Theorem C02_filter_unknown_units : forall zs DC hp rz ap lm rx ry g wmin,
  in_sync hp rz -> List.length rx = List.length ry -> rx <> [] ->
  (rfilter zs DC hp rz ap lm rx ry OtherUnits g wmin = Err EException <->
   exists r, In r (rz_halos rz) /\ Rabs (h_mass (hp r)) < Rpower 10 lm).
Proof. exact filter_units_lemma. Qed.
(** Two rays; the cut 10^1 keeps halo 0 by mass, halo 1 by position (ray 2 passes through it), drops 2. *)
Example C02_example :
  let rx := [(fun _ => 10); (fun _ => 1)] in let ry := [(fun _ => 10); (fun _ => 0)] in
  in_sync demo_heap demo /\ List.length rx = List.length ry /\ rx <> [] /\ ANGLES <> OtherUnits /\
  passes_cut (fun z => z) 3 (1/10) 1 rx ry ANGLES false (1/10) (demo_heap 0%nat) /\
  passes_cut (fun z => z) 3 (1/10) 1 rx ry ANGLES false (1/10) (demo_heap 1%nat) /\
  ~ passes_cut (fun z => z) 3 (1/10) 1 rx ry ANGLES false (1/10) (demo_heap 2%nat).
Proof.
  cbv zeta. split; [apply demo_sync|]. repeat split; try congruence; try discriminate.
  - left. rewrite Rpower_1 by lra. simpl. rewrite Rabs_pos_eq; lra.
  - right. exists 1%nat, (fun _ => 1), (fun _ => 0). repeat split; auto.
    unfold ray_distance, dist2, spec_weight. simpl.
    replace ((1 - 1) * ((1 - 1) * 1) + (0 - 0) * ((0 - 0) * 1)) with 0 by ring. rewrite sqrt_0. lra.
  - intros [H|[i [fx [fy [H1 [H2 H3]]]]]].
    + rewrite Rpower_1 in H by lra. simpl in H. rewrite Rabs_pos_eq in H; lra.
    + unfold ray_distance, dist2, spec_weight in H3. simpl in H3.
      assert (Hs : forall a, 0 <= a -> sqrt a <= 1 / 10 * 1 -> a <= 1 / 100).
      { intros a Ha Hq. rewrite <- (sqrt_sqrt a Ha). pose proof (sqrt_pos a). nra. }
      destruct i as [|[|i]]; simpl in H1, H2.
      * injection H1 as <-. injection H2 as <-. apply Hs in H3; lra.
      * injection H1 as <-. injection H2 as <-. apply Hs in H3; lra.
      * destruct i; discriminate.
Qed.

(** C03. Idempotent and monotone. *)
Theorem C03_filter_idempotent : forall zs DC hp rz ap lm rx ry u g wmin rz1,
  in_sync hp rz -> List.length rx = List.length ry -> rx <> [] -> u <> OtherUnits ->
  rfilter zs DC hp rz ap lm rx ry u g wmin = Ok rz1 ->
  exists rz2, rfilter zs DC hp rz1 ap lm rx ry u g wmin = Ok rz2 /\ rz_halos rz2 = rz_halos rz1.
Proof. exact filter_idem_lemma. Qed.
Theorem C03_filter_monotone : forall zs DC hp rz ap ap' lm lm' rx ry u g wmin rz1 rz2,
  in_sync hp rz -> List.length rx = List.length ry -> rx <> [] -> u <> OtherUnits ->
  0 <= wmin -> ap <= ap' -> lm' <= lm ->
  rfilter zs DC hp rz ap lm rx ry u g wmin = Ok rz1 ->
  rfilter zs DC hp rz ap' lm' rx ry u g wmin = Ok rz2 ->
  forall r, In r (rz_halos rz1) -> In r (rz_halos rz2).
Proof. exact filter_mono_lemma. Qed.
(** The hypotheses are met by [demo]: both filters succeed and the first one keeps halo 0. *)
Example C03_example :
  let rx := [(fun _ : R => 10)] in let ry := [(fun _ : R => 10)] in
  exists rz1 rz2, rfilter 3 (fun z => z) demo_heap demo (1/10) 1 rx ry KPC true (1/10) = Ok rz1 /\
    rfilter 3 (fun z => z) demo_heap demo (2/10) 0 rx ry KPC true (1/10) = Ok rz2 /\ In 0%nat (rz_halos rz1).
Proof.
  cbv zeta.
  destruct (C02_filter_exact 3 (fun z => z) demo_heap demo (1/10) 1 [(fun _ : R => 10)] [(fun _ : R => 10)] KPC true (1/10)) as [rz1 [E1 [[_ _ S] _]]];
    [apply demo_sync|auto|discriminate|discriminate|].
  destruct (C02_filter_exact 3 (fun z => z) demo_heap demo (2/10) 0 [(fun _ : R => 10)] [(fun _ : R => 10)] KPC true (1/10)) as [rz2 [E2 _]];
    [apply demo_sync|auto|discriminate|discriminate|].
  exists rz1, rz2. split; [auto|split; [auto|]].
  destruct (S 0%nat) as [S1 _].
  assert (count_occ Nat.eq_dec (rz_halos rz1) 0%nat = 1%nat).
  { rewrite S1; [reflexivity|]. left. rewrite Rpower_1 by lra. simpl. rewrite Rabs_pos_eq; lra. }
  apply (count_occ_In Nat.eq_dec). lia.
Qed.

(** C04. *)
Theorem C04_filter_subhalos : forall hp rz ap lm cs,
  in_sync hp rz ->
  exists rz', filter_subhalos hp rz ap lm cs = Ok rz' /\
    kept (fun r => h_sub (hp r) = false \/ Rpower 10 lm < Rabs (h_mass (hp r)) \/
                   exists x y, In (x, y) cs /\ dist2 (h_x (hp r)) (h_y (hp r)) x y < ap)
         (rz_halos rz) (rz_halos rz') /\ in_sync hp rz' /\ same_setup rz rz' /\ rz_shifted rz' = false.
Proof. exact filter_subhalos_lemma. Qed.
(** On [demo] with threshold 10 and no coordinates: subhalo 0 and the field halos stay, subhalo 1 goes. *)
Example C04_example : exists rz', filter_subhalos demo_heap demo 1 1 [] = Ok rz' /\ rz_halos rz' = [0; 2; 3]%nat.
Proof.
  destruct (C04_filter_subhalos demo_heap demo 1 1 [] demo_sync) as [rz' [E [K _]]].
  exists rz'. split; auto. eapply kept_fun; [exact K|]. rewrite Rpower_1 by lra.
  change (rz_halos demo) with [0; 1; 2; 3]%nat.
  apply kept_take; [right; left; simpl; rewrite Rabs_pos_eq; lra|].
  apply kept_drop; [intros [H|[H|[x [y [H _]]]]]; [discriminate|simpl in H; rewrite Rabs_pos_eq in H; lra|destruct H]|].
  apply kept_take; [left; reflexivity|]. apply kept_take; [left; reflexivity|]. constructor.
Qed.

(** C05. *)
Theorem C05_filter_bound_mass : forall hp rz m,
  ((forall r, In r (rz_halos rz) -> h_sub (hp r) = true -> h_bound (hp r) <> None) ->
   exists rz', filter_bound_mass hp rz m = Ok rz' /\
     kept (fun r => h_sub (hp r) = true -> exists b, h_bound (hp r) = Some b /\ m <= b) (rz_halos rz) (rz_halos rz') /\
     rz_shifted rz' = rz_shifted rz /\ in_sync hp rz' /\ same_setup rz rz') /\
  (is_err (filter_bound_mass hp rz m) <->
   exists r, In r (rz_halos rz) /\ h_sub (hp r) = true /\ h_bound (hp r) = None).
Proof. exact filter_bound_lemma. Qed.
Example C05_example : (forall r, In r (rz_halos demo) -> h_sub (demo_heap r) = true -> h_bound (demo_heap r) <> None) /\
  exists rz', filter_bound_mass demo_heap demo 2 = Ok rz' /\ In 1%nat (rz_halos rz').
Proof.
  split; [exact demo_bound|].
  destruct (proj1 (C05_filter_bound_mass demo_heap demo 2) demo_bound) as [rz' [E [K _]]].
  exists rz'. split; auto. apply (kept_In _ _ _ _ K). split; [simpl; auto|]. intros _. exists 2. split; [reflexivity|lra].
Qed.

(** C06. *)
Theorem C06_join_union : forall hp a b c,
  tags_distinct hp a -> tags_distinct hp b ->
  let j := join hp a b c in
  tags_distinct hp j /\
  (forall t, tag_in hp t j <-> tag_in hp t a \/ tag_in hp t b) /\
  (forall r, In r (rz_halos j) -> In r (rz_halos a) \/ In r (rz_halos b)) /\
  (forall common, NoDup common -> (forall t, In t common <-> tag_in hp t a /\ tag_in hp t b) ->
     List.length (rz_halos j) + List.length common = List.length (rz_halos a) + List.length (rz_halos b))%nat /\
  rz_classes j = (if c then rz_classes a ++ rz_classes b else rz_classes a) /\
  rz_shifted j = false /\ in_sync hp j.
Proof. exact join_lemma. Qed.
Theorem C06_join_with_part : forall hp a b c,
  tags_distinct hp a -> tags_distinct hp b ->
  (forall r, In r (rz_halos b) -> In r (rz_halos a)) ->
  Permutation (rz_halos (join hp a b c)) (rz_halos a).
Proof. exact join_part_lemma. Qed.
Example C06_example :
  let part := from_halos demo_heap [1; 3]%nat true [None] (fun _ => 0) (fun _ => 0) in
  tags_distinct demo_heap demo /\ tags_distinct demo_heap part /\
  rz_halos (join demo_heap demo part false) = [1; 3; 0; 2]%nat.
Proof.
  split; [exact demo_tags|split; [|reflexivity]].
  unfold tags_distinct; simpl. repeat constructor; simpl; intuition discriminate.
Qed.
(** Without the distinctness hypothesis a tag can occur twice in the result. *)
Theorem C06_join_duplicates_refuted : exists hp a b t,
  (forall r s, In r (rz_halos a) -> In s (rz_halos a) -> r = s) /\
  count_occ Z.eq_dec (map (fun r => h_tag (hp r)) (rz_halos (join hp a b false))) t = 2%nat.
Proof.
  exists demo_heap, (from_halos demo_heap [0]%nat true [None] (fun _ => 0) (fun _ => 0)),
    (from_halos demo_heap [1; 1]%nat true [None] (fun _ => 0) (fun _ => 0)), 11%Z.
  split; [|reflexivity]. simpl. intuition congruence.
Qed.

(** C07. *)
Theorem C07_split : forall hp rz z,
  let '(a, b) := split_at_z hp rz z in
  kept (fun r => h_z (hp r) <= z) (rz_halos rz) (rz_halos a) /\
  kept (fun r => z < h_z (hp r)) (rz_halos rz) (rz_halos b) /\
  Permutation (rz_halos a ++ rz_halos b) (rz_halos rz) /\
  in_sync hp a /\ in_sync hp b /\ same_setup rz a /\ same_setup rz b /\
  rz_shifted a = false /\ rz_shifted b = false.
Proof. exact split_lemma. Qed.
Theorem C07_split_rejoin : forall hp rz z c,
  tags_distinct hp rz ->
  let '(a, b) := split_at_z hp rz z in Permutation (rz_halos (join hp a b c)) (rz_halos rz).
Proof. exact split_rejoin_lemma. Qed.
(** The documented boundary ("< z" first, ">= z" second) is not what happens. *)
Theorem C07_documented_boundary_refuted : exists hp rz z r,
  In r (rz_halos rz) /\ h_z (hp r) = z /\
  In r (rz_halos (fst (split_at_z hp rz z))) /\ ~ In r (rz_halos (snd (split_at_z hp rz z))).
Proof.
  exists demo_heap, demo, (1/2), 0%nat. pose proof (C07_split demo_heap demo (1/2)) as H.
  destruct (split_at_z demo_heap demo (1/2)) as [a b]. destruct H as [K1 [K2 _]]. simpl fst. simpl snd.
  split; [simpl; auto|split; [reflexivity|split]].
  - apply (kept_In _ _ _ _ K1). split; [simpl; auto|simpl; lra].
  - intros H. apply (kept_In _ _ _ _ K2) in H. simpl in H. lra.
Qed.
Example C07_example : tags_distinct demo_heap demo /\
  kept (fun r => h_z (demo_heap r) <= 1/2) (rz_halos demo) [0; 1; 3]%nat.
Proof.
  split; [exact demo_tags|]. change (rz_halos demo) with [0; 1; 2; 3]%nat.
  apply kept_take; [simpl; lra|]. apply kept_take; [simpl; lra|]. apply kept_drop; [simpl; lra|].
  apply kept_take; [simpl; lra|]. constructor.
Qed.

(** C08. *)
Theorem C08_counts : forall hp rz z,
  (number_before hp rz z + number_at hp rz z + number_after hp rz z = List.length (rz_halos rz))%nat.
Proof. exact counts_lemma. Qed.
Theorem C08_count_before : forall hp rz z,
  exists l, kept (fun r => h_z (hp r) < z) (rz_halos rz) l /\ number_before hp rz z = List.length l.
Proof. exact count_before_lemma. Qed.
Theorem C08_count_at : forall hp rz z,
  exists l, kept (fun r => h_z (hp r) = z) (rz_halos rz) l /\ number_at hp rz z = List.length l.
Proof. exact count_at_lemma. Qed.
Theorem C08_count_after : forall hp rz z,
  exists l, kept (fun r => z < h_z (hp r)) (rz_halos rz) l /\ number_after hp rz z = List.length l.
Proof. exact count_after_lemma. Qed.
Theorem C08_halos_at_z : forall hp rz z,
  kept (fun r => h_z (hp r) = z) (rz_halos rz) (fst (halos_at_z hp rz z)) /\
  StronglySorted lt (snd (halos_at_z hp rz z)) /\
  Forall2 (fun r i => nth_error (rz_halos rz) i = Some r) (fst (halos_at_z hp rz z)) (snd (halos_at_z hp rz z)).
Proof. exact halos_at_z_lemma. Qed.
Theorem C08_realization_at_z : forall hp rz z cut sheet,
  let '(rz', ix) := realization_at_z hp rz z cut sheet in
  kept (fun r => h_z (hp r) = z /\
          match cut with Some (x, y, rmax) => dist2 (h_x (hp r)) (h_y (hp r)) x y < rmax | None => True end)
       (rz_halos rz) (rz_halos rz') /\
  StronglySorted lt ix /\
  Forall2 (fun r i => nth_error (rz_halos rz) i = Some r) (rz_halos rz') ix /\
  in_sync hp rz' /\ rz_sheet rz' = sheet /\ rz_shifted rz' = false.
Proof. exact realization_at_z_lemma. Qed.
Example C08_example : kept (fun r => h_z (demo_heap r) = 1/2) (rz_halos demo) [0; 1]%nat.
Proof.
  change (rz_halos demo) with [0; 1; 2; 3]%nat.
  apply kept_take; [reflexivity|]. apply kept_take; [reflexivity|]. apply kept_drop; [simpl; lra|].
  apply kept_drop; [simpl; lra|]. constructor.
Qed.

(** C09. *)
Theorem C09_mass_at_z : forall zl hp rz z,
  in_sync hp rz ->
  (forall r, In r (rz_halos rz) -> h_sub (hp r) = true -> h_z (hp r) = zl -> h_bound (hp r) <> None) ->
  exists pl vs, kept (fun r => h_z (hp r) = z) (rz_halos rz) pl /\
    Forall2 (fun r v => plane_mass zl (hp r) = Some v) pl vs /\
    mass_at_z_exact zl hp rz z = Ok (rsum vs).
Proof. exact mass_at_z_lemma. Qed.
Theorem C09_mass_total : forall zl hp rz,
  in_sync hp rz ->
  (forall r, In r (rz_halos rz) -> h_sub (hp r) = true -> h_z (hp r) = zl -> h_bound (hp r) <> None) ->
  exists ms vs, mapM (mass_at_z_exact zl hp rz) (rz_uniq rz) = Ok ms /\
    Forall2 (fun r v => plane_mass zl (hp r) = Some v) (rz_halos rz) vs /\ rsum ms = rsum vs.
Proof. exact mass_total_lemma. Qed.
Example C09_example : in_sync demo_heap demo /\
  (forall r, In r (rz_halos demo) -> h_sub (demo_heap r) = true -> h_z (demo_heap r) = 1/2 -> h_bound (demo_heap r) <> None) /\
  Forall2 (fun r v => plane_mass (1/2) (demo_heap r) = Some v) (rz_halos demo) [50; 2; 7; 3].
Proof.
  split; [apply demo_sync|split; [intros; apply demo_bound; auto|]].
  change (rz_halos demo) with [0; 1; 2; 3]%nat.
  repeat constructor; unfold plane_mass; simpl; rdec; reflexivity.
Qed.

(** C10. *)
Theorem C10_lensing_aligned : forall zl DC sc area hp rz add a,
  in_sync hp rz ->
  (forall r, In r (rz_halos rz) -> List.length (h_ids (hp r)) = List.length (h_kwargs (hp r))) ->
  (forall r, In r (rz_halos rz) -> h_sub (hp r) = true -> h_z (hp r) = zl -> h_bound (hp r) <> None) ->
  (forall c, In (Some c) (rz_classes rz) -> forall k l h z1 z2 u, same_len3 (rc_sheets c k l h z1 z2 u)) ->
  exists names zs ks ni sk sp sz,
    lensing_quantities zl DC sc area hp rz add a = Ok (names, zs, ks, ni) /\
    (if rz_sheet rz && add then mass_sheet_correction zl DC sc area hp rz a = Ok (sk, sp, sz)
     else sk = [] /\ sp = [] /\ sz = []) /\
    List.length names = List.length zs /\ List.length names = List.length ks /\
    combine (combine names zs) ks =
      flat_map (fun r => halo_entries (hp r)) (rz_halos rz) ++ combine (combine sp sz) sk /\
    ni = last_interp (map (fun r => h_interp (hp r)) (rz_halos rz)).
Proof. exact lensing_lemma. Qed.
Example C10_example : in_sync demo_heap demo /\
  (forall r, In r (rz_halos demo) -> List.length (h_ids (demo_heap r)) = List.length (h_kwargs (demo_heap r))) /\
  (forall c, In (Some c) (rz_classes demo) -> forall k l h z1 z2 u, same_len3 (rc_sheets c k l h z1 z2 u)) /\
  halo_entries (demo_heap 1%nat) = [("TNFW"%string, 1/2, [("alpha_Rs"%string, 5)])].
Proof.
  split; [apply demo_sync|split; [|split; [|reflexivity]]].
  - simpl. intros r [<-|[<-|[<-|[<-|[]]]]]; reflexivity.
  - simpl. intuition discriminate.
Qed.
(** A class violating the ID/keyword contract misaligns every later entry. *)
Theorem C10_contract_needed_refuted : exists zl DC sc area hp rz add a names zs ks ni,
  lensing_quantities zl DC sc area hp rz add a = Ok (names, zs, ks, ni) /\ List.length names <> List.length ks.
Proof.
  exists 0, (fun z => z), (fun _ _ => 1), (fun _ => 1),
    (fun _ => mkHalo 1 0 0 1 "X" 0 false false None ["A"%string; "B"%string] [[]] None),
    (from_halos (fun _ => mkHalo 1 0 0 1 "X" 0 false false None ["A"%string; "B"%string] [[]] None)
                [0]%nat false [] (fun _ => 0) (fun _ => 0)), true,
    (mkSheetArgs false 1 1 7 10 None None false), ["A"%string; "B"%string], [1; 1], [[]], None.
  split; [reflexivity|simpl; lia].
Qed.

(** C11. *)
Theorem C11_exact_sheets : forall zl DC sc area hp rz a,
  in_sync hp rz -> sa_exact a = true ->
  (forall r, In r (rz_halos rz) -> h_sub (hp r) = true -> h_z (hp r) = zl -> h_bound (hp r) <> None) ->
  (forall z, In z (rz_uniq rz) -> sc z (area z) <> 0) ->
  exists ks ps, mass_sheet_correction zl DC sc area hp rz a = Ok (ks, ps, rz_uniq rz) /\
    ps = map (fun _ => "CONVERGENCE"%string) (rz_uniq rz) /\
    Forall2 (fun z k => exists m kappa, mass_at_z_exact zl hp rz z = Ok m /\
               kw_get k "kappa" = Some kappa /\ kappa * sc z (area z) = - m /\
               kw_get k "ra_0" = Some (rz_cx rz (DC z)) /\ kw_get k "dec_0" = Some (rz_cy rz (DC z))) (rz_uniq rz) ks.
Proof. exact exact_mode_lemma. Qed.
Theorem C11_exact_total : forall zl DC sc area hp rz a,
  in_sync hp rz -> sa_exact a = true ->
  (forall r, In r (rz_halos rz) -> h_sub (hp r) = true -> h_z (hp r) = zl -> h_bound (hp r) <> None) ->
  (forall z, In z (rz_uniq rz) -> sc z (area z) <> 0) ->
  exists ks ps vs removed, mass_sheet_correction zl DC sc area hp rz a = Ok (ks, ps, rz_uniq rz) /\
    Forall2 (fun r v => plane_mass zl (hp r) = Some v) (rz_halos rz) vs /\
    Forall2 (fun zk m => exists kappa, kw_get (snd zk) "kappa" = Some kappa /\ m = - (kappa * sc (fst zk) (area (fst zk))))
            (combine (rz_uniq rz) ks) removed /\
    rsum removed = rsum vs.
Proof. exact exact_total_lemma. Qed.
Theorem C11_class_sheets : forall zl DC sc area hp rz a,
  sa_exact a = false ->
  (forall c, In (Some c) (rz_classes rz) -> forall k l h z1 z2 u, same_len3 (rc_sheets c k l h z1 z2 u)) ->
  exists ks ks' ps zs, mass_sheet_correction zl DC sc area hp rz a = Ok (ks', ps, zs) /\
    ks = flat_map (fun c => fst (fst (class_output a c))) (rz_classes rz) /\
    ps = flat_map (fun c => snd (fst (class_output a c))) (rz_classes rz) /\
    zs = flat_map (fun c => snd (class_output a c)) (rz_classes rz) /\
    ks' = map (fun t => centred (rz_cx rz (DC (snd t))) (rz_cy rz (DC (snd t))) (snd (fst t)) (fst (fst t)))
              (combine (combine ks ps) zs) /\
    List.length ks' = List.length ks.
Proof. exact class_mode_lemma. Qed.
Example C11_example : in_sync demo_heap demo /\
  (forall z, In z (rz_uniq demo) -> (fun _ _ => 3) z (0 : R) <> 0) /\ In (1/2) (rz_uniq demo) /\ In 1 (rz_uniq demo).
Proof.
  split; [apply demo_sync|split; [intros; simpl; lra|]].
  split; apply (sync_uniq _ _ demo_sync); [exists 0%nat|exists 2%nat]; simpl; auto.
Qed.

(** C12. *)
Theorem C12_no_second_shift : forall DC hp rz rx ry zmin calls,
  let s := shift DC hp rz rx ry zmin in
  fold_left (fun s '(rx, ry, zmin) => shift DC (fst s) (snd s) rx ry zmin) calls s = s.
Proof.
  intros. destruct s as [hp' rz'] eqn:E. apply shift_again_lemma.
  pose proof (shift_flag DC hp rz rx ry zmin) as F. unfold s in E. rewrite E in F. exact F.
Qed.
Example C12_example : let s := shift (fun z => z) demo_heap demo (fun _ => 1) (fun _ => 2) 0 in
  h_x (fst s 2%nat) = 3/2 /\ fst (shift (fun z => z) (fst s) (snd s) (fun _ => 1) (fun _ => 2) 0) 2%nat = fst s 2%nat.
Proof.
  assert (S := shift_lemma (fun z => z) demo_heap demo (fun _ => 1) (fun _ => 2) 0 eq_refl demo_nodup).
  pose proof (C12_no_second_shift (fun z => z) demo_heap demo (fun _ => 1) (fun _ => 2) 0 [((fun _ => 1), (fun _ => 2), 0)]) as T.
  cbv zeta in *. destruct (shift (fun z => z) demo_heap demo (fun _ => 1) (fun _ => 2) 0) as [hp' rz'].
  destruct S as [_ [S2 _]]. split.
  - destruct (S2 2%nat) as [H _]; [simpl; auto|reflexivity|simpl; lra|]. simpl in *. rewrite H. simpl. lra.
  - simpl in T. cbn [fst snd]. rewrite T. reflexivity.
Qed.

(** C13. *)
Theorem C13_shift_effect : forall DC hp rz rx ry zmin,
  rz_shifted rz = false -> NoDup (rz_halos rz) ->
  let '(hp', rz') := shift DC hp rz rx ry zmin in
  kept (fun r => h_fixed (hp r) = true \/ zmin <= h_z (hp r)) (rz_halos rz) (rz_halos rz') /\
  (forall r, In r (rz_halos rz) -> h_fixed (hp r) = false -> zmin <= h_z (hp r) ->
     displaced (hp r) (hp' r) (rx (DC (h_z (hp r)))) (ry (DC (h_z (hp r))))) /\
  (forall r, ~ In r (rz_halos rz) \/ h_fixed (hp r) = true \/ h_z (hp r) < zmin -> hp' r = hp r) /\
  rz_shifted rz' = true /\ in_sync hp' rz' /\ rz_cx rz' = rx /\ rz_cy rz' = ry /\
  rz_classes rz' = rz_classes rz /\ rz_sheet rz' = rz_sheet rz.
Proof. exact shift_lemma. Qed.
(** "only apply shift when halo redshift exceeds min_shift_redshift" suggests that other halos stay: they are lost. *)
Theorem C13_no_halo_lost_refuted : exists DC hp rz rx ry zmin r,
  rz_shifted rz = false /\ NoDup (rz_halos rz) /\ In r (rz_halos rz) /\ h_z (hp r) < zmin /\
  ~ In r (rz_halos (snd (shift DC hp rz rx ry zmin))).
Proof.
  exists (fun z => z), demo_heap, demo, (fun _ => 0), (fun _ => 0), (3/4), 0%nat.
  pose proof (C13_shift_effect (fun z => z) demo_heap demo (fun _ => 0) (fun _ => 0) (3/4) eq_refl demo_nodup) as S.
  destruct (shift _ _ _ _ _ _) as [hp' rz']. destruct S as [K _].
  repeat split; [apply demo_nodup|simpl; auto|simpl; lra|]. simpl snd.
  intros H. apply (kept_In _ _ _ _ K) in H. simpl in H. destruct H as [_ [H|H]]; [discriminate|lra].
Qed.
Example C13_example : rz_shifted demo = false /\ NoDup (rz_halos demo) /\ In 2%nat (rz_halos demo) /\
  h_fixed (demo_heap 2%nat) = false /\ h_fixed (demo_heap 3%nat) = true.
Proof. repeat split; [apply demo_nodup|simpl; auto]. Qed.

(** C14. The status after any history of calls, and what it entails. *)
Theorem C14_status : forall zs DC os hp rz hp' rz',
  run zs DC (hp, rz) os = Ok (hp', rz') -> rz_shifted rz' = fold_left status_after os (rz_shifted rz).
Proof. exact run_status. Qed.
Theorem C14_at_most_once : forall zs DC os hp rz hp' rz',
  Forall keeps_status os -> rz_shifted rz = false -> NoDup (rz_halos rz) ->
  run zs DC (hp, rz) os = Ok (hp', rz') ->
  forall r, hp' r = hp r \/
    exists rx ry, first_shift os = Some (rx, ry) /\ In r (rz_halos rz) /\ h_fixed (hp r) = false /\
      displaced (hp r) (hp' r) (rx (DC (h_z (hp r)))) (ry (DC (h_z (hp r)))).
Proof. exact run_at_most_once. Qed.
(** Any operation [mid] that forgets the status lets the same halo be moved twice. *)
Theorem C14_forgotten_status_doubles : forall DC hp rz rx ry zmin r (mid : heap -> Realz -> Realz),
  rz_shifted rz = false -> NoDup (rz_halos rz) ->
  In r (rz_halos rz) -> h_fixed (hp r) = false -> zmin <= h_z (hp r) ->
  let '(hp1, rz1) := shift DC hp rz rx ry zmin in
  let rz2 := mid hp1 rz1 in
  rz_shifted rz2 = false -> NoDup (rz_halos rz2) -> In r (rz_halos rz2) ->
  let '(hp2, rz3) := shift DC hp1 rz2 rx ry zmin in
  displaced (hp r) (hp2 r) (2 * rx (DC (h_z (hp r)))) (2 * ry (DC (h_z (hp r)))).
Proof. exact double_shift_lemma. Qed.
(** The history shift; filter; shift on [demo] moves halo 2 twice. *)
Theorem C14_at_most_once_refuted : exists zs DC os hp rz hp' rz' r,
  rz_shifted rz = false /\ NoDup (rz_halos rz) /\ run zs DC (hp, rz) os = Ok (hp', rz') /\
  os = [OShift (fun _ => 1) (fun _ => 0) 0; OFilter 1 0 [(fun _ => 0)] [(fun _ => 0)] ANGLES true (1/10);
        OShift (fun _ => 1) (fun _ => 0) 0] /\
  h_x (hp' r) = h_x (hp r) + 2.
Proof.
  pose proof (C14_forgotten_status_doubles (fun z => z) demo_heap demo (fun _ => 1) (fun _ => 0) 0 2%nat) as D.
  pose proof (C13_shift_effect (fun z => z) demo_heap demo (fun _ => 1) (fun _ => 0) 0 eq_refl demo_nodup) as S.
  destruct (shift (fun z => z) demo_heap demo (fun _ => 1) (fun _ => 0) 0) as [hp1 rz1] eqn:E1.
  destruct S as [K1 [K2 [_ [_ [Sy _]]]]].
  destruct (C02_filter_exact 3 (fun z => z) hp1 rz1 1 0 [(fun _ => 0)] [(fun _ => 0)] ANGLES true (1/10) Sy)
    as [rz2 [E2 [Sel [_ [_ Sh]]]]]; [reflexivity|discriminate|discriminate|].
  specialize (D (fun _ _ => rz2) eq_refl demo_nodup). simpl in D.
  assert (H2 : displaced (demo_heap 2%nat) (hp1 2%nat) 1 0) by (apply K2; simpl; auto; lra).
  assert (Hn1 : NoDup (rz_halos rz1)).
  { apply (kept_nodup_map (fun r => r)) in K1; rewrite ?map_id in *; auto. apply demo_nodup. }
  assert (Hin1 : In 2%nat (rz_halos rz1)) by (apply (kept_In _ _ _ _ K1); simpl; split; auto; right; lra).
  assert (Hn2 : NoDup (rz_halos rz2)).
  { apply (NoDup_count_occ Nat.eq_dec). intros x. destruct (pss_count _ _ _ _ Sel x) as [C1 C2].
    destruct (in_dec Nat.eq_dec x (rz_halos rz2)) as [i|n].
    - destruct (pss_plane _ _ _ _ Sel (h_z (hp1 x))) as [pl [A1 A2]].
      assert (In x pl) by (apply (kept_In _ _ _ _ A1); auto).
      apply (kept_In _ _ _ _ A2) in H. rewrite C1 by tauto. apply (NoDup_count_occ Nat.eq_dec); auto.
    - rewrite (proj1 (count_occ_not_In Nat.eq_dec _ _) n). lia. }
  assert (Hin2 : In 2%nat (rz_halos rz2)).
  { apply (count_occ_In Nat.eq_dec). destruct (pss_count _ _ _ _ Sel 2%nat) as [C1 _].
    rewrite C1; [apply (count_occ_In Nat.eq_dec); auto|].
    left. rewrite Rpower_O by lra. destruct H2 as [_ [_ [-> _]]]. simpl. rewrite Rabs_pos_eq; lra. }
  assert (D' := D (or_intror (or_intror (or_introl eq_refl))) eq_refl ltac:(lra) Sh Hn2 Hin2).
  destruct (shift (fun z => z) hp1 rz2 (fun _ => 1) (fun _ => 0) 0) as [hp2 rz3] eqn:E3.
  exists 3, (fun z => z), [OShift (fun _ => 1) (fun _ => 0) 0; OFilter 1 0 [(fun _ => 0)] [(fun _ => 0)] ANGLES true (1/10);
        OShift (fun _ => 1) (fun _ => 0) 0], demo_heap, demo, hp2, rz3, 2%nat.
  repeat split; auto.
  - apply demo_nodup.
  - cbn [run step bind]. rewrite E1. cbn [run step bind]. rewrite E2. cbn [run step bind]. rewrite E3. reflexivity.
  - destruct D' as [D' _]. rewrite D'. simpl. lra.
Qed.
Example C14_example : Forall keeps_status [OBound 1; OShift (fun _ => 1) (fun _ => 0) 0; OBound 2; OShift (fun _ => 5) (fun _ => 0) 0] /\
  rz_shifted demo = false /\ NoDup (rz_halos demo).
Proof. repeat split; [repeat constructor|apply demo_nodup]. Qed.

(** C15. The realization that was shifted keeps its old coordinate arrays although its halos have moved. *)
Theorem C15_original_out_of_sync : forall DC hp rz rx ry zmin r,
  in_sync hp rz -> rz_shifted rz = false -> NoDup (rz_halos rz) ->
  In r (rz_halos rz) -> h_fixed (hp r) = false -> zmin <= h_z (hp r) -> rx (DC (h_z (hp r))) <> 0 ->
  ~ in_sync (fst (shift DC hp rz rx ry zmin)) rz.
Proof.
  intros DC hp rz rx ry zmin r Hs Hf Hn Hr Hx Hz Hne Hs'.
  pose proof (shift_lemma DC hp rz rx ry zmin Hf Hn) as S.
  destruct (shift DC hp rz rx ry zmin) as [hp' rz']. simpl in Hs'. destruct S as [_ [S2 _]].
  destruct (S2 r Hr Hx Hz) as [A _].
  pose proof (sync_x _ _ Hs) as E1. pose proof (sync_x _ _ Hs') as E2. rewrite E1 in E2.
  assert (G : h_x (hp r) = h_x (hp' r)).
  { clear - Hr E2. induction (rz_halos rz) as [|a l IH]; simpl in *; [tauto|].
    injection E2 as Ea El. destruct Hr as [->|Hr]; auto. }
  lra.
Qed.
(** A position cut on the original afterwards still selects by the old coordinates. *)
Theorem C15_original_cut_uses_old_positions : forall DC hp rz rx ry zmin ap lm cs r1 r2,
  filter_subhalos hp rz ap lm cs = Ok r1 ->
  filter_subhalos (fst (shift DC hp rz rx ry zmin)) rz ap lm cs = Ok r2 -> rz_halos r2 = rz_halos r1.
Proof.
  intros DC hp rz rx ry zmin ap lm cs r1 r2. unfold filter_subhalos.
  destruct (pick _ _); simpl; [|discriminate]. intros H1 H2. injection H1 as <-. injection H2 as <-. reflexivity.
Qed.
(** Shifting the original a second time moves its free halos by twice the ray. *)
Theorem C15_original_shifts_twice : forall DC hp rz rx ry zmin r,
  rz_shifted rz = false -> NoDup (rz_halos rz) ->
  In r (rz_halos rz) -> h_fixed (hp r) = false -> zmin <= h_z (hp r) ->
  let hp1 := fst (shift DC hp rz rx ry zmin) in
  let hp2 := fst (shift DC hp1 rz rx ry zmin) in
  displaced (hp r) (hp2 r) (2 * rx (DC (h_z (hp r)))) (2 * ry (DC (h_z (hp r)))).
Proof.
  intros DC hp rz rx ry zmin r Hf Hn Hr Hx Hz.
  pose proof (double_shift_lemma DC hp rz rx ry zmin r (fun _ _ => rz) Hf Hn Hr Hx Hz) as D.
  cbv zeta. destruct (shift DC hp rz rx ry zmin) as [hp1 rz1]. simpl in D. specialize (D Hf Hn Hr).
  simpl. destruct (shift DC hp1 rz rx ry zmin) as [hp2 rz2]. exact D.
Qed.
Example C15_example : in_sync demo_heap demo /\ rz_shifted demo = false /\ NoDup (rz_halos demo) /\
  In 2%nat (rz_halos demo) /\ h_fixed (demo_heap 2%nat) = false /\ 0 <= h_z (demo_heap 2%nat) /\ (fun _ : R => 1) (h_z (demo_heap 2%nat)) <> 0.
Proof. repeat split; try apply demo_sync; try apply demo_nodup; simpl; auto; lra. Qed.

(** C16. *)
Theorem C16_eq_is_tag_inclusion : forall hp a b,
  req hp a b = true <-> (forall t, tag_in hp t b -> tag_in hp t a).
Proof. exact req_lemma. Qed.
Theorem C16_eq_refl : forall hp a, req hp a a = true.
Proof. intros. apply req_lemma. auto. Qed.
Theorem C16_eq_trans : forall hp a b c, req hp a b = true -> req hp b c = true -> req hp a c = true.
Proof. intros hp a b c H1 H2. rewrite req_lemma in *. auto. Qed.
Theorem C16_eq_reorder : forall hp a a' b b',
  Permutation (rz_halos a) (rz_halos a') -> Permutation (rz_halos b) (rz_halos b') -> req hp a b = req hp a' b'.
Proof.
  intros hp a a' b b' P1 P2.
  assert (T : forall t x y, Permutation (rz_halos x) (rz_halos y) -> (tag_in hp t x <-> tag_in hp t y)).
  { intros t x y P. unfold tag_in. split; intros [r [H1 H2]]; exists r; split; auto;
    [eapply Permutation_in; eauto|eapply Permutation_in; [apply Permutation_sym|]; eauto]. }
  assert (E : req hp a b = true <-> req hp a' b' = true).
  { rewrite !req_lemma. split; intros H t Ht.
    - apply (T t a a' P1). apply H. apply (T t b b' P2); auto.
    - apply (T t a a' P1). apply H. apply (T t b b' P2); auto. }
  destruct (req hp a b), (req hp a' b'); intuition congruence.
Qed.
Theorem C16_eq_symmetric_refuted : exists hp a b, req hp a b = true /\ req hp b a = false.
Proof.
  exists demo_heap, demo, (from_halos demo_heap [1]%nat true [None] (fun _ => 0) (fun _ => 0)).
  split; reflexivity.
Qed.
Theorem C16_everything_equals_empty : forall hp a b, rz_halos b = [] -> req hp a b = true.
Proof. intros. apply req_lemma. intros t [r [Hr _]]. rewrite H in Hr. destruct Hr. Qed.
Example C16_example : req demo_heap demo (from_halos demo_heap [2; 1]%nat true [None] (fun _ => 0) (fun _ => 0)) = true
  /\ rz_halos (from_halos demo_heap [] true [None] (fun _ => 0) (fun _ => 0)) = [].
Proof. split; reflexivity. Qed.

Print Assumptions C01_partition.
Print Assumptions C02_filter_exact.
Print Assumptions C02_filter_unknown_units.
Print Assumptions C03_filter_idempotent.
Print Assumptions C03_filter_monotone.
Print Assumptions C04_filter_subhalos.
Print Assumptions C05_filter_bound_mass.
Print Assumptions C06_join_union.
Print Assumptions C06_join_with_part.
Print Assumptions C06_join_duplicates_refuted.
Print Assumptions C07_split.
Print Assumptions C07_split_rejoin.
Print Assumptions C07_documented_boundary_refuted.
Print Assumptions C08_counts.
Print Assumptions C08_count_before.
Print Assumptions C08_count_at.
Print Assumptions C08_count_after.
Print Assumptions C08_halos_at_z.
Print Assumptions C08_realization_at_z.
Print Assumptions C09_mass_at_z.
Print Assumptions C09_mass_total.
Print Assumptions C10_lensing_aligned.
Print Assumptions C10_contract_needed_refuted.
Print Assumptions C11_exact_sheets.
Print Assumptions C11_exact_total.
Print Assumptions C11_class_sheets.
Print Assumptions C12_no_second_shift.
Print Assumptions C13_shift_effect.
Print Assumptions C13_no_halo_lost_refuted.
Print Assumptions C14_status.
Print Assumptions C14_at_most_once.
Print Assumptions C14_forgotten_status_doubles.
Print Assumptions C14_at_most_once_refuted.
Print Assumptions C15_original_out_of_sync.
Print Assumptions C15_original_cut_uses_old_positions.
Print Assumptions C15_original_shifts_twice.
Print Assumptions C16_eq_is_tag_inclusion.
Print Assumptions C16_eq_refl.
Print Assumptions C16_eq_trans.
Print Assumptions C16_eq_reorder.
Print Assumptions C16_eq_symmetric_refuted.
Print Assumptions C16_everything_equals_empty.
