(** Proofs about added populations: allocation and joining, black holes. *)
From Verif Require Import Prelude MassFnModel MassFnSpec MassFnProofs MassFnProofs2 MassFnProps SpaceModel SpaceSpec SpaceProofs SpaceProofs3 SpaceProps.
From Verif Require Import RealizationModel RealizationSpec RealizationProofs RenderModel RenderProofs PopModel PopSpec.
Local Open Scope string_scope.
Local Open Scope R_scope.
Local Open Scope list_scope.

(** ** allocation *)
Lemma alloc_old hp n hs r : (r < n)%nat -> alloc hp n hs r = hp r.
Proof. intros. unfold alloc. apply Nat.ltb_lt in H. now rewrite H. Qed.
Lemma alloc_untouched hp n hs : untouched hp (alloc hp n hs) n.
Proof. intros r H. now apply alloc_old. Qed.
Lemma map_seq_nth {A} (d : nat -> A) (l : list A) : forall n, map (fun r => nth (r - n) l (d r)) (seq n (List.length l)) = l.
Proof.
  induction l as [|a t IH]; intros n; [reflexivity|]. cbn [List.length seq map]. rewrite Nat.sub_diag. cbn [nth]. f_equal.
  rewrite <- (IH (S n)) at 2. apply map_ext_in. intros r Hr. apply in_seq in Hr.
  replace (r - n)%nat with (S (r - S n)) by lia. reflexivity.
Qed.
Lemma alloc_new hp n hs : map (alloc hp n hs) (new_refs n hs) = hs.
Proof.
  unfold new_refs. etransitivity; [|apply (map_seq_nth hp hs n)]. apply map_ext_in. intros r Hr. apply in_seq in Hr.
  unfold alloc. replace (r <? n)%nat with false; [reflexivity|]. symmetry. apply Nat.ltb_ge. lia.
Qed.
Lemma new_refs_NoDup n hs : NoDup (new_refs n hs).
Proof. apply seq_NoDup. Qed.
Lemma new_refs_ge n hs : Forall (fun r => (n <= r)%nat) (new_refs n hs).
Proof. apply Forall_forall. intros r H. apply in_seq in H. lia. Qed.
Lemma new_refs_lt n hs : Forall (fun r => (r < n + List.length hs)%nat) (new_refs n hs).
Proof. apply Forall_forall. intros r H. apply in_seq in H. lia. Qed.
Lemma tags_ext (hp hp' : heap) l : (forall r, In r l -> hp' r = hp r) ->
  map (fun r => h_tag (hp' r)) l = map (fun r => h_tag (hp r)) l.
Proof. intros H. apply map_ext_in. intros r Hr. now rewrite H. Qed.

Lemma rebuild_only_new hp n rz hs : only_new hp (alloc hp n hs) n rz (rebuild (alloc hp n hs) rz (new_refs n hs)) hs.
Proof.
  repeat split; try reflexivity; try apply alloc_untouched; try apply new_refs_NoDup; try apply new_refs_ge; try apply alloc_new;
  try apply from_halos_sync.
Qed.

(** ** joining with all tags different *)
Lemma zmem_In t l : zmem t l = true <-> In t l.
Proof.
  unfold zmem. rewrite existsb_exists. split.
  - intros (x & H & E). apply Z.eqb_eq in E. now subst.
  - intros H. exists t. split; [auto|apply Z.eqb_refl].
Qed.
Lemma filter_all {A} (p : A -> bool) l : (forall a, In a l -> p a = true) -> filter p l = l.
Proof. induction l as [|a t IH]; intros H; [reflexivity|]. cbn. rewrite H by now left. f_equal. apply IH. intros; apply H; now right. Qed.
Lemma NoDup_app_disj {A} (l l' : list A) x : NoDup (l ++ l') -> In x l -> ~ In x l'.
Proof.
  induction l as [|a t IH]; intros N I J; [destruct I|]. inversion N; subst. destruct I as [->|I].
  - apply H1. apply in_or_app. now right.
  - now apply IH.
Qed.
Lemma join_disjoint hp a b c :
  NoDup (map (fun r => h_tag (hp r)) (rz_halos a) ++ map (fun r => h_tag (hp r)) (rz_halos b)) ->
  Permutation (rz_halos (join hp a b c)) (rz_halos a ++ rz_halos b).
Proof.
  intros N. unfold join. destruct (Nat.leb _ _).
  - cbn. rewrite filter_all; [apply Permutation_app_comm|]. intros r Hr. apply negb_true_iff.
    destruct (zmem _ _) eqn:E; [|reflexivity]. apply zmem_In in E. exfalso.
    apply (NoDup_app_disj _ _ (h_tag (hp r)) N); [|exact E]. now apply (in_map (fun r => h_tag (hp r))).
  - cbn. rewrite filter_all; [reflexivity|]. intros r Hr. apply negb_true_iff.
    destruct (zmem _ _) eqn:E; [|reflexivity]. apply zmem_In in E. exfalso.
    apply (NoDup_app_disj _ _ (h_tag (hp r)) N); [exact E|]. now apply (in_map (fun r => h_tag (hp r))).
Qed.
Lemma join_setup hp a b : same_setup (join hp a b false) a /\ rz_shifted (join hp a b false) = false /\ in_sync hp (join hp a b false).
Proof.
  unfold join. destruct (Nat.leb _ _); (split; [repeat split|split; [reflexivity|apply from_halos_sync]]).
Qed.
Lemma join_joined hp n rz b hs :
  allocated n rz -> tags_all_distinct hp rz hs -> Permutation (rz_halos b) (new_refs n hs) ->
  joined hp (alloc hp n hs) n rz (join (alloc hp n hs) rz b false) hs.
Proof.
  intros AL TG PB. set (hp' := alloc hp n hs).
  assert (T1 : map (fun r => h_tag (hp' r)) (rz_halos rz) = map (fun r => h_tag (hp r)) (rz_halos rz)).
  { apply tags_ext. intros r Hr. apply alloc_old. eapply Forall_forall in AL; eauto. }
  assert (T2 : map (fun r => h_tag (hp' r)) (new_refs n hs) = map h_tag hs).
  { rewrite <- (alloc_new hp n hs) at 2. now rewrite map_map. }
  destruct (join_setup hp' rz b) as (S1 & S2 & S3).
  split; [apply alloc_untouched|]. split; [|auto].
  exists (new_refs n hs). split; [apply new_refs_NoDup|]. split; [apply new_refs_ge|]. split; [apply alloc_new|].
  etransitivity; [apply join_disjoint|now apply Permutation_app_head].
  eapply Permutation_NoDup; [|exact TG]. rewrite T1. apply Permutation_app_head. rewrite <- T2.
  apply Permutation_map. now symmetry.
Qed.

(** ** black holes in rendered halos *)
Lemma pow10_ten x : pow10 x = ten_to x.
Proof. reflexivity. Qed.
Lemma circle_dist x y rr t : 0 <= rr -> dist2 (x + rr * cos t) (y + rr * sin t) x y = rr.
Proof.
  intros H. unfold dist2. replace ((x + rr * cos t - x) ^ 2 + (y + rr * sin t - y) ^ 2) with (rr ^ 2 * (Rsqr (sin t) + Rsqr (cos t))).
  - rewrite sin2_cos2, Rmult_1_r. now apply sqrt_pow2.
  - unfold Rsqr. ring.
Qed.
Lemma sqrt_scaled s u : 0 <= s -> 0 <= u <= 1 -> sqrt (s ^ 2 * u) <= s.
Proof.
  intros. rewrite <- (sqrt_pow2 s) at 2 by auto. apply sqrt_le_1; [nra| |nra]. apply pow2_ge_0.
Qed.
Lemma point_mass_is f m x y z fixed tag : is_point_mass f fixed (point_mass f m x y z fixed tag).
Proof. repeat split. Qed.

Definition hosts_one (a : bh_args) (g : bh_rng) (hp : heap) (ir : nat * ref) : Prop :=
  br_u g (fst ir) <= ba_f a /\ ten_to (ba_min a) < Rmin (ten_to (ba_max a)) (ten_to (ba_ratio a) * h_mass (hp (snd ir))).
Definition seed_of (e : benv) (a : bh_args) (hp : heap) (ir : nat * ref) (b : Halo) : Prop :=
  let h := hp (snd ir) in
  h_mass b = Rmin (ten_to (ba_max a)) (ten_to (ba_ratio a) * h_mass h) /\ h_z b = h_z h /\
  is_point_mass (be_factor e) false b /\
  exists rs kpc, be_rs e (snd ir) = Some rs /\ be_kpc e (h_z h) = Ok kpc /\
    dist2 (h_x b) (h_y b) (h_x h) (h_y h) <= rs / kpc.
Definition scales_ok (e : benv) : Prop :=
  (forall z k, be_kpc e z = Ok k -> 0 < k) /\ (forall r rs, be_rs e r = Some rs -> 0 <= rs).

Lemma bh_halos_spec e a g hp : scales_ok e -> (forall i, 0 <= br_radius g i <= 1) ->
  forall hs i bs, bh_halos e a g hp i hs = Ok bs ->
  exists hosts, kept (hosts_one a g hp) (enum_from i hs) hosts /\ Forall2 (seed_of e a hp) hosts bs.
Proof.
  intros (KP & RP) UR. induction hs as [|r t IH]; intros i bs H.
  - injection H as <-. exists []. split; constructor.
  - cbn [bh_halos] in H. binds. injection H as <-. destruct (IH _ _ H1) as (hosts & K & F).
    cbn [enum_from]. unfold bh_in_halo in H0.
    destruct (Rltb (ba_f a) (br_u g i)) eqn:EU.
    { injection H0 as <-. exists hosts. split; [|exact F]. apply kept_drop; [|exact K]. intros (A & _). apply Rltb_true in EU. cbn in A. lra. }
    apply Rltb_false in EU. binds. destruct (be_rs e r) as [rs|] eqn:ER; [|discriminate].
    assert (MM : Rmin (pow10 (ba_max a)) (h_mass (hp r) * pow10 (ba_ratio a)) =
                 Rmin (ten_to (ba_max a)) (ten_to (ba_ratio a) * h_mass (hp r))).
    { rewrite (Rmult_comm (h_mass (hp r))). reflexivity. }
    destruct (Rltb (pow10 (ba_min a)) _) eqn:EM in H0.
    + injection H0 as <-. apply Rltb_true in EM. rewrite MM in EM. exists ((i, r) :: hosts). split.
      * apply kept_take; [|exact K]. split; [exact EU|exact EM].
      * cbn [app]. constructor; [|exact F]. unfold seed_of. cbn [snd]. split; [exact MM|]. split; [reflexivity|].
        split; [apply point_mass_is|]. exists rs, x1. split; [exact ER|]. split; [exact H|].
        cbn [h_x h_y point_mass]. rewrite circle_dist by apply sqrt_pos. apply sqrt_scaled; [|apply UR].
        apply Rcomplements.Rdiv_le_0_compat; [eapply RP; eauto|eapply KP; eauto].
    + injection H0 as <-. apply Rltb_false in EM. rewrite MM in EM. exists hosts. split; [|exact F]. apply kept_drop; [|exact K].
      intros (_ & B). cbn [snd] in B. change (ten_to (ba_min a)) with (pow10 (ba_min a)) in B. lra.
Qed.

(** ** black holes below the resolution *)
Definition field_seed (e : benv) (a : bh_args) (z m : R) (b : Halo) : Prop :=
  h_mass b = m * ten_to (ba_ratio a) /\ h_z b = z /\ is_point_mass (be_factor e) false b /\
  dist2 (h_x b) (h_y b) 0 0 <= Rabs (be_cone e / 2 * be_scale e z).
Definition plane_seeds (e : benv) (a : bh_args) (g : bh_rng) (iz : nat * (R * R)) (part : list Halo) : Prop :=
  exists ms big, poisson_number (pl_n_mean (bh_mass_fn e a (fst (snd iz)) (snd (snd iz)))) (br_count g (fst iz)) (List.length ms) /\
    Forall (fun m => ten_to (ba_mlow a) <= m <= ten_to (ba_mhigh a)) ms /\
    kept (fun m => ten_to (ba_min a) < m) ms big /\ Forall2 (field_seed e a (fst (snd iz))) big part.

Lemma bh_objects_spec e a kpc z tag : forall l j,
  Forall (fun q => dist2 (fst (snd q) / kpc) (snd (snd q) / kpc) 0 0 <= Rabs (be_cone e / 2 * be_scale e z)) l ->
  exists big, kept (fun m => ten_to (ba_min a) < m) (map fst l) big /\
    Forall2 (field_seed e a z) big (bh_objects e a kpc z tag j l).
Proof.
  induction l as [|[m [x y]] t IH]; intros j F; [exists []; split; constructor|]. inversion F; subst.
  destruct (IH (S j) H2) as (big & K & G). cbn [bh_objects map fst].
  destruct (Rltb (pow10 (ba_min a)) m) eqn:E.
  - apply Rltb_true in E. exists (m :: big). split; [now apply kept_take|]. cbn [app]. constructor; [|exact G].
    split; [reflexivity|]. split; [reflexivity|]. split; [apply point_mass_is|exact H1].
  - apply Rltb_false in E. exists big. split; [|exact G]. apply kept_drop; [|exact K]. change (ten_to (ba_min a)) with (pow10 (ba_min a)). lra.
Qed.
Lemma pl_draw_count p k u ms : pl_draw_poisson p = true -> pl_draw p k u = Ok ms -> poisson_number (pl_n_mean p) k (List.length ms).
Proof.
  intros P H. pose proof (pl_draw_length _ _ _ _ H) as L. unfold pl_ndraw, pl_poisson_argument in L. rewrite P in L. unfold np_poisson in L.
  destruct (Rltb _ 0) eqn:E; [discriminate|]. apply Rltb_false in E. cbn [bind] in L. destruct (Reqb _ 0) eqn:E0; injection L as L.
  - apply Reqb_true in E0. left. split; [exact E0|lia].
  - apply Reqb_false in E0. right. split; [lra|lia].
Qed.
Lemma lens_cone_pts e z devs pts kpc : lens_cone_draw (be_cone e) (be_scale e) (be_kpc e) z 0 0 devs = Ok pts ->
  be_kpc e z = Ok kpc -> 0 < kpc -> (forall d, In d devs -> 0 <= snd d <= 1) ->
  List.length pts = List.length devs /\
  Forall (fun q => dist2 (fst q / kpc) (snd q / kpc) 0 0 <= Rabs (be_cone e / 2 * be_scale e z)) pts.
Proof.
  intros H K KP U.
  destruct (C31_lens_cone_in_disc (be_cone e) (be_scale e) (be_kpc e) z 0 0 devs kpc K KP) as (q & E & L & D).
  { intros ua ur I. exact (U _ I). }
  unfold rendered_cone in E. rewrite H in E. cbn [bind] in E. unfold render_positions in E.
  destruct pts as [|p t]. { injection E as <-. split; [exact L|constructor]. }
  rewrite K in E. cbn [bind] in E. injection E as <-. rewrite map_length in L || cbn in L.
  split; [cbn in *; rewrite ?map_length in L; exact L|].
  apply Forall_forall. intros q Hq. apply D. apply (in_map (fun p => (fst p * / kpc, snd p * / kpc))) in Hq. exact Hq.
Qed.
Lemma bh_planes_spec e a g : scales_ok e -> ba_mlow a < ba_mhigh a -> (forall i j, 0 <= br_mass g i j <= 1) ->
  (forall i j, 0 <= snd (br_pos g i j) <= 1) ->
  forall zs i bs, bh_planes e a g i zs = Ok bs ->
  exists parts, bs = List.concat parts /\ Forall2 (plane_seeds e a g) (enum_from i zs) parts.
Proof.
  intros (KP & _) LH UM UP. induction zs as [|[z dz] t IH]; intros i bs H.
  - injection H as <-. exists []. split; constructor.
  - cbn [bh_planes] in H. binds. injection H as <-. destruct (IH _ _ H3) as (parts & -> & F).
    destruct (lens_cone_pts e z _ _ _ H1 H2 (KP _ _ H2)) as (L & D).
    { intros d Hd. apply in_map_iff in Hd as (j & <- & _). apply UP. }
    rewrite map_length, seq_length in L.
    destruct (bh_objects_spec e a x1 z (br_ptag g i) (combine x x0) 0) as (big & K & G).
    { clear -D L. revert x0 D L. induction x as [|m t IH]; intros [|p q] D L; try (now constructor); try discriminate.
      inversion D; subst. constructor; [assumption|]. apply IH; [assumption|now injection L]. }
    exists (bh_objects e a x1 z (br_ptag g i) 0 (combine x x0) :: parts). split; [reflexivity|].
    cbn [enum_from]. constructor; [|exact F]. exists x, big. cbn [fst snd].
    split. { eapply pl_draw_count; [|exact H0]. reflexivity. }
    split. { apply Forall_forall. intros m Hm. eapply C26_in_range; [exact LH| |exact H0|exact Hm]. apply UM. }
    split; [|exact G]. replace (map fst (combine x x0)) with x in K; [exact K|].
    clear -L. revert x0 L. induction x as [|m t IH]; intros [|p q] L; try reflexivity; try discriminate. cbn. f_equal. apply IH. now injection L.
Qed.
Lemma gaps_length l zs : List.length (gaps l zs) = List.length l.
Proof. induction l as [|a [|b t] IH]; [reflexivity|reflexivity|]. cbn [gaps List.length] in *. now rewrite IH. Qed.
Lemma combine_fst {A B} (l : list A) (l' : list B) : List.length l = List.length l' -> map fst (combine l l') = l.
Proof. revert l'. induction l as [|a t IH]; intros [|b s] H; try reflexivity; try discriminate. cbn. f_equal. apply IH. now injection H. Qed.
