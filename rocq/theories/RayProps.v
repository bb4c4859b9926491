(** C93: interpolated ray paths. *)
From Verif Require Import Prelude Interp SpaceModel RealizationModel RealizationProofs RayModel.
From Coq Require Import Lra Psatz.

(** ** Specification *)
(** transverse comoving distance of an expanding universe: zero here, increasing with redshift *)
Definition distance_like (D : R -> R) : Prop := D 0 = 0 /\ forall a b, 0 <= a -> a < b -> D a < D b.

(** ray shooting in steps is ray shooting in one go *)
Definition flow (shoot : shooter) : Prop := forall s a b c, 0 <= a -> a < b -> b < c -> shoot (shoot s a b) b c = shoot s a c.

(** nothing deflects the ray: the comoving position grows linearly with the distance, the angle stays *)
Definition undeflected (D : R -> R) (shoot : shooter) : Prop := forall s a b, 0 <= a -> a < b ->
  shoot s a b = {| ry_x := ry_x s + ry_ax s * (D b - D a); ry_y := ry_y s + ry_ay s * (D b - D a); ry_ax := ry_ax s; ry_ay := ry_ay s |}.

Definition launch (x y : R) : ray := {| ry_x := 0; ry_y := 0; ry_ax := x; ry_ay := y |}.

(** lens planes and source in front of the observer; the farthest of them *)
Definition scene (lens_z : list R) (zsource : R) : Prop := 2 / 100 < zsource /\ forall z, In z lens_z -> 0 < z.
Definition farthest (lens_z : list R) (zsource zmax : R) : Prop :=
  (zmax = zsource \/ In zmax lens_z) /\ zsource <= zmax /\ forall z, In z lens_z -> z <= zmax.

(** what an interpolator returned for one coordinate of one image must satisfy *)
Record ray_table (D : R -> R) (lens_z : list R) (zsource zmax : R) (image : R) (src : option R) (position : R -> R) (t : list (R * R)) : Prop := {
  rt_start : interp1d t 0 = Ok image;
  rt_planes : forall z, z = zsource \/ In z lens_z -> z <> zmax \/ src = None -> interp1d t (D z) = Ok (position z / D z);
  rt_source : forall s, src = Some s -> interp1d t (D zmax) = Ok (s * D zsource / D zmax);
  rt_domain : forall d, (exists v, interp1d t d = Ok v) <-> 0 <= d <= D zmax }.

(** ** Proofs *)
Lemma propagate_flow shoot D s z0 zs : flow shoot -> 0 <= z0 -> StronglySorted Rlt (z0 :: zs) ->
  forall t z1, z0 < z1 -> t = shoot s z0 z1 -> (forall z, In z zs -> z1 < z) -> propagate shoot D t z1 zs = map (fun z => (ry_x (shoot s z0 z), ry_y (shoot s z0 z), D z)) zs.
Proof.
  intros F P0. induction zs as [|z zs IH]; intros S t z1 L -> B; [reflexivity|]. cbn [propagate map].
  assert (z1 < z) by (apply B; now left).
  assert (E : shoot (shoot s z0 z1) z1 z = shoot s z0 z) by (apply F; lra). cbv zeta. rewrite E. f_equal.
  apply (IH); [|lra|reflexivity|].
  - apply StronglySorted_inv in S as [S FA]. apply StronglySorted_inv in S as [S FB]. constructor; [exact S|]. now apply Forall_inv_tail in FA.
  - apply StronglySorted_inv in S as [S _]. apply StronglySorted_inv in S as [_ FB]. rewrite Forall_forall in FB. exact FB.
Qed.
Lemma propagate_map shoot D s zs : flow shoot -> StronglySorted Rlt zs -> (forall z, In z zs -> 0 < z) ->
  propagate shoot D s 0 zs = map (fun z => (ry_x (shoot s 0 z), ry_y (shoot s 0 z), D z)) zs.
Proof.
  intros F S B. destruct zs as [|z zs]; [reflexivity|]. cbn [propagate map]. cbv zeta. f_equal.
  apply propagate_flow; try assumption; try reflexivity; try lra.
  - apply StronglySorted_inv in S as [S _]. constructor; [exact S|]. rewrite Forall_forall. intros; apply B; now right.
  - apply B; now left.
  - apply StronglySorted_inv in S as [_ FB]. now rewrite Forall_forall in FB.
Qed.

Lemma set_last_app l p x y : set_last (l ++ [p]) x y = l ++ [(x, y, snd p)].
Proof.
  induction l as [|a l IH]; [reflexivity|]. cbn [app]. rewrite <- IH. destruct (l ++ [p]) eqn:E; [destruct l; discriminate|]. reflexivity.
Qed.

Lemma path_redshifts_facts lens_z zs zmax : scene lens_z zs -> farthest lens_z zs zmax ->
  StronglySorted Rlt (path_redshifts lens_z zs) /\ (forall z, In z (path_redshifts lens_z zs) -> 0 < z) /\
  (forall z, z = zs \/ In z lens_z -> In z (path_redshifts lens_z zs)) /\
  (forall z, In z (path_redshifts lens_z zs) -> z <= zmax).
Proof.
  intros [P Hp] (M1 & M2 & M3). unfold path_redshifts. split; [apply np_unique_sorted|].
  assert (G : forall z, In z (np_linspace (2 / 100) (zs - 2 / 100) 50) -> 0 < z <= zs).
  { intros z I. unfold np_linspace in I. apply in_map_iff in I as (i & <- & I). apply in_seq in I.
    replace (INR (50 - 1)) with 49 by (cbn; lra). assert (0 <= INR i) by apply pos_INR. assert (INR i <= 49) by (replace 49 with (INR 49) by (cbn; lra); apply le_INR; lia).
    replace (2 / 100 + INR i * ((zs - 2 / 100 - 2 / 100) / 49)) with ((zs - 2 / 100) * (INR i / 49) + 2 / 100 * (1 - INR i / 49)) by field.
    assert (0 <= INR i / 49 <= 1) by lra. set (w := INR i / 49) in *. clearbody w.
    assert (Q1 : 0 <= (zs - 2 / 100) * w) by (apply Rmult_le_pos; lra). assert (Q2 : 0 <= (zs - 2 / 100) * (1 - w)) by (apply Rmult_le_pos; lra).
    split; [|lra]. destruct (Rle_lt_or_eq_dec 0 w) as [W|W]; [lra| |subst; lra]. assert (0 < (zs - 2 / 100) * w) by (apply Rmult_lt_0_compat; lra). lra. }
  split; [|split].
  - intros z I. apply np_unique_in, in_app_iff in I as [I|I]; [|now apply G]. apply in_app_iff in I as [I|[<-|[]]]; [now apply Hp|lra].
  - intros z I. apply np_unique_in, in_app_iff. left. apply in_app_iff. destruct I as [->|I]; [right; now left|now left].
  - intros z I. apply np_unique_in, in_app_iff in I as [I|I]; [|apply G in I; lra]. apply in_app_iff in I as [I|[<-|[]]]; [now apply M3|lra].
Qed.

Lemma sorted_last zs zmax : StronglySorted Rlt zs -> In zmax zs -> (forall z, In z zs -> z <= zmax) ->
  exists l, zs = l ++ [zmax] /\ forall z, In z l -> z < zmax.
Proof.
  induction zs as [|a zs IH]; intros S I B; [easy|]. apply StronglySorted_inv in S as [S F]. rewrite Forall_forall in F.
  destruct zs as [|b zs].
  - destruct I as [->|[]]. exists []. split; [reflexivity|easy].
  - destruct I as [->|I].
    + specialize (F b (or_introl eq_refl)). specialize (B b (or_intror (or_introl eq_refl))). lra.
    + destruct (IH S I) as (l & E & L); [intros; apply B; now right|]. exists (a :: l). rewrite E. split; [reflexivity|].
      intros z [->|Iz]; [apply F; rewrite E; apply in_app_iff; right; now left|now apply L].
Qed.

Lemma incr_table D zs (v : R -> R) z0 : (forall a b, 0 <= a -> a < b -> D a < D b) -> 0 <= z0 -> StronglySorted Rlt (z0 :: zs) ->
  incr_from (D z0) (map (fun z => (D z, v z)) zs).
Proof.
  intros HD. revert z0. induction zs as [|z zs IH]; intros z0 P S; [exact I|]. cbn [map incr_from].
  apply StronglySorted_inv in S as [S F]. pose proof (Forall_inv F) as L. cbn beta in L. split; [apply HD; lra|]. apply IH; [lra|exact S].
Qed.

(** one coordinate *)
Lemma ray_table_ok D lens_z zs zmax image src position v : distance_like D -> scene lens_z zs -> farthest lens_z zs zmax ->
  (forall z, In z (path_redshifts lens_z zs) -> z <> zmax \/ src = None -> v z = position z / D z) ->
  (forall s, src = Some s -> v zmax = s * D zs / D zmax) ->
  ray_table D lens_z zs zmax image src position ((0, image) :: map (fun z => (D z, v z)) (path_redshifts lens_z zs)).
Proof.
  intros [D0 HD] Sc Fa Hv Hs. destruct (path_redshifts_facts lens_z zs zmax Sc Fa) as (St & Ps & Inn & Mx).
  set (pz := path_redshifts lens_z zs) in *. clearbody pz.
  assert (St0 : StronglySorted Rlt (0 :: pz)) by (constructor; [exact St|rewrite Forall_forall; exact Ps]).
  assert (Inc : increasing_table ((0, image) :: map (fun z => (D z, v z)) pz)).
  { cbn. rewrite <- D0 at 1. apply incr_table; auto; lra. }
  assert (Im : In zmax pz) by (apply Inn; destruct Fa as [[->|?] _]; auto).
  assert (Nd : forall z, In z pz -> interp1d ((0, image) :: map (fun z => (D z, v z)) pz) (D z) = Ok (v z)).
  { intros z Iz. apply interp1d_node; [exact Inc|]. right. apply in_map_iff. eauto. }
  constructor.
  - apply interp1d_node; [exact Inc|now left].
  - intros z Iz Nz. rewrite Nd by now apply Inn. f_equal. apply Hv; [now apply Inn|exact Nz].
  - intros s Es. rewrite Nd by assumption. now rewrite Hs with s.
  - intros d. destruct (sorted_last pz zmax St Im Mx) as (l & -> & _). rewrite map_app. cbn [map].
    unfold interp1d. assert (EL : fst (last (map (fun z => (D z, v z)) l ++ [(D zmax, v zmax)]) (0, image)) = D zmax) by (rewrite last_last; reflexivity).
    rewrite EL. split.
    + intros [w E]. destruct (Rltb d 0) eqn:E1; [discriminate|]. destruct (Rltb (D zmax) d) eqn:E2; [discriminate|]. apply Rltb_false in E1, E2. lra.
    + intros [L1 L2]. apply Rltb_false in L1, L2. rewrite L1, L2. eauto.
Qed.

Definition src_x (source : option (R * R)) := match source with Some p => Some (fst p) | None => None end.
Definition src_y (source : option (R * R)) := match source with Some p => Some (snd p) | None => None end.

Lemma image_tables shoot D lens_z zs zmax source x y : flow shoot -> distance_like D -> scene lens_z zs -> farthest lens_z zs zmax ->
  let t := angle_tables x y (compute_comoving_ray_path shoot D lens_z zs source x y) in
  ray_table D lens_z zs zmax x (src_x source) (fun z => ry_x (shoot (launch x y) 0 z)) (fst t) /\
  ray_table D lens_z zs zmax y (src_y source) (fun z => ry_y (shoot (launch x y) 0 z)) (snd t).
Proof.
  intros F HD Sc Fa. cbv zeta. unfold angle_tables, compute_comoving_ray_path. destruct (path_redshifts_facts lens_z zs zmax Sc Fa) as (St & Ps & Inn & Mx).
  fold (launch x y). rewrite propagate_map by assumption. cbn [fst snd].
  assert (Im : In zmax (path_redshifts lens_z zs)) by (apply Inn; destruct Fa as [[->|?] _]; auto).
  destruct source as [[sx sy]|]; cbn [src_x src_y fst snd].
  - destruct (sorted_last _ zmax St Im Mx) as (l & E & L). 
    set (f := fun z => (ry_x (shoot (launch x y) 0 z), ry_y (shoot (launch x y) 0 z), D z)).
    assert (Et : tl (set_last ((0, 0, 0) :: map f (path_redshifts lens_z zs)) (sx * D zs) (sy * D zs)) =
      map (fun z => (if Reqb z zmax then sx * D zs else ry_x (shoot (launch x y) 0 z), if Reqb z zmax then sy * D zs else ry_y (shoot (launch x y) 0 z), D z)) (path_redshifts lens_z zs)).
    { rewrite E, !map_app. change ((0, 0, 0) :: map f l ++ map f [zmax]) with (((0, 0, 0) :: map f l) ++ [f zmax]). rewrite set_last_app. cbn [tl app map].
      rewrite Reqb_refl. f_equal. apply map_ext_in. intros z Iz. unfold f. replace (Reqb z zmax) with false; [reflexivity|]. symmetry. apply Reqb_false. specialize (L z Iz). lra. }
    rewrite Et, !map_map. cbn [fst snd].
    split; apply (ray_table_ok D lens_z zs zmax _ _ _ (fun z => (if Reqb z zmax then _ else _) / D z)); try assumption.
    + intros z Iz [N|N]; [|discriminate]. apply Reqb_false in N. now rewrite N.
    + intros s Es. injection Es as <-. now rewrite Reqb_refl.
    + intros z Iz [N|N]; [|discriminate]. apply Reqb_false in N. now rewrite N.
    + intros s Es. injection Es as <-. now rewrite Reqb_refl.
  - cbn [tl]. rewrite !map_map. cbn [fst snd].
    split; [apply (ray_table_ok D lens_z zs zmax x None _ (fun z => ry_x (shoot (launch x y) 0 z) / D z))|
      apply (ray_table_ok D lens_z zs zmax y None _ (fun z => ry_y (shoot (launch x y) 0 z) / D z))]; try assumption; intros; try discriminate; reflexivity.
Qed.

(** Without averaging there is one interpolator per image and coordinate; each starts at the image, passes through the
    true position of the ray at every lens plane and at the source, is defined up to the farthest plane, and ends where asked. *)
Theorem C93_paths shoot D lens_z zsource zmax source xs ys :
  flow shoot -> distance_like D -> scene lens_z zsource -> farthest lens_z zsource zmax -> List.length xs = List.length ys ->
  exists tx ty, interpolate_ray_paths shoot D lens_z zsource source false xs ys = Ok (tx, ty) /\
    List.length tx = List.length xs /\ List.length ty = List.length ys /\
    forall i x y, nth_error xs i = Some x -> nth_error ys i = Some y -> exists t u, nth_error tx i = Some t /\ nth_error ty i = Some u /\
      ray_table D lens_z zsource zmax x (src_x source) (fun z => ry_x (shoot (launch x y) 0 z)) t /\
      ray_table D lens_z zsource zmax y (src_y source) (fun z => ry_y (shoot (launch x y) 0 z)) u.
Proof.
  intros F HD Sc Fa L. unfold interpolate_ray_paths. eexists. eexists. split; [reflexivity|]. split; [|split].
  - rewrite !map_length, combine_length. lia.
  - rewrite !map_length, combine_length. lia.
  - intros i x y Ex Ey. assert (Ec : nth_error (combine xs ys) i = Some (x, y)).
    { clear L. revert ys i Ex Ey. induction xs as [|a xs IH]; intros [|b ys] [|i] Ex Ey; cbn in *; try discriminate; [congruence|]. now apply IH. }
    eexists. eexists. rewrite !map_map. rewrite (map_nth_error _ _ _ Ec), (map_nth_error _ _ _ Ec). split; [reflexivity|split; [reflexivity|]].
    cbn [fst snd]. apply (image_tables shoot D lens_z zsource zmax source x y F HD Sc Fa).
Qed.

(** With no plane behind the source, the path that is to end at the source does so. *)
Theorem C93_terminates D lens_z zsource image s position t :
  distance_like D -> scene lens_z zsource -> ray_table D lens_z zsource zsource image (Some s) position t -> interp1d t (D zsource) = Ok s.
Proof.
  intros [D0 HD] [P _] T. rewrite (rt_source _ _ _ _ _ _ _ _ T s eq_refl). f_equal. assert (D 0 < D zsource) by (apply HD; lra). rewrite D0 in H. field. lra.
Qed.

(** A lens plane behind the source spoils this: the path misses the source and ends somewhere else. *)
Theorem C93_terminates_refuted : exists D shoot lens_z zsource sx sy tx ty t, distance_like D /\ flow shoot /\ scene lens_z zsource /\
  interpolate_ray_paths shoot D lens_z zsource (Some (sx, sy)) false [0] [0] = Ok (tx, ty) /\ nth_error tx 0 = Some t /\
  interp1d t (D zsource) <> Ok sx.
Proof.
  pose (D := fun z : R => z). pose (shoot := fun (s : ray) (a b : R) => {| ry_x := ry_x s + ry_ax s * (D b - D a); ry_y := ry_y s + ry_ay s * (D b - D a); ry_ax := ry_ax s; ry_ay := ry_ay s |}).
  assert (HD : distance_like D) by (split; [reflexivity|unfold D; intros; lra]).
  assert (HF : flow shoot) by (intros s a b c _ _ _; unfold shoot; cbn; f_equal; unfold D; ring).
  assert (Sc : scene [3] 1) by (split; [lra|intros z [<-|[]]; lra]).
  assert (Fa : farthest [3] 1 3) by (split; [right; now left|split; [lra|intros z [<-|[]]; lra]]).
  destruct (C93_paths shoot D [3] 1 3 (Some (1, 1)) [0] [0] HF HD Sc Fa eq_refl) as (tx & ty & E & _ & _ & H).
  destruct (H 0%nat 0 0 eq_refl eq_refl) as (t & u & Et & _ & T & _).
  exists D, shoot, [3], 1, 1, 1, tx, ty, t. repeat (split; [assumption|]).
  assert (V : interp1d t (D 1) = Ok (ry_x (shoot (launch 0 0) 0 1) / D 1)) by (apply (rt_planes _ _ _ _ _ _ _ _ T); [now left|left; lra]).
  rewrite V. intros Q. injection Q as Q. unfold shoot, D, launch in Q. cbn in Q. lra.
Qed.

Lemma constant_interp x0 c l d : incr_from x0 (map (fun x : R => (x, c)) l) -> interp_from x0 c (map (fun x : R => (x, c)) l) d = c.
Proof.
  revert x0. induction l as [|x l IH]; intros x0 H; [reflexivity|]. cbn [map interp_from]. destruct H as [H1 H2].
  destruct (Rleb d x); [|now apply IH]. field. lra.
Qed.

(** An undeflected ray stays at the image position all the way. *)
Theorem C93_straight shoot D lens_z zsource zmax x y d :
  undeflected D shoot -> distance_like D -> scene lens_z zsource -> farthest lens_z zsource zmax -> 0 <= d <= D zmax ->
  exists t u, interpolate_ray_paths shoot D lens_z zsource None false [x] [y] = Ok ([t], [u]) /\ interp1d t d = Ok x /\ interp1d u d = Ok y.
Proof.
  intros U HD Sc Fa Bd. assert (Fl : flow shoot).
  { intros s a b c P1 P2 P3. rewrite !U by lra. cbn. f_equal; ring. }
  unfold interpolate_ray_paths, angle_tables, compute_comoving_ray_path. cbn [combine map fst snd tl]. eexists. eexists. split; [reflexivity|].
  destruct (path_redshifts_facts lens_z zsource zmax Sc Fa) as (St & Ps & Inn & Mx). fold (launch x y). rewrite propagate_map by assumption.
  rewrite !map_map. cbn [fst snd]. destruct HD as [D0 HD].
  assert (Dp : forall z, In z (path_redshifts lens_z zsource) -> 0 < D z) by (intros z Iz; apply Ps in Iz; rewrite <- D0; apply HD; lra).
  assert (Ex : map (fun z => (D z, ry_x (shoot (launch x y) 0 z) / D z)) (path_redshifts lens_z zsource) = map (fun q => (q, x)) (map D (path_redshifts lens_z zsource))).
  { rewrite map_map. apply map_ext_in. intros z Iz. f_equal. pose proof (Ps z Iz). pose proof (Dp z Iz). rewrite U by lra. cbn. rewrite D0. field. lra. }
  assert (Ey : map (fun z => (D z, ry_y (shoot (launch x y) 0 z) / D z)) (path_redshifts lens_z zsource) = map (fun q => (q, y)) (map D (path_redshifts lens_z zsource))).
  { rewrite map_map. apply map_ext_in. intros z Iz. f_equal. pose proof (Ps z Iz). pose proof (Dp z Iz). rewrite U by lra. cbn. rewrite D0. field. lra. }
  rewrite Ex, Ey.
  assert (Inc : forall c, incr_from 0 (map (fun q => (q, c)) (map D (path_redshifts lens_z zsource)))).
  { intros c. rewrite map_map. rewrite <- D0. apply incr_table; [exact HD|lra|]. constructor; [exact St|rewrite Forall_forall; exact Ps]. }
  assert (Im : In zmax (path_redshifts lens_z zsource)) by (apply Inn; destruct Fa as [[->|?] _]; auto).
  assert (Ok1 : forall c, interp1d ((0, c) :: map (fun q => (q, c)) (map D (path_redshifts lens_z zsource))) d = Ok c).
  { intros c. unfold interp1d. destruct (sorted_last _ zmax St Im Mx) as (l & E & _).
    assert (EL : fst (last (map (fun q => (q, c)) (map D (path_redshifts lens_z zsource))) (0, c)) = D zmax) by (rewrite E, !map_app; cbn [map]; rewrite last_last; reflexivity).
    rewrite EL. replace (Rltb d 0) with false by (symmetry; apply Rltb_false; lra). replace (Rltb (D zmax) d) with false by (symmetry; apply Rltb_false; lra).
    f_equal. apply constant_interp, Inc. }
  split; apply Ok1.
Qed.

Lemma mapM_ok {A B} (f : A -> result B) g l : (forall a, In a l -> f a = Ok (g a)) -> mapM f l = Ok (map g l).
Proof. induction l as [|a l IH]; intros H; [reflexivity|]. cbn. rewrite H by now left. cbn. rewrite IH by auto with datatypes. reflexivity. Qed.

Lemma linspace100 zs z : 0 < zs -> In z (np_linspace 0 zs 100) -> 0 <= z <= zs.
Proof.
  intros P I. unfold np_linspace in I. apply in_map_iff in I as (i & <- & I). apply in_seq in I. replace (INR (100 - 1)) with 99 by (cbn; lra).
  assert (0 <= INR i) by apply pos_INR. assert (INR i <= 99) by (replace 99 with (INR 99) by (cbn; lra); apply le_INR; lia).
  replace (0 + INR i * ((zs - 0) / 99)) with (zs * (INR i / 99)) by field. assert (0 <= INR i / 99 <= 1) by lra. split; nra.
Qed.

(** Averaging returns a single path per coordinate: at each of 100 equally spaced redshifts from here to the source, and in
    particular at the source, it is the mean of the paths of the images, and it covers everything in front of the source. *)
Theorem C93_mean shoot D lens_z zsource zmax source xs ys :
  flow shoot -> distance_like D -> scene lens_z zsource -> farthest lens_z zsource zmax -> List.length xs = List.length ys -> xs <> [] ->
  exists tx ty t u, interpolate_ray_paths shoot D lens_z zsource source false xs ys = Ok (tx, ty) /\
    interpolate_ray_paths shoot D lens_z zsource source true xs ys = Ok ([t], [u]) /\
    (forall k, (k <= 99)%nat -> let d := D (zsource * (INR k / 99)) in
      exists vx vy, mapM (fun f => interp1d f d) tx = Ok vx /\ mapM (fun f => interp1d f d) ty = Ok vy /\
        List.length vx = List.length xs /\ List.length vy = List.length ys /\
        interp1d t d = Ok (rsum vx / INR (List.length xs)) /\ interp1d u d = Ok (rsum vy / INR (List.length ys))) /\
    (forall d, 0 <= d <= D zsource -> (exists v, interp1d t d = Ok v) /\ (exists v, interp1d u d = Ok v)).
Proof.
  intros F HD Sc Fa L Ne. destruct (C93_paths shoot D lens_z zsource zmax source xs ys F HD Sc Fa L) as (tx & ty & E & L1 & L2 & H).
  assert (Zs : 0 < zsource) by (destruct Sc; lra). destruct HD as [D0 HD].
  assert (Dom : forall f, In f tx \/ In f ty -> forall d, 0 <= d <= D zmax -> exists v, interp1d f d = Ok v).
  { intros f If d Bd. assert (Q : exists i x y, nth_error xs i = Some x /\ nth_error ys i = Some y /\ (nth_error tx i = Some f \/ nth_error ty i = Some f)).
    { destruct If as [If|If]; apply In_nth_error in If as [i Ei]; assert (N : (i < List.length xs)%nat) by (assert (nth_error tx i <> None \/ nth_error ty i <> None) by (rewrite Ei; auto; (left + right); discriminate); 
        destruct H0 as [H0|H0]; apply nth_error_Some in H0; lia);
      destruct (nth_error xs i) as [x|] eqn:Ex; [|apply nth_error_None in Ex; lia| |apply nth_error_None in Ex; lia];
      (destruct (nth_error ys i) as [y|] eqn:Ey; [|apply nth_error_None in Ey; lia]); exists i, x, y; auto. }
    destruct Q as (i & x & y & Ex & Ey & Q). destruct (H i x y Ex Ey) as (t & u & Et & Eu & T1 & T2).
    destruct Q as [Q|Q]; [assert (f = t) by congruence; subst; now apply (rt_domain _ _ _ _ _ _ _ _ T1)|assert (f = u) by congruence; subst; now apply (rt_domain _ _ _ _ _ _ _ _ T2)]. }
  assert (DM : forall z, 0 <= z <= zsource -> 0 <= D z <= D zmax).
  { intros z Bz. assert (zsource <= zmax) by (destruct Fa as (_ & Q & _); exact Q). split.
    - destruct (Rle_lt_or_eq_dec 0 z) as [Q|Q]; [lra| |subst; lra]. assert (D 0 < D z) by (apply HD; lra). lra.
    - destruct (Rle_lt_or_eq_dec z zmax) as [Q|Q]; [lra| |subst; lra]. assert (D z < D zmax) by (apply HD; lra). lra. }
  pose (val := fun (f : list (R * R)) d => match interp1d f d with Ok v => v | Err _ => 0 end).
  assert (Val : forall f, In f tx \/ In f ty -> forall z, 0 <= z <= zsource -> interp1d f (D z) = Ok (val f (D z))).
  { intros f If z Bz. unfold val. destruct (Dom f If (D z) (DM z Bz)) as [v ->]. reflexivity. }
  assert (MT : forall q, (forall f, In f q -> In f tx \/ In f ty) -> mean_table D zsource q = Ok (map (fun z => (D z, np_mean (map (fun f => val f (D z)) q))) (np_linspace 0 zsource 100))).
  { intros q Hq. unfold mean_table. apply mapM_ok. intros z Iz. apply linspace100 in Iz; [|assumption].
    rewrite (mapM_ok _ (fun f => val f (D z))); [reflexivity|]. intros f If. apply Val; auto. }
  exists tx, ty. eexists. eexists. split; [exact E|]. split; [|].
  { unfold interpolate_ray_paths in *. cbv zeta in *. 
    assert (E1 : tx = map fst (map (fun p => angle_tables (fst p) (snd p) (compute_comoving_ray_path shoot D lens_z zsource source (fst p) (snd p))) (combine xs ys))) by congruence.
    assert (E2 : ty = map snd (map (fun p => angle_tables (fst p) (snd p) (compute_comoving_ray_path shoot D lens_z zsource source (fst p) (snd p))) (combine xs ys))) by congruence.
    rewrite <- E1, <- E2, !MT by auto. reflexivity. }
  assert (Tab : forall q, increasing_table (map (fun z => (D z, np_mean (map (fun f => val f (D z)) q))) (np_linspace 0 zsource 100)) /\
     (forall k, (k <= 99)%nat -> In (zsource * (INR k / 99)) (np_linspace 0 zsource 100)) /\
     forall d, 0 <= d <= D zsource -> exists v, interp1d (map (fun z => (D z, np_mean (map (fun f => val f (D z)) q))) (np_linspace 0 zsource 100)) d = Ok v).
  { intros q.
    assert (Sl : np_linspace 0 zsource 100 = map (fun i => zsource * (INR i / 99)) (seq 0 100)).
    { unfold np_linspace. apply map_ext. intros i. replace (INR (100 - 1)) with 99 by (cbn; lra). field. }
    rewrite Sl.
    assert (Sorted_ : forall n k, StronglySorted Rlt (map (fun i => zsource * (INR i / 99)) (seq k n))).
    { induction n as [|n IHn]; intros k; [constructor|]. cbn [seq map]. constructor; [apply IHn|]. rewrite Forall_forall. intros z Iz.
      apply in_map_iff in Iz as (i & <- & Ii). apply in_seq in Ii. assert (INR k < INR i) by (apply lt_INR; lia). apply Rmult_lt_compat_l; lra. }
    set (w := fun z => np_mean (map (fun f => val f (D z)) q)).
    assert (Inc : increasing_table (map (fun z => (D z, w z)) (map (fun i => zsource * (INR i / 99)) (seq 0 100)))).
    { change (seq 0 100) with (0%nat :: seq 1 99). cbn [map increasing_table]. apply incr_table; [exact HD|cbn; lra|]. apply (Sorted_ 100%nat 0%nat). }
    split; [exact Inc|split].
    - intros k Hk. apply in_map_iff. exists k. split; [reflexivity|]. apply in_seq. lia.
    - intros d Bd. assert (Z0 : zsource * (INR 0 / 99) = 0) by (cbn; lra).
      assert (Z1 : zsource * (INR 99 / 99) = zsource) by (replace (INR 99) with 99 by (cbn; lra); field).
      replace (seq 0 100) with (0%nat :: seq 1 98 ++ [99%nat]) by reflexivity. cbn [map]. rewrite !map_app. cbn [map]. unfold interp1d. rewrite last_last. cbn [fst].
      rewrite Z0, Z1, D0. replace (Rltb d 0) with false by (symmetry; apply Rltb_false; lra). replace (Rltb (D zsource) d) with false by (symmetry; apply Rltb_false; lra). eauto. }
  split.
  - intros k Hk. cbv zeta. set (z := zsource * (INR k / 99)).
    assert (Bz : 0 <= z <= zsource).
    { apply linspace100; [assumption|]. apply (proj1 (proj2 (Tab []))). exact Hk. }
    exists (map (fun f => val f (D z)) tx), (map (fun f => val f (D z)) ty).
    split; [apply mapM_ok; intros; apply Val; auto|]. split; [apply mapM_ok; intros; apply Val; auto|]. rewrite !map_length. split; [exact L1|split; [exact L2|]].
    split.
    + destruct (Tab tx) as (Inc & Nod & _). rewrite (interp1d_node _ (D z) (np_mean (map (fun f => val f (D z)) tx)) Inc); [unfold np_mean; rewrite map_length, L1; reflexivity|].
      apply in_map_iff. exists z. split; [reflexivity|]. now apply Nod.
    + destruct (Tab ty) as (Inc & Nod & _). rewrite (interp1d_node _ (D z) (np_mean (map (fun f => val f (D z)) ty)) Inc); [unfold np_mean; rewrite map_length, L2; reflexivity|].
      apply in_map_iff. exists z. split; [reflexivity|]. now apply Nod.
  - intros d Bd. split; [apply (proj2 (proj2 (Tab tx)) d Bd)|apply (proj2 (proj2 (Tab ty)) d Bd)].
Qed.

(* ---------- non-vacuity ---------- *)
Definition demo_shoot : shooter := fun s a b => {| ry_x := ry_x s + ry_ax s * (b - a); ry_y := ry_y s + ry_ay s * (b - a); ry_ax := ry_ax s; ry_ay := ry_ay s |}.
Example C93_nonvacuous : flow demo_shoot /\ distance_like (fun z => z) /\ undeflected (fun z => z) demo_shoot /\ scene [1/2] 2 /\ farthest [1/2] 2 2.
Proof.
  split; [intros s a b c _ _ _; unfold demo_shoot; cbn; f_equal; ring|]. split; [split; [reflexivity|intros; lra]|]. split; [intros s a b _ _; reflexivity|].
  split; [split; [lra|intros z [<-|[]]; lra]|]. split; [now left|]. split; [lra|intros z [<-|[]]; lra].
Qed.

Print Assumptions C93_paths.
Print Assumptions C93_terminates.
Print Assumptions C93_terminates_refuted.
Print Assumptions C93_straight.
Print Assumptions C93_mean.
