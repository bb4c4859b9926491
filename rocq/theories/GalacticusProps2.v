(** C64: node filters and projections; C65: the subhalos imported from a Galacticus file; C79: halos of the emulator. *)
From Verif Require Import Prelude RealizationSpec RealizationProofs MassFnModel MassFnProofs TnfwSpec NfwModel NfwSpec NfwProofs NfwProps GalacticusModel.
From Coq Require Import String ZArith.
Local Open Scope string_scope.
Local Open Scope R_scope.
Local Open Scope list_scope.

(** ** Specification *)
(** A Galacticus node, lengths in Mpc. *)
Record node := { n_pos : R * R * R; n_iso : R; n_rvir : R; n_bound : R; n_infall : R; n_rhos : R; n_rs : R; n_rt : R; n_conc : R; n_zinf : R;
  n_tree : Z; n_order : nat; n_id : Z }.
(** The table [d] is the table of the nodes [ns]: all its columns have one entry per node, and the columns that the code
    reads hold the nodes' properties. *)
Definition column (d : nodedata) (k : string) (f : node -> R) (ns : list node) : Prop := exists c, dget d k = Ok c /\ col_R c = map f ns.
Record table_of (d : nodedata) (ns : list node) : Prop := {
  to_len : forall k c, In (k, c) d -> col_len c = List.length ns;
  to_x : column d "positionOrbitalX" (fun n => fst (fst (n_pos n))) ns;
  to_y : column d "positionOrbitalY" (fun n => snd (fst (n_pos n))) ns;
  to_z : column d "positionOrbitalZ" (fun n => snd (n_pos n)) ns;
  to_iso : column d "nodeIsIsolated" n_iso ns;
  to_rvir : column d "darkMatterOnlyRadiusVirial" n_rvir ns;
  to_bound : column d "satelliteBoundMass" n_bound ns;
  to_infall : column d "massHaloEnclosedCurrent" n_infall ns;
  to_rhos : column d "densityNormalizationTidalTruncationNFW" n_rhos ns;
  to_rs : column d "darkMatterProfileScaleRadius" n_rs ns;
  to_rt : column d "radiusTidalTruncationNFW" n_rt ns;
  to_conc : column d "concentration" n_conc ns;
  to_zinf : column d "redshiftLastIsolated" n_zinf ns;
  to_id : column d "id" (fun n => IZR (n_id n)) ns;
  to_tree : column d "custom_treeIndex" (fun n => IZR (n_tree n)) ns;
  to_order : dget d "custom_treeOutputOrder" = Ok (CI (map (fun n => Z.of_nat (n_order n)) ns)) }.
(** One host per tree, listed in the order of the trees. *)
Definition one_host_per_tree (ns : list node) : Prop :=
  exists hosts, kept (fun n => n_iso n <> 0) ns hosts /\ map n_order hosts = seq 0 (List.length hosts) /\ forall n, In n ns -> (n_order n < List.length hosts)%nat.

(** Distances: the smallest distance between [p] and the points of the line through the origin with direction [v]. *)
Definition len (p : R * R * R) : R := sqrt (fst (fst p) ^ 2 + snd (fst p) ^ 2 + snd p ^ 2).
Definition line_distance (p v : R * R * R) (dist : R) : Prop :=
  let d t := len (fst (fst p) - t * fst (fst v), snd (fst p) - t * snd (fst v), snd p - t * snd v) in
  (exists t, d t = dist) /\ (forall t, dist <= d t).
(** The direction with spherical angles theta and phi. *)
Definition direction (theta phi : R) : R * R * R := (sin theta * cos phi, sin theta * sin phi, cos theta).

(** The documented cuts: a subhalo of the tree, inside the virial radius of the tree's host, mass strictly between the
    limits, and closer to the line of sight than half the opening angle. *)
Record passes (ns : list node) (kpc cone : R) (tree : Z) (logmlow logmhigh : R) (bound : bool) (theta phi : R) (n : node) : Prop := {
  pa_sub : n_iso n = 0;
  pa_vir : exists h, In h ns /\ n_iso h <> 0 /\ n_order h = n_order n /\ len (n_pos n) < n_rvir h;
  pa_mass : pow10 logmlow < (if bound then n_bound n else n_infall n) < pow10 logmhigh;
  pa_tree : n_tree n = tree;
  pa_cone : exists dist, line_distance (n_pos n) (direction theta phi) dist /\ 1000 * dist < cone / 2 * kpc }.
(** The halo that represents a node; positions in arcsec on two perpendicular axes in the plane of the sky. *)
Record represents (kpc theta phi : R) (n : node) (h : ghalo_out) : Prop := {
  re_mass : go_mass h = n_infall n;
  re_x : go_x h * kpc = 1000 * (cos theta * cos phi * fst (fst (n_pos n)) + cos theta * sin phi * snd (fst (n_pos n)) - sin theta * snd (n_pos n));
  re_y : go_y h * kpc = 1000 * (- sin phi * fst (fst (n_pos n)) + cos phi * snd (fst (n_pos n)));
  re_r2d : exists dist, line_distance (n_pos n) (direction theta phi) dist /\ (go_x h * kpc) ^ 2 + (go_y h * kpc) ^ 2 = (1000 * dist) ^ 2;
  re_r3d : go_r3d h = 1000 * len (n_pos n);
  re_z : go_z h = 0.5; re_flag : go_sub h = true;
  re_rhos : go_rhos h = 4 * n_rhos n / 1000 ^ 3; re_rs : go_rs h = 1000 * n_rs n; re_rt : go_rt h = 1000 * n_rt n;
  re_c : n_rs n <> 0 -> go_c h = n_conc n; re_rv : go_rv h = 1000 * (n_conc n * n_rs n);
  re_zinf : go_zinf h = n_zinf n; re_id : go_id h = IZR (n_id n) }.

(** ** Projections *)
Lemma sum3_nonneg p : 0 <= fst (fst p) ^ 2 + snd (fst p) ^ 2 + snd p ^ 2.
Proof. pose proof (pow2_ge_0 (fst (fst p))). pose proof (pow2_ge_0 (snd (fst p))). pose proof (pow2_ge_0 (snd p)). lra. Qed.
Lemma len_sq p : len p ^ 2 = fst (fst p) ^ 2 + snd (fst p) ^ 2 + snd p ^ 2.
Proof. unfold len. rewrite <- Rsqr_pow2. apply Rsqr_sqrt, sum3_nonneg. Qed.
Lemma trip_eq a b c a' b' c' : a = a' -> b = b' -> c = c' -> len (a, b, c) = len (a', b', c'). Proof. intros -> -> ->. reflexivity. Qed.
Lemma len_pos p : 0 <= len p. Proof. apply sqrt_pos. Qed.
Lemma line_distance_unique p v a b : line_distance p v a -> line_distance p v b -> a = b.
Proof. intros [[t Ht] A] [[u Hu] B]. pose proof (A u). pose proof (B t). lra. Qed.
(** The distance from a line in terms of a unit vector. *)
Lemma line_distance_unit p v k u : k <> 0 -> v = scale3 k u -> fst (fst u) ^ 2 + snd (fst u) ^ 2 + snd u ^ 2 = 1 ->
  let q := fst (fst p) ^ 2 + snd (fst p) ^ 2 + snd p ^ 2 - (fst (fst u) * fst (fst p) + snd (fst u) * snd (fst p) + snd u * snd p) ^ 2 in
  0 <= q /\ line_distance p v (sqrt q).
Proof.
  intros K -> U q. set (s := fst (fst u) * fst (fst p) + snd (fst u) * snd (fst p) + snd u * snd p) in *.
  destruct p as [[x y] z]. destruct u as [[a b] c]. cbn [fst snd scale3] in *.
  assert (E : forall t, (x - t * (k * a)) ^ 2 + (y - t * (k * b)) ^ 2 + (z - t * (k * c)) ^ 2 = q + (s - t * k) ^ 2).
  { intros t. unfold q. replace ((x - t * (k * a)) ^ 2 + (y - t * (k * b)) ^ 2 + (z - t * (k * c)) ^ 2)
      with (x ^ 2 + y ^ 2 + z ^ 2 - 2 * (t * k) * s + (t * k) ^ 2 * (a ^ 2 + b ^ 2 + c ^ 2)) by (unfold s; ring). rewrite U. ring. }
  assert (E0 : s - s / k * k = 0) by (field; exact K).
  assert (Q : 0 <= q). { pose proof (E (s / k)) as H. rewrite E0 in H. pose proof (pow2_ge_0 (x - s / k * (k * a))). pose proof (pow2_ge_0 (y - s / k * (k * b))). pose proof (pow2_ge_0 (z - s / k * (k * c))). lra. }
  split; [exact Q|]. split.
  - exists (s / k). unfold len. cbn [fst snd]. rewrite E, E0. f_equal. ring.
  - intros t. unfold len. cbn [fst snd]. apply sqrt_le_1_alt. rewrite E. pose proof (pow2_ge_0 (s - t * k)). lra.
Qed.

(** The projected radius is the distance from the line of sight: the smallest distance between the point and the line
    through the origin along the plane's normal, whatever the length of the normal. *)
Theorem C64_projected_radius : forall p v, len v <> 0 -> line_distance p v (project_r2d p v).
Proof.
  intros p v N. change (len v) with (norm3 v) in N. set (u := scale3 (/ norm3 v) v).
  assert (EV : v = scale3 (norm3 v) u). { unfold u, scale3. destruct v as [[a b] c]. cbn [fst snd]. set (k := norm3 (a, b, c)) in *. repeat f_equal; field; exact N. }
  assert (U : fst (fst u) ^ 2 + snd (fst u) ^ 2 + snd u ^ 2 = 1).
  { pose proof (len_sq v) as S. change (len v) with (norm3 v) in S. unfold u, scale3. cbn [fst snd]. set (k := norm3 v) in *. clearbody k.
    replace ((/ k * fst (fst v)) ^ 2 + (/ k * snd (fst v)) ^ 2 + (/ k * snd v) ^ 2) with ((fst (fst v) ^ 2 + snd (fst v) ^ 2 + snd v ^ 2) / k ^ 2) by (field; exact N).
    rewrite <- S. field. exact N. }
  destruct (line_distance_unit p v (norm3 v) u N EV U) as [_ L]. unfold project_r2d. fold u. change (norm3 p) with (len p). rewrite len_sq. exact L.
Qed.
Example C64_projected_radius_nonvacuous : len (0, 0, 2) <> 0 /\ project_r2d (3, 4, 7) (0, 0, 2) = 5.
Proof.
  assert (E : len (0, 0, 2) = 2) by (unfold len; cbn [fst snd]; replace (0 ^ 2 + 0 ^ 2 + 2 ^ 2) with (2 * 2) by ring; apply sqrt_square; lra).
  split; [rewrite E; lra|]. unfold project_r2d. change (norm3 (0, 0, 2)) with (len (0, 0, 2)). rewrite E. change (norm3 (3, 4, 7)) with (len (3, 4, 7)). rewrite len_sq.
  unfold dot3, scale3. cbn [fst snd]. match goal with |- sqrt ?x = 5 => replace x with (5 * 5) by field end. apply sqrt_square. lra.
Qed.
(** Consequences: it never exceeds the distance from the centre, and it does not change when the point is moved along the
    line of sight. *)
Theorem C64_projected_radius_bounds : forall p v, len v <> 0 ->
  0 <= project_r2d p v <= len p /\ forall t, project_r2d (fst (fst p) + t * fst (fst v), snd (fst p) + t * snd (fst v), snd p + t * snd v) v = project_r2d p v.
Proof.
  intros p v N. pose proof (C64_projected_radius p v N) as D. split.
  - split; [apply sqrt_pos|]. destruct D as [_ D]. specialize (D 0). eapply Rle_trans; [exact D|]. apply Req_le. destruct p as [[x y] z]. cbn [fst snd]. apply trip_eq; ring.
  - intros t. apply (line_distance_unique p v); [|exact D].
    destruct (C64_projected_radius (fst (fst p) + t * fst (fst v), snd (fst p) + t * snd (fst v), snd p + t * snd v) v N) as [[s Hs] L]. cbn [fst snd] in *. split.
    + exists (s - t). rewrite <- Hs. apply trip_eq; ring.
    + intros w. specialize (L (w + t)). eapply Rle_trans; [exact L|]. apply Req_le. apply trip_eq; ring.
Qed.
Example C64_projected_radius_bounds_nonvacuous : len (0, 0, 2) <> 0.
Proof. apply C64_projected_radius_nonvacuous. Qed.

(** The two coordinates that DMFromGalacticus computes span the plane perpendicular to the direction (theta, phi). *)
Lemma sc1 a : sin a ^ 2 + cos a ^ 2 = 1. Proof. pose proof (sin2_cos2 a) as H. unfold Rsqr in H. lra. Qed.
Lemma direction_unit th ph : fst (fst (direction th ph)) ^ 2 + snd (fst (direction th ph)) ^ 2 + snd (direction th ph) ^ 2 = 1.
Proof. unfold direction. cbn [fst snd]. pose proof (sc1 th). pose proof (sc1 ph). replace ((sin th * cos ph) ^ 2 + (sin th * sin ph) ^ 2) with (sin th ^ 2 * (sin ph ^ 2 + cos ph ^ 2)) by ring. rewrite H0. lra. Qed.
Lemma axes th ph p : let x := dot3 (rotation th ph (1, 0, 0)) p in let y := dot3 (rotation th ph (0, 1, 0)) p in
  x = cos th * cos ph * fst (fst p) + cos th * sin ph * snd (fst p) - sin th * snd p /\ y = - sin ph * fst (fst p) + cos ph * snd (fst p) /\
  exists dist, line_distance p (direction th ph) dist /\ sqrt (x ^ 2 + y ^ 2) = dist /\ x ^ 2 + y ^ 2 = dist ^ 2.
Proof.
  intros x y. assert (Ex : x = cos th * cos ph * fst (fst p) + cos th * sin ph * snd (fst p) - sin th * snd p).
  { unfold x, rotation, rot_z, rot_y, dot3. cbn [fst snd]. rewrite sin_0, cos_0. ring. }
  assert (Ey : y = - sin ph * fst (fst p) + cos ph * snd (fst p)).
  { unfold y, rotation, rot_z, rot_y, dot3. cbn [fst snd]. rewrite sin_0, cos_0. ring. }
  split; [exact Ex|]. split; [exact Ey|].
  pose proof (direction_unit th ph) as U. destruct (line_distance_unit p (direction th ph) 1 (direction th ph) ltac:(lra)) as [Q D].
  { unfold scale3. rewrite !Rmult_1_l. destruct (direction th ph) as [[? ?] ?]. reflexivity. } { exact U. }
  match type of Q with 0 <= ?e => set (q := e) in * end.
  assert (E : x ^ 2 + y ^ 2 = q).
  { rewrite Ex, Ey. unfold q, direction. cbn [fst snd]. destruct p as [[a b] c]. cbn [fst snd]. pose proof (sc1 th) as S1. pose proof (sc1 ph) as S2.
    assert (C1 : cos th ^ 2 = 1 - sin th ^ 2) by lra. assert (C2 : cos ph ^ 2 = 1 - sin ph ^ 2) by lra.
    set (s := sin th) in *. set (k := cos th) in *. set (s' := sin ph) in *. set (k' := cos ph) in *. clearbody s k s' k'.
    replace ((k * k' * a + k * s' * b - s * c) ^ 2 + (- s' * a + k' * b) ^ 2)
      with (k ^ 2 * k' ^ 2 * a ^ 2 + k ^ 2 * s' ^ 2 * b ^ 2 + s ^ 2 * c ^ 2 + 2 * k ^ 2 * k' * s' * a * b - 2 * k * s * c * (k' * a + s' * b) + s' ^ 2 * a ^ 2 + k' ^ 2 * b ^ 2 - 2 * s' * k' * a * b) by ring.
    replace (a ^ 2 + b ^ 2 + c ^ 2 - (s * k' * a + s * s' * b + k * c) ^ 2)
      with (a ^ 2 + b ^ 2 + c ^ 2 - s ^ 2 * k' ^ 2 * a ^ 2 - s ^ 2 * s' ^ 2 * b ^ 2 - k ^ 2 * c ^ 2 - 2 * s ^ 2 * k' * s' * a * b - 2 * s * k * c * (k' * a + s' * b)) by ring.
    rewrite C1, C2. ring. }
  exists (sqrt q). split; [exact D|]. rewrite E. split; [reflexivity|]. rewrite <- Rsqr_pow2. symmetry. apply Rsqr_sqrt. exact Q.
Qed.
Theorem C64_sky_plane : forall theta phi p,
  let x := dot3 (rotation theta phi (1, 0, 0)) p in let y := dot3 (rotation theta phi (0, 1, 0)) p in
  sqrt (x ^ 2 + y ^ 2) = project_r2d p (direction theta phi).
Proof.
  intros th ph p x y. destruct (axes th ph p) as (_ & _ & dist & D & E & _). fold x y in E. rewrite E.
  apply (line_distance_unique p (direction th ph)); [exact D|]. apply C64_projected_radius. unfold len. rewrite direction_unit, sqrt_1. lra.
Qed.
Example C64_sky_plane_nonvacuous : dot3 (rotation 0 0 (1, 0, 0)) (3, 4, 7) = 3 /\ dot3 (rotation 0 0 (0, 1, 0)) (3, 4, 7) = 4.
Proof. unfold dot3, rotation, rot_z, rot_y. cbn [fst snd]. rewrite sin_0, cos_0. lra. Qed.

(** ** Filters *)
Lemma pick_map {A} (f : A -> bool) l : pick l (map f l) = filter f l.
Proof. induction l as [|a l IH]; cbn; [reflexivity|]. destruct (f a); rewrite IH; reflexivity. Qed.
Lemma pick_map2 {A B} (g : A -> B) (f : A -> bool) l : pick (map g l) (map f l) = map g (filter f l).
Proof. induction l as [|a l IH]; cbn; [reflexivity|]. destruct (f a); cbn; rewrite IH; reflexivity. Qed.
Lemma zipb_map {A} (f g : A -> bool) l : zipb (map f l) (map g l) = map (fun a => andb (f a) (g a)) l.
Proof. induction l as [|a l IH]; cbn; [reflexivity|]. rewrite IH. reflexivity. Qed.
Lemma band_map {A} (f g : A -> bool) l : band (map f l) (map g l) = Ok (map (fun a => andb (f a) (g a)) l).
Proof. unfold band. rewrite !map_length, Nat.eqb_refl, zipb_map. reflexivity. Qed.
Lemma col_R_len c : List.length (col_R c) = col_len c.
Proof. destruct c; cbn; [reflexivity|apply map_length]. Qed.
Lemma pick_IZR l m : map IZR (pick l m) = pick (map IZR l) m.
Proof. revert m. induction l as [|a l IH]; intros [|b m]; cbn; try reflexivity. destruct b; cbn; rewrite IH; reflexivity. Qed.
Lemma col_mask_R c m : List.length m = col_len c -> exists c', col_mask c m = Ok c' /\ col_R c' = pick (col_R c) m.
Proof. intros L. unfold col_mask. rewrite L, Nat.eqb_refl. eexists. split; [reflexivity|]. destruct c; cbn; [reflexivity|apply pick_IZR]. Qed.
Lemma pick_len {A B} (l : list A) (l' : list B) m : List.length l = List.length l' -> List.length (pick l m) = List.length (pick l' m).
Proof. revert l' m. induction l as [|a l IH]; intros [|a' l'] [|b m] L; cbn in *; try discriminate; try reflexivity. injection L as L. destruct b; cbn; rewrite (IH l' m L); reflexivity. Qed.

(** The two kinds of nodes: every node is in exactly one of the two filters. *)
Theorem C64_complementary : forall d m, filter_subhalos d = Ok m ->
  exists m', filter_halos d = Ok m' /\ List.length m' = List.length m /\ forall i b, nth_error m i = Some b -> nth_error m' i = Some (negb b).
Proof.
  intros d m E. unfold filter_halos. rewrite E. cbn [bind]. eexists. split; [reflexivity|]. split; [apply map_length|]. intros i b H. rewrite nth_error_map, H. reflexivity.
Qed.
Example C64_complementary_nonvacuous : exists m, filter_subhalos (("nodeIsIsolated", CI (1 :: 0 :: nil)%Z) :: nil) = Ok m.
Proof. eexists. reflexivity. Qed.

(** Applying a filter to the table of some nodes gives the table of the nodes that pass, with the same columns. *)
Lemma apply_filter_spec d m N : (forall k c, In (k, c) d -> col_len c = N) -> List.length m = N ->
  exists d', apply_filter d m = Ok d' /\ map fst d' = map fst d /\ (forall k c, dget d k = Ok c -> exists c', col_mask c m = Ok c' /\ dget d' k = Ok c') /\
    (forall k c', In (k, c') d' -> exists c, In (k, c) d /\ col_mask c m = Ok c').
Proof.
  intros L M. induction d as [|[k c] d IH].
  - exists nil. split; [reflexivity|]. split; [reflexivity|]. split; [intros k c E; discriminate E|intros k c' []].
  - destruct IH as (d' & E & F & G & H); [intros k' c' I; apply (L k' c'); right; exact I|].
    destruct (col_mask_R c m) as (c' & EC & _). { rewrite M. symmetry. apply (L k c). left. reflexivity. }
    exists ((k, c') :: d'). unfold apply_filter in *. cbn [mapM snd fst]. rewrite EC. cbn [bind]. rewrite E. cbn [bind map fst].
    split; [reflexivity|]. split; [rewrite F; reflexivity|]. split.
    + intros k' c0. cbn [dget]. destruct (String.eqb k' k); [intros X; injection X as <-; exists c'; split; [exact EC|reflexivity]|apply G].
    + intros k' c0 [X|I]; [injection X as <- <-; exists c; split; [left; reflexivity|exact EC]|]. destruct (H k' c0 I) as (c1 & I1 & E1). exists c1. split; [right; exact I1|exact E1].
Qed.
Theorem C64_apply_filter : forall d ns f, table_of d ns ->
  exists d', apply_filter d (map f ns) = Ok d' /\ map fst d' = map fst d /\ table_of d' (filter f ns).
Proof.
  intros d ns f T. destruct (apply_filter_spec d (map f ns) (List.length ns) (to_len _ _ T) (map_length f ns)) as (d' & E & F & G & H).
  exists d'. split; [exact E|]. split; [exact F|].
  assert (C : forall k g, column d k g ns -> column d' k g (filter f ns)).
  { intros k g (c & Ec & Rc). destruct (G k c Ec) as (c' & M & Ed). exists c'. split; [exact Ed|].
    destruct (col_mask_R c (map f ns)) as (c2 & M2 & R2); [rewrite map_length, <- col_R_len, Rc, map_length; reflexivity|]. rewrite M in M2. injection M2 as <-. rewrite R2, Rc. apply pick_map2. }
  split; try (apply C; apply T).
  - intros k c' I. destruct (H k c' I) as (c & Ic & M). pose proof (to_len _ _ T k c Ic) as L.
    destruct (col_mask_R c (map f ns)) as (c2 & M2 & R2); [rewrite map_length; congruence|]. rewrite M in M2. injection M2 as <-. rewrite <- col_R_len, R2, <- pick_map.
    apply pick_len. rewrite col_R_len. exact L.
  - destruct (G _ _ (to_order _ _ T)) as (c' & M & Ed). rewrite Ed. f_equal. unfold col_mask in M. destruct (Nat.eqb _ _); [|discriminate]. injection M as <-. f_equal. apply pick_map2.
Qed.
(** A mask of the wrong length is refused. *)
Theorem C64_wrong_mask : forall d k c m, In (k, c) d -> List.length m <> col_len c -> exists e, apply_filter d m = Err e.
Proof.
  intros d k c m I N. unfold apply_filter. induction d as [|[k' c'] d IH]; [destruct I|]. cbn [mapM snd]. destruct I as [X|I].
  - injection X as -> ->. unfold col_mask. assert (B : Nat.eqb (col_len c) (List.length m) = false) by (apply Nat.eqb_neq; congruence). rewrite B. exists EIndexError. reflexivity.
  - destruct (col_mask c' m) as [x|e]; cbn [bind]; [|exists e; reflexivity]. destruct (IH I) as [e ->]. exists e. reflexivity.
Qed.
Example C64_wrong_mask_nonvacuous : apply_filter (("a", CF (1 :: 2 :: nil)) :: nil) (true :: nil) = Err EIndexError.
Proof. reflexivity. Qed.
(** Selecting a single subhalo never works. *)
Theorem C64_select_subhalo_refuted : forall d id, select_subhalo d id = Err ETypeError \/ select_subhalo d id = Err EKeyError.
Proof.
  intros d id. unfold select_subhalo. destruct (dget d "id") as [c|e] eqn:E; cbn [bind]; [left; reflexivity|right]. f_equal.
  induction d as [|[k v] d IH]; cbn [dget] in E; [congruence|]. destruct (String.eqb "id" k); [discriminate|apply IH; exact E].
Qed.
Example C64_select_subhalo_nonvacuous : select_subhalo (("id", CI (1 :: 2 :: nil)%Z) :: nil) 1 = Err ETypeError.
Proof. reflexivity. Qed.

(** ** The columns as functions of the nodes *)
Lemma combine_map {A B C} (f : A -> B) (g : A -> C) l : combine (map f l) (map g l) = map (fun a => (f a, g a)) l.
Proof. induction l; cbn; congruence. Qed.
Lemma coords_table d ns : table_of d ns -> coords d = Ok (map n_pos ns).
Proof.
  intros T. destruct (to_x _ _ T) as (x & Ex & Rx). destruct (to_y _ _ T) as (y & Ey & Ry). destruct (to_z _ _ T) as (z & Ez & Rz).
  unfold coords. rewrite Ex, Ey, Ez. cbn [bind]. unfold asarray3. rewrite Rx, Ry, Rz, !map_length, !Nat.eqb_refl. cbn [andb]. rewrite !combine_map. f_equal.
  apply map_ext. intros n. destruct (n_pos n) as [[a b] c]. reflexivity.
Qed.
Lemma subhalos_table d ns : table_of d ns -> filter_subhalos d = Ok (map (fun n => Reqb (n_iso n) 0) ns).
Proof. intros T. destruct (to_iso _ _ T) as (c & E & Rc). unfold filter_subhalos. rewrite E. cbn [bind]. rewrite Rc, map_map. reflexivity. Qed.
Lemma range_table d ns lo hi k f : column d k f ns -> filter_range d lo hi k = Ok (map (fun n => andb (Rltb lo (f n)) (Rltb (f n) hi)) ns).
Proof. intros (c & E & Rc). unfold filter_range. rewrite E. cbn [bind]. rewrite Rc, map_map. reflexivity. Qed.
Lemma colR_table d ns k f : column d k f ns -> colR d k = Ok (map f ns).
Proof. intros (c & E & Rc). unfold colR. rewrite E. cbn [bind]. rewrite Rc. reflexivity. Qed.
Lemma take_map {A} (L : list A) (dflt : A) (g : node -> nat) ns : (forall n, In n ns -> (g n < List.length L)%nat) ->
  take L (CI (map (fun n => Z.of_nat (g n)) ns)) = Ok (map (fun n => nth (g n) L dflt) ns).
Proof.
  intros B. cbn [take]. induction ns as [|n ns IH]; [reflexivity|]. cbn [map mapM]. rewrite IH by (intros k Hk; apply B; right; exact Hk).
  assert (H : take1 L (Z.of_nat (g n)) = Ok (nth (g n) L dflt)).
  { unfold take1. destruct (Z.ltb_spec (Z.of_nat (g n)) 0); [lia|]. destruct (Z.ltb_spec (Z.of_nat (g n)) 0); [lia|]. rewrite Nat2Z.id, (nth_error_nth' L dflt (B n (or_introl eq_refl))). reflexivity. }
  rewrite H. reflexivity.
Qed.
Lemma zipw_map {A} (f g : A -> R) l : zipw Rltb (map f l) (map g l) = map (fun a => Rltb (f a) (g a)) l.
Proof. induction l; cbn; congruence. Qed.
Definition ishost (n : node) : bool := negb (Reqb (n_iso n) 0).
Lemma ishost_iff n : ishost n = true <-> n_iso n <> 0.
Proof. unfold ishost. rewrite Bool.negb_true_iff. split; [intros H E; apply Reqb_false in H; auto|intros H; apply Reqb_false; exact H]. Qed.
Lemma virialized_table d ns : table_of d ns -> one_host_per_tree ns ->
  exists g : node -> bool, filter_virialized d = Ok (map g ns) /\
    forall n, In n ns -> (g n = true <-> exists h, In h ns /\ n_iso h <> 0 /\ n_order h = n_order n /\ len (n_pos n) < n_rvir h).
Proof.
  intros T (hosts & K & S & B).
  assert (EH : hosts = filter ishost ns) by (apply (kept_filter_eq (fun n => n_iso n <> 0) ishost); [exact ishost_iff|exact K]).
  set (L := map n_rvir hosts). exists (fun n => Rltb (norm3 (n_pos n)) (nth (n_order n) L 0)). split.
  - unfold filter_virialized. rewrite (coords_table _ _ T). cbn [bind]. unfold filter_halos. rewrite (subhalos_table _ _ T). cbn [bind]. rewrite map_map.
    destruct (to_rvir _ _ T) as (c & E & Rc). rewrite E. cbn [bind].
    destruct (col_mask_R c (map (fun n => negb (Reqb (n_iso n) 0)) ns)) as (c' & M & Rm); [rewrite map_length, <- col_R_len, Rc, map_length; reflexivity|].
    rewrite M. cbn [bind]. rewrite (to_order _ _ T). cbn [bind]. rewrite Rm, Rc, pick_map2. change (fun n => negb (Reqb (n_iso n) 0)) with ishost. rewrite <- EH. fold L.
    rewrite (take_map L 0 n_order ns) by (intros n I; unfold L; rewrite map_length; apply B; exact I). cbn [bind]. unfold less. rewrite !map_length, Nat.eqb_refl, map_map, zipw_map. reflexivity.
  - intros n I. rewrite Rltb_true. change (norm3 (n_pos n)) with (len (n_pos n)).
    assert (NE : exists h, nth_error hosts (n_order n) = Some h /\ n_order h = n_order n /\ nth (n_order n) L 0 = n_rvir h).
    { pose proof (B n I) as Bn. destruct (nth_error hosts (n_order n)) as [h|] eqn:E; [|apply nth_error_None in E; lia]. exists h. split; [reflexivity|]. split.
      - assert (X : nth_error (map n_order hosts) (n_order n) = Some (n_order h)) by (rewrite nth_error_map, E; reflexivity). rewrite S in X.
        rewrite (nth_error_nth' (seq 0 (List.length hosts)) 0%nat) in X by (rewrite seq_length; exact Bn). rewrite seq_nth in X by exact Bn. injection X as X. lia.
      - unfold L. rewrite (nth_indep _ 0 (n_rvir h)) by (rewrite map_length; exact Bn). rewrite map_nth. f_equal. apply nth_error_nth. exact E. }
    destruct NE as (h & E & O & V). rewrite V. split.
    + intros Lt. exists h. apply nth_error_In in E. apply (kept_In _ _ _ _ K) in E. tauto.
    + intros (h' & I' & Hi & O' & Lt). assert (IH : In h' hosts) by (apply (kept_In _ _ _ _ K); tauto). apply In_nth_error in IH. destruct IH as [j Ej].
      assert (J : nth_error (map n_order hosts) j = Some (n_order h')) by (rewrite nth_error_map, Ej; reflexivity). rewrite S in J.
      assert (Bj : (j < List.length hosts)%nat) by (apply nth_error_Some; congruence).
      rewrite (nth_error_nth' (seq 0 (List.length hosts)) 0%nat) in J by (rewrite seq_length; exact Bj). rewrite seq_nth in J by exact Bj. injection J as J.
      assert (JN : j = n_order n) by lia. rewrite JN, E in Ej. injection Ej as ->. exact Lt.
Qed.
Lemma Forall2_map_r {A B} (P : A -> B -> Prop) (g : A -> B) l : (forall a, In a l -> P a (g a)) -> Forall2 P l (map g l).
Proof. induction l; cbn; constructor; auto. Qed.

(** The filter for nodes inside their host compares each node with the host of its own tree. *)
Theorem C64_virialized : forall d ns, table_of d ns -> one_host_per_tree ns ->
  exists m, filter_virialized d = Ok m /\ Forall2 (fun n b => b = true <-> exists h, In h ns /\ n_iso h <> 0 /\ n_order h = n_order n /\ len (n_pos n) < n_rvir h) ns m.
Proof. intros d ns T O. destruct (virialized_table d ns T O) as (g & E & G). exists (map g ns). split; [exact E|]. apply Forall2_map_r. exact G. Qed.
(** The other filters: subhalos, mass (strictly inside the limits), tree and distance from the line of sight. *)
Theorem C64_node_filters : forall d ns, table_of d ns ->
  (exists m, filter_subhalos d = Ok m /\ Forall2 (fun n b => b = true <-> n_iso n = 0) ns m) /\
  (forall lo hi, exists m, filter_range d lo hi "satelliteBoundMass" = Ok m /\ Forall2 (fun n b => b = true <-> lo < n_bound n < hi) ns m) /\
  (forall i, exists m, filter_tree d i = Ok m /\ Forall2 (fun n b => b = true <-> n_tree n = i) ns m) /\
  (forall rmax v, len v <> 0 -> exists m, filter_r2d d rmax v = Ok m /\ Forall2 (fun n b => b = true <-> exists dist, line_distance (n_pos n) v dist /\ dist < rmax) ns m).
Proof.
  intros d ns T. split; [|split; [|split]].
  - rewrite (subhalos_table _ _ T). eexists. split; [reflexivity|]. apply Forall2_map_r. intros n _. apply Reqb_true.
  - intros lo hi. rewrite (range_table d ns lo hi _ _ (to_bound _ _ T)). eexists. split; [reflexivity|]. apply Forall2_map_r. intros n _. rewrite Bool.andb_true_iff, !Rltb_true. reflexivity.
  - intros i. destruct (to_tree _ _ T) as (c & E & Rc). unfold filter_tree. rewrite E. cbn [bind]. rewrite Rc, map_map. eexists. split; [reflexivity|]. apply Forall2_map_r. intros n _. rewrite Reqb_true.
    split; [apply eq_IZR|intros ->; reflexivity].
  - intros rmax v N. unfold filter_r2d. rewrite (coords_table _ _ T). cbn [bind]. rewrite map_map. eexists. split; [reflexivity|]. apply Forall2_map_r. intros n _. rewrite Rltb_true.
    pose proof (C64_projected_radius (n_pos n) v N) as D. split; [intros H; exists (project_r2d (n_pos n) v); auto|]. intros (dist & D' & H). rewrite (line_distance_unique _ _ _ _ D D'). exact H.
Qed.

(** ** C65 *)
Lemma selection_table d ns kpc cone tree lo hi bound th ph : table_of d ns -> one_host_per_tree ns ->
  exists g : node -> bool, selection d kpc cone tree lo hi bound th ph None = Ok (map g ns) /\
    forall n, In n ns -> (g n = true <-> passes ns kpc cone tree lo hi bound th ph n).
Proof.
  intros T O. destruct (virialized_table d ns T O) as (v & EV & V).
  assert (CM : column d (if bound then "satelliteBoundMass" else "massHaloEnclosedCurrent") (fun n => if bound then n_bound n else n_infall n) ns).
  { destruct bound; [exact (to_bound _ _ T)|exact (to_infall _ _ T)]. }
  set (near := fun n => Rltb (sqrt (dot3 (rotation th ph (1, 0, 0)) (scale3 1000 (n_pos n)) ^ 2 + dot3 (rotation th ph (0, 1, 0)) (scale3 1000 (n_pos n)) ^ 2)) (cone / 2 * kpc)).
  exists (fun n => andb (andb (andb (andb (Reqb (n_iso n) 0) (v n)) (andb (Rltb (pow10 lo) (if bound then n_bound n else n_infall n)) (Rltb (if bound then n_bound n else n_infall n) (pow10 hi)))) (Reqb (IZR (n_tree n)) (IZR tree))) (near n)).
  split.
  - unfold selection. rewrite (coords_table _ _ T). cbn [bind]. rewrite (subhalos_table _ _ T). cbn [bind]. rewrite EV. cbn [bind]. rewrite (range_table _ _ _ _ _ _ CM). cbn [bind].
    destruct (to_tree _ _ T) as (c & E & Rc). unfold filter_tree. rewrite E. cbn [bind]. rewrite Rc, !map_map. rewrite band_map. cbn [bind]. rewrite band_map. cbn [bind]. rewrite band_map. cbn [bind]. rewrite band_map. reflexivity.
  - intros n I. rewrite !Bool.andb_true_iff, !Rltb_true, !Reqb_true, (V n I).
    assert (NR : near n = true <-> exists dist, line_distance (n_pos n) (direction th ph) dist /\ 1000 * dist < cone / 2 * kpc).
    { unfold near. rewrite Rltb_true. destruct (axes th ph (n_pos n)) as (_ & _ & dist & D & E & _).
      assert (S : forall a, dot3 a (scale3 1000 (n_pos n)) = 1000 * dot3 a (n_pos n)) by (intros a; unfold dot3, scale3; cbn [fst snd]; ring). rewrite !S.
      set (x := dot3 (rotation th ph (1, 0, 0)) (n_pos n)) in *. set (y := dot3 (rotation th ph (0, 1, 0)) (n_pos n)) in *.
      assert (Q : sqrt ((1000 * x) ^ 2 + (1000 * y) ^ 2) = 1000 * dist).
      { replace ((1000 * x) ^ 2 + (1000 * y) ^ 2) with ((1000 * 1000) * (x ^ 2 + y ^ 2)) by ring. rewrite sqrt_mult_alt by lra. rewrite sqrt_square by lra. rewrite E. reflexivity. }
      rewrite Q. split; [intros H; exists dist; auto|]. intros (dist' & D' & H). rewrite (line_distance_unique _ _ _ _ D D'). exact H. }
    rewrite NR. split.
    + intros ((((A & B) & C) & Tr) & N). split; auto. apply eq_IZR. exact Tr.
    + intros [A B C Tr N]. rewrite Tr. tauto.
Qed.
Lemma enum_map {A B} (f : nat * A -> B) (g : A -> B) (l : list A) k : (forall i a, nth_error l i = Some a -> f ((k + i)%nat, a) = g a) -> map f (enum_from k l) = map g l.
Proof.
  revert k. induction l as [|a l IH]; intros k H; [reflexivity|]. cbn [enum_from map]. f_equal.
  - specialize (H 0%nat a eq_refl). rewrite Nat.add_0_r in H. exact H.
  - apply IH. intros i b E. specialize (H (Datatypes.S i) b E). rewrite <- Nat.add_succ_comm in H. exact H.
Qed.
Lemma enum_from_map {A B} (f : A -> B) (l : list A) k : enum_from k (map f l) = map (fun p => (fst p, f (snd p))) (enum_from k l).
Proof. revert k. induction l as [|a l IH]; intros k; [reflexivity|]. cbn [enum_from map]. rewrite IH. reflexivity. Qed.
Lemma halos_of_mask d ns g kpc cone tree lo hi bound th ph user : table_of d ns -> 0 < kpc ->
  selection d kpc cone tree lo hi bound th ph user = Ok (map g ns) ->
  exists hs, galacticus_halos d kpc cone tree lo hi bound th ph user = Ok hs /\ Forall2 (represents kpc th ph) (filter g ns) hs.
Proof.
  intros T K E. unfold galacticus_halos. rewrite E. cbn [bind]. destruct (C64_apply_filter d ns g T) as (d' & Ed & _ & T'). rewrite Ed. cbn [bind].
  rewrite (coords_table _ _ T). cbn [bind]. rewrite !map_length, Nat.eqb_refl. cbn [bind].
  rewrite (colR_table _ _ _ _ (to_rhos _ _ T')), (colR_table _ _ _ _ (to_rs _ _ T')), (colR_table _ _ _ _ (to_rt _ _ T')), (colR_table _ _ _ _ (to_conc _ _ T')),
    (colR_table _ _ _ _ (to_zinf _ _ T')), (colR_table _ _ _ _ (to_id _ _ T')), (colR_table _ _ _ _ (to_infall _ _ T')). cbn [bind].
  rewrite map_map, pick_map2. eexists. split; [reflexivity|]. set (sel := filter g ns).
  unfold enumerate. rewrite enum_from_map, map_map.
  rewrite (enum_map _ (fun n => let q := scale3 1000 (n_pos n) in from_params kpc (n_infall n) (dot3 (rotation th ph (1, 0, 0)) q) (dot3 (rotation th ph (0, 1, 0)) q) (norm3 q) 0.5
     (4 * n_rhos n / 1000 ^ 3) (n_rs n * 1000) (n_rt n * 1000) (n_conc n * n_rs n * 1000) (n_zinf n) (IZR (n_id n)))).
  - apply Forall2_map_r. intros n _. cbv zeta. destruct (axes th ph (n_pos n)) as (X & Y & dist & D & _ & Q).
    assert (S : forall a, dot3 a (scale3 1000 (n_pos n)) = 1000 * dot3 a (n_pos n)) by (intros a; unfold dot3, scale3; cbn [fst snd]; ring). rewrite !S.
    set (x := dot3 (rotation th ph (1, 0, 0)) (n_pos n)) in *. set (y := dot3 (rotation th ph (0, 1, 0)) (n_pos n)) in *.
    split; cbn [from_params go_mass go_x go_y go_r3d go_z go_sub go_rhos go_rs go_rt go_rv go_c go_zinf go_id]; try reflexivity; try ring.
    + rewrite <- X. field. lra.
    + rewrite <- Y. field. lra.
    + exists dist. split; [exact D|]. replace ((1000 * x / kpc * kpc) ^ 2 + (1000 * y / kpc * kpc) ^ 2) with (1000 ^ 2 * (x ^ 2 + y ^ 2)) by (field; lra). rewrite Q. ring.
    + unfold norm3, len, scale3. cbn [fst snd]. set (p := n_pos n).
      replace ((1000 * fst (fst p)) ^ 2 + (1000 * snd (fst p)) ^ 2 + (1000 * snd p) ^ 2) with ((1000 * 1000) * (fst (fst p) ^ 2 + snd (fst p) ^ 2 + snd p ^ 2)) by ring.
      rewrite sqrt_mult_alt by lra. rewrite sqrt_square by lra. reflexivity.
    + intros N. field. exact N.
  - intros i n In. cbn [fst snd Nat.add].
    assert (NT : forall {B} (f : node -> B) dflt, nth i (map f sel) dflt = f n).
    { intros B f dflt. apply nth_error_nth. rewrite nth_error_map, In. reflexivity. }
    rewrite !NT. reflexivity.
Qed.
(** The imported halos are, in the file's order, exactly the nodes that pass the documented cuts, and each represents its
    node. *)
Theorem C65_selected_subhalos : forall d ns kpc cone tree lo hi bound theta phi, table_of d ns -> one_host_per_tree ns -> 0 < kpc ->
  exists sel hs, kept (passes ns kpc cone tree lo hi bound theta phi) ns sel /\
    galacticus_halos d kpc cone tree lo hi bound theta phi None = Ok hs /\ Forall2 (represents kpc theta phi) sel hs.
Proof.
  intros d ns kpc cone tree lo hi bound th ph T O K. destruct (selection_table d ns kpc cone tree lo hi bound th ph T O) as (g & E & G).
  destruct (halos_of_mask _ _ _ _ _ _ _ _ _ _ _ _ T K E) as (hs & EH & F). exists (filter g ns), hs. split; [|split; assumption]. apply kept_filter. exact G.
Qed.
(** A filter given by the user replaces all cuts, including the projection aperture. *)
Theorem C65_user_filter : forall d ns f kpc cone tree lo hi bound theta phi, table_of d ns -> 0 < kpc ->
  exists hs, galacticus_halos d kpc cone tree lo hi bound theta phi (Some (map f ns)) = Ok hs /\ Forall2 (represents kpc theta phi) (filter f ns) hs.
Proof. intros d ns f kpc cone tree lo hi bound th ph T K. apply halos_of_mask; [exact T|exact K|]. unfold selection. rewrite (coords_table _ _ T). reflexivity. Qed.

(** A concrete file: one tree with a host and two subhalos, one of them outside the host. *)
Definition host0 : node := {| n_pos := (0, 0, 0); n_iso := 1; n_rvir := 0.3; n_bound := 10 ^ 13; n_infall := 10 ^ 13; n_rhos := 1; n_rs := 0.05; n_rt := 0.3; n_conc := 6; n_zinf := 0.5; n_tree := 1; n_order := 0; n_id := 7 |}.
Definition sub1 : node := {| n_pos := (0.003, 0.004, 0.2); n_iso := 0; n_rvir := 0.01; n_bound := 10 ^ 8; n_infall := 10 ^ 9; n_rhos := 1; n_rs := 0.001; n_rt := 0.01; n_conc := 15; n_zinf := 1; n_tree := 1; n_order := 0; n_id := 8 |}.
Definition sub2 : node := {| n_pos := (0.5, 0, 0); n_iso := 0; n_rvir := 0.01; n_bound := 10 ^ 8; n_infall := 10 ^ 9; n_rhos := 1; n_rs := 0.001; n_rt := 0.01; n_conc := 15; n_zinf := 1; n_tree := 1; n_order := 0; n_id := 9 |}.
Definition demo_nodes : list node := host0 :: sub1 :: sub2 :: nil.
Definition demo_table : nodedata :=
  let c f := CF (map f demo_nodes) in
  ("positionOrbitalX", c (fun n => fst (fst (n_pos n)))) :: ("positionOrbitalY", c (fun n => snd (fst (n_pos n)))) :: ("positionOrbitalZ", c (fun n => snd (n_pos n)))
  :: ("nodeIsIsolated", c n_iso) :: ("darkMatterOnlyRadiusVirial", c n_rvir) :: ("satelliteBoundMass", c n_bound) :: ("massHaloEnclosedCurrent", c n_infall)
  :: ("densityNormalizationTidalTruncationNFW", c n_rhos) :: ("darkMatterProfileScaleRadius", c n_rs) :: ("radiusTidalTruncationNFW", c n_rt) :: ("concentration", c n_conc)
  :: ("redshiftLastIsolated", c n_zinf) :: ("id", CI (map n_id demo_nodes)) :: ("custom_treeIndex", CI (map n_tree demo_nodes))
  :: ("custom_treeOutputOrder", CI (map (fun n => Z.of_nat (n_order n)) demo_nodes)) :: nil.
Lemma demo_table_of : table_of demo_table demo_nodes.
Proof.
  split; try (eexists; split; reflexivity); try reflexivity.
  intros k c I. repeat (destruct I as [X|I]; [injection X as <- <-; reflexivity|]). destruct I.
Qed.
Lemma demo_hosts : one_host_per_tree demo_nodes.
Proof.
  exists (host0 :: nil). split; [|split; [reflexivity|]].
  - apply kept_take; [cbn; lra|]. apply kept_drop; [cbn; lra|]. apply kept_drop; [cbn; lra|]. constructor.
  - intros n [<-|[<-|[<-|[]]]]; cbn; lia.
Qed.
Example C64_apply_filter_nonvacuous : table_of demo_table demo_nodes. Proof. exact demo_table_of. Qed.
Example C64_virialized_nonvacuous : table_of demo_table demo_nodes /\ one_host_per_tree demo_nodes. Proof. exact (conj demo_table_of demo_hosts). Qed.
Example C64_node_filters_nonvacuous : table_of demo_table demo_nodes. Proof. exact demo_table_of. Qed.
Lemma p10 (n : nat) : pow10 (INR n) = 10 ^ n.
Proof. unfold pow10. apply Rpower_pow. lra. Qed.
(** Exactly the inner subhalo is imported. *)
Example C65_selected_subhalos_nonvacuous : exists h, galacticus_halos demo_table 6 10 1 (INR 6) (INR 10) true 0 0 None = Ok (h :: nil) /\ go_id h = 8 /\ go_mass h = 10 ^ 9.
Proof.
  destruct (C65_selected_subhalos demo_table demo_nodes 6 10 1 (INR 6) (INR 10) true 0 0 demo_table_of demo_hosts ltac:(lra)) as (sel & hs & Kp & E & F).
  assert (S : sel = sub1 :: nil).
  { apply (kept_fun _ _ _ _ Kp). apply kept_drop; [|apply kept_take; [|apply kept_drop; [|constructor]]].
    - intros P. pose proof (pa_sub _ _ _ _ _ _ _ _ _ _ P) as X. cbn in X. lra.
    - split.
      + reflexivity.
      + exists host0. split; [left; reflexivity|]. split; [cbn; lra|]. split; [reflexivity|]. unfold len. cbn. apply Rsqr_incrst_0; try lra; [|apply sqrt_pos]. rewrite Rsqr_sqrt by lra. unfold Rsqr. lra.
      + rewrite !p10. cbn [sub1 n_bound]. split; lra.
      + reflexivity.
      + exists 0.005. split; [|lra]. unfold direction. rewrite sin_0, cos_0. split.
        * exists 0.2. unfold len. cbn. match goal with |- sqrt ?e = _ => replace e with (0.005 * 0.005) by lra end. apply sqrt_square. lra.
        * intros t. unfold len. cbn [fst snd sub1 n_pos]. rewrite <- (sqrt_square 0.005) by lra. apply sqrt_le_1_alt. pose proof (pow2_ge_0 (0.2 - t * 1)). lra.
    - intros P. destruct (pa_vir _ _ _ _ _ _ _ _ _ _ P) as (h & I & Hi & _ & Lt). assert (LN : len (n_pos sub2) = 0.5). { unfold len. cbn. match goal with |- sqrt ?e = _ => replace e with (0.5 * 0.5) by lra end. apply sqrt_square. lra. }
      rewrite LN in Lt. destruct I as [<-|[<-|[<-|[]]]]; cbn in Hi, Lt; lra. }
  subst sel. inversion F as [|a b l l' Rh F']; subst. inversion F'; subst. exists b. split; [exact E|]. split; [exact (re_id _ _ _ _ _ Rh)|exact (re_mass _ _ _ _ _ Rh)].
Qed.
Example C65_user_filter_nonvacuous : exists h1 h2, galacticus_halos demo_table 6 10 1 (INR 6) (INR 10) true 0 0 (Some (map (fun n => negb (ishost n)) demo_nodes)) = Ok (h1 :: h2 :: nil) /\ go_id h2 = 9.
Proof.
  destruct (C65_user_filter demo_table demo_nodes (fun n => negb (ishost n)) 6 10 1 (INR 6) (INR 10) true 0 0 demo_table_of ltac:(lra)) as (hs & E & F).
  assert (S : filter (fun n => negb (ishost n)) demo_nodes = sub1 :: sub2 :: nil).
  { unfold demo_nodes. cbn [filter]. assert (H0 : ishost host0 = true) by (apply ishost_iff; cbn; lra). 
    assert (H1 : ishost sub1 = false) by (apply Bool.not_true_iff_false; rewrite ishost_iff; cbn; lra). assert (H2 : ishost sub2 = false) by (apply Bool.not_true_iff_false; rewrite ishost_iff; cbn; lra).
    rewrite H0, H1, H2. reflexivity. }
  rewrite S in F. inversion F as [|a b l l' R1 F1]; subst. inversion F1 as [|a' b' l2 l2' R2 F2]; subst. inversion F2; subst. exists b, b'. split; [exact E|exact (re_id _ _ _ _ _ R2)].
Qed.

(** ** C79 *)
(** A halo from the emulator is the NFW halo of its infall mass and concentration at the lens redshift. *)
Theorem C79_emulator_halo : forall C m c z, expanding C -> 0 <= z -> 0 < m -> 0 < c ->
  let '(rhos, rs, rv) := emulator_halo (co_h C) (rhoc_z C z) m c in describes_halo false m c (critical_kpc C z) rhos rs rv.
Proof.
  intros C m c z X Hz Hm Hc. destruct (C55_nfw_parameters C m c z false X Hz Hm Hc) as (a & b & r & E & _ & D).
  assert (Hh : 0 < co_h C) by apply X. assert (Hr : 0 < rhoc_z C z). { unfold rhoc_z. destruct X as (_ & A & B). specialize (B z Hz). apply Rmult_lt_0_compat; [exact A|apply pow_lt; exact B]. }
  unfold emulator_halo. unfold NFW_params_physical, nfwParam_physical in E. cbn [bind fst snd] in E. injection E as Ea Eb Er.
  assert (E1 : Rpower (3 * co_h C * m / (4 * 200 * PI * rhoc_z C z)) (1 / 3) = r200_M C (m * co_h C) z).
  { unfold r200_M. f_equal. set (q := rhoc_z C z) in *. clearbody q. pose proof PI_RGT_0. field. lra. }
  rewrite E1. assert (E2 : co_h C ^ 2 * 200 / 3 * rhoc_z C z * c ^ 3 / (ln (1 + c) - c / (1 + c)) / 1000 ^ 3 = a).
  { rewrite <- Ea. unfold rho0_c. set (k := ln (1 + c) - c / (1 + c)). set (q := rhoc_z C z). unfold Rdiv. generalize (/ k). intros ik. field. }
  rewrite E2, Eb, Er. exact D.
Qed.
Example C79_emulator_halo_nonvacuous :
  let '(rhos, rs, rv) := emulator_halo (co_h demo) (rhoc_z demo 0.5) (10 ^ 9) 15 in describes_halo false (10 ^ 9) 15 (critical_kpc demo 0.5) rhos rs rv.
Proof. apply C79_emulator_halo; [exact demo_expanding|lra|lra|lra]. Qed.

Print Assumptions C64_projected_radius.
Print Assumptions C64_projected_radius_bounds.
Print Assumptions C64_sky_plane.
Print Assumptions C64_complementary.
Print Assumptions C64_apply_filter.
Print Assumptions C64_wrong_mask.
Print Assumptions C64_select_subhalo_refuted.
Print Assumptions C64_virialized.
Print Assumptions C64_node_filters.
Print Assumptions C65_selected_subhalos.
Print Assumptions C65_user_filter.
Print Assumptions C79_emulator_halo.
