(** Galacticus files, node filters and the import of subhalos (Halos/galacticus_util/galacticus_util.py,
    galacticus_filter.py, PresetModels/external.py; C63-C65, C79). *)
From Verif Require Import Prelude MassFnModel.
From Coq Require Import String ZArith.
Local Open Scope string_scope.
Local Open Scope R_scope.
Local Open Scope list_scope.

(** ** Columns and tables *)
(** A numpy array: floats or integers.  Two-dimensional data sets are not modelled. *)
Inductive col := CF (l : list R) | CI (l : list Z).
Definition col_len (c : col) : nat := match c with CF l => List.length l | CI l => List.length l end.
Definition col_R (c : col) : list R := match c with CF l => l | CI l => map IZR l end.
Definition nodedata := list (string * col).
(** nodedata[key] *)
Fixpoint dget (d : nodedata) (k : string) : result col :=
  match d with
  | nil => Err EKeyError
  | (k', v) :: t => if String.eqb k k' then Ok v else dget t k
  end.
(** d | e: the keys of e win, keys of d keep their place *)
Definition dset_in (d : nodedata) (kv : string * col) : nodedata :=
  if existsb (fun p => String.eqb (fst kv) (fst p)) d then map (fun p => if String.eqb (fst kv) (fst p) then kv else p) d else d ++ (kv :: nil).
Definition dunion (d e : nodedata) : nodedata := fold_left dset_in e d.

(** val[mask] with a boolean mask *)
Fixpoint pick {A} (l : list A) (m : list bool) : list A :=
  match l, m with
  | a :: l', b :: m' => if b then a :: pick l' m' else pick l' m'
  | _, _ => nil
  end.
Definition col_mask (c : col) (m : list bool) : result col :=
  if Nat.eqb (col_len c) (List.length m) then Ok (match c with CF l => CF (pick l m) | CI l => CI (pick l m) end) else Err EIndexError.
(** a & b for boolean arrays (numpy's broadcasting of length-one arrays is not modelled) *)
Fixpoint zipb (a b : list bool) : list bool := match a, b with x :: a', y :: b' => andb x y :: zipb a' b' | _, _ => nil end.
Definition band (a b : list bool) : result (list bool) := if Nat.eqb (List.length a) (List.length b) then Ok (zipb a b) else Err EValueError.

(** ** galacticus_util.py *)
Inductive h5 := Dataset (c : col) | SubGroup.
Record h5out := { o_index : list Z; o_start : list nat; o_count : list nat; o_nodes : list (string * h5) }.
(** The Outputs group, in the order of its keys *)
Definition h5file := list (string * h5out).

(** galacticus_util.py:81-102 hdf5_read_output_indices; [to_int] is Python's int(str), [None] for ValueError *)
Fixpoint read_output_indices (to_int : string -> option Z) (keys : list string) : list Z :=
  match keys with
  | nil => nil
  | k :: t =>
      if negb (String.eqb (substring 0 6 k) "Output") then read_output_indices to_int t
      else match to_int (substring 6 (String.length k - 6) k) with
           | Some n => n :: read_output_indices to_int t
           | None => read_output_indices to_int t
           end
  end.

(** arr[start:stop] = v and arr[start:] = v for non-negative bounds *)
Definition fill {A} (arr : list A) (start : nat) (stop : option nat) (v : A) : list A :=
  map (fun p => if andb (Nat.leb start (fst p)) (match stop with Some s => Nat.ltb (fst p) s | None => true end) then v else snd p) (enumerate arr).
(** galacticus_util.py:137-140, the loop for n in range(1, len(tree_start)): both arrays; reading tree_index out of range raises *)
Fixpoint tree_loop (tree_index : list Z) (tree_start : list nat) (ns : list nat) (order index : list Z) : result (list Z * list Z) :=
  match ns with
  | nil => Ok (order, index)
  | n :: t =>
      match nth_error tree_start (n - 1), nth_error tree_start n, nth_error tree_index (n - 1) with
      | Some start, Some stop, Some v =>
          tree_loop tree_index tree_start t (fill order start (Some stop) (Z.of_nat (n - 1))) (fill index start (Some stop) v)
      | _, _, _ => Err EIndexError
      end
  end.
(** galacticus_util.py:123-153 hdf5_read_custom_nodedata: index, order and id columns.  With fewer than two trees the names
    [stop] and [n] are unbound after the loop. *)
Definition read_custom (o : h5out) : result nodedata :=
  let total := fold_right Nat.add 0%nat (o_count o) in
  let zeros := repeat 0%Z total in
  let T := List.length (o_start o) in
  do p <- tree_loop (o_index o) (o_start o) (seq 1 (T - 1)) zeros zeros;
  if Nat.leb T 1 then Err EUnboundLocal else
  let n := (T - 1)%nat in
  match nth_error (o_start o) n, nth_error (o_index o) n with
  | Some stop, Some v =>
      let order := fill (fst p) stop None (Z.of_nat n) in
      let index := fill (snd p) stop None v in
      Ok (("custom_treeIndex", CI index) :: ("custom_treeOutputOrder", CI order) :: ("id", CI (map Z.of_nat (seq 0 total))) :: nil)
  | _, _ => Err EIndexError
  end.
(** galacticus_util.py:224-237: the data sets that are read *)
Definition wanted (params : option (list string)) (k : string) : bool :=
  match params with None => true | Some l => existsb (String.eqb k) l end.
Definition read_columns (o : h5out) (params : option (list string)) (nodes_only : bool) : nodedata :=
  let nodecount := fold_right Nat.add 0%nat (o_count o) in
  flat_map (fun p => match snd p with
    | Dataset c => if andb (wanted params (fst p)) (orb (negb nodes_only) (Nat.eqb (col_len c) nodecount)) then ((fst p, c) :: nil) else nil
    | SubGroup => nil end) (o_nodes o).
Fixpoint zmax (l : list Z) (m : Z) : Z := match l with nil => m | a :: t => zmax t (Z.max m a) end.
Fixpoint hget (f : h5file) (k : string) : result h5out :=
  match f with nil => Err EKeyError | (k', v) :: t => if String.eqb k k' then Ok v else hget t k end.
(** galacticus_util.py:187-242 hdf5_read_galacticus_nodedata; [to_str] is str(int); [None] is Python's None *)
Definition read_nodedata (to_int : string -> option Z) (to_str : Z -> string) (f : h5file) (output_index : option Z)
    (params : option (list string)) (nodes_only : bool) : result (option nodedata) :=
  let read (n : Z) := do o <- hget f ("Output" ++ to_str n)%string; do c <- read_custom o; Ok (Some (dunion (read_columns o params nodes_only) c)) in
  match output_index with
  | Some n => read n
  | None => match read_output_indices to_int (map fst f) with
            | nil => Ok None
            | n :: t => read (zmax t n)
            end
  end.

(** ** galacticus_filter.py *)
(** galacticus_filter.py:4-7 nodedata_apply_filter *)
Definition apply_filter (d : nodedata) (m : list bool) : result nodedata :=
  mapM (fun p => do c <- col_mask (snd p) m; Ok (fst p, c)) d.
(** galacticus_filter.py:9-13 nodedata_select_subhalo: the dictionary is indexed with an array, which is not hashable *)
Definition select_subhalo (d : nodedata) (id : Z) : result nodedata :=
  do c <- dget d "id"; Err ETypeError.
(** galacticus_filter.py:15-18 nodedata_filter_tree *)
Definition filter_tree (d : nodedata) (tree : Z) : result (list bool) :=
  do c <- dget d "custom_treeIndex"; Ok (map (fun x => Reqb x (IZR tree)) (col_R c)).
(** galacticus_filter.py:20-23 nodedata_filter_subhalos *)
Definition filter_subhalos (d : nodedata) : result (list bool) :=
  do c <- dget d "nodeIsIsolated"; Ok (map (fun x => Reqb x 0) (col_R c)).
(** galacticus_filter.py:25-27 nodedata_filter_halos *)
Definition filter_halos (d : nodedata) : result (list bool) := do m <- filter_subhalos d; Ok (map negb m).
(** galacticus_filter.py:29-31 nodedata_filter_range *)
Definition filter_range (d : nodedata) (lo hi : R) (key : string) : result (list bool) :=
  do c <- dget d key; Ok (map (fun x => andb (Rltb lo x) (Rltb x hi)) (col_R c)).
(** np.asarray((x, y, z)): ragged columns raise *)
Definition asarray3 (x y z : list R) : result (list (R * R * R)) :=
  if andb (Nat.eqb (List.length x) (List.length y)) (Nat.eqb (List.length x) (List.length z)) then Ok (combine (combine x y) z) else Err EValueError.
Definition norm3 (p : R * R * R) : R := sqrt (fst (fst p) ^ 2 + snd (fst p) ^ 2 + snd p ^ 2).
Definition dot3 (a b : R * R * R) : R := fst (fst a) * fst (fst b) + snd (fst a) * snd (fst b) + snd a * snd b.
Definition scale3 (k : R) (p : R * R * R) : R * R * R := (k * fst (fst p), k * snd (fst p), k * snd p).
Definition coords (d : nodedata) : result (list (R * R * R)) :=
  do x <- dget d "positionOrbitalX"; do y <- dget d "positionOrbitalY"; do z <- dget d "positionOrbitalZ"; asarray3 (col_R x) (col_R y) (col_R z).
(** arr[indices] for an integer index array; negative indices count from the end *)
Definition take1 {A} (l : list A) (i : Z) : result A :=
  let j := if (i <? 0)%Z then (i + Z.of_nat (List.length l))%Z else i in
  if (j <? 0)%Z then Err EIndexError else match nth_error l (Z.to_nat j) with Some a => Ok a | None => Err EIndexError end.
Definition take {A} (l : list A) (c : col) : result (list A) := match c with CF _ => Err EIndexError | CI is => mapM (take1 l) is end.
(** r < s, elementwise *)
Fixpoint zipw {A B C} (f : A -> B -> C) (a : list A) (b : list B) : list C := match a, b with x :: a', y :: b' => f x y :: zipw f a' b' | _, _ => nil end.
Definition less (a b : list R) : result (list bool) := if Nat.eqb (List.length a) (List.length b) then Ok (zipw Rltb a b) else Err EValueError.
(** galacticus_filter.py:33-52 nodedata_filter_virialized *)
Definition filter_virialized (d : nodedata) : result (list bool) :=
  do rvec <- coords d;
  let r := map norm3 rvec in
  do filtered_halos <- filter_halos d;
  do rv <- dget d "darkMatterOnlyRadiusVirial";
  do rvh <- col_mask rv filtered_halos;
  do order <- dget d "custom_treeOutputOrder";
  do s <- take (col_R rvh) order;
  less r s.
(** galacticus_filter.py:68-91 project_r2d, one point *)
Definition project_r2d (p plane_normal : R * R * R) : R :=
  let un := scale3 (/ norm3 plane_normal) plane_normal in
  let rdotr := norm3 p ^ 2 in
  let rdotun := dot3 un p in
  sqrt (rdotr - rdotun ^ 2).
(** galacticus_filter.py:54-66 nodedata_filter_r2d *)
Definition filter_r2d (d : nodedata) (r2d_max : R) (plane_normal : R * R * R) : result (list bool) :=
  do r <- coords d; Ok (map (fun p => Rltb (project_r2d p plane_normal) r2d_max) r).

(** ** PresetModels/external.py: DMFromGalacticus *)
(** scipy's Rotation.from_euler("zyz", (0, theta, phi)): rotations about the fixed axes z (by 0), y and z.
    external.py:97-106: images of the unit vectors x and y. *)
Definition rot_z (a : R) (p : R * R * R) : R * R * R :=
  (cos a * fst (fst p) - sin a * snd (fst p), sin a * fst (fst p) + cos a * snd (fst p), snd p).
Definition rot_y (a : R) (p : R * R * R) : R * R * R :=
  (cos a * fst (fst p) + sin a * snd p, snd (fst p), - sin a * fst (fst p) + cos a * snd p).
Definition rotation (theta phi : R) (p : R * R * R) : R * R * R := rot_z phi (rot_y theta (rot_z 0 p)).

(** A TNFWFromParams halo (TNFWFromParams.py:16-36): mass, x and y in arcsec, r3d, redshift, is_subhalo, rhos, rs, r_trunc_kpc, rv,
    concentration, infall redshift and id *)
Record ghalo_out := { go_mass : R; go_x : R; go_y : R; go_r3d : R; go_z : R; go_sub : bool; go_rhos : R; go_rs : R; go_rt : R; go_rv : R; go_c : R; go_zinf : R; go_id : R }.
Definition from_params (kpc m x_kpc y_kpc r3d z rhos rs rt rv zinf id : R) : ghalo_out :=
  {| go_mass := m; go_x := x_kpc / kpc; go_y := y_kpc / kpc; go_r3d := r3d; go_z := z; go_sub := true;
     go_rhos := rhos; go_rs := rs; go_rt := rt; go_rv := rv; go_c := rv / rs; go_zinf := zinf; go_id := id |}.

(** external.py:97-141: the combined mask.  [user] is the optional nodedata_filter's result. *)
Definition selection (d : nodedata) (kpc cone : R) (tree : Z) (logmlow logmhigh : R) (bound : bool) (theta phi : R) (user : option (list bool)) : result (list bool) :=
  do cs <- coords d;
  let ck := map (scale3 1000) cs in
  let xh := rotation theta phi (1, 0, 0) in
  let yh := rotation theta phi (0, 1, 0) in
  let r2dmax := cone / 2 * kpc in
  let filter_r2d := map (fun p => Rltb (sqrt (dot3 xh p ^ 2 + dot3 yh p ^ 2)) r2dmax) ck in
  let key := if bound then "satelliteBoundMass" else "massHaloEnclosedCurrent" in
  match user with
  | Some m => Ok m
  | None =>
      do a <- filter_subhalos d;
      do b <- filter_virialized d;
      do c <- filter_range d (pow10 logmlow) (pow10 logmhigh) key;
      do t <- filter_tree d tree;
      do ab <- band a b; do abc <- band ab c; do abct <- band abc t; band abct filter_r2d
  end.
Definition colR (d : nodedata) (k : string) : result (list R) := do c <- dget d k; Ok (col_R c).
(** external.py:143-176: the halos, with the default table of profile parameters; z_lens = 0.5 *)
Definition galacticus_halos (d : nodedata) (kpc cone : R) (tree : Z) (logmlow logmhigh : R) (bound : bool) (theta phi : R) (user : option (list bool)) : result (list ghalo_out) :=
  do m <- selection d kpc cone tree logmlow logmhigh bound theta phi user;
  do d' <- apply_filter d m;
  do cs <- coords d;
  do _ <- (if Nat.eqb (List.length cs) (List.length m) then Ok tt else Err EIndexError);
  let ck := pick (map (scale3 1000) cs) m in
  let xh := rotation theta phi (1, 0, 0) in
  let yh := rotation theta phi (0, 1, 0) in
  do rho <- colR d' "densityNormalizationTidalTruncationNFW";
  do rs <- colR d' "darkMatterProfileScaleRadius";
  do rt <- colR d' "radiusTidalTruncationNFW";
  do conc <- colR d' "concentration";
  do zi <- colR d' "redshiftLastIsolated";
  do id <- colR d' "id";
  do mi <- colR d' "massHaloEnclosedCurrent";
  Ok (map (fun p =>
        let n := fst p in
        let q := nth n ck (0, 0, 0) in
        from_params kpc (snd p) (dot3 xh q) (dot3 yh q) (norm3 q) 0.5
          (4 * nth n rho 0 / 1000 ^ 3) (nth n rs 0 * 1000) (nth n rt 0 * 1000) (nth n conc 0 * nth n rs 0 * 1000) (nth n zi 0) (nth n id 0)) (enumerate mi)).

(** ** PresetModels/external.py:179-247 DMSubhalosFromEmulator *)
(** external.py lines 204-213: r_vir, rs (Mpc) and rhos for one halo, and lines 220-227 the values stored in kpc; [rhoc] is
    lens_cosmo._nfw_param.rhoc_z(z_lens) *)
Definition emulator_halo (h rhoc m c : R) : R * R * R :=
  let r_vir := Rpower (3 * h * m / (4 * 200 * PI * rhoc)) (1 / 3) in
  let r_vir := r_vir / h in
  let rs := r_vir / c in
  let rhos := h ^ 2 * 200 / 3 * rhoc * c ^ 3 / (ln (1 + c) - c / (1 + c)) in
  (rhos / 1000 ^ 3, rs * 1000, r_vir * 1000).
