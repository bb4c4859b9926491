(** Model of pyHalo/single_realization.py: the class [Realization].

    Halo objects are shared and mutated in place by the Python code, so they
    live in a heap; a realization holds references and *snapshots* of some
    attributes (the arrays built by [_reset]), exactly as the Python class. *)
From Verif Require Import Prelude.

(** A keyword dictionary of a lens profile, and the assignment [d[key] = v]. *)
Definition kw := list (string * R).
Fixpoint kwset (key : string) (v : R) (d : kw) : kw :=
  match d with
  | [] => [(key, v)]
  | (k, w) :: t => if String.eqb k key then (k, v) :: t else (k, w) :: kwset key v t
  end.

(** Attributes of a halo object that [Realization] reads or writes.
    single_realization.py 794-809 (mass,x,y,z,r3d,mdef,unique_tag,is_subhalo),
    389-393 (fixed_position), 160-164 (bound_mass), 483-488 (lenstronomy_ID / lenstronomy_params).
    Simplifications: [h_tag] (a random float) is an integer, only compared for equality;
    [h_bound] is the value of the property [bound_mass], [None] meaning that reading it raises
    (halo_base.py 176-182); the keyword dictionaries are association lists; the interpolation class
    returned by [lenstronomy_params] is an integer handle. *)
Record Halo := mkHalo {
  h_mass : R; h_x : R; h_y : R; h_z : R; h_mdef : string; h_tag : Z;
  h_sub : bool; h_fixed : bool; h_bound : option R;
  h_ids : list string; h_kwargs : list kw; h_interp : option Z }.

Definition ref := nat.
Definition heap := ref -> Halo.

(** A rendering class, as far as [_mass_sheet_correction] is concerned
    (single_realization.py 675-686): its name and the three lists returned by
    [convergence_sheet_correction kappa_scale log_mlow log_mhigh zmin zmax use_class_mass_ranges]
    (for a SUBHALOS class zmin/zmax are not passed: the arguments are ignored). *)
Record RClass := mkRClass {
  rc_name : string;
  rc_sheets : R -> R -> R -> option R -> option R -> bool -> list kw * list string * list R }.

(** single_realization.py 95-124. The references and the arrays of [_reset]. *)
Record Realz := mkRealz {
  rz_halos : list ref;
  rz_masses : list R; rz_xs : list R; rz_ys : list R; rz_reds : list R; rz_flags : list bool;
  rz_uniq : list R;
  rz_shifted : bool;
  rz_sheet : bool;
  rz_classes : list (option RClass);
  rz_cx : R -> R; rz_cy : R -> R }.

(** numpy.unique / numpy.sort on reals: insertion into a strictly increasing list. *)
Fixpoint insert_uniq (a : R) (l : list R) : list R :=
  match l with
  | [] => [a]
  | b :: t => if Reqb a b then l else if Rltb a b then a :: l else b :: insert_uniq a t
  end.
Definition np_unique (l : list R) : list R := fold_right insert_uniq [] l.

(** single_realization.py 791-809 [_reset] and 174-201 [from_halos], 95-124 [__init__]
    with halos given. The interpolated rendering centre defaults to 0 when absent (117-122). *)
Definition from_halos (hp : heap) (hs : list ref) (sheet : bool) (classes : list (option RClass))
           (cx cy : R -> R) : Realz :=
  {| rz_halos := hs;
     rz_masses := map (fun r => h_mass (hp r)) hs;
     rz_xs := map (fun r => h_x (hp r)) hs;
     rz_ys := map (fun r => h_y (hp r)) hs;
     rz_reds := map (fun r => h_z (hp r)) hs;
     rz_flags := map (fun r => h_sub (hp r)) hs;
     rz_uniq := np_unique (map (fun r => h_z (hp r)) hs);
     rz_shifted := false;
     rz_sheet := sheet; rz_classes := classes; rz_cx := cx; rz_cy := cy |}.

Definition set_shifted (b : bool) (rz : Realz) : Realz :=
  {| rz_halos := rz_halos rz; rz_masses := rz_masses rz; rz_xs := rz_xs rz; rz_ys := rz_ys rz;
     rz_reds := rz_reds rz; rz_flags := rz_flags rz; rz_uniq := rz_uniq rz; rz_shifted := b;
     rz_sheet := rz_sheet rz; rz_classes := rz_classes rz; rz_cx := rz_cx rz; rz_cy := rz_cy rz |}.

(** The call pattern [Realization.from_halos(halos, self.lens_cosmo, self.kwargs_halo_model,
    self.apply_mass_sheet_correction, self.rendering_classes, centerx, centery, self.geometry)]. *)
Definition rebuild (hp : heap) (rz : Realz) (hs : list ref) : Realz :=
  from_halos hp hs (rz_sheet rz) (rz_classes rz) (rz_cx rz) (rz_cy rz).

(** single_realization.py 322-339 [set_rendering_classes]: anything that is not a list is wrapped. *)
Definition set_rendering_classes (c : option (list (option RClass))) : list (option RClass) :=
  match c with Some l => l | None => [None] end.

(** single_realization.py 126-136. *)
Definition subhalos (hp : heap) (rz : Realz) : list ref :=
  filter (fun r => h_sub (hp r)) (rz_halos rz).
(** single_realization.py 138-148. *)
Definition field_halos (hp : heap) (rz : Realz) : list ref :=
  filter (fun r => negb (h_sub (hp r))) (rz_halos rz).

(** single_realization.py 150-172. The loop raises at the first subhalo without a bound mass. *)
Fixpoint fbm_loop (hp : heap) (m : R) (hs : list ref) : result (list ref) :=
  match hs with
  | [] => Ok []
  | r :: t =>
      if h_sub (hp r) then
        match h_bound (hp r) with
        | None => Err EException
        | Some b => do rest <- fbm_loop hp m t; Ok (if Rleb m b then r :: rest else rest)
        end
      else do rest <- fbm_loop hp m t; Ok (r :: rest)
  end.
Definition filter_bound_mass (hp : heap) (rz : Realz) (m : R) : result Realz :=
  do hs <- fbm_loop hp m (rz_halos rz); Ok (set_shifted (rz_shifted rz) (rebuild hp rz hs)).

(** single_realization.py 556-569: [halos_at_z], returning halos and indexes (live redshifts). *)
Fixpoint halos_at_z_from (hp : heap) (z : R) (i : nat) (hs : list ref) : list ref * list nat :=
  match hs with
  | [] => ([], [])
  | r :: t =>
      let '(h, ix) := halos_at_z_from hp z (S i) t in
      if Reqb (h_z (hp r)) z then (r :: h, i :: ix) else (h, ix)
  end.
Definition halos_at_z (hp : heap) (rz : Realz) (z : R) : list ref * list nat :=
  halos_at_z_from hp z 0 (rz_halos rz).

(** single_realization.py 16-56 [realization_at_z]. *)
Fixpoint range_loop (hp : heap) (x y rmax : R) (hs : list ref) (ix : list nat) : list ref * list nat :=
  match hs, ix with
  | r :: t, i :: u =>
      let '(h, k) := range_loop hp x y rmax t u in
      let dx := h_x (hp r) - x in
      let dy := h_y (hp r) - y in
      if Rltb (sqrt (dx ^ 2 + dy ^ 2)) rmax then (r :: h, i :: k) else (h, k)
  | _, _ => ([], [])
  end.
Definition realization_at_z (hp : heap) (rz : Realz) (z : R) (cut : option (R * R * R)) (sheet : bool)
  : Realz * list nat :=
  let '(hs, ix) := halos_at_z hp rz z in
  let '(hs', ix') := match cut with
                     | Some (x, y, rmax) => range_loop hp x y rmax hs ix
                     | None => (hs, ix)
                     end in
  (from_halos hp hs' sheet (rz_classes rz) (rz_cx rz) (rz_cy rz), ix').

(** single_realization.py 510-535 [split_at_z]. *)
Definition split_at_z (hp : heap) (rz : Realz) (z : R) : Realz * Realz :=
  (rebuild hp rz (List.filter (fun r => Rleb (h_z (hp r)) z) (rz_halos rz)),
   rebuild hp rz (List.filter (fun r => negb (Rleb (h_z (hp r)) z)) (rz_halos rz))).

(** single_realization.py 593-631. *)
Fixpoint count_if (p : ref -> bool) (hs : list ref) : nat :=
  match hs with [] => 0 | r :: t => (if p r then 1 else 0) + count_if p t end.
Definition number_before (hp : heap) (rz : Realz) (z : R) : nat :=
  count_if (fun r => Rltb (h_z (hp r)) z) (rz_halos rz).
Definition number_after (hp : heap) (rz : Realz) (z : R) : nat :=
  count_if (fun r => Rltb z (h_z (hp r))) (rz_halos rz).
Definition number_at (hp : heap) (rz : Realz) (z : R) : nat :=
  count_if (fun r => Reqb (h_z (hp r)) z) (rz_halos rz).

(** single_realization.py 773-789 [_tags]. *)
Definition tags (hp : heap) (hs : list ref) : list Z := map (fun r => h_tag (hp r)) hs.
Definition zmem (t : Z) (l : list Z) : bool := existsb (Z.eqb t) l.

(** single_realization.py 341-382 [join]. The long/short choice is by length, ties make self the long one.
    Both realizations live in the same heap of halo objects. *)
Definition join (hp : heap) (self other : Realz) (join_classes : bool) : Realz :=
  let tg := tags hp (rz_halos self) in
  let rtg := tags hp (rz_halos other) in
  let '(hs_long, hs_short, short) :=
    if (List.length rtg <=? List.length tg)%nat
    then (rz_halos self, rz_halos other, rtg) else (rz_halos other, rz_halos self, tg) in
  let hs := hs_short ++ filter (fun r => negb (zmem (h_tag (hp r)) short)) hs_long in
  let classes := if join_classes then rz_classes self ++ rz_classes other else rz_classes self in
  from_halos hp hs (rz_sheet self) classes (rz_cx self) (rz_cy self).

(** single_realization.py 811-824 [__eq__]. *)
Definition req (hp : heap) (self other : Realz) : bool :=
  forallb (fun t => zmem t (tags hp (rz_halos self))) (tags hp (rz_halos other)).

(** A mutation of one halo object. *)
Definition upd (hp : heap) (r : ref) (h : Halo) : heap := fun r' => if Nat.eqb r' r then h else hp r'.
(** [halo.x += dx; halo.y += dy] (single_realization.py 416-417). *)
Definition move (h : Halo) (dx dy : R) : Halo :=
  {| h_mass := h_mass h; h_x := h_x h + dx; h_y := h_y h + dy; h_z := h_z h; h_mdef := h_mdef h;
     h_tag := h_tag h; h_sub := h_sub h; h_fixed := h_fixed h; h_bound := h_bound h;
     h_ids := h_ids h; h_kwargs := h_kwargs h; h_interp := h_interp h |}.

(** numpy.where(mask)[0]. *)
Fixpoint where_from (i : nat) (m : list bool) : list nat :=
  match m with [] => [] | b :: t => if b then i :: where_from (S i) t else where_from (S i) t end.
Definition np_where (m : list bool) : list nat := where_from 0 m.

(** single_realization.py 212-232 [filter_subhalos]: reads only the cached arrays, then indexes the halo list.
    [np.hypot] is sqrt(dx^2+dy^2); [x_coords], [y_coords] have equal length (otherwise numpy raises or broadcasts:
    not modelled here). *)
Fixpoint pick {A} (l : list A) (ix : list nat) : result (list A) :=
  match ix with
  | [] => Ok []
  | i :: t => match nth_error l i with
              | None => Err EIndexError
              | Some a => do rest <- pick l t; Ok (a :: rest)
              end
  end.
Fixpoint fsub_mask (ap thr : R) (coords : list (R * R)) (ms xs ys : list R) (fl : list bool) : list bool :=
  match ms, xs, ys, fl with
  | m :: ms', x :: xs', y :: ys', f :: fl' =>
      (negb f || Rltb thr (Rabs m)
       || existsb (fun p => Rltb (sqrt ((x - fst p) ^ 2 + (y - snd p) ^ 2)) ap) coords)
        :: fsub_mask ap thr coords ms' xs' ys' fl'
  | _, _, _, _ => []
  end.
Definition filter_subhalos (hp : heap) (rz : Realz) (ap log10m : R) (coords : list (R * R)) : result Realz :=
  let mask := fsub_mask ap (Rpower 10 log10m) coords (rz_masses rz) (rz_xs rz) (rz_ys rz) (rz_flags rz) in
  do hs <- pick (rz_halos rz) (np_where mask); Ok (rebuild hp rz hs).

(** numpy.intersect1d on index arrays (sorted, unique) and numpy.searchsorted (left) on a sorted array. *)
Fixpoint insert_nat (a : nat) (l : list nat) : list nat :=
  match l with
  | [] => [a]
  | b :: t => if Nat.eqb a b then l else if Nat.ltb a b then a :: l else b :: insert_nat a t
  end.
Definition intersect1d (a b : list nat) : list nat :=
  fold_right insert_nat [] (filter (fun i => existsb (Nat.eqb i) b) a).
Definition searchsorted (l : list nat) (v : nat) : nat := List.length (filter (fun a => Nat.ltb a v) l).

Inductive units := ANGLES | KPC | OtherUnits.

(** numpy broadcasting of the (N, n_x) and (N, n_y) ray arrays (single_realization.py 288-292). *)
Definition bcast (rx ry : list (R -> R)) : result (list ((R -> R) * (R -> R))) :=
  if Nat.eqb (List.length rx) (List.length ry) then Ok (combine rx ry)
  else match rx, ry with
       | [fx], _ => Ok (map (fun fy => (fx, fy)) ry)
       | _, [fy] => Ok (map (fun fx => (fx, fy)) rx)
       | _, _ => Err EValueError
       end.

Section Cosmo.
  (** External quantities: the lens and source redshifts and astropy's comoving distance [D_C_z],
      the critical mass [sigma_crit_mass] (lens_cosmo.py) and the physical area of the rendering disc
      [geometry.angle_to_physical_area(0.5*cone_opening_angle, z)] (geometry.py). *)
  Variables zlens zsource : R.
  Variable DC : R -> R.
  Variable sigma_crit_mass : R -> R -> R.
  Variable plane_area : R -> R.

  (** single_realization.py 261. *)
  Definition ARCSEC_TO_RAD : R := PI / (180 * 3600).

  (** numpy.clip(w, lo, hi) = minimum(maximum(w, lo), hi). *)
  Definition np_clip (w lo hi : R) : R := Rmin (Rmax w lo) hi.

  (** single_realization.py 280-284. *)
  Definition w_eff (geomw : bool) (wmin z : R) : R :=
    if geomw then np_clip ((DC z * (DC zsource - DC z)) / (DC zsource / 2) ^ 2) wmin 1 else 1.

  (** single_realization.py 291-304: one halo against one ray. *)
  Definition ray_hit (u : units) (ap : R) (geomw : bool) (wmin x y z : R) (ray : (R -> R) * (R -> R)) : bool :=
    let d := DC z in
    let dx := x - fst ray d in
    let dy := y - snd ray d in
    match u with
    | ANGLES => Rleb (sqrt (dx ^ 2 + dy ^ 2)) (ap * w_eff geomw wmin z)
    | KPC => let dxk := dx * ARCSEC_TO_RAD * d * 1000 in
             let dyk := dy * ARCSEC_TO_RAD * d * 1000 in
             Rleb (sqrt (dxk ^ 2 + dyk ^ 2)) (ap * w_eff geomw wmin z)
    | OtherUnits => false
    end.

  (** single_realization.py 262-309: the mask over the cached arrays. *)
  Fixpoint filter_mask (thr : R) (hit : R -> R -> R -> bool) (ms xs ys zs : list R) : list bool :=
    match ms, xs, ys, zs with
    | m :: ms', x :: xs', y :: ys', z :: zs' =>
        (if Rleb thr (Rabs m) then true else hit x y z) :: filter_mask thr hit ms' xs' ys' zs'
    | _, _, _, _ => []
    end.

  (** single_realization.py 311-320: the loop over planes. [plane_halos] uses the live redshifts,
      [inds_at_z] the cached ones. *)
  Definition plane_select (hp : heap) (rz : Realz) (kept : list nat) (zi : R) : result (list ref) :=
    let plane_halos := fst (halos_at_z hp rz zi) in
    let inds_at_z := np_where (map (fun z => Reqb z zi) (rz_reds rz)) in
    let keep_at_z := intersect1d inds_at_z kept in
    pick plane_halos (map (searchsorted inds_at_z) keep_at_z).

  Definition rfilter (hp : heap) (rz : Realz) (ap log10m : R) (rx ry : list (R -> R))
             (u : units) (geomw : bool) (wmin : R) : result Realz :=
    let thr := Rpower 10 log10m in
    let need := existsb (fun m => negb (Rleb thr (Rabs m))) (rz_masses rz) in
    do rays <- (if need then
                  match rx, ry with
                  | [], _ => Err EValueError
                  | _, [] => Err EValueError
                  | _, _ => do rays <- bcast rx ry;
                            match u with OtherUnits => Err EException | _ => Ok rays end
                  end
                else Ok []);
    let mask := filter_mask thr (fun x y z => existsb (ray_hit u ap geomw wmin x y z) rays)
                            (rz_masses rz) (rz_xs rz) (rz_ys rz) (rz_reds rz) in
    let kept := np_where mask in
    do planes <- mapM (plane_select hp rz kept) (rz_uniq rz);
    Ok (rebuild hp rz (List.concat planes)).

  (** single_realization.py 384-425 [shift_background_to_source]. *)
  Fixpoint shift_sel (hp : heap) (zmin : R) (hs : list ref) : list ref * list ref :=
    match hs with
    | [] => ([], [])
    | r :: t =>
        let '(out, mv) := shift_sel hp zmin t in
        if h_fixed (hp r) then (r :: out, mv)
        else if Rltb (h_z (hp r)) zmin then (out, mv)
        else (r :: out, r :: mv)
    end.
  Definition shift (hp : heap) (rz : Realz) (rx ry : R -> R) (zmin : R) : heap * Realz :=
    if rz_shifted rz then (hp, rz)
    else
      let '(out, mv) := shift_sel hp zmin (rz_halos rz) in
      let deltas := map (fun r => (r, (rx (DC (h_z (hp r))), ry (DC (h_z (hp r)))))) mv in
      let hp' := fold_left (fun h '(r, (dx, dy)) => upd h r (move (h r) dx dy)) deltas hp in
      (hp', set_shifted true (from_halos hp' out (rz_sheet rz) (rz_classes rz) rx ry)).

  (** single_realization.py 571-591 [mass_at_z_exact]. Reading [bound_mass] may raise. *)
  Fixpoint bound_sum (hp : heap) (hs : list ref) : result R :=
    match hs with
    | [] => Ok 0
    | r :: t =>
        if h_sub (hp r) then
          match h_bound (hp r) with
          | None => Err EException
          | Some b => do s <- bound_sum hp t; Ok (b + s)
          end
        else do s <- bound_sum hp t; Ok (h_mass (hp r) + s)
    end.
  Fixpoint cached_sum (z : R) (ms zs : list R) : R :=
    match ms, zs with
    | m :: ms', z' :: zs' => (if Reqb z' z then m else 0) + cached_sum z ms' zs'
    | _, _ => 0
    end.
  Definition mass_at_z_exact (hp : heap) (rz : Realz) (z : R) : result R :=
    if Reqb z zlens then bound_sum hp (fst (halos_at_z hp rz z))
    else Ok (cached_sum z (rz_masses rz) (rz_reds rz)).

  (** Parameters of [_mass_sheet_correction] (single_realization.py 633-641). *)
  Record SheetArgs := mkSheetArgs {
    sa_exact : bool; sa_kappa_sub : R; sa_kappa : R; sa_mlow : R; sa_mhigh : R;
    sa_zmin : option R; sa_zmax : option R; sa_class_ranges : bool }.

  (** single_realization.py 665-673: exact sheets (a missing geometry, which raises AttributeError, is not modelled). *)
  Definition exact_sheets (hp : heap) (rz : Realz) : result (list kw * list string * list R) :=
    do ks <- mapM (fun z => do m <- mass_at_z_exact hp rz z;
                            Ok [("kappa"%string, - m / sigma_crit_mass z (plane_area z))]) (rz_uniq rz);
    Ok (ks, repeat "CONVERGENCE"%string (List.length ks), rz_uniq rz).

  (** single_realization.py 674-686: sheets from the rendering classes. *)
  Fixpoint class_sheets (a : SheetArgs) (cs : list (option RClass)) : list kw * list string * list R :=
    match cs with
    | [] => ([], [], [])
    | None :: t => class_sheets a t
    | Some c :: t =>
        let '(k, p, z) :=
          rc_sheets c (if String.eqb (rc_name c) "SUBHALOS" then sa_kappa_sub a else sa_kappa a)
                    (sa_mlow a) (sa_mhigh a) (sa_zmin a) (sa_zmax a) (sa_class_ranges a) in
        let '(k', p', z') := class_sheets a t in
        (k ++ k', p ++ p', z ++ z')
    end.

  (** single_realization.py 688-698: fill in the centre of sheet i for i in zip(redshifts, profiles).
      Only entries with a redshift and a profile name are touched; a missing dictionary raises IndexError. *)
  Fixpoint fill_centers (cx cy : R -> R) (ks : list kw) (ps : list string) (zs : list R) : result (list kw) :=
    match zs, ps with
    | z :: zs', p :: ps' =>
        match ks with
        | [] => Err EIndexError
        | k :: ks' =>
            do rest <- fill_centers cx cy ks' ps' zs';
            let x := cx (DC z) in
            let y := cy (DC z) in
            Ok ((if String.eqb p "CONVERGENCE" then kwset "dec_0" y (kwset "ra_0" x k)
                 else kwset "center_y" y (kwset "center_x" x k)) :: rest)
        end
    | _, _ => Ok ks
    end.

  Definition mass_sheet_correction (hp : heap) (rz : Realz) (a : SheetArgs)
    : result (list kw * list string * list R) :=
    do t <- (if sa_exact a then exact_sheets hp rz else Ok (class_sheets a (rz_classes rz)));
    let '(ks, ps, zs) := t in
    do ks' <- fill_centers (rz_cx rz) (rz_cy rz) ks ps zs;
    Ok (ks', ps, zs).

  (** single_realization.py 467-508 [lensing_quantities]. *)
  Fixpoint lq_loop (hp : heap) (hs : list ref) : list string * list R * list kw * option Z :=
    match hs with
    | [] => ([], [], [], None)
    | r :: t =>
        let '(ids, zs, ks, ni) := lq_loop hp t in
        (h_ids (hp r) ++ ids, repeat (h_z (hp r)) (List.length (h_ids (hp r))) ++ zs,
         h_kwargs (hp r) ++ ks, match ni with Some c => Some c | None => h_interp (hp r) end)
    end.
  Definition lensing_quantities (hp : heap) (rz : Realz) (add_sheet : bool) (a : SheetArgs)
    : result (list string * list R * list kw * option Z) :=
    let '(ids, zs, ks, ni) := lq_loop hp (rz_halos rz) in
    if rz_sheet rz && add_sheet then
      do t <- mass_sheet_correction hp rz a;
      let '(k2, p2, z2) := t in
      Ok (ids ++ p2, zs ++ z2, ks ++ k2, ni)
    else Ok (ids, zs, ks, ni).
End Cosmo.

(** Histories of public calls on a realization. Every operation returns a new realization; only the shift
    mutates the halo objects. [OJoin] is [self.join(other)], [OSplitLow]/[OSplitHigh] take one of the two
    results of [split_at_z], [OAtZ] is the module function [realization_at_z]. *)
Inductive op :=
| OShift (rx ry : R -> R) (zmin : R)
| OBound (m : R)
| OFilter (ap lm : R) (rx ry : list (R -> R)) (u : units) (geomw : bool) (wmin : R)
| OFilterSub (ap lm : R) (coords : list (R * R))
| OJoin (other : Realz) (jc : bool)
| OSplitLow (z : R) | OSplitHigh (z : R)
| OAtZ (z : R) (cut : option (R * R * R)) (sheet : bool).

Definition step (zsource : R) (DC : R -> R) (s : heap * Realz) (o : op) : result (heap * Realz) :=
  let '(hp, rz) := s in
  match o with
  | OShift rx ry zmin => Ok (shift DC hp rz rx ry zmin)
  | OBound m => do r <- filter_bound_mass hp rz m; Ok (hp, r)
  | OFilter ap lm rx ry u g w => do r <- rfilter zsource DC hp rz ap lm rx ry u g w; Ok (hp, r)
  | OFilterSub ap lm cs => do r <- filter_subhalos hp rz ap lm cs; Ok (hp, r)
  | OJoin other jc => Ok (hp, join hp rz other jc)
  | OSplitLow z => Ok (hp, fst (split_at_z hp rz z))
  | OSplitHigh z => Ok (hp, snd (split_at_z hp rz z))
  | OAtZ z cut sheet => Ok (hp, fst (realization_at_z hp rz z cut sheet))
  end.
Fixpoint run (zsource : R) (DC : R -> R) (s : heap * Realz) (os : list op) : result (heap * Realz) :=
  match os with [] => Ok s | o :: t => do s' <- step zsource DC s o; run zsource DC s' t end.
