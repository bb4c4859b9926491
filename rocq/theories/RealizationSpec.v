(** Specification vocabulary for the properties of [Realization] (C01-C16).
    It mentions halos, the heap of halo objects and the observable attributes of a realization,
    but none of the functions of the model. *)
From Verif Require Import Prelude RealizationModel.

(** [kept P l l']: [l'] consists of exactly those elements of [l] that satisfy [P], in the original
    order and with the original multiplicity. *)
Inductive kept {A} (P : A -> Prop) : list A -> list A -> Prop :=
| kept_nil : kept P [] []
| kept_take a l l' : P a -> kept P l l' -> kept P (a :: l) (a :: l')
| kept_drop a l l' : ~ P a -> kept P l l' -> kept P (a :: l) l'.

(** The arrays of the realization agree with its halo objects as they are now. *)
Record in_sync (hp : heap) (rz : Realz) : Prop := {
  sync_mass : rz_masses rz = map (fun r => h_mass (hp r)) (rz_halos rz);
  sync_x : rz_xs rz = map (fun r => h_x (hp r)) (rz_halos rz);
  sync_y : rz_ys rz = map (fun r => h_y (hp r)) (rz_halos rz);
  sync_z : rz_reds rz = map (fun r => h_z (hp r)) (rz_halos rz);
  sync_flag : rz_flags rz = map (fun r => h_sub (hp r)) (rz_halos rz);
  sync_uniq_sorted : StronglySorted Rlt (rz_uniq rz);
  sync_uniq : forall z, In z (rz_uniq rz) <-> exists r, In r (rz_halos rz) /\ h_z (hp r) = z }.

(** The result keeps the rendering classes, the centre and the sheet option of its parent. *)
Definition same_setup (a b : Realz) : Prop :=
  rz_sheet a = rz_sheet b /\ rz_classes a = rz_classes b /\ rz_cx a = rz_cx b /\ rz_cy a = rz_cy b.

(** Euclidean distance. *)
Definition dist2 (x y x' y' : R) : R := sqrt ((x - x') ^ 2 + (y - y') ^ 2).

(** The documented weight: 1 without weighting; otherwise chi*(chi_s - chi)/(chi_s/2)^2 restricted to
    [wmin, 1] (and 1 if wmin > 1). *)
Definition spec_weight (DC : R -> R) (zsource : R) (geomw : bool) (wmin z : R) : R :=
  if geomw then
    let w0 := DC z * (DC zsource - DC z) / ((DC zsource / 2) ^ 2) in
    if Rlt_dec 1 wmin then 1
    else if Rlt_dec w0 wmin then wmin
    else if Rlt_dec 1 w0 then 1 else w0
  else 1.

(** Distance between a halo and a ray in the units of the aperture; 'KPC' = comoving separation in kpc
    (angle in radians times comoving distance in Mpc times 1000). *)
Definition ray_distance (DC : R -> R) (u : units) (h : Halo) (fx fy : R -> R) : R :=
  let a := dist2 (h_x h) (h_y h) (fx (DC (h_z h))) (fy (DC (h_z h))) in
  match u with
  | KPC => a * (PI / (180 * 3600)) * Rabs (DC (h_z h)) * 1000
  | _ => a
  end.

(** The documented cut of [filter]: heavy enough, or inside the weighted aperture of at least one ray. *)
Definition passes_cut (DC : R -> R) (zsource ap log10m : R) (rx ry : list (R -> R)) (u : units)
           (geomw : bool) (wmin : R) (h : Halo) : Prop :=
  Rpower 10 log10m <= Rabs (h_mass h) \/
  exists i fx fy, nth_error rx i = Some fx /\ nth_error ry i = Some fy /\
    ray_distance DC u h fx fy <= ap * spec_weight DC zsource geomw wmin (h_z h).

(** [out] is the list of the elements of [hs] satisfying [P], sorted by redshift plane, the order
    inside each plane being the one of [hs]. *)
Record plane_sorted_selection (hp : heap) (P : Halo -> Prop) (hs out : list ref) : Prop := {
  pss_sorted : StronglySorted (fun a b => h_z (hp a) <= h_z (hp b)) out;
  pss_plane : forall z, exists pl,
      kept (fun r => h_z (hp r) = z) out pl /\
      kept (fun r => h_z (hp r) = z /\ P (hp r)) hs pl;
  pss_count : forall r, (P (hp r) -> count_occ Nat.eq_dec out r = count_occ Nat.eq_dec hs r) /\
                        (~ P (hp r) -> ~ In r out) }.

(** Tags. *)
Definition tag_in (hp : heap) (t : Z) (rz : Realz) : Prop := exists r, In r (rz_halos rz) /\ h_tag (hp r) = t.
Definition tags_distinct (hp : heap) (rz : Realz) : Prop := NoDup (map (fun r => h_tag (hp r)) (rz_halos rz)).

(** Mass that a halo contributes to its plane: bound mass for subhalos in the lens plane, else its mass. *)
Definition plane_mass (zlens : R) (h : Halo) : option R :=
  if Req_EM_T (h_z h) zlens then if h_sub h then h_bound h else Some (h_mass h) else Some (h_mass h).

(** Two halo objects differ at most by a displacement (dx, dy). *)
Definition displaced (h h' : Halo) (dx dy : R) : Prop :=
  h_x h' = h_x h + dx /\ h_y h' = h_y h + dy /\
  h_mass h' = h_mass h /\ h_z h' = h_z h /\ h_mdef h' = h_mdef h /\ h_tag h' = h_tag h /\
  h_sub h' = h_sub h /\ h_fixed h' = h_fixed h /\ h_bound h' = h_bound h /\
  h_ids h' = h_ids h /\ h_kwargs h' = h_kwargs h /\ h_interp h' = h_interp h.

(** Look-up in a keyword dictionary. *)
Definition kw_get (d : kw) (key : string) : option R :=
  match find (fun p => String.eqb (fst p) key) d with Some (_, v) => Some v | None => None end.

(** The lens-model entries (name, redshift, keywords) contributed by one halo. *)
Definition halo_entries (h : Halo) : list (string * R * kw) :=
  map (fun p => ((fst p, h_z h), snd p)) (combine (h_ids h) (h_kwargs h)).
(** The last interpolation class that is not None. *)
Fixpoint last_interp (l : list (option Z)) : option Z :=
  match l with
  | [] => None
  | a :: t => match last_interp t with Some c => Some c | None => a end
  end.
(** A sheet dictionary with its centre filled in. *)
Definition centred (x y : R) (profile : string) (d : kw) : kw :=
  if String.eqb profile "CONVERGENCE" then kwset "dec_0" y (kwset "ra_0" x d)
  else kwset "center_y" y (kwset "center_x" x d).
(** What one rendering class contributes: nothing for None, otherwise the three lists of its
    [convergence_sheet_correction], called with the subhalo scale for the class named SUBHALOS. *)
Definition class_output (a : SheetArgs) (c : option RClass) : list kw * list string * list R :=
  match c with
  | None => ([], [], [])
  | Some c => rc_sheets c (if String.eqb (rc_name c) "SUBHALOS" then sa_kappa_sub a else sa_kappa a)
                        (sa_mlow a) (sa_mhigh a) (sa_zmin a) (sa_zmax a) (sa_class_ranges a)
  end.

(** Which calls keep the "already shifted" status and which ones forget it. *)
Definition status_after (b : bool) (o : op) : bool :=
  match o with OShift _ _ _ => true | OBound _ => b | _ => false end.
(** Calls that never forget the status. *)
Definition keeps_status (o : op) : Prop :=
  match o with OShift _ _ _ => True | OBound _ => True | _ => False end.
(** The rays of the first shift of a history. *)
Fixpoint first_shift (os : list op) : option ((R -> R) * (R -> R)) :=
  match os with
  | [] => None
  | OShift rx ry _ :: _ => Some (rx, ry)
  | _ :: t => first_shift t
  end.
