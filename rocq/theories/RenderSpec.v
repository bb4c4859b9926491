(** Specification vocabulary for C35-C37, C68 and C69. *)
From Verif Require Import Prelude MassFnModel SpaceModel RenderModel.
From Coq Require Import String.
Open Scope string_scope.
Open Scope R_scope.

(** One rendered object. *)
Record row := { r_m : R; r_x : R; r_y : R; r_r3d : option R; r_z : R; r_sub : bool }.

(** The six arrays are the columns of the table [rows] (so they have one entry per object, in the same order). *)
Definition columns (a : arrays) (rows : list row) : Prop :=
  a_m a = map r_m rows /\ a_x a = map r_x rows /\ a_y a = map r_y rows /\
  a_r3d a = map r_r3d rows /\ a_z a = map r_z rows /\ a_sub a = map r_sub rows.

(** Value of a number-or-function-of-redshift. *)
Definition at_redshift (z : R) (l : mlimit) : R := match l with MNum m => m | MFun f => f z end.
Definition poisson_default (o : option bool) : bool := match o with Some b => b | None => true end.

(** A field halo at redshift z: no 3d radius, not a subhalo. *)
Definition field_at (z : R) (r : row) : Prop := r_z r = z /\ r_sub r = false /\ r_r3d r = None.

(** Objects of a line-of-sight population: per plane, exactly the masses drawn from the mass function of that plane. *)
Definition los_rows (a : pop_args) (planes : list (R * R)) (rows : list row) : Prop :=
  exists blocks, rows = List.concat blocks /\ List.length blocks = List.length planes /\
  forall i z dz blk, nth_error planes i = Some (z, dz) -> nth_error blocks i = Some blk ->
    exists lo hi norm,
      lk_log_mlow (pa_los a) = Some lo /\ lk_log_mhigh (pa_los a) = Some hi /\ lk_norm (pa_los a) = Some norm /\
      mf_draw (pa_from_redshift a z dz (at_redshift z lo) (at_redshift z hi) (at_redshift z norm)
                 (poisson_default (lk_poisson (pa_los a)))) i = Ok (map r_m blk) /\
      Forall (field_at z) blk.

(** Objects of a subhalo population: at the lens redshift, flagged as subhalos; 3d radii exactly for the NFW distribution. *)
Definition sub_rows (zlens : R) (a : pop_args) (rows : list row) : Prop :=
  exists index norm,
    mf_draw (pa_construct a (at_redshift zlens (sk_log_mlow (pa_sub a))) (at_redshift zlens (sk_log_mhigh (pa_sub a))) index
               (poisson_default (sk_draw_poisson (pa_sub a))) norm) 0 = Ok (map r_m rows) /\
    Forall (fun r => r_z r = zlens /\ r_sub r = true /\
                     (r_r3d r = None <-> match sp_what (pa_spatial a) with SpNfw _ _ _ _ _ => False | _ => True end)) rows.

(** Objects of the two-halo term: field halos at the lens redshift. *)
Definition two_halo_rows (zlens : R) (a : pop_args) (rows : list row) : Prop :=
  exists lo hi dz norm,
    lk_log_mlow (pa_los a) = Some lo /\ lk_log_mhigh (pa_los a) = Some hi /\
    mf_draw (pa_from_redshift a zlens dz (at_redshift zlens lo) (at_redshift zlens hi) norm
               (poisson_default (lk_poisson (pa_los a)))) 0 = Ok (map r_m rows) /\
    Forall (field_at zlens) rows.

(** Distance on the sky. *)
Definition sep (x y x' y' : R) : R := sqrt ((x - x') ^ 2 + (y - y') ^ 2).

(** Uniform deviates and a positive conversion to kpc. *)
Definition good_draws (e : renv) (sp : spatial) : Prop :=
  (forall i j, 0 <= snd (fst (sp_devs sp i j)) <= 1) /\ forall z k, re_kpc e z = Ok k -> 0 < k.
(** A projected NFW distribution: positive densities and sizes, uniform deviates. *)
Definition nfw_ok (sp : spatial) (rmax2d rmax3d a2k : R) (rho2d rho3d : R -> R) : Prop :=
  0 < rmax2d /\ 1e-3 * rmax2d < rmax3d /\ 0 < a2k /\ (forall r, 0 < r -> 0 < rho2d r) /\ (forall r, 0 < r -> 0 < rho3d r) /\
  forall j, 0 <= fst (fst (sp_devs sp 0 j)) <= 1 /\ 0 <= snd (sp_devs sp 0 j) <= 1.
(** The object lies in the rendering region of its population at its redshift. *)
Definition in_region (e : renv) (sp : spatial) (r : row) : Prop :=
  match sp_what sp with
  | SpUniform rmax => sep (r_x r) (r_y r) 0 0 <= Rabs rmax
  | SpCone angle => sep (r_x r) (r_y r) 0 0 <= Rabs (0.5 * angle * re_scale e (r_z r))
  | SpNfw rmax2d rmax3d a2k rho2d rho3d => nfw_ok sp rmax2d rmax3d a2k rho2d rho3d ->
      (* x, y in arcsec: times the kpc per arcsec at the object's redshift they are inside the disc; 3d radius in kpc *)
      exists k r3, re_kpc e (r_z r) = Ok k /\ r_r3d r = Some r3 /\
        1e-3 * rmax2d * a2k <= sep (r_x r * k) (r_y r * k) 0 0 <= rmax2d * a2k /\ 1e-3 * rmax2d * a2k <= r3 <= rmax3d * a2k
  end.

(** Objects contributed by one named population. *)
Definition population_rows (e : renv) (planes : list (R * R)) (na : string * pop_args) (rows : list row) : Prop :=
  ((fst na = "LINE_OF_SIGHT" \/ fst na = "LINE_OF_SIGHT_NOSHEET") /\ los_rows (snd na) planes rows
   \/ fst na = "SUBHALOS" /\ sub_rows (re_zlens e) (snd na) rows
   \/ fst na = "TWO_HALO" /\ two_halo_rows (re_zlens e) (snd na) rows) /\
  (good_draws e (pa_spatial (snd na)) -> Forall (in_region e (pa_spatial (snd na))) rows).

Definition zipped (planes dzs : option (list R)) : list (R * R) :=
  match planes, dzs with Some zs, Some ds => combine zs ds | _, _ => [] end.

Definition known_population (s : string) : Prop :=
  s = "LINE_OF_SIGHT" \/ s = "LINE_OF_SIGHT_NOSHEET" \/ s = "SUBHALOS" \/ s = "TWO_HALO".

(** Halo [h] is at redshift [z] and strictly inside the aperture around the ray. *)
Definition in_aperture (rmax : R) (ray : R -> R * R) (z : R) (h : chalo) : Prop :=
  ch_z h = z /\ sep (ch_x h) (ch_y h) (fst (ray z)) (snd (ray z)) < rmax.

(** The mass function of the black holes has this mass fraction. *)
Definition has_fraction (c : cmass) (f : R) : Prop :=
  match c with CDelta _ g _ => g = f | CGauss _ _ g _ => g = f | COther _ => False end.
