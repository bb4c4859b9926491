(** Model of the cosmology caches (Cosmology/cosmology.py), the rendering geometry (Cosmology/geometry.py), the lens-plane
    grid (utilities.py) and the spatial distributions, over exact reals.
    Astropy's distance functions, scipy's quad and the random deviates are arguments. *)
From Verif Require Import Prelude Interp MassFnModel.

(** numpy: ceil(x) *)
Definition Zceil (x : R) : Z := (- Int_part (- x))%Z.
(** numpy.arange(a, b, s): ceil((b-a)/s) points a, a+s, ... (none if that is not positive).  A zero step raises. *)
Definition np_arange (a b s : R) : list R :=
  map (fun i => a + INR i * s) (seq 0 (Z.to_nat (Zceil ((b - a) / s)))).
(** numpy.linspace(a, b, n), n >= 2 *)
Definition np_linspace (a b : R) (n : nat) : list R :=
  map (fun i => a + INR i * ((b - a) / INR (n - 1))) (seq 0 n).
(** numpy.round(x, 2) *)
Definition round2 (x : R) : R := IZR (np_round (100 * x)) / 100.

(** ** Cosmology/cosmology.py *)

(** The astropy object: angular diameter distance between two redshifts, transverse comoving distance, arcsec per proper
    kpc, age. *)
Record astro := { as_DA : R -> R -> R; as_DC : R -> R; as_asec_per_kpc : R -> R; as_age : R -> R }.

(** cosmology.py 165-174 with defaults.py 51 (step 0.02, zmax 4) *)
Definition DA_table (a : astro) : list (R * R) := map (fun z => (z, as_DA a 0 z)) (np_arange 0.02 (4 + 0.02) 0.02).
(** cosmology.py 176-185 *)
Definition DC_table (a : astro) : list (R * R) := map (fun z => (z, as_DC a z)) (np_arange 0.02 (4 + 0.02) 0.02).
(** cosmology.py 156-163 *)
Definition kpc_table (a : astro) : list (R * R) :=
  map (fun z => (z, / as_asec_per_kpc a z)) (np_arange 0.001 (4 + 0.025) 0.025).
(** cosmology.py 118-125 (the attribute is created on first use; its value never changes) *)
Definition age_table (a : astro) : list (R * R) := map (fun z => (z, as_age a z)) (np_linspace 0 20 250).

(** cosmology.py 33-37: the five dictionaries *)
Record cache := { c_DA2 : list ((R * R) * R); c_DAz : list (R * R); c_DCz : list (R * R);
                  c_kpc : list (R * R); c_age : list ((R * R) * R) }.
Definition lookup1 (k : R) (l : list (R * R)) : option R :=
  match find (fun p => Reqb (fst p) k) l with Some p => Some (snd p) | None => None end.
Definition lookup2 (k1 k2 : R) (l : list ((R * R) * R)) : option R :=
  match find (fun p => Reqb (fst (fst p)) k1 && Reqb (snd (fst p)) k2) l with Some p => Some (snd p) | None => None end.

(** cosmology.py 127-129; 0.0 ** -1 raises ZeroDivisionError *)
Definition scale_factor (z : R) : result R := if Reqb (1 + z) 0 then Err EZeroDivision else Ok (/ (1 + z)).

(** cosmology.py 47-55, scalar arguments *)
Definition q_DA (a : astro) (c : cache) (z1 z2 : R) : cache * R :=
  match lookup2 z1 z2 (c_DA2 c) with
  | Some v => (c, v)
  | None => let v := as_DA a z1 z2 in
            ({| c_DA2 := ((z1, z2), v) :: c_DA2 c; c_DAz := c_DAz c; c_DCz := c_DCz c; c_kpc := c_kpc c; c_age := c_age c |}, v)
  end.
(** cosmology.py 57-67, scalar arguments *)
Definition q_DAz (a : astro) (c : cache) (z : R) : cache * R :=
  match lookup1 z (c_DAz c) with
  | Some v => (c, v)
  | None =>
      let '(c, v) := match interp1d (DA_table a) z with Ok v => (c, v) | Err _ => q_DA a c 0 z end in
      ({| c_DA2 := c_DA2 c; c_DAz := (z, v) :: c_DAz c; c_DCz := c_DCz c; c_kpc := c_kpc c; c_age := c_age c |}, v)
  end.
(** cosmology.py 73-83, scalar arguments *)
Definition q_DCz (a : astro) (c : cache) (z : R) : cache * result R :=
  match lookup1 z (c_DCz c) with
  | Some v => (c, Ok v)
  | None =>
      let '(c, r) := match interp1d (DC_table a) z with
                     | Ok v => (c, Ok v)
                     | Err _ => let '(c, d) := q_DAz a c z in (c, do s <- scale_factor z; Ok (d / s))
                     end in
      match r with
      | Ok v => ({| c_DA2 := c_DA2 c; c_DAz := c_DAz c; c_DCz := (z, v) :: c_DCz c; c_kpc := c_kpc c; c_age := c_age c |}, Ok v)
      | Err e => (c, Err e)
      end
  end.
(** cosmology.py 89-96, scalar arguments *)
Definition q_kpc (a : astro) (c : cache) (z : R) : cache * result R :=
  match lookup1 z (c_kpc c) with
  | Some v => (c, Ok v)
  | None =>
      match interp1d (kpc_table a) z with
      | Ok v => ({| c_DA2 := c_DA2 c; c_DAz := c_DAz c; c_DCz := c_DCz c; c_kpc := (z, v) :: c_kpc c; c_age := c_age c |}, Ok v)
      | Err e => (c, Err e)
      end
  end.
(** cosmology.py 103-111, scalar arguments *)
Definition q_age (a : astro) (c : cache) (z zform : R) : cache * result R :=
  match lookup2 z zform (c_age c) with
  | Some v => (c, Ok v)
  | None =>
      match (do halo_form <- interp1d (age_table a) zform;
             if Rltb zform z then Ok 0 else do t <- interp1d (age_table a) z; Ok (t - halo_form)) with
      | Ok v => ({| c_DA2 := c_DA2 c; c_DAz := c_DAz c; c_DCz := c_DCz c; c_kpc := c_kpc c; c_age := ((z, zform), v) :: c_age c |}, Ok v)
      | Err e => (c, Err e)
      end
  end.

Inductive query := QDA (z1 z2 : R) | QDAz (z : R) | QDCz (z : R) | QKpc (z : R) | QAge (z zform : R).
Definition ask (a : astro) (c : cache) (q : query) : cache * result R :=
  match q with
  | QDA z1 z2 => let '(c, v) := q_DA a c z1 z2 in (c, Ok v)
  | QDAz z => let '(c, v) := q_DAz a c z in (c, Ok v)
  | QDCz z => q_DCz a c z
  | QKpc z => q_kpc a c z
  | QAge z zf => q_age a c z zf
  end.
(** a session: queries one after the other on the same object *)
Fixpoint ask_all (a : astro) (c : cache) (qs : list query) : cache * list (result R) :=
  match qs with
  | [] => (c, [])
  | q :: t => let '(c, r) := ask a c q in let '(c, rs) := ask_all a c t in (c, r :: rs)
  end.
(** cosmology.py 23-45: empty dictionaries, then the interpolation tables are filled through D_A *)
Definition cosmo_init (a : astro) : cache :=
  fst (ask_all a {| c_DA2 := []; c_DAz := []; c_DCz := []; c_kpc := []; c_age := [] |}
         (map (fun z => QDA 0 z) (np_arange 0.02 (4 + 0.02) 0.02))).

(** cosmology.py 68-71: an array argument; one redshift outside the table sends all of them to astropy *)
Definition DAz_array (a : astro) (zs : list R) : list R :=
  match mapM (interp1d (DA_table a)) zs with Ok vs => vs | Err _ => map (as_DA a 0) zs end.

(** ** Cosmology/geometry.py *)

Inductive gtype := DOUBLE_CONE | CYLINDER | CONE.
(** geometry.py 28-39 *)
Definition geometry_of_name (s : string) : result gtype :=
  if String.eqb s "DOUBLE_CONE" then Ok DOUBLE_CONE
  else if String.eqb s "CYLINDER" then Ok CYLINDER
  else if String.eqb s "CONE" then Ok CONE
  else Err EException.
(** geometry.py 28-35: attribute volume_type *)
Definition volume_type (g : gtype) : result string :=
  match g with DOUBLE_CONE => Ok "DOUBLE_CONE"%string | CYLINDER => Ok "CYLINDER"%string | CONE => Err EAttributeError end.

Section Geometry.
  (** cosmology functions used by the geometry: D_A, D_A_z, D_C_transverse, hubble_distance/efunc, arcsec in radian *)
  Variables (DA : R -> R -> R) (DAz DCt dRdz : R -> R) (arcsec : R).
  Variables (g : gtype) (zlens zsource opening_angle angle_pad : R).
  Variable quad : (R -> R) -> R -> R -> R.

  (** geometry.py 151, 181, 213 *)
  Definition reduced_to_phys : R := DA 0 zsource / DA zlens zsource.
  (** geometry.py 160-169 (Cone), 190-202 (Cylinder), 219-235 (DoubleCone) *)
  Definition rendering_scale (z : R) : R :=
    match g with
    | CONE => 1
    | CYLINDER => let d_c := DCt z in DCt zlens / d_c
    | DOUBLE_CONE =>
        if Rleb z zlens then 1
        else let D_dz := DA zlens z in
             let D_z := DAz z in
             let ratio := D_dz / D_z in
             1 - angle_pad * reduced_to_phys * ratio
    end.
  (** geometry.py 69-72 *)
  Definition angle_to_physicalradius (radius z : R) : R := radius * arcsec * rendering_scale z * DAz z.
  (** geometry.py 74-81 *)
  Definition angle_to_comovingradius (radius z : R) : R := angle_to_physicalradius radius z / (/ (1 + z)).
  (** geometry.py 115-124 *)
  Definition angle_to_comoving_area (radius z : R) : R := let r := angle_to_comovingradius radius z in PI * r ^ 2.
  (** geometry.py 126-139 *)
  Definition angle_to_physical_area (radius z : R) : R := angle_to_comoving_area radius z * (/ (1 + z)) ^ 2.
  (** geometry.py 103-113 *)
  Definition volume_integrand (radius z : R) : R := angle_to_comoving_area radius z * dRdz z.
  (** geometry.py 83-101; [None] = radius omitted *)
  Definition volume_element (z delta_z : R) (radius : option R) : R :=
    let radius := match radius with Some r => r | None => 0.5 * opening_angle end in
    if Rltb 1e-4 delta_z then quad (volume_integrand radius) z (z + delta_z)
    else volume_integrand radius z * delta_z.
  (** geometry.py 48-59: range(0, len(z) - 1) *)
  Definition volume_MPC3 : R :=
    let zs := np_arange 0 zsource 0.01 in
    sumR (map (fun z => volume_element z 0.01 None) (firstn (List.length zs - 1) zs)).
  (** geometry.py 210-217, 153-158, 183-188: the attribute _total_volume *)
  Definition total_volume : R :=
    match g with
    | DOUBLE_CONE =>
        let d_c_lens := DCt zlens in
        let d_c_lens_source := DCt zsource - d_c_lens in
        let comoving_radius_zlens := 0.5 * opening_angle * arcsec * d_c_lens in
        PI / 3 * comoving_radius_zlens ^ 2 * d_c_lens_source + PI / 3 * comoving_radius_zlens ^ 2 * d_c_lens
    | _ => PI * (0.5 * (opening_angle * arcsec) * DCt zlens) ^ 2 * DCt zsource
    end.
End Geometry.

(** ** utilities.py: lens planes *)

(** consecutive differences, then the distance from the last entry to the source (utilities.py 93-96) *)
Fixpoint gaps (l : list R) (zsource : R) : list R :=
  match l with
  | [] => []
  | [z] => [zsource - z]
  | z :: ((z' :: _) as t) => (z' - z) :: gaps t zsource
  end.
(** utilities.py 77-97 with zmin = 0.01, default spacing 0.02; [redshifts[-1]] of an empty array raises IndexError and
    a zero spacing ZeroDivisionError.  [zlens = None]: no main lens plane. *)
Definition plane_grid (zlens : option R) (zsource step : R) : list R :=
  match zlens with
  | None => np_arange 0.01 zsource step
  | Some zl => np_arange 0.01 zl step ++ np_arange zl zsource step
  end.
Definition generate_lens_plane_redshifts (zlens : option R) (zsource : R) (spacing : option R)
    : result (list R * list R) :=
  let step := match spacing with Some s => s | None => 0.02 end in
  if Reqb step 0 then Err EZeroDivision
  else
    let redshifts := plane_grid zlens zsource step in
    match redshifts with
    | [] => Err EIndexError
    | _ => Ok (map round2 redshifts, map round2 (gaps redshifts zsource))
    end.

(** ** Spatial distributions *)

(** SpatialDistributions/uniform.py 104-117 for one object: [ua], [ur] are the uniform deviates in [0,1] *)
Definition uniform_point (rmax cx cy kpc ua ur : R) : R * R :=
  let angle := 2 * PI * ua in
  let r := rmax ^ 2 * ur in
  let x := sqrt r * cos angle + cx in
  let y := sqrt r * sin angle + cy in
  (x * kpc, y * kpc).
(** uniform.py 90-119; [kpc_per_arcsec] may raise (redshift outside the table); the deviates are a list of pairs, one per object *)
Definition uniform_draw (rmax2d : R) (kpc_per_arcsec : R -> result R) (z rescale cx cy : R) (devs : list (R * R))
    : result (list (R * R)) :=
  match devs with
  | [] => Ok []
  | _ => let rmax := rmax2d * rescale in
         do k <- kpc_per_arcsec z;
         Ok (map (fun d => uniform_point rmax cx cy k (fst d) (snd d)) devs)
  end.
(** uniform.py 16-32 and 44-61: LensConeUniform *)
Definition lens_cone_draw (cone_opening_angle : R) (scale : R -> R) (kpc_per_arcsec : R -> result R) (z cx cy : R)
    (devs : list (R * R)) : result (list (R * R)) :=
  match devs with
  | [] => Ok []
  | _ => uniform_draw (0.5 * cone_opening_angle) kpc_per_arcsec z (scale z) cx cy devs
  end.
(** Rendering/rendering_class_base.py 29-46: back to arcsec (the conversion [kpc_per_arcsec] is the same function) *)
Definition render_positions (kpc_per_arcsec : R -> result R) (z : R) (pts : list (R * R)) : result (list (R * R)) :=
  match pts with
  | [] => Ok []
  | _ => do k <- kpc_per_arcsec z; Ok (map (fun p => (fst p * / k, snd p * / k)) pts)
  end.

(** numpy.cumsum *)
Fixpoint cumsum_from (acc : R) (l : list R) : list R :=
  match l with [] => [] | y :: t => (acc + y) :: cumsum_from (acc + y) t end.
Definition cumsum (l : list R) : list R := cumsum_from 0 l.
(** numpy.max of a non-empty list *)
Definition np_max (l : list R) : R := match l with [] => 0 | a :: t => fold_left Rmax t a end.
(** utilities.py 64-75 for one sample: [u01] is the uniform deviate in [0,1]; uniform(lo, hi) = lo + u01*(hi-lo) *)
Definition its_from_cdf (x cdf : list R) (u01 : R) : result R :=
  let cdf := map (fun v => v * / np_max cdf) cdf in
  let tbl := combine cdf x in
  let u := nth 0 cdf 0 + u01 * (last cdf 0 - nth 0 cdf 0) in
  interp1d tbl u.
(** utilities.py 51-62; [f] may raise *)
Definition inverse_transform_sampling (x : list R) (f : R -> result R) (u01 : R) : result R :=
  do y <- mapM f x;
  its_from_cdf x (cumsum y) u01.

(** nfw.py 65, 75: number of grid points *)
Definition n_grid : nat := Z.to_nat 20000.
(** [rho[i] * (x[i+1]**p - x[i]**p) for i in range(0, len(x)-1)] (nfw.py 68, 78) *)
Fixpoint shells (p : nat) (rho : R -> R) (x : list R) : list R :=
  match x with
  | a :: ((b :: _) as t) => rho a * (b ^ p - a ^ p) :: shells p rho t
  | _ => []
  end.
(** nfw.py 65-70 and 75-80: a radius in arcsec drawn from the projected (p=2) or three-dimensional (p=3) profile *)
Definition nfw_radius (p : nat) (rho : R -> R) (xmin xmax u01 : R) : result R :=
  let x := np_linspace xmin xmax n_grid in
  let xs := removelast x in
  let f := interp1d (combine xs (shells p rho x)) in
  inverse_transform_sampling xs f u01.
(** nfw.py 60-83 for one object: projected position and 3d radius in kpc.  [u2], [ut], [u3] are independent deviates,
    [rho2d]/[rho3d] lenstronomy's cored NFW densities. *)
Definition nfw_point (rmax2d rmax3d arcsec_to_kpc : R) (rho2d rho3d : R -> R) (u2 ut u3 : R) : result (R * R * R) :=
  do r2d <- nfw_radius 2 rho2d (1e-3 * rmax2d) rmax2d u2;
  let r2d_kpc := r2d * arcsec_to_kpc in
  let theta := 2 * PI * ut in
  do r3d <- nfw_radius 3 rho3d (1e-3 * rmax2d) rmax3d u3;
  Ok (r2d_kpc * cos theta, r2d_kpc * sin theta, r3d * arcsec_to_kpc).
