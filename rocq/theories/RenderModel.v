(** Model of the rendering classes: Rendering/rendering_class_base.py, line_of_sight.py, two_halo.py, subhalos.py,
    halo_population.py, correlated_structure.py and the two extensions built on them
    (realization_extensions.py add_correlated_structure).  Random numbers are explicit inputs: every mass-function
    draw and every spatial draw is indexed by the number of the plane at which it is made. *)
From Verif Require Import Prelude MassFnModel SpaceModel.
From Coq Require Import String.
Open Scope string_scope.
Open Scope R_scope.

(** A mass-function object: the masses returned by the [i]-th call of draw(), and the attribute first_moment.
    The concrete classes are modelled in MassFnModel.v. *)
Record mass_fn := { mf_draw : nat -> result (list R); mf_first_moment : R }.
(** cls.from_redshift(z, dz, geometry, kwargs) as a function of z, dz, log_mlow, log_mhigh, LOS_normalization, draw_poisson *)
Definition los_class := R -> R -> R -> R -> R -> bool -> mass_fn.
(** cls(kwargs) of the subhalo mass functions: log_mlow, log_mhigh, power_law_index, draw_poisson, normalization *)
Definition sub_class := R -> R -> R -> bool -> R -> mass_fn.

(** Keys of the line-of-sight mass-function dictionary that are read; [None] = key absent.
    A number or a function of redshift is an [mlimit]. *)
Record los_kwargs := {
  lk_log_mlow : option mlimit; lk_log_mhigh : option mlimit; lk_norm : option mlimit;
  lk_host_m200 : option R; lk_log_m_host : option R; lk_poisson : option bool }.

(** What is read from LensCosmo, Cosmology and Geometry: redshifts, opening angle, kpc per arcsec, the rendering scale,
    angle_to_physical_area(0.5*cone_opening_angle, z), sigma_crit_mass(z, area), D_C_transverse, twohaloterm(r, m, z),
    the virial radius in Mpc of a host of given mass, and scipy's quad. *)
Record renv := {
  re_zlens : R; re_zsource : R; re_cone : R; re_kpc : R -> result R; re_scale : R -> R; re_area : R -> R;
  re_sigma_crit_mass : R -> R -> R; re_DC : R -> R; re_twohalo : R -> R -> R -> R; re_r200 : R -> R;
  re_quad : (R -> R) -> R -> R -> R }.

(** Instantiated spatial distributions, with the deviates of object [j] at plane [i]. *)
Inductive sp_kind :=
| SpUniform (rmax2d : R)
| SpCone (angle : R)
| SpNfw (rmax2d rmax3d arcsec_to_kpc : R) (rho2d rho3d : R -> R).
Record spatial := { sp_what : sp_kind; sp_devs : nat -> nat -> R * R * R }.
Definition dev2 (d : R * R * R) : R * R := (fst (fst d), snd (fst d)).

(** [x, y = spatial.draw(n, z)] (rendering_class_base.py 39): ProjectedNFW.draw returns three lists, so the
    unpacking into two names raises ValueError (nfw.py 62-83). *)
Definition draw_xy (e : renv) (sp : spatial) (i n : nat) (z : R) : result (list (R * R)) :=
  let devs := map (fun j => dev2 (sp_devs sp i j)) (seq 0 n) in
  match sp_what sp with
  | SpUniform r => uniform_draw r (re_kpc e) z 1 0 0 devs
  | SpCone a => lens_cone_draw a (re_scale e) (re_kpc e) z 0 0 devs
  | SpNfw _ _ _ _ _ => Err EValueError
  end.

(** rendering_class_base.py 29-46 *)
Definition render_xy (e : renv) (sp : spatial) (i n : nat) (z : R) : result (list (R * R)) :=
  do p <- draw_xy e sp i n z; render_positions (re_kpc e) z p.

(** rendering_class_base.py 19-27: draw_poisson defaults to True *)
Definition los_init (k : los_kwargs) : los_kwargs :=
  {| lk_log_mlow := lk_log_mlow k; lk_log_mhigh := lk_log_mhigh k; lk_norm := lk_norm k;
     lk_host_m200 := lk_host_m200 k; lk_log_m_host := lk_log_m_host k;
     lk_poisson := match lk_poisson k with Some b => Some b | None => Some true end |}.

Definition orelse {A} (o : option A) (d : option A) : option A := match o with Some a => Some a | None => d end.

(** line_of_sight.py 39-57; the mass-function class evaluates LOS_normalization at z
    (rendering_class_base.py 48-60, density_peaks.py 41) and reads draw_poisson. *)
Definition los_mass_fn (cls : los_class) (k : los_kwargs) (z dz : R) (lo_new hi_new : option mlimit) : result mass_fn :=
  do lo <- need (orelse lo_new (lk_log_mlow k));
  do hi <- need (orelse hi_new (lk_log_mhigh k));
  do norm <- need (lk_norm k);
  do p <- need (lk_poisson k);
  Ok (cls z dz (eval_mlimit z lo) (eval_mlimit z hi) (eval_mlimit z norm) p).

(** The six arrays returned by the renderers (the r3d entry [None] of Python is [None]). *)
Record arrays := { a_m : list R; a_x : list R; a_y : list R; a_r3d : list (option R); a_z : list R; a_sub : list bool }.

(** line_of_sight.py 24-33: the loop over zip(planes, dz); [i] numbers the plane *)
Fixpoint los_loop (e : renv) (cls : los_class) (k : los_kwargs) (sp : spatial) (i : nat) (zs : list (R * R))
    : result (list R * list R * list R * list R) :=
  match zs with
  | [] => Ok ([], [], [], [])
  | (z, dz) :: t =>
      do mf <- los_mass_fn cls k z dz None None;
      do m <- mf_draw mf i;
      do p <- render_xy e sp i (List.length m) z;
      let zz := repeat z (List.length p) in
      do rest <- los_loop e cls k sp (S i) t;
      let '(ms, xs, ys, rs) := rest in
      Ok (app m ms, app (map fst p) xs, app (map snd p) ys, app zz rs)
  end.

(** line_of_sight.py 12-37; zip over None raises TypeError *)
Definition los_render (e : renv) (cls : los_class) (k : los_kwargs) (sp : spatial) (planes dzs : option (list R)) : result arrays :=
  match planes, dzs with
  | Some zs, Some ds =>
      do r <- los_loop e cls k sp 0 (combine zs ds);
      let '(ms, xs, ys, rs) := r in
      Ok {| a_m := ms; a_x := xs; a_y := ys; a_r3d := repeat None (List.length ms); a_z := rs;
            a_sub := repeat false (List.length ms) |}
  | _, _ => Err ETypeError
  end.

(** two_halo.py 74-84 with the default parameters *)
Definition modificationLazar2021 (r r200 : R) : R := 0.1 * Rpower (r / r200 / 5) (-4).
(** two_halo.py 86-100 *)
Definition boost_integrand (e : renv) (m200 z r200 : R) (lazar : bool) (r : R) : R :=
  if lazar then re_twohalo e r m200 z + modificationLazar2021 r r200 else re_twohalo e r m200 z.
(** two_halo.py 102-119; [None] is nan: for rmax <= 0.5 the numerator and the denominator are both 0 *)
Definition two_halo_enhancement_factor (e : renv) (z_lens z_step m200 r200 : R) (lazar : bool) (scale : R) : option R :=
  let rmax := re_DC e (z_lens + z_step) - re_DC e z_lens in
  let rmin := Rmin rmax 0.5 in
  if Reqb (rmax - rmin) 0 then None
  else Some (scale * (2 * re_quad e (boost_integrand e m200 z_lens r200 lazar) rmin rmax / (rmax - rmin))).

(** numpy.argmin: first position of the smallest entry *)
Fixpoint argmin_from (best : R) (bi i : nat) (l : list R) : nat :=
  match l with
  | [] => bi
  | a :: t => if Rltb a best then argmin_from a i (S i) t else argmin_from best bi (S i) t
  end.
Definition np_argmin (l : list R) : result nat :=
  match l with [] => Err EValueError | a :: t => Ok (argmin_from a 0 1 t) end.

Record two_halo := { th_dz : R; th_kw : option los_kwargs (* [None]: the normalisation is nan *) }.
(** two_halo.py 19-57.  The concentration model and NFW_params_physical are [re_r200]. *)
Definition two_halo_init (e : renv) (k : los_kwargs) (planes dzs : option (list R)) (lazar : bool) (scale : R) : result two_halo :=
  do host <- match lk_host_m200 k with
             | Some m => Ok m
             | None => match lk_log_m_host k with Some l => Ok (pow10 l) | None => Err EException end
             end;
  match planes, dzs with
  | Some zs, Some ds =>
      do idx <- np_argmin (map (fun z => Rabs (z - re_zlens e)) zs);
      do dz <- match nth_error ds idx with Some d => Ok d | None => Err EIndexError end;
      let boost := two_halo_enhancement_factor e (re_zlens e) dz host (re_r200 e host) lazar scale in
      match lk_norm k with
      | None => Err EKeyError
      | Some (MFun _) => Err ETypeError
      | Some (MNum n) =>
          Ok {| th_dz := dz;
                th_kw := match boost with
                         | None => None
                         | Some b => Some (los_init {| lk_log_mlow := lk_log_mlow k; lk_log_mhigh := lk_log_mhigh k;
                                            lk_norm := Some (MNum (n * b)); lk_host_m200 := lk_host_m200 k;
                                            lk_log_m_host := lk_log_m_host k; lk_poisson := lk_poisson k |})
                         end |}
      end
  | _, _ => Err ETypeError
  end.

(** two_halo.py 59-72; with a nan normalisation the number of objects is nan and drawing raises ValueError
    (for an empty mass range it would be 0: not modelled) *)
Definition two_halo_render (e : renv) (cls : los_class) (t : two_halo) (sp : spatial) : result arrays :=
  match th_kw t with
  | None => Err EValueError
  | Some k =>
      do mf <- los_mass_fn cls k (re_zlens e) (th_dz t) None None;
      do m <- mf_draw mf 0;
      let n := List.length m in
      do p <- render_xy e sp 0 n (re_zlens e);
      Ok {| a_m := m; a_x := map fst p; a_y := map snd p; a_r3d := repeat None n;
            a_z := repeat (re_zlens e) n; a_sub := repeat false n |}
  end.

(** subhalos.py 41-61: x, y in arcsec and r3d *)
Definition sub_positions (e : renv) (sp : spatial) (n : nat) : result (list (R * R * option R)) :=
  let z := re_zlens e in
  match sp_what sp with
  | SpNfw rmax2d rmax3d a2k rho2d rho3d =>
      do pts <- mapM (fun j => let '(u2, ut, u3) := sp_devs sp 0 j in nfw_point rmax2d rmax3d a2k rho2d rho3d u2 ut u3) (seq 0 n);
      match pts with
      | [] => Ok []
      | _ => do k <- re_kpc e z;
             Ok (map (fun p => (fst (fst p) * / k, snd (fst p) * / k, Some (snd p))) pts)
      end
  | _ =>
      do p <- render_xy e sp 0 n z;
      Ok (map (fun q => (fst q, snd q, None)) p)
  end.

(** subhalos.py 63-98 *)
Definition sub_mass_fn (e : renv) (cls : sub_class) (k : sub_kwargs) (lo_new hi_new : option mlimit) : result mass_fn :=
  do kpc <- re_kpc e (re_zlens e);
  do a <- sub_mass_function_args (re_zlens e) kpc (re_cone e) k lo_new hi_new;
  let '(lo, hi, index, p, norm) := a in
  Ok (cls lo hi index p norm).

(** subhalos.py 28-39 *)
Definition sub_render (e : renv) (cls : sub_class) (k : sub_kwargs) (sp : spatial) : result arrays :=
  do mf <- sub_mass_fn e cls k None None;
  do m <- mf_draw mf 0;
  do p <- sub_positions e sp (List.length m);
  Ok {| a_m := m; a_x := map (fun q => fst (fst q)) p; a_y := map (fun q => snd (fst q)) p; a_r3d := map snd p;
        a_z := repeat (re_zlens e) (List.length m); a_sub := repeat true (List.length m) |}.

(** What the user passes for one population: the mass-function class, its dictionary (as read by the line-of-sight
    and by the subhalo renderer) and the instantiated spatial distribution.  The parallel lists of
    HaloPopulation.__init__ are one list of these records. *)
Record pop_args := {
  pa_from_redshift : los_class; pa_construct : sub_class; pa_los : los_kwargs; pa_sub : sub_kwargs; pa_spatial : spatial }.

Inductive model :=
| MLos (sheet : bool) (cls : los_class) (k : los_kwargs) (sp : spatial)
| MSub (cls : sub_class) (k : sub_kwargs) (sp : spatial)
| MTwo (cls : los_class) (t : two_halo) (sp : spatial).

(** halo_population.py 38-66, one pass of the loop *)
Definition mk_model (e : renv) (planes dzs : option (list R)) (lazar : bool) (scale2 : R) (name : string) (a : pop_args) : result model :=
  if String.eqb name "LINE_OF_SIGHT" then Ok (MLos true (pa_from_redshift a) (los_init (pa_los a)) (pa_spatial a))
  else if String.eqb name "LINE_OF_SIGHT_NOSHEET" then Ok (MLos false (pa_from_redshift a) (los_init (pa_los a)) (pa_spatial a))
  else if String.eqb name "SUBHALOS" then Ok (MSub (pa_construct a) (sub_init (pa_sub a)) (pa_spatial a))
  else if String.eqb name "TWO_HALO" then
    do t <- two_halo_init e (pa_los a) planes dzs lazar scale2;
    Ok (MTwo (pa_from_redshift a) t (pa_spatial a))
  else Err EException.

(** halo_population.py 36-66: [args[i]] raises IndexError when the list is too short *)
Fixpoint population_init (e : renv) (planes dzs : option (list R)) (lazar : bool) (scale2 : R)
    (names : list string) (args : list pop_args) : result (list model) :=
  match names, args with
  | [], _ => Ok []
  | _ :: _, [] => Err EIndexError
  | n :: ns, a :: rest =>
      do m <- mk_model e planes dzs lazar scale2 n a;
      do ms <- population_init e planes dzs lazar scale2 ns rest;
      Ok (m :: ms)
  end.

(** the render method of each class *)
Definition model_render (e : renv) (planes dzs : option (list R)) (m : model) : result arrays :=
  match m with
  | MLos _ cls k sp => los_render e cls k sp planes dzs
  | MSub cls k sp => sub_render e cls k sp
  | MTwo cls t sp => two_halo_render e cls t sp
  end.

Definition arrays_nil : arrays := {| a_m := []; a_x := []; a_y := []; a_r3d := []; a_z := []; a_sub := [] |}.
Definition arrays_app (p q : arrays) : arrays :=
  {| a_m := app (a_m p) (a_m q); a_x := app (a_x p) (a_x q); a_y := app (a_y p) (a_y q); a_r3d := app (a_r3d p) (a_r3d q);
     a_z := app (a_z p) (a_z q); a_sub := app (a_sub p) (a_sub q) |}.

(** halo_population.py 68-94 *)
Fixpoint population_render (e : renv) (planes dzs : option (list R)) (ms : list model) (acc : arrays) : result arrays :=
  match ms with
  | [] => Ok acc
  | m :: t => do a <- model_render e planes dzs m; population_render e planes dzs t (arrays_app acc a)
  end.

(** HaloPopulation(...).render() *)
Definition render_population (e : renv) (planes dzs : option (list R)) (lazar : bool) (scale2 : R)
    (names : list string) (args : list pop_args) : result arrays :=
  do ms <- population_init e planes dzs lazar scale2 names args;
  population_render e planes dzs ms arrays_nil.

(** ** Convergence sheets *)

(** the returned lists: kappa values, profile names, redshifts *)
Definition sheets := (list R * list string * list R)%type.
Definition no_sheets : sheets := ([], [], []).

(** line_of_sight.py 111-116 *)
Definition convergence_at_z (e : renv) (z mtheory : R) : R := mtheory / re_sigma_crit_mass e z (re_area e z).

(** line_of_sight.py 91-108 *)
Fixpoint sheet_loop (e : renv) (cls : los_class) (k : los_kwargs) (scale : R) (lo hi : mlimit) (zmin zmax : R)
    (zs : list (R * R)) : result sheets :=
  match zs with
  | [] => Ok no_sheets
  | (z, dz) :: t =>
      if Rltb z zmin then sheet_loop e cls k scale lo hi zmin zmax t
      else if Rltb zmax z then sheet_loop e cls k scale lo hi zmin zmax t
      else
        do mf <- los_mass_fn cls k z dz (Some (MNum (eval_mlimit z lo))) (Some (MNum (eval_mlimit z hi)));
        let kappa := convergence_at_z e z (mf_first_moment mf) in
        do rest <- sheet_loop e cls k scale lo hi zmin zmax t;
        let '(ks, ns, zz) := rest in
        if Rltb 0 kappa then Ok ((- scale * kappa) :: ks, "CONVERGENCE" :: ns, z :: zz) else Ok rest
  end.

(** line_of_sight.py 67-109 *)
Definition los_sheets (e : renv) (cls : los_class) (k : los_kwargs) (planes dzs : option (list R)) (scale : R)
    (lo hi : mlimit) (zmin zmax : option R) (use_class : bool) : result sheets :=
  do r <- (if use_class then
             do l <- need (lk_log_mlow k); do h <- need (lk_log_mhigh k); Ok (l, h)
           else Ok (lo, hi));
  let zmin := match zmin with Some z => z | None => 0 end in
  let zmax := match zmax with Some z => z | None => re_zsource e end in
  match planes, dzs with
  | Some zs, Some ds => sheet_loop e cls k scale (fst r) (snd r) zmin zmax (combine zs ds)
  | _, _ => Err ETypeError
  end.

(** subhalos.py 100-123 *)
Definition sub_sheets (e : renv) (cls : sub_class) (k : sub_kwargs) (scale : R) (lo hi : mlimit) (use_class : bool) : result sheets :=
  let lo := if use_class then sk_log_mlow k else lo in
  let hi := if use_class then sk_log_mhigh k else hi in
  do mf <- sub_mass_fn e cls k (Some lo) (Some hi);
  let mass := mf_first_moment mf in
  if Reqb mass 0 then Ok no_sheets
  else
    let area := re_area e (re_zlens e) in
    let kappa := mass / re_sigma_crit_mass e (re_zlens e) area in
    Ok ([-1 * scale * kappa], ["CONVERGENCE"], [re_zlens e]).

(** convergence_sheet_correction of each class; LineOfSightNoSheet and TwoHaloContribution inherit
    rendering_class_base.py 86-87 *)
Definition model_sheets (e : renv) (planes dzs : option (list R)) (m : model) (scale : R) (lo hi : mlimit)
    (zmin zmax : option R) (use_class : bool) : result sheets :=
  match m with
  | MLos true cls k _ => los_sheets e cls k planes dzs scale lo hi zmin zmax use_class
  | MSub cls k _ => sub_sheets e cls k scale lo hi use_class
  | MLos false _ _ _ | MTwo _ _ _ => Ok no_sheets
  end.

(** ** Correlated structure *)

(** A halo of the input realization: angular coordinates, redshift and density normalisation. *)
Record chalo := { ch_x : R; ch_y : R; ch_z : R; ch_norm : R }.

(** mass function used for the correlated structure: DELTA_FUNCTION, GAUSSIAN or another name *)
Inductive cmass := CDelta (logM mass_fraction : R) (poisson : bool)
                 | CGauss (logM logM_sigma mass_fraction : R) (poisson : bool)
                 | COther (name : string).

(** correlated_structure.py 109-135: the drawn masses and the rescale factor; [count], [g] are the Poisson count and
    the normal deviates of the generator *)
Definition render_masses_at_z (c : cmass) (mass_in_area : R) (count : nat) (g : nat -> R) : result (list R * R) :=
  match c with
  | CDelta logM f p =>
      let rescale := 1 - f in
      let volume := 1 in
      let rho := f * mass_in_area in
      do m <- df_draw (mk_delta_fn (pow10 logM) volume rho p) count;
      Ok (m, rescale)
  | CGauss logM sigma f p =>
      let rescale := 1 - f in
      let mean := exp (ln (pow10 logM) + ln (pow10 sigma) ^ 2 / 2) in
      do m <- gf_draw (mk_gauss_fn (f * mass_in_area / mean) logM sigma p) count g;
      Ok (m, rescale)
  | COther _ => Err EException
  end.

(** correlated_structure.py 158-176: pixels of the square map outside the circle are set to zero, and the area per
    pixel is the circle divided by the number of pixels OUTSIDE it ([npixels = len(inds_zero)]).
    [kappa x y] is the convergence of the halos at the plane; nan never occurs over the reals. *)
Definition pixel_axis (r : R) (npix : nat) : list R := np_linspace (- r) r npix.
Definition pixels (r : R) (npix : nat) : list (R * R) :=
  flat_map (fun y => map (fun x => (x, y)) (pixel_axis r npix)) (pixel_axis r npix).
Definition outside (r : R) (p : R * R) : bool := Rltb r (sqrt (fst p ^ 2 + snd p ^ 2)).
Definition kappa_pdf (kappa : R -> R -> R) (cx cy r : R) (npix : nat) : list R :=
  map (fun p => if outside r p then 0 else kappa (fst p + cx) (snd p + cy)) (pixels r npix).
Definition mass_in_area (kappa : R -> R -> R) (sigma_crit cx cy r : R) (npix : nat) : R :=
  let npixels := INR (List.length (filter (outside r) (pixels r npix))) in
  let effective_area := PI * r ^ 2 / npixels in
  sumR (map (fun k => k * sigma_crit) (kappa_pdf kappa cx cy r npix)) * effective_area.
(** correlated_structure.py 160: [max(20, int(2*rendering_radius/arcsec_per_pixel))] *)
Definition n_pixels (r arcsec_per_pixel : R) : nat := Nat.max 20 (Z.to_nat (Int_part (2 * r / arcsec_per_pixel))).

(** single_realization.py 34-44: halos of the plane within max_range of the ray (strictly) *)
Definition near (h : chalo) (z ax ay rmax : R) : bool :=
  Reqb (ch_z h) z && Rltb (sqrt ((ch_x h - ax) ^ 2 + (ch_y h - ay) ^ 2)) rmax.

(** What happens at the [i]-th plane: generator outputs and the convergence of the halos selected there. *)
Record cplane := { cp_count : nat; cp_normal : nat -> R; cp_kappa : R -> R -> R; cp_sigma_crit : R }.

(** correlated_structure.py 82-107, masses and rescale factor only: the positions drawn here are discarded by the
    caller (line 68).  Correlated2D.draw raises when the map sums to zero (correlated.py 36-38). *)
Definition render_at_z (halos : list chalo) (c : cmass) (cp : cplane) (z ax ay rmax arcsec_per_pixel : R)
    : result (list R * R) :=
  if existsb (fun h => near h z ax ay rmax) halos then
    let n := n_pixels rmax arcsec_per_pixel in
    do r <- render_masses_at_z c (mass_in_area (cp_kappa cp) (cp_sigma_crit cp) ax ay rmax n) (cp_count cp) (cp_normal cp);
    match fst r with
    | [] => Ok ([], 1)
    | _ => if Reqb (sumR (kappa_pdf (cp_kappa cp) ax ay rmax n)) 0 then Err EException else Ok r
    end
  else Ok ([], 1).

(** [np.where(np.logical_and(halo_redshifts == z, dr < rmax))] *)
Fixpoint where_near (i : nat) (halos : list chalo) (z ax ay rmax : R) : list nat :=
  match halos with
  | [] => []
  | h :: t => if near h z ax ay rmax then i :: where_near (S i) t z ax ay rmax else where_near (S i) t z ax ay rmax
  end.

(** sorted distinct indices ([numpy.unique] of integers) *)
Fixpoint insert_nat (n : nat) (l : list nat) : list nat :=
  match l with
  | [] => [n]
  | a :: t => if (n <? a)%nat then n :: l else if (n =? a)%nat then l else a :: insert_nat n t
  end.
Definition unique_nat (l : list nat) : list nat := fold_right insert_nat [] l.

(** correlated_structure.py 62-78: the loop over the planes.  The ray at plane z is [ray z] (the interpolated image
    path evaluated at the distance of the plane).  [last] is the rescale factor of the previous plane. *)
Fixpoint corr_loop (halos : list chalo) (c : cmass) (ray : R -> R * R) (rmax app_ : R) (planes : list (R * cplane))
    (last : R) : result (list R * list R * list R * list R * R * list nat) :=
  match planes with
  | [] => Ok ([], [], [], [], last, [])
  | (z, cp) :: t =>
      let '(ax, ay) := ray z in
      do r <- render_at_z halos c cp z ax ay rmax app_;
      let x := map ch_x halos in
      let y := map ch_y halos in
      let idx := where_near 0 halos z ax ay rmax in
      do rest <- corr_loop halos c ray rmax app_ t (snd r);
      let '(ms, xs, ys, zs, f, is) := rest in
      match fst r with
      | [] => Ok (ms, xs, ys, zs, f, app idx is)
      | m => Ok (app m ms, app x xs, app y ys, app (repeat z (List.length x)) zs, f, app idx is)
      end
  end.

(** correlated_structure.py 35-80: masses, x, y, z, rescale factor and indices (r3d and the flags have the length of
    the masses).  The planes are the realization's unique redshifts; an empty list raises IndexError at [-1]. *)
Definition corr_render (halos : list chalo) (c : cmass) (ray : R -> R * R) (rmax app_ : R) (planes : list (R * cplane))
    : result (list R * list R * list R * list R * R * list nat) :=
  match planes with
  | [] => Err EIndexError
  | _ => do r <- corr_loop halos c ray rmax app_ planes 1;
         let '(ms, xs, ys, zs, f, is) := r in
         Ok (ms, xs, ys, zs, f, unique_nat is)
  end.

(** A point mass added to the realization. *)
Record point := { pt_m : R; pt_x : R; pt_y : R; pt_z : R }.
(** Realization(masses, x, y, ...) iterates over the zipped arrays (Realization._setup, see LoaderModel.v), so the
    shortest one decides. *)
Fixpoint zip_points (m x y z : list R) : list point :=
  match m, x, y, z with
  | m :: ms, x :: xs, y :: ys, z :: zs => {| pt_m := m; pt_x := x; pt_y := y; pt_z := z |} :: zip_points ms xs ys zs
  | _, _, _, _ => []
  end.

(** realization_extensions.py 1026-1038: loop over the images; returns points, all indices and the last rescale factor *)
Fixpoint corr_images (halos : list chalo) (c : cmass) (rmax app_ : R) (images : list ((R -> R * R) * list (R * cplane)))
    (last : option R) : result (list point * list nat * option R) :=
  match images with
  | [] => Ok ([], [], last)
  | (ray, planes) :: t =>
      do r <- corr_render halos c ray rmax app_ planes;
      let '(ms, xs, ys, zs, f, is) := r in
      do rest <- corr_images halos c rmax app_ t (Some f);
      let '(pts, js, l) := rest in
      Ok (app (zip_points ms xs ys zs) pts, app is js, l)
  end.

(** halo.rescale_normalization(factor, log=False, force=True) (Halos/halo_base.py, modelled in HaloStateModel.v) *)
Definition rescale_halo (f : R) (h : chalo) : chalo :=
  {| ch_x := ch_x h; ch_y := ch_y h; ch_z := ch_z h; ch_norm := ch_norm h * f |}.
(** [for i in indices: halos[i].rescale(...)] *)
Fixpoint rescale_at (f : R) (is : list nat) (halos : list chalo) : list chalo :=
  match is with
  | [] => halos
  | i :: t => rescale_at f t (map (fun p => if Nat.eqb (fst p) i then rescale_halo f (snd p) else snd p)
                               (combine (seq 0 (List.length halos)) halos))
  end.

(** realization_extensions.py 1005-1043: the halos of the copy, and the points joined to it.  Without images the
    name realization_pbh is unbound. *)
Definition add_correlated_structure (halos : list chalo) (c : cmass) (rmax app_ : R)
    (images : list ((R -> R * R) * list (R * cplane))) (rescale_normalizations : bool) : result (list chalo * list point) :=
  do r <- corr_images halos c rmax app_ images None;
  let '(pts, is, f) := r in
  match f with
  | None => Err EUnboundLocal
  | Some f => Ok (if rescale_normalizations then rescale_at f (unique_nat is) halos else halos, pts)
  end.
