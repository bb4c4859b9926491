(** Model of the extensions that add new populations of objects to a realization:
    realization_extensions.py add_black_holes (72-168), add_globular_clusters (170-260), add_ULDM_fluctuations (926-1003,
    with its helpers 1163-1262) and add_primordial_black_holes (1045-1161), and of
    Rendering/SpatialDistributions/correlated.py 20-68.
    Random numbers are explicit inputs: uniform deviates in [0,1], standard normal deviates, Poisson counts, tags. *)
From Verif Require Import Prelude MassFnModel SpaceModel RenderModel RealizationModel.
From Coq Require Import String.
Local Open Scope string_scope.
Local Open Scope R_scope.
Local Open Scope list_scope.

(** New halo objects are allocated behind the [n] existing ones. *)
Definition alloc (hp : heap) (n : nat) (hs : list Halo) : heap :=
  fun r => if (r <? n)%nat then hp r else nth (r - n) hs (hp r).
Definition new_refs (n : nat) (hs : list Halo) : list ref := seq n (List.length hs).

(** Halos/HaloModels/blackhole.py 8-58: a point mass; [factor z] is lens_cosmo.point_mass_factor_z(z).
    The base class has no bound mass (halo_base.py 176-182). *)
Definition point_mass (factor : R -> R) (m x y z : R) (fixed : bool) (tag : Z) : Halo :=
  {| h_mass := m; h_x := x; h_y := y; h_z := z; h_mdef := "PT_MASS"; h_tag := tag; h_sub := false; h_fixed := fixed;
     h_bound := None; h_ids := ["POINT_MASS"];
     h_kwargs := [[("center_x", x); ("center_y", y); ("theta_E", factor z * sqrt m)]]; h_interp := None |}.

(** ** Black holes *)

(** What add_black_holes reads from the cosmology, the geometry and colossus: kpc per arcsec, the scale radius
    halo.nfw_params[1] in kpc ([None]: the object has no NFW parameters), the point-mass factor, the source redshift,
    the opening angle and its scale, the mass function dn/dlnM at z, little h, the comoving volume of a plane. *)
Record benv := {
  be_kpc : R -> result R; be_rs : ref -> option R; be_factor : R -> R; be_zsource : R; be_cone : R; be_scale : R -> R;
  be_dndlnM : R -> R -> R; be_h : R; be_volume : R -> R -> R }.
(** log10_mass_ratio, f, log10_mlow_halos_subres, log10_min_mbh, log_mlow_halos, log10_mass_maximum, LOS_normalization *)
Record bh_args := { ba_ratio : R; ba_f : R; ba_mlow : R; ba_min : R; ba_mhigh : R; ba_max : R; ba_norm : R }.
(** The generator: numbers used for the [i]-th halo, and for the [j]-th object of the [i]-th plane. *)
Record bh_rng := {
  br_u : nat -> R; br_angle : nat -> R; br_radius : nat -> R; br_tag : nat -> Z;
  br_count : nat -> nat; br_mass : nat -> nat -> R; br_pos : nat -> nat -> R * R; br_ptag : nat -> nat -> Z }.

(** realization_extensions.py 96-124, one rendered halo.  [np.random.uniform(0, b)] is [b * u]. *)
Definition bh_in_halo (e : benv) (a : bh_args) (g : bh_rng) (hp : heap) (i : nat) (r : ref) : result (list Halo) :=
  if Rltb (ba_f a) (br_u g i) then Ok []
  else
    do kpc <- be_kpc e (h_z (hp r));
    let m_bh := Rmin (pow10 (ba_max a)) (h_mass (hp r) * pow10 (ba_ratio a)) in
    match be_rs e r with
    | None => Err EAttributeError
    | Some rs =>
        let rs_arcsec := rs / kpc in
        let theta := 2 * PI * br_angle g i in
        let rr := sqrt (rs_arcsec ^ 2 * br_radius g i) in
        let x := h_x (hp r) + rr * cos theta in
        let y := h_y (hp r) + rr * sin theta in
        if Rltb (pow10 (ba_min a)) m_bh then Ok [point_mass (be_factor e) m_bh x y (h_z (hp r)) false (br_tag g i)]
        else Ok []
    end.
Fixpoint bh_halos (e : benv) (a : bh_args) (g : bh_rng) (hp : heap) (i : nat) (hs : list ref) : result (list Halo) :=
  match hs with
  | [] => Ok []
  | r :: t => do b <- bh_in_halo e a g hp i r; do bs <- bh_halos e a g hp (S i) t; Ok (b ++ bs)
  end.

(** realization_extensions.py 132-142: the mass function of halos below the resolution of the realization *)
Definition bh_mass_fn (e : benv) (a : bh_args) (z dz : R) : power_law :=
  sheth_tormen (be_dndlnM e z) (be_h e) (be_volume e z dz) (10 ^ 8) (ba_mlow a) (ba_mhigh a) 0 (ba_f a * ba_norm a) true.
(** realization_extensions.py 150-165: the loop over the objects of one plane *)
Fixpoint bh_objects (e : benv) (a : bh_args) (kpc z : R) (tag : nat -> Z) (j : nat) (l : list (R * (R * R))) : list Halo :=
  match l with
  | [] => []
  | (m, (x, y)) :: t =>
      (if Rltb (pow10 (ba_min a)) m
       then [point_mass (be_factor e) (m * pow10 (ba_ratio a)) (x / kpc) (y / kpc) z false (tag j)] else [])
      ++ bh_objects e a kpc z tag (S j) t
  end.
(** realization_extensions.py 131-165: the loop over the planes *)
Fixpoint bh_planes (e : benv) (a : bh_args) (g : bh_rng) (i : nat) (zs : list (R * R)) : result (list Halo) :=
  match zs with
  | [] => Ok []
  | (z, dz) :: t =>
      do ms <- pl_draw (bh_mass_fn e a z dz) (br_count g i) (br_mass g i);
      do pts <- lens_cone_draw (be_cone e) (be_scale e) (be_kpc e) z 0 0 (map (br_pos g i) (seq 0 (List.length ms)));
      do kpc <- be_kpc e z;
      do rest <- bh_planes e a g (S i) t;
      Ok (bh_objects e a kpc z (br_ptag g i) 0 (combine ms pts) ++ rest)
  end.
(** realization_extensions.py 125-129: [plane_redshifts[-1]] of an empty array raises IndexError *)
Definition planes_of (rz : Realz) (zsource : R) : result (list (R * R)) :=
  match rz_uniq rz with [] => Err EIndexError | zs => Ok (combine zs (gaps zs zsource)) end.
(** realization_extensions.py 72-168: the returned realization consists of the black holes only *)
Definition add_black_holes (e : benv) (a : bh_args) (g : bh_rng) (hp : heap) (n : nat) (rz : Realz) : result (heap * Realz) :=
  do b1 <- bh_halos e a g hp 0 (rz_halos rz);
  do pl <- planes_of rz (be_zsource e);
  do b2 <- bh_planes e a g 0 pl;
  let bs := b1 ++ b2 in
  let hp' := alloc hp n bs in
  Ok (hp', rebuild hp' rz (new_refs n bs)).

(** ** Globular clusters *)

(** lenstronomy's SPLCORE.mass_3d(r, rho0, r_core, gamma), sigma_crit in Msun/Mpc^2 *)
Record genv := {
  ge_zlens : R; ge_kpc : R -> result R; ge_factor : R -> R; ge_sigma_crit : R; ge_mass3d : R -> R -> R -> R -> R }.
Record gc_args := {
  ga_mean : R; ga_sigma : R; ga_radius : R; ga_profile : string; ga_gamma : R; ga_dgamma : R; ga_size : R; ga_dsize : R;
  ga_density : R }.
(** numbers used for the [j]-th cluster of the [i]-th centre *)
Record gc_rng := {
  gr_count : nat -> nat; gr_normal : nat -> nat -> R; gr_pos : nat -> nat -> R * R; gr_tag : nat -> nat -> Z;
  gr_gamma : nat -> nat -> R; gr_size : nat -> nat -> R }.
(** Python's int(): truncation towards zero *)
Definition py_int (x : R) : Z := if Rleb 0 x then Int_part x else (- Int_part (- x))%Z.

(** Halos/HaloModels/globular_cluster.py 63-83 and 7-33: the object and its lens keywords *)
Definition globular_cluster (e : genv) (kpc m x y gamma size_pc conc : R) (tag : Z) : Halo :=
  let size := size_pc * 1e-3 / kpc in
  let r_core := size / conc in
  let sigma_crit := ge_sigma_crit e * (0.001 * kpc) ^ 2 in
  let rho0 := m / ge_mass3d e size sigma_crit r_core gamma in
  {| h_mass := m; h_x := x; h_y := y; h_z := ge_zlens e; h_mdef := "SPL_CORE"; h_tag := tag; h_sub := false; h_fixed := true;
     h_bound := None; h_ids := ["SPL_CORE"];
     h_kwargs := [[("sigma0", rho0 * r_core); ("gamma", gamma); ("center_x", x); ("center_y", y); ("r_core", r_core)]];
     h_interp := None |}.

(** realization_extensions.py 207-211: the number of clusters per centre *)
Definition gc_number (a : gc_args) (kpc : R) : Z :=
  let integral := exp (ln (pow10 (ga_mean a)) + ln (pow10 (ga_sigma a)) ^ 2 / 2) in
  let mass := PI * ga_density a * (ga_radius a * kpc) ^ 2 in
  py_int (mass / integral).
(** realization_extensions.py 219-247: one cluster *)
Definition gc_object (e : genv) (a : gc_args) (kpc : R) (tag : Z) (ug us m x y : R) : result Halo :=
  if String.eqb (ga_profile a) "SPL_CORE" then
    let gamma := (ga_gamma a - ga_dgamma a) + ((ga_gamma a + ga_dgamma a) - (ga_gamma a - ga_dgamma a)) * ug in
    let r_core_pc := ((ga_size a - ga_dsize a) + ((ga_size a + ga_dsize a) - (ga_size a - ga_dsize a)) * us)
                     * Rpower (m / 10 ^ 5) (1 / 3) in
    Ok (globular_cluster e kpc m x y gamma (20 * r_core_pc) 20 tag)
  else if String.eqb (ga_profile a) "PTMASS" then Ok (point_mass (ge_factor e) m x y (ge_zlens e) true tag)
  else Err EException.
Fixpoint gc_objects (e : genv) (a : gc_args) (g : gc_rng) (kpc : R) (i j : nat) (l : list (R * (R * R))) : result (list Halo) :=
  match l with
  | [] => Ok []
  | (m, (x, y)) :: t =>
      do o <- gc_object e a kpc (gr_tag g i j) (gr_gamma g i j) (gr_size g i j) m (x / kpc) (y / kpc);
      do os <- gc_objects e a g kpc i (S j) t;
      Ok (o :: os)
  end.
(** realization_extensions.py 212-247: the clusters of one centre *)
Definition gc_centre (e : genv) (a : gc_args) (g : gc_rng) (kpc : R) (i : nat) (c : R * R) : result (list Halo) :=
  do ms <- gf_draw (mk_gauss_fn (IZR (gc_number a kpc)) (ga_mean a) (ga_sigma a) true) (gr_count g i) (gr_normal g i);
  do pts <- uniform_draw (ga_radius a) (ge_kpc e) (ge_zlens e) 1 (fst c) (snd c) (map (gr_pos g i) (seq 0 (List.length ms)));
  gc_objects e a g kpc i 0 (combine ms pts).
(** realization_extensions.py 212-257: realizations of the centres, joined one after the other; [acc] is GC_realization *)
Fixpoint gc_loop (e : genv) (a : gc_args) (g : gc_rng) (kpc : R) (rz : Realz) (i : nat) (cs : list (R * R))
    (hp : heap) (n : nat) (acc : option Realz) : result (heap * option Realz) :=
  match cs with
  | [] => Ok (hp, acc)
  | c :: t =>
      do os <- gc_centre e a g kpc i c;
      let hp' := alloc hp n os in
      let new := rebuild hp' rz (new_refs n os) in
      gc_loop e a g kpc rz (S i) t hp' (n + List.length os)
              (Some (match acc with None => new | Some old => join hp' old new false end))
  end.
(** realization_extensions.py 197-260; the scalar centre is the one-element list.  [join(None)] raises AttributeError. *)
Definition add_globular_clusters (e : genv) (a : gc_args) (g : gc_rng) (hp : heap) (n : nat) (rz : Realz) (cx cy : list R)
    : result (heap * Realz) :=
  if Nat.eqb (List.length cx) (List.length cy) then
    do kpc <- ge_kpc e (ge_zlens e);
    do r <- gc_loop e a g kpc rz 0 (combine cx cy) hp n None;
    match r with
    | (_, None) => Err EAttributeError
    | (hp', Some gc) => Ok (hp', join hp' rz gc false)
    end
  else Err EAssertionError.

(** ** ULDM fluctuations *)

Inductive shape :=
| Ring (rmin rmax : R)
| Ellipse (amin amax bmin bmax angle : R)
| Aperture (xs ys : list R) (radius : R)
| OtherShape.
(** zlens, angular diameter distance D_A(zlens), arcsec, kpc_proper_per_asec(zlens) *)
Record uenv := { ue_zlens : R; ue_DA : R; ue_arcsec : R; ue_kpc : R }.
Record ul_args := {
  ua_lambda : R; ua_amplitude : R; ua_size : R; ua_size_var : R; ua_n_cut : R; ua_n_scale : R; ua_rescale : bool }.
(** [i] numbers the image (0 for ring and ellipse), [j] the fluctuation *)
Record ul_rng := {
  ur_count : nat -> nat; ur_width : nat -> nat -> R; ur_kappa : nat -> nat -> R; ur_angle : nat -> nat -> R;
  ur_r : nat -> nat -> R; ur_r2 : nat -> nat -> R; ur_tag : nat -> Z }.

(** realization_extensions.py 1176-1201: the expected number.  [fluctuation_size_scale] is fluctuation_size/de_Broglie_wavelength
    (add_ULDM_fluctuations, 962). *)
Definition expected_flucs (e : uenv) (a : ul_args) (s : shape) : R :=
  let fluc_area := PI * (ua_lambda a * (ua_size a / ua_lambda a)) ^ 2 in
  let to_kpc := ue_DA e * ue_arcsec e * 1e3 in
  match s with
  | Ring rmin rmax => ua_n_scale a * (PI * ((rmax * to_kpc) ^ 2 - (rmin * to_kpc) ^ 2)) / fluc_area
  | Ellipse amin amax bmin bmax _ =>
      ua_n_scale a * (PI * (amax * to_kpc * (bmax * to_kpc) - amin * to_kpc * (bmin * to_kpc))) / fluc_area
  | Aperture _ _ r => ua_n_scale a * (PI * (r * to_kpc) ^ 2) / fluc_area
  | OtherShape => 0
  end.
(** numpy.mean of an array of counts *)
Definition mean_count (l : list nat) : R := rsum (map INR l) / INR (List.length l).

(** one GaussianHalo (realization_extensions.py 1254-1260, Halos/HaloModels/gaussianhalo.py): a subhalo at the lens redshift
    with fixed position and no bound mass *)
Definition fluctuation (e : uenv) (amp sigma x y : R) (tag : Z) : Halo :=
  {| h_mass := Rabs amp; h_x := x; h_y := y; h_z := ue_zlens e; h_mdef := "GAUSSIAN_KAPPA"; h_tag := tag; h_sub := true;
     h_fixed := true; h_bound := None; h_ids := ["GAUSSIAN"];
     h_kwargs := [[("amp", amp); ("sigma", sigma); ("center_x", x); ("center_y", y)]]; h_interp := None |}.
(** widths and amplitudes, realization_extensions.py 1219-1223 and 1242-1245 *)
Definition width (e : uenv) (a : ul_args) (g : ul_rng) (i j : nat) : R :=
  Rabs (ua_size a / ue_kpc e + ua_size_var a / ue_kpc e * ur_width g i j).
Definition amplitude (e : uenv) (a : ul_args) (g : ul_rng) (amp : R) (i j : nat) : R :=
  (0 + amp * ur_kappa g i j) * 2 * PI * width e a g i j ^ 2.
(** realization_extensions.py 1225-1238 (ring, ellipse) *)
Definition ring_point (rmin rmax ua ur : R) : R * R :=
  let angle := 2 * PI * ua in
  let radius := rmin + sqrt ur * (rmax - rmin) in
  (radius * cos angle, radius * sin angle).
Definition ellipse_point (amin amax bmin bmax angle ua ur ur2 : R) : R * R :=
  let t := 2 * PI * ua in
  let aa := sqrt ur * (amax - amin) + amin in
  let bb := sqrt ur2 * (bmax - bmin) + bmin in
  (aa * cos t * cos angle - bb * sin t * sin angle, aa * cos t * sin angle + bb * sin t * cos angle).
(** realization_extensions.py 1246-1249 (aperture) *)
Definition aperture_point (radius cx cy ua ur : R) : R * R :=
  let t := 2 * PI * ua in
  let r := radius ^ 2 * ur in
  (sqrt r * sin t + cx, sqrt r * cos t + cy).
(** numpy.random.normal raises ValueError for a negative scale (also for size 0) *)
Definition check_scales (e : uenv) (a : ul_args) (amp : R) : result unit :=
  if Rltb (ua_size_var a / ue_kpc e) 0 then Err EValueError else if Rltb amp 0 then Err EValueError else Ok tt.

(** realization_extensions.py 1240-1252: position [i] of the (filtered) count list uses image [i]; the tags are drawn
    afterwards, one per fluctuation ([t] numbers them) *)
Fixpoint aperture_loop (e : uenv) (a : ul_args) (g : ul_rng) (amp : R) (xs ys : list R) (radius : R) (i : nat) (t : nat)
    (counts : list nat) : result (list Halo) :=
  match counts with
  | [] => Ok []
  | n :: rest =>
      do _ <- check_scales e a amp;
      match nth_error xs i, nth_error ys i with
      | Some cx, Some cy =>
          let here := map (fun j => let p := aperture_point radius cx cy (ur_angle g i j) (ur_r g i j) in
                                    fluctuation e (amplitude e a g amp i j) (width e a g i j) (fst p) (snd p) (ur_tag g (t + j)))
                          (seq 0 n) in
          do hs <- aperture_loop e a g amp xs ys radius (S i) (t + n) rest;
          Ok (here ++ hs)
      | _, _ => Err EIndexError
      end
  end.
Definition plain_flucs (e : uenv) (a : ul_args) (g : ul_rng) (amp : R) (point : nat -> R * R) (n : nat) : result (list Halo) :=
  do _ <- check_scales e a amp;
  Ok (map (fun j => fluctuation e (amplitude e a g amp 0 j) (width e a g 0 j) (fst (point j)) (snd (point j)) (ur_tag g j)) (seq 0 n)).

(** realization_extensions.py 976-982: [np.sqrt(mean / n_cut)]; a zero cut gives inf or nan (not modelled: division by zero) *)
Definition cut_count (n_cut : R) : nat := Z.to_nat (py_int n_cut).
Definition rescaled_amp (a : ul_args) (n : R) : R := ua_amplitude a / sqrt (n / ua_n_cut a).

(** realization_extensions.py 955-1003: the fluctuations that are created; [None]: the original realization is returned *)
Definition make_flucs (e : uenv) (a : ul_args) (g : ul_rng) (s : shape) : result (option (list Halo)) :=
  let plain point :=
    do n <- np_poisson (expected_flucs e a s) (ur_count g 0);
    if Nat.eqb n 0 then Ok None
    else
      let cut := (ua_rescale a && Rltb (ua_n_cut a) (INR n))%bool in
      do hs <- plain_flucs e a g (if cut then rescaled_amp a (INR n) else ua_amplitude a) point
                           (if cut then cut_count (ua_n_cut a) else n);
      Ok (Some hs)
  in
  match s with
  | OtherShape => Err EException
  | Ring rmin rmax => plain (fun j => ring_point rmin rmax (ur_angle g 0 j) (ur_r g 0 j))
  | Ellipse amin amax bmin bmax angle =>
      plain (fun j => ellipse_point amin amax bmin bmax angle (ur_angle g 0 j) (ur_r g 0 j) (ur_r2 g 0 j))
  | Aperture xs ys radius =>
      do drawn <- mapM (fun i => np_poisson (expected_flucs e a s) (ur_count g i)) (seq 0 (List.length xs));
      let counts := filter (fun n => negb (Nat.eqb n 0)) drawn in
      match counts with
      | [] => Ok None
      | _ =>
          let cut := (ua_rescale a && Rltb (ua_n_cut a) (mean_count counts))%bool in
          do hs <- aperture_loop e a g (if cut then rescaled_amp a (mean_count counts) else ua_amplitude a) xs ys radius 0 0
                                 (if cut then repeat (cut_count (ua_n_cut a)) (List.length counts) else counts);
          Ok (Some hs)
      end
  end.
(** realization_extensions.py 984-1003 *)
Definition add_ULDM_fluctuations (e : uenv) (a : ul_args) (g : ul_rng) (s : shape) (hp : heap) (n : nat) (rz : Realz)
    : result (heap * Realz) :=
  do hs <- make_flucs e a g s;
  match hs with
  | None => Ok (hp, rz)
  | Some hs =>
      let hp' := alloc hp n hs in
      let flucs := from_halos hp' (new_refs n hs) true (rz_classes rz) (rz_cx rz) (rz_cy rz) in
      Ok (hp', join hp' rz flucs false)
  end.

(** ** Primordial black holes *)

Inductive pbh_type := PbhDelta | PbhGauss (sigma : R) | PbhOther.
(** dark-matter density, volume of a plane of a double cone of given opening angle, its scale, kpc per arcsec, source redshift *)
Record penv := {
  pe_rho : R; pe_volume : R -> R -> R -> R; pe_scale : R -> R; pe_kpc : R -> result R; pe_zsource : R }.
(** numbers used at plane [i] of image [k] *)
Record pbh_rng := { pr_count : nat -> nat -> nat; pr_normal : nat -> nat -> nat -> R; pr_pos : nat -> nat -> nat -> R * R }.
(** realization_extensions.py 1105-1127: the smooth masses of one plane *)
Definition pbh_masses (e : penv) (f in_halos logM : R) (ty : pbh_type) (r_max z dz : R) (count : nat) (normal : nat -> R)
    : result (list R) :=
  let volume := pe_volume e (2 * r_max) z dz in
  match ty with
  | PbhDelta => df_draw (pbh_smooth_delta f in_halos (pe_rho e) volume logM) count
  | PbhGauss s => gf_draw (pbh_smooth_gauss f in_halos (pe_rho e) volume logM s) count normal
  | PbhOther => Err EValueError
  end.
(** realization_extensions.py 1099-1138: loop over the planes of one image *)
Fixpoint pbh_planes (e : penv) (f in_halos logM : R) (ty : pbh_type) (r_max : R) (ray : R -> R * R) (g : pbh_rng) (k i : nat)
    (zs : list (R * R)) : result (list point) :=
  match zs with
  | [] => Ok []
  | (z, dz) :: t =>
      let c := ray z in
      do ms <- pbh_masses e f in_halos logM ty r_max z dz (pr_count g k i) (pr_normal g k i);
      do here <- (match ms with
                  | [] => Ok []
                  | _ => do kpc <- pe_kpc e z;
                         do pts <- uniform_draw (r_max * pe_scale e z) (pe_kpc e) z 1 (fst c) (snd c)
                                                (map (pr_pos g k i) (seq 0 (List.length ms)));
                         Ok (map (fun q => {| pt_m := fst q; pt_x := fst (snd q) / kpc; pt_y := snd (snd q) / kpc; pt_z := z |})
                                 (combine ms pts))
                  end);
      do rest <- pbh_planes e f in_halos logM ty r_max ray g k (S i) t;
      Ok (here ++ rest)
  end.
(** realization_extensions.py 1093-1138: loop over zip(x_interp, y_interp, r_max) *)
Fixpoint pbh_images (e : penv) (f in_halos logM : R) (ty : pbh_type) (g : pbh_rng) (zs : list (R * R)) (k : nat)
    (images : list ((R -> R * R) * R)) : result (list point) :=
  match images with
  | [] => Ok []
  | (ray, r_max) :: t =>
      do a <- pbh_planes e f in_halos logM ty r_max ray g k 0 zs;
      do b <- pbh_images e f in_halos logM ty g zs (S k) t;
      Ok (a ++ b)
  end.
(** realization_extensions.py 1083-1161.  Each image comes with its ray, its radius, and the generator output of the
    correlated structure.  The clustered part always uses the delta function (1152) and the radius of the last image
    ([r_max] after the loop, 1158); without images that name is unbound.  The result: the halos of the (rescaled) copy,
    the clustered points and the smooth points. *)
Definition add_primordial_black_holes (e : penv) (halos : list chalo) (planes : list R) (f in_halos logM : R) (ty : pbh_type)
    (g : pbh_rng) (app_ : R) (rescale : bool) (images : list ((R -> R * R) * R * list (R * cplane)))
    : result (list chalo * list point * list point) :=
  match planes with
  | [] => Err EIndexError
  | _ =>
      let zs := combine planes (gaps planes (pe_zsource e)) in
      do smooth <- pbh_images e f in_halos logM ty g zs 0 (map fst images);
      do c <- (match ty with
               | PbhOther => Err EValueError
               | _ => Ok (CDelta logM (snd (pbh_fractions f in_halos)) true)
               end);
      match rev (map (fun im => snd (fst im)) images) with
      | [] => Err EUnboundLocal
      | r_last :: _ =>
          do r <- add_correlated_structure halos c r_last app_ (map (fun im => (fst (fst im), snd im)) images) rescale;
          Ok (fst r, snd r, smooth)
      end
  end.

(** ** Sampling from a map: Rendering/SpatialDistributions/correlated.py 20-68 *)

(** numpy.random.choice(p=...): searchsorted of the cumulated probabilities with side='right'; the last index for u beyond
    the last entry cannot occur because the cumulated sum is divided by its last value and u < 1 *)
Fixpoint choose (u acc : R) (i : nat) (p : list R) : nat :=
  match p with
  | [] => i
  | a :: t => if Rltb u (acc + a) then i else choose u (acc + a) (S i) t
  end.
(** the [k]-th sample for an s x s density given row by row: pixel index, and position in arcsec; [gx], [gy] are the normal
    deviates of the smoothing.  [pairs.reshape(-1,2)[k]] is (k mod s, k / s). *)
Definition pixel_of (s k : nat) : nat * nat := (Nat.modulo k s, Nat.div k s).
Definition map_sample (r_max shift_x shift_y smooth : R) (s : nat) (density : list R) (u gx gy : R) : nat * (R * R) :=
  let norm := sumR density in
  let p := map (fun d => d / norm) density in
  let k := choose u 0 0 p in
  let axis := np_linspace (- r_max) r_max s in
  let smoothing := smooth * r_max / INR s in
  let x := nth (fst (pixel_of s k)) axis 0 + (0 + smoothing * gx) + shift_x in
  let y := nth (snd (pixel_of s k)) axis 0 + (0 + smoothing * gy) + shift_y in
  (k, (x, y)).
(** the points in kpc; a map that sums to zero raises *)
Definition correlated_draw (r_max shift_x shift_y smooth : R) (s : nat) (density : list R) (kpc : R) (devs : list (R * R * R))
    : result (list (R * R)) :=
  if Reqb (sumR density) 0 then Err EException
  else Ok (map (fun d => let q := snd (map_sample r_max shift_x shift_y smooth s density (fst (fst d)) (snd (fst d)) (snd d)) in
                         (fst q * kpc, snd q * kpc)) devs).
