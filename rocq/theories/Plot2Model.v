(** Three further plotting routines: plotting_routines.py plot_subhalo_bound_mass (160-190), plot_truncation_radius_histogram (326-354) and
    plot_multiplane_convergence (357-395).  As in PlotModel.v the functions return what is handed to the axes. *)
From Verif Require Import Prelude RealizationModel SampleModel PlotModel ViewModel.
Local Open Scope R_scope.
Local Open Scope list_scope.

(** plotting_routines.py 177-184: the scattered points (infall mass, bound mass); reading a bound mass can raise *)
Definition plot_subhalo_bound_mass (hp : heap) (rz : Realz) : result (list (R * R)) :=
  mapM (fun r => match h_bound (hp r) with Some b => Ok (h_mass (hp r), b) | None => Err EException end)
    (filter (fun r => h_sub (hp r)) (rz_halos rz)).

(** the two entries of params_physical that are read; a missing key raises KeyError, a class without the attribute Exception *)
Record phys_dict := mkPhys { pd_rt : option R; pd_rs : option R }.
(** plotting_routines.py 345-353: the values in the histogram, np.log10 of r_trunc_kpc / rs *)
Definition plot_truncation_radius_histogram (hp : heap) (params : ref -> result phys_dict) (rz : Realz) (subhalos_only : bool) (lo hi : R) : result (list R) :=
  do tau <- mapM (fun r => do p <- params r;
                           match pd_rt p, pd_rs p with Some rt, Some rs => Ok (rt / rs) | _, _ => Err EKeyError end)
              (filter (in_mass_range hp lo hi) (filter (fun r => negb (subhalos_only && negb (h_sub (hp r)))) (rz_halos rz)));
  Ok (map (fun t => ln t / ln 10) tau).

(** plotting_routines.py 382-386: the image and the square it fills; row i of the image is drawn at height i (origin='lower').
    imshow(extent=[-w/2, w/2, -w/2, w/2]) divides the square into n by n equal pixels: [drawn_at] is the centre of a pixel. *)
Definition multiplane_image (m : list (list R)) (subtract_mean : bool) : list (list R) :=
  if subtract_mean then let mean := rmean (List.concat m) in map (map (fun v => v - mean)) m else m.
Definition drawn_at (w : R) (n i : nat) : R := - w / 2 + (INR i + 1 / 2) * (w / INR n).
