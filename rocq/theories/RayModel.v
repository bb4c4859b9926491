(** Ray paths: utilities.py 99-222 (interpolate_ray_paths, compute_comoving_ray_path).
    External: the lens model's ray_shooting_partial_comoving ([shoot x y ax ay z_start z_stop], keyword arguments fixed)
    and the transverse comoving distance [D]. *)
From Verif Require Import Prelude Interp SpaceModel RealizationModel.

Record ray := { ry_x : R; ry_y : R; ry_ax : R; ry_ay : R }.
Definition shooter := ray -> R -> R -> ray.

(** utilities.py:189-194; the default step is 0.02 (defaults.py:51).  numpy.unique returns a sorted array, so the argsort
    is the identity. *)
Definition path_redshifts (lens_z : list R) (zsource : R) : list R :=
  np_unique ((lens_z ++ [zsource]) ++ np_linspace (2 / 100) (zsource - 2 / 100) 50).

(** utilities.py:206-215: the loop; a point is (x, y, distance) *)
Fixpoint propagate (shoot : shooter) (D : R -> R) (s : ray) (z_start : R) (zs : list R) : list (R * R * R) :=
  match zs with
  | [] => []
  | zi :: t => let s' := shoot s z_start zi in (ry_x s', ry_y s', D zi) :: propagate shoot D s' zi t
  end.

(** replace the coordinates of the last element, list[-1] = ... *)
Fixpoint set_last (l : list (R * R * R)) (x y : R) : list (R * R * R) :=
  match l with
  | [] => []
  | [p] => [(x, y, snd p)]
  | p :: t => p :: set_last t x y
  end.

(** utilities.py:169-222 compute_comoving_ray_path; [source] is Some (source_x, source_y) if terminate_at_source (None
    for the coordinates raises a TypeError in Python and is not modelled) *)
Definition compute_comoving_ray_path (shoot : shooter) (D : R -> R) (lens_z : list R) (zsource : R) (source : option (R * R))
    (x y : R) : list (R * R * R) :=
  let path := (0, 0, 0) :: propagate shoot D {| ry_x := 0; ry_y := 0; ry_ax := x; ry_ay := y |} 0 (path_redshifts lens_z zsource) in
  match source with
  | None => path
  | Some (sx, sy) => set_last path (sx * D zsource) (sy * D zsource)
  end.

(** utilities.py:130-146: the two tables of one image *)
Definition angle_tables (xpos ypos : R) (path : list (R * R * R)) : list (R * R) * list (R * R) :=
  ((0, xpos) :: map (fun p => (snd p, fst (fst p) / snd p)) (tl path),
   (0, ypos) :: map (fun p => (snd p, snd (fst p) / snd p)) (tl path)).

(** numpy.mean of a non-empty list *)
Definition np_mean (l : list R) : R := rsum l / INR (List.length l).

(** utilities.py:148-165: replace the tables of the images by the table of their mean at 100 redshifts *)
Definition mean_table (D : R -> R) (zsource : R) (tables : list (list (R * R))) : result (list (R * R)) :=
  mapM (fun z => do vs <- mapM (fun t => interp1d t (D z)) tables; Ok (D z, np_mean vs)) (np_linspace 0 zsource 100).

(** utilities.py:99-167 interpolate_ray_paths: the tables of the returned interp1d instances *)
Definition interpolate_ray_paths (shoot : shooter) (D : R -> R) (lens_z : list R) (zsource : R) (source : option (R * R))
    (evaluate_at_mean : bool) (xs ys : list R) : result (list (list (R * R)) * list (list (R * R))) :=
  let tabs := map (fun p => angle_tables (fst p) (snd p) (compute_comoving_ray_path shoot D lens_z zsource source (fst p) (snd p))) (combine xs ys) in
  let ax := map fst tabs in
  let ay := map snd tabs in
  if evaluate_at_mean then
    do mx <- mean_table D zsource ax;
    do my <- mean_table D zsource ay;
    Ok ([mx], [my])
  else Ok (ax, ay).
