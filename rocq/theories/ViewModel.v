(** Views of a realization: single_realization.py halo_comoving_coordinates (537-554) and SingleHalo (925-953), and
    utilities.py multiplane_convergence (340-375).  External: the comoving distance, and lenstronomy's LensModel.kappa. *)
From Verif Require Import Prelude RealizationModel LoaderModel SpaceModel.

(** np.log10 of a positive number *)
Definition log10 (x : R) : R := ln x / ln 10.

(** single_realization.py 537-554: four arrays filled by one loop over the halos; [DC] is cosmo.D_C_z *)
Fixpoint comoving_loop (DC : R -> R) (hp : heap) (hs : list ref) : list R * list R * list R * list R :=
  match hs with
  | [] => ([], [], [], [])
  | r :: t =>
      let D := DC (h_z (hp r)) in
      let '(xs, ys, ms, zs) := comoving_loop DC hp t in
      (D * h_x (hp r) :: xs, D * h_y (hp r) :: ys, h_mass (hp r) :: ms, h_z (hp r) :: zs)
  end.
Definition halo_comoving_coordinates (DC : R -> R) (hp : heap) (rz : Realz) : list R * list R * list R * list R :=
  let '(xs, ys, ms, zs) := comoving_loop DC hp (rz_halos rz) in (xs, ys, map log10 ms, zs).

(** single_realization.py 925-953 and 107-113: one row, no mass-sheet correction.  [d] is kwargs_halo_model; the default is the
    empty dictionary (line 928). *)
Definition single_halo (d : dict) (w : Row) (mdef : string) (tag : Z) : result (list Loaded) :=
  load_rows d (fun _ => tag) 0 [(w, mdef)].

(** utilities.py 340-375.  [macro], [kw_macro], [z_macro] are the optional arguments describing the main deflector; [lensed] is what
    realization.lensing_quantities() returned (names, redshifts, keywords).  [None + list] raises TypeError (line 369, 374). *)
Definition default_names : list string := ["EPL"; "SHEAR"]%string.
Definition default_kwargs : list kw :=
  [[("theta_E", 1); ("center_x", 0); ("center_y", 0); ("e1", 0.1); ("e2", -0.1); ("gamma", 2)]; [("gamma1", 0.05); ("gamma2", 0.02)]]%string.

Record lensmodel := mkLens { lm_names : list string; lm_redshifts : list R; lm_kwargs : list kw }.
(** the map (rows), the full lens model, the macromodel *)
Record mpc := mkMpc { mp_map : list (list R); mp_full : lensmodel; mp_macro : list string * list kw }.

Definition multiplane_convergence (kappa_multi : list string -> list R -> list kw -> R -> R -> R)
    (kappa_single : list string -> list kw -> R -> R -> R) (z_lens : R) (lensed : list string * list R * list kw)
    (angle : R) (npix : nat) (macro : option (list string)) (kw_macro : option (list kw)) (z_macro : option (list R)) : result mpc :=
  let '(names_h, zs_h, kws_h) := lensed in
  let '(names, kws, zs) :=
    match macro with
    | None => (default_names, Some default_kwargs, Some (repeat z_lens (List.length default_names)))
    | Some n => (n, kw_macro, z_macro)
    end in
  match zs, kws with
  | Some zs, Some kws =>
      let full := mkLens (names ++ names_h) (zs ++ zs_h) (kws ++ kws_h) in
      let r := np_linspace (- angle / 2) (angle / 2) npix in
      (* np.meshgrid: xx[i][j] = r[j], yy[i][j] = r[i] *)
      let map2 := map (fun y => map (fun x => kappa_multi (lm_names full) (lm_redshifts full) (lm_kwargs full) x y - kappa_single names kws x y) r) r in
      Ok (mkMpc map2 full (names, kws))
  | _, _ => Err ETypeError
  end.
