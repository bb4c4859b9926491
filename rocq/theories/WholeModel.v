(** The top-level rendering loop (pyhalo.py): lens planes, populations and halo classes put together. *)
From Coq Require Import String.
From Verif Require Import Prelude SpaceModel RenderModel LoaderModel.
Import ListNotations.
Local Open Scope R_scope.

(** single_realization.py 107-109: the zipped arrays.  The loader passes the 3d radius on unread, so [None] may be encoded as any
    number: [enc] *)
Fixpoint zip_rows (enc : option R -> R) (m x y : list R) (r3d : list (option R)) (z : list R) (s : list bool) : list Row :=
  match m, x, y, r3d, z, s with
  | m0 :: m', x0 :: x', y0 :: y', r0 :: r', z0 :: z', s0 :: s' => mkRow m0 x0 y0 (enc r0) z0 s0 :: zip_rows enc m' x' y' r' z' s'
  | _, _, _, _, _, _ => []
  end.

(** what a call of render is given besides the random numbers *)
Record request := mkRequest {
  q_names : list string;            (* population_model_list *)
  q_mdef_sub : string; q_mdef_field : string;
  q_dict : dict;                    (* kwargs_halo_model *)
  q_lazar : bool; q_scale2 : R;
  q_spacing : option R }.
(** the random numbers of one pass (inside the environment and the classes of the populations), and its tags *)
Record luck := mkLuck { l_env : renv; l_args : list pop_args; l_tags : nat -> Z }.

(** pyhalo.py 91-118 _render_masses_positions *)
Definition render_masses_positions (zsource : R) (q : request) (l : luck) : result arrays :=
  do pd <- generate_lens_plane_redshifts (Some (re_zlens (l_env l))) zsource (q_spacing q);
  render_population (l_env l) (Some (fst pd)) (Some (snd pd)) (q_lazar q) (q_scale2 q) (q_names q) (l_args l).
(** pyhalo.py 120-135 with single_realization.py 107-113 *)
Definition one_realization (enc : option R -> R) (zsource : R) (q : request) (l : luck) : result (list Loaded) :=
  do a <- render_masses_positions zsource q l;
  create_realization (q_dict q) (l_tags l) (q_mdef_sub q) (q_mdef_field q)
    (zip_rows enc (a_m a) (a_x a) (a_y a) (a_r3d a) (a_z a) (a_sub a)).
(** pyhalo.py 78-89: the loop; an exception leaves the function *)
Fixpoint render_from (enc : option R -> R) (zsource : R) (q : request) (ls : nat -> luck) (i n : nat) : result (list (list Loaded)) :=
  match n with
  | O => Ok []
  | S k => do r <- one_realization enc zsource q (ls i); do rs <- render_from enc zsource q ls (S i) k; Ok (r :: rs)
  end.
Definition render (enc : option R -> R) (zsource : R) (q : request) (ls : nat -> luck) (nrealizations : nat) : result (list (list Loaded)) :=
  render_from enc zsource q ls 0 nrealizations.
