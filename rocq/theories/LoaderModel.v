(** Model of the construction of a realization from rendered arrays:
    pyhalo.py 120-135 [_create_realization], single_realization.py 95-124 [Realization.__init__]
    with [halos=None], and single_realization.py 702-771 [_load_halo_model]. *)
From Verif Require Import Prelude.

(** A Python dictionary with string keys. Values (truncation, concentration classes, profile
    arguments) are opaque: they are only passed on. *)
Definition dict := list (string * Z).
Fixpoint dget (k : string) (d : dict) : option Z :=
  match d with [] => None | (k', v) :: t => if String.eqb k' k then Some v else dget k t end.
(** [k in d.keys()] *)
Definition dhas (k : string) (d : dict) : bool := match dget k d with Some _ => true | None => false end.
(** [d[k]] *)
Definition ditem (k : string) (d : dict) : result Z :=
  match dget k d with Some v => Ok v | None => Err EKeyError end.

(** The class chosen for a halo and everything passed to its constructor
    (single_realization.py 711-729 and 771). *)
Record Loaded := mkLoaded {
  ld_class : string;
  ld_mass : R; ld_x : R; ld_y : R; ld_r3d : R; ld_z : R; ld_sub : bool; ld_tag : Z;
  ld_trunc : Z; ld_conc : Z; ld_args : Z }.

(** single_realization.py 714-720 (key "truncation_model") and 721-727 (key "concentration_model"). *)
Definition pick_model (key : string) (is_sub : bool) (d : dict) : result Z :=
  if dhas key d then ditem key d
  else if is_sub then ditem (key ++ "_subhalos") d
  else ditem (key ++ "_field_halos") d.

(** single_realization.py 731-769. [TNFWCHaloEvolving] is not imported in the module (lines 1-13):
    evaluating the name raises NameError. *)
Definition model_class (mdef : string) (is_sub : bool) : result string :=
  if String.eqb mdef "NFW" then Ok (if is_sub then "NFWSubhhalo" else "NFWFieldHalo")%string
  else if String.eqb mdef "TNFW" then Ok (if is_sub then "TNFWSubhalo" else "TNFWFieldHalo")%string
  else if String.eqb mdef "TNFWC_SIDM" then Err ENameError
  else if String.eqb mdef "PT_MASS" then Ok "BlackHole"%string
  else if String.eqb mdef "PJAFFE" then Ok "PJaffeSubhalo"%string
  else if String.eqb mdef "ULDM" then Ok (if is_sub then "ULDMSubhalo" else "ULDMFieldHalo")%string
  else if String.eqb mdef "GAUSSIAN_KAPPA" then Ok "GaussianHalo"%string
  else if String.eqb mdef "GNFW" then Ok (if is_sub then "GeneralNFWSubhalo" else "GeneralNFWFieldHalo")%string
  else if String.eqb mdef "SPL_CORE" then Ok (if is_sub then "PowerLawSubhalo" else "PowerLawFieldHalo")%string
  else Err EValueError.

(** One row of the seven arrays zipped in single_realization.py 108-109. *)
Record Row := mkRow { w_mass : R; w_x : R; w_y : R; w_r3d : R; w_z : R; w_sub : bool }.

(** single_realization.py 702-771. The constructor of every class ends in [Halo.__init__], which asserts
    a positive redshift (halo_base.py 46). *)
Definition load_halo_model (d : dict) (w : Row) (mdef : string) (tag : Z) : result Loaded :=
  do tr <- pick_model "truncation_model" (w_sub w) d;
  do cn <- pick_model "concentration_model" (w_sub w) d;
  do ar <- ditem "kwargs_density_profile" d;
  do cl <- model_class mdef (w_sub w);
  if Rltb 0 (w_z w) then
    Ok (mkLoaded cl (w_mass w) (w_x w) (w_y w) (w_r3d w) (w_z w) (w_sub w) tag tr cn ar)
  else Err EAssertionError.

(** pyhalo.py 125-130. *)
Definition mdef_list (mdef_subhalos mdef_field_halos : string) (rows : list Row) : list string :=
  map (fun w => if w_sub w then mdef_field_halos else mdef_subhalos) rows.

(** single_realization.py 107-113: loop over the zipped arrays; [tags i] is the i-th random tag. *)
Fixpoint load_rows (d : dict) (tags : nat -> Z) (i : nat) (rows : list (Row * string)) : result (list Loaded) :=
  match rows with
  | [] => Ok []
  | (w, m) :: t =>
      do h <- load_halo_model d w m (tags i);
      do hs <- load_rows d tags (S i) t;
      Ok (h :: hs)
  end.

(** pyhalo.py 120-135: the halos of the realization created from rendered arrays
    ([zip] stops at the shortest list; [mdefs] has one entry per mass). *)
Definition create_realization (d : dict) (tags : nat -> Z)
           (mdef_subhalos mdef_field_halos : string) (rows : list Row) : result (list Loaded) :=
  load_rows d tags 0 (combine rows (mdef_list mdef_subhalos mdef_field_halos rows)).
