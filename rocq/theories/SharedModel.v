(** Cosmological parameters and the colossus cosmology shared by the whole program: Cosmology/cosmology.py 23-29, 187-221,
    defaults.py 7-42, pyhalo.py 27-54, and the functions that create or use a cosmology (Halos/concentration.py,
    Halos/lens_cosmo.py, Rendering/MassFunctions/density_peaks.py, utilities.py, single_realization.py). *)
From Coq Require Import String.
From Verif Require Import Prelude MassFnModel ConcModel.
Import ListNotations.
Local Open Scope R_scope.

(** keyword dictionaries *)
Inductive cval := CNum (x : R) | CFlag (b : bool) | CText (s : string).
Definition kwargs := list (string * cval).
Fixpoint dget (k : string) (d : kwargs) : option cval :=
  match d with [] => None | (k', v) :: t => if String.eqb k k' then Some v else dget k t end.

(** defaults.py 9-35: CosmoDefaults.__init__, cosmo_param_dictionary *)
Definition cosmo_param_dictionary : kwargs :=
  [("H0", CNum 67.5); ("Ob0", CNum 0.049); ("Om0", CNum (0.049 + 0.26)); ("Odm0", CNum 0.26); ("sigma8", CNum 0.81);
   ("flat", CText "flat"); ("ns", CNum 0.965); ("power_law", CFlag false)]%string.
(** defaults.py 37-42: CosmoDefaults.__call__ *)
Definition cosmo_defaults (k : string) : result cval :=
  match dget k cosmo_param_dictionary with Some v => Ok v | None => Err EException end.
(** cosmology.py 193-200 and 212-218: the two loops over keys *)
Definition fill (keys : list string) (kw : kwargs) : result kwargs :=
  mapM (fun k => match dget k kw with
                 | Some v => Ok (k, v)
                 | None => match cosmo_defaults k with Ok v => Ok (k, v) | Err e => Err e end
                 end) keys.
Definition astropy_keys : list string := ["H0"; "Om0"; "Ob0"]%string.
Definition colossus_keys : list string := ["H0"; "Om0"; "Ob0"; "ns"; "sigma8"; "power_law"]%string.
(** cosmology.py 187-206 _setup_astropy_cosmology: an astropy cosmology is its parameters.  The attribute test is always true
    in __init__ *)
Definition setup_astropy (inst : option kwargs) (kw : kwargs) : result kwargs :=
  match inst with Some a => Ok a | None => fill astropy_keys kw end.
(** cosmology.py 208-221 _setup_colossus_cosmology: the parameters given to colossus' setCosmology.  No instance ever has an
    attribute colossus_cosmo, so the branch is always taken *)
Definition setup_colossus (kw : kwargs) : result kwargs := fill colossus_keys kw.

(** a Cosmology object *)
Record cosmo := mkCosmo { co_astropy : kwargs; co_colossus : kwargs }.
(** a concentration model with its interpolation table and the parameters the table was computed with
    (concentration.py 66-101, 201-215) *)
Record cmodel := mkCModel { cm_astropy : kwargs; cm_use : bool; cm_table : option (kwargs * table) }.
(** the program: the current cosmology of the colossus package, and the objects created so far *)
Record world := mkWorld { w_current : option kwargs; w_cosmos : list cosmo; w_models : list cmodel }.
Definition start : world := mkWorld None [] [].

(** what astropy and colossus compute from their parameters *)
Record ext := mkExt {
  x_h : kwargs -> R;                          (* astropy .h *)
  x_distance : kwargs -> R -> R;              (* astropy angular_diameter_distance_z1z2(0, z) *)
  x_c : kwargs -> R -> R -> R;                (* colossus concentration(M_h, mdef, z, model) *)
  x_mf : kwargs -> R -> R -> R;               (* colossus massFunction(m_h, z, 'dndlnM', model) *)
  x_2h : kwargs -> R -> R -> R -> R;          (* colossus twoHaloTerm(r_h, M_h, z, mdef) *)
  x_rho_m : kwargs -> R -> R }.               (* colossus_cosmo.rho_m(z) *)

Inductive op :=
| NewCosmology (inst : option kwargs) (kw : kwargs)
| NewPyHalo (kw : option kwargs)
| NewModel (i : nat) (use_table : bool)
| AskDistance (i : nat) (z : R)
| AskMassFunction (i : nat) (m z : R)
| AskTwoHalo (i : nat) (r m z : R)
| AskConcentration (j : nat) (m z : R).

Section Run.
  Variable E : ext.

  (** cosmology.py 23-29 *)
  Definition new_cosmology (w : world) (inst : option kwargs) (kw : kwargs) : world * result R :=
    match setup_astropy inst kw with
    | Err e => (w, Err e)
    | Ok a =>
        match setup_colossus kw with
        | Err e => (w, Err e)
        | Ok c => (mkWorld (Some c) (w_cosmos w ++ [mkCosmo a c]) (w_models w), Ok 0)
        end
    end.
  (** pyhalo.py 27-47 *)
  Definition new_pyhalo (w : world) (kw : option kwargs) : world * result R :=
    match kw with
    | None => new_cosmology w None cosmo_param_dictionary
    | Some k =>
        match dget "H0" k, dget "Ob0" k, dget "Om0" k with
        | Some h, Some b, Some o => new_cosmology w (Some [("H0", h); ("Ob0", b); ("Om0", o)]%string) k
        | _, _, _ => (w, Err EKeyError)
        end
    end.
  (** density_peaks.py 8-24 evaluate_mass_function, called with h of the cosmology (48-54, 90-97, 133-140); the statement
      "_ = geometry_class.cosmo.colossus" has no effect *)
  Definition mass_function (cur own : kwargs) (m z : R) : R := x_mf E cur (m * x_h E own) z / m * x_h E own ^ 3.
  (** lens_cosmo.py 159-174 twohaloterm *)
  Definition twohaloterm (cur : kwargs) (c : cosmo) (r m z : R) : R :=
    let h := x_h E (co_astropy c) in x_2h E cur (r * h) (m * h) z / x_rho_m E (co_colossus c) z.
  (** concentration.py 230-253, one mass *)
  Definition c_colossus (cur own : kwargs) (m z : R) : R := x_c E cur (m * x_h E own) z.
  (** concentration.py 217-228 with 103-169, one mass: inside the table its values are used as they were computed, otherwise the
      whole table is computed again (all points outside make [ensure_table] build a new table) *)
  Definition ask_concentration (cur : kwargs) (M : cmodel) (m z : R) : cmodel * R :=
    let f p := c_colossus p (cm_astropy M) in
    if cm_use M then
      let again o := let r := eval_array (f cur) o [(m, z)] in
                     (mkCModel (cm_astropy M) (cm_use M) (Some (cur, fst r)), hd 0 (snd r)) in
      match cm_table M with
      | None => again None
      | Some (p, t) => if in_table t (log10 m) (log10 (1 + z)) then (M, look_scalar (f p) t (log10 m) (log10 (1 + z)))
                       else again (Some t)
      end
    else (M, f cur m z).
  Definition replace_nth {A} (j : nat) (a : A) (l : list A) : list A := firstn j l ++ a :: skipn (S j) l.
  (** colossus raises if no cosmology has been set *)
  Definition step (w : world) (o : op) : world * result R :=
    match o with
    | NewCosmology inst kw => new_cosmology w inst kw
    | NewPyHalo kw => new_pyhalo w kw
    | NewModel i use =>
        match nth_error (w_cosmos w) i with
        | None => (w, Err ENameError)
        | Some c => (mkWorld (w_current w) (w_cosmos w) (w_models w ++ [mkCModel (co_astropy c) use None]), Ok 0)
        end
    | AskDistance i z =>
        match nth_error (w_cosmos w) i with None => (w, Err ENameError) | Some c => (w, Ok (x_distance E (co_astropy c) z)) end
    | AskMassFunction i m z =>
        match nth_error (w_cosmos w) i, w_current w with
        | None, _ => (w, Err ENameError)
        | Some c, None => (w, Err EException)
        | Some c, Some p => (w, Ok (mass_function p (co_astropy c) m z))
        end
    | AskTwoHalo i r m z =>
        match nth_error (w_cosmos w) i, w_current w with
        | None, _ => (w, Err ENameError)
        | Some c, None => (w, Err EException)
        | Some c, Some p => (w, Ok (twohaloterm p c r m z))
        end
    | AskConcentration j m z =>
        match nth_error (w_models w) j, w_current w with
        | None, _ => (w, Err ENameError)
        | Some M, None => (w, Err EException)
        | Some M, Some p => let r := ask_concentration p M m z in
                            (mkWorld (w_current w) (w_cosmos w) (replace_nth j (fst r) (w_models w)), Ok (snd r))
        end
    end.
  Fixpoint run (w : world) (h : list op) : world := match h with [] => w | o :: t => run (fst (step w o)) t end.
  (** the answer to [o] after the history [h] of the program *)
  Definition answer (h : list op) (o : op) : result R := snd (step (run start h) o).
End Run.

(** cosmologies created inside other functions: utilities.py 125-126 and 186-187 (ray paths without a cosmology),
    234-248 (delta_kappa: LensCosmo(z_lens, z_source) and then delta_sigma), 250-269 (delta_sigma), lens_cosmo.py 42-44 and
    single_realization.py 948-950 (SingleHalo with an astropy instance and no LensCosmo) *)
Definition ray_path_ops : list op := [NewCosmology None []].
Definition delta_sigma_ops : list op := [NewCosmology None []].
Definition delta_kappa_ops : list op := NewCosmology None [] :: delta_sigma_ops.
Definition single_halo_ops (astropy_instance : option kwargs) : list op := [NewCosmology astropy_instance []].
