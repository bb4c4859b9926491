(** Which concentration each halo class uses, and how often it is drawn (C109).  TNFW halos with their truncation are modelled in
    HaloStateModel.v; here every class that asks the concentration-mass relation is modelled, but only for the concentration.
    Simplification: the other entries of profile_args and the truncation radius are left out (they read the concentration through
    the property c). *)
From Verif Require Import Prelude.
Import ListNotations.
Open Scope R_scope.

Inductive cclass :=
| CNfw         (* NFW.py 5 and 110 *)
| CCored       (* NFW_core.py 5 *)
| CTnfw        (* TNFW.py 8 and 267 *)
| CTnfwc       (* NFW_core_trunc.py 9 and 209 *)
| CUldm        (* ULDM.py 8 and 240 *)
| CCollapsed   (* core_collapsed_halo.py 9 and 267 *)
| CGnfw        (* generalized_nfw.py 5 and 137 *)
| CJaffeSub    (* PsuedoJaffe.py 5 *)
| CJaffeField  (* PsuedoJaffe.py 119 *)
| CPowerSub    (* powerlaw.py 5 *)
| CPowerField. (* powerlaw.py 94 *)

(** the halo: class, mass, redshift, is_subhalo, args['c'] and args['evaluate_mc_at_zlens'] *)
Record chalo := { k_class : cclass; k_mass : R; k_z : R; k_sub : bool; k_c : option R; k_at_zlens : bool }.
(** the n-th infall redshift and the n-th concentration drawn: lens_cosmo.z_accreted_from_zlens(mass) and
    concentration_class.nfw_concentration(mass, z) *)
Record cenv := { v_infall : nat -> R -> R; v_conc : nat -> R -> R -> R }.
(** _z_infall, _zeval, _c, the concentration in _profile_args, and the number of draws so far *)
Record cstate := { a_zinf : option R; a_zeval : option R; a_c : option R; a_pargs : option R; n_inf : nat; n_conc : nat }.
Definition cfresh : cstate := {| a_zinf := None; a_zeval := None; a_c := None; a_pargs := None; n_inf := 0; n_conc := 0 |}.

Definition Q (A : Type) := cstate -> cstate * A.
(** halo_base.py 129-143 z_infall *)
Definition q_infall (V : cenv) (H : chalo) : Q R := fun s =>
  match a_zinf s with
  | Some z => (s, z)
  | None =>
      let z := v_infall V (n_inf s) (k_mass H) in
      ({| a_zinf := Some z; a_zeval := a_zeval s; a_c := a_c s; a_pargs := a_pargs s; n_inf := S (n_inf s); n_conc := n_conc s |}, z)
  end.
Definition set_zeval (z : R) (s : cstate) : cstate :=
  {| a_zinf := a_zinf s; a_zeval := Some z; a_c := a_c s; a_pargs := a_pargs s; n_inf := n_inf s; n_conc := n_conc s |}.
(** halo_base.py 205-215 z_eval; powerlaw.py 63-75 and 112-117 for the power-law halos *)
Definition q_zeval (V : cenv) (H : chalo) : Q R := fun s =>
  match k_class H with
  | CPowerField => (s, k_z H)
  | cl =>
      match a_zeval s with
      | Some z => (s, z)
      | None =>
          if match cl with CPowerSub => negb (k_at_zlens H) | _ => k_sub H end
          then let '(s', z) := q_infall V H s in (set_zeval z s', z)
          else (set_zeval (k_z H) s, k_z H)
      end
  end.
(** concentration_class.nfw_concentration(self.mass, z) *)
Definition q_draw (V : cenv) (H : chalo) (z : R) : Q R := fun s =>
  ({| a_zinf := a_zinf s; a_zeval := a_zeval s; a_c := a_c s; a_pargs := a_pargs s; n_inf := n_inf s; n_conc := S (n_conc s) |},
   v_conc V (n_conc s) (k_mass H) z).
Definition set_conc (c : R) (s : cstate) : cstate :=
  {| a_zinf := a_zinf s; a_zeval := a_zeval s; a_c := Some c; a_pargs := a_pargs s; n_inf := n_inf s; n_conc := n_conc s |}.
Definition set_args (c : R) (s : cstate) : cstate :=
  {| a_zinf := a_zinf s; a_zeval := a_zeval s; a_c := a_c s; a_pargs := Some c; n_inf := n_inf s; n_conc := n_conc s |}.
(** the property c: NFW.py 65-73, NFW_core.py 77-85, TNFW.py 173-180, NFW_core_trunc.py 107-114, ULDM.py 33-40,
    core_collapsed_halo.py 113-121, generalized_nfw.py 44-52, PsuedoJaffe.py 43-51; power-law halos have only that of
    halo_base.py 198-203, which raises *)
Definition q_c (V : cenv) (H : chalo) : Q (result R) := fun s =>
  match k_class H with
  | CPowerSub | CPowerField => (s, Err EException)
  | _ =>
      match a_c s with
      | Some c => (s, Ok c)
      | None => let '(s1, z) := q_zeval V H s in let '(s2, c) := q_draw V H z s1 in (set_conc c s2, Ok c)
      end
  end.
(** the concentration in profile_args: NFW.py 75-83, NFW_core.py 87-95, TNFW.py 219-227 and 336-348, NFW_core_trunc.py 144-181 and 242-271,
    ULDM.py 64-74, core_collapsed_halo.py 181-237 (through nfw_params), generalized_nfw.py 80-92, PsuedoJaffe.py 107-117 and 123-131,
    powerlaw.py 77-91 and 98-110 *)
Definition q_args (V : cenv) (H : chalo) : Q (result R) := fun s =>
  match a_pargs s with
  | Some c => (s, Ok c)
  | None =>
      match k_class H with
      | CGnfw | CJaffeSub =>
          let '(s1, z) := q_zeval V H s in let '(s2, c) := q_draw V H z s1 in (set_args c s2, Ok c)
      | CPowerSub =>
          match k_c H with
          | Some c => (set_args c s, Ok c)
          | None => let '(s1, z) := q_zeval V H s in let '(s2, c) := q_draw V H z s1 in (set_args c s2, Ok c)
          end
      | CJaffeField | CPowerField => let '(s1, c) := q_draw V H (k_z H) s in (set_args c s1, Ok c)
      | _ => match q_c V H s with (s1, Ok c) => (set_args c s1, Ok c) | (s1, Err e) => (s1, Err e) end
      end
  end.
(** the concentrations that enter lenstronomy_params, the one that sets the scale radius first, then the one that sets the
    normalisation: nfw_params (halo_base.py 217-226) for NFW.py 51, NFW_core.py 57, TNFW.py 203, ULDM.py 50, core_collapsed_halo.py 195;
    profile_args for PsuedoJaffe.py 61-62 and powerlaw.py 31-32; NFW_core_trunc.py 130 with 151 and 250;
    generalized_nfw.py 60-64 takes the radius from nfw_params and the normalisation from profile_args *)
Definition q_lens (V : cenv) (H : chalo) : Q (result (R * R)) := fun s =>
  match k_class H with
  | CGnfw =>
      match q_args V H s with
      | (s1, Ok a) => match q_c V H s1 with (s2, Ok c) => (s2, Ok (c, a)) | (s2, Err e) => (s2, Err e) end
      | (s1, Err e) => (s1, Err e)
      end
  | CJaffeSub | CJaffeField | CPowerSub | CPowerField =>
      match q_args V H s with (s1, Ok a) => (s1, Ok (a, a)) | (s1, Err e) => (s1, Err e) end
  | CNfw | CCored => match q_c V H s with (s1, Ok c) => (s1, Ok (c, c)) | (s1, Err e) => (s1, Err e) end
  | _ =>
      match q_args V H s with
      | (s1, Ok _) => match q_c V H s1 with (s2, Ok c) => (s2, Ok (c, c)) | (s2, Err e) => (s2, Err e) end
      | (s1, Err e) => (s1, Err e)
      end
  end.
(** halo_base.py 160-168 set_infall_redshift: only subhalos *)
Definition q_set_infall (H : chalo) (z : R) : Q (result unit) := fun s =>
  if k_sub H
  then ({| a_zinf := Some z; a_zeval := a_zeval s; a_c := a_c s; a_pargs := a_pargs s; n_inf := n_inf s; n_conc := n_conc s |}, Ok tt)
  else (s, Err EException).

(** a history of the object *)
Inductive cop := OInfall | OZeval | OConc | OArgs | OLens | OSetInfall (z : R).
Definition cstep (V : cenv) (H : chalo) (s : cstate) (o : cop) : cstate :=
  match o with
  | OInfall => fst (q_infall V H s) | OZeval => fst (q_zeval V H s) | OConc => fst (q_c V H s) | OArgs => fst (q_args V H s)
  | OLens => fst (q_lens V H s) | OSetInfall z => fst (q_set_infall H z s)
  end.
Definition crun (V : cenv) (H : chalo) (ops : list cop) : cstate := fold_left (cstep V H) ops cfresh.
