(** Model of one truncated-NFW halo object as a mutable Python object:
    Halos/halo_base.py (class [Halo]), Halos/HaloModels/TNFW.py ([TNFWFieldHalo], [TNFWSubhalo]) and the
    truncation classes of Halos/tidal_truncation.py that are called back with the halo.

    The attributes tested with [hasattr] are options. Random draws are explicit: the n-th evaluation of a
    random quantity for this halo is [e_draw_* n ...], and the state counts the evaluations. *)
From Verif Require Import Prelude.

Definition log10 (x : R) : R := ln x / ln 10.
Definition pow10 (x : R) : R := Rpower 10 x.

(** The truncation classes, with their constructor arguments (tidal_truncation.py; class attribute
    [name] distinguishes them). *)
Inductive tkind :=
| KSplashBack                        (* tidal_truncation.py 12-44 *)
| KRN (N : R)                        (* tidal_truncation.py 46-77 *)
| KRoche (norm mpow rpow : R)        (* tidal_truncation.py 79-117 *)
| KMeanDensity (norm cpow scatter : R) (* tidal_truncation.py 119-168 *)
| KMultipleRS (tau : R)              (* tidal_truncation.py 170-183 *)
| KConstant (rt : R)                 (* tidal_truncation.py 185-194 *)
| KKeeley24 (chost : R)              (* tidal_truncation.py 196-266 *)
| KGalacticus (chost : R)            (* tidal_truncation.py 268-374 *)
| KZinfall (chost : R)               (* tidal_truncation.py 376-482 *)
| KApproxCDM                         (* tidal_truncation.py 484-580 *)
| KBoundMassPDF (mean sd : R)        (* tidal_truncation.py 582-616 *)
| KMilkyWay (chost : R).             (* tidal_truncation.py 618-724 *)

(** Two places evaluate the (random) mass-loss model for one halo: the bound-mass query and the
    truncation-radius computation. They consume different draws. *)
Inductive stream := SBound | STrunc.

(** External functions (cosmology, lenstronomy, interpolation tables, random generators), uninterpreted. *)
Record Env := mkEnv {
  e_nfw : R -> R -> R -> R * R * R;      (* lens_cosmo.NFW_params_physical mass c z = (rhos, rs, r200) *)
  e_angle : R -> R -> R -> R * R;        (* nfw_physical2angle_fromNFWparams rhos_mpc rs_mpc z = (Rs, theta_Rs) *)
  e_kpc : R -> R;                        (* kpc_proper_per_asec z *)
  e_round : nat -> R -> R;               (* round(x, digits) *)
  e_vmax : R -> R -> R;                  (* nfw_vmax rhos rs *)
  e_m3d : R -> R -> R -> R -> R;         (* lenstronomy TNFW.mass_3d rmax rs rho0 tau *)
  e_frac : R -> R -> R;                  (* tnfw_mass_fraction tau c *)
  e_age : R -> R -> R;                   (* cosmo.halo_age(z, zform) *)
  e_rte : R -> R -> R -> R -> R * R;     (* compute_r_te_and_f_t m_bound m_infall r200 c *)
  e_splash : R -> R -> R;                (* TruncationSplashBack.truncation_radius mass z *)
  e_rN : R -> R -> R -> R;               (* TruncationRN.truncation_radius, overdensity N, mass, z *)
  e_cmed : R -> R -> R;                  (* median Diemer-Joyce concentration mass z *)
  e_zlens : R;
  e_tau : R -> R -> R;                   (* tau_mf_interpolation (log10c, log10 mass loss) *)
  e_draw_z : nat -> R -> R;              (* n-th draw of z_accreted_from_zlens(mass) *)
  e_draw_c : nat -> R -> R -> R;         (* n-th draw of nfw_concentration(mass, z_eval) *)
  e_loss : stream -> nat -> R -> R -> R -> R; (* n-th evaluation of _mass_loss_interp(log10c, t, chost) *)
  e_logf : stream -> nat -> R;           (* n-th draw of the log10 bound fraction (ApproxCDM, BoundMassPDF) *)
  e_normal : nat -> R -> R -> R }.       (* n-th Gaussian draw (MeanDensity scatter) *)

(** Attributes fixed by the constructor (halo_base.py 33-46). *)
Record Static := mkStatic { h_mass : R; h_r3d : R; h_z : R; h_sub : bool; h_kind : tkind }.

(** The lenstronomy keywords of a TNFW halo (TNFW.py 213-215). *)
Record LensKw := mkLensKw { k_alpha : R; k_Rs : R; k_x : R; k_y : R; k_rtrunc : R }.
(** The physical parameters (TNFW.py 192). *)
Record Phys := mkPhys { p_rhos : R; p_rs : R; p_r200 : R; p_rt : R }.

(** Mutable attributes, and the number of random draws of each kind made so far. *)
Record St := mkSt {
  s_x : R; s_y : R;
  s_norm : R; s_once : bool;
  s_zinf : option R; s_zeval : option R; s_tsi : option R; s_c : option R;
  s_nfw : option (R * R * R); s_pargs : option (R * R); s_phys : option Phys; s_kw : option LensKw;
  s_vmax : option R; s_mb : option R;
  n_z : nat; n_c : nat; n_mb : nat; n_tr : nat }.

(** A new object (halo_base.py 33-46): no cached attribute, unit normalisation. *)
Definition fresh (x y : R) : St :=
  mkSt x y 1 false None None None None None None None None None None 0 0 0 0.

(** State and exceptions: an exception keeps the assignments made before it. *)
Definition M (A : Type) := St -> result A * St.
Definition ret {A} (a : A) : M A := fun s => (Ok a, s).
Definition raise {A} (e : err) : M A := fun s => (Err e, s).
Definition mbind {A B} (m : M A) (k : A -> M B) : M B :=
  fun s => match m s with (Ok a, s') => k a s' | (Err e, s') => (Err e, s') end.
Notation "'let*' x := m 'in' k" := (mbind m (fun x => k))
  (at level 200, x pattern, m at level 100, k at level 200, right associativity).
Definition gets {A} (f : St -> A) : M A := fun s => (Ok (f s), s).
Definition modify (f : St -> St) : M unit := fun s => (Ok tt, f s).

(** attribute assignments *)
Definition set_zinf v s := mkSt (s_x s) (s_y s) (s_norm s) (s_once s) (Some v) (s_zeval s) (s_tsi s) (s_c s)
  (s_nfw s) (s_pargs s) (s_phys s) (s_kw s) (s_vmax s) (s_mb s) (n_z s) (n_c s) (n_mb s) (n_tr s).
Definition set_zeval v s := mkSt (s_x s) (s_y s) (s_norm s) (s_once s) (s_zinf s) (Some v) (s_tsi s) (s_c s)
  (s_nfw s) (s_pargs s) (s_phys s) (s_kw s) (s_vmax s) (s_mb s) (n_z s) (n_c s) (n_mb s) (n_tr s).
Definition set_tsi v s := mkSt (s_x s) (s_y s) (s_norm s) (s_once s) (s_zinf s) (s_zeval s) (Some v) (s_c s)
  (s_nfw s) (s_pargs s) (s_phys s) (s_kw s) (s_vmax s) (s_mb s) (n_z s) (n_c s) (n_mb s) (n_tr s).
Definition set_c v s := mkSt (s_x s) (s_y s) (s_norm s) (s_once s) (s_zinf s) (s_zeval s) (s_tsi s) (Some v)
  (s_nfw s) (s_pargs s) (s_phys s) (s_kw s) (s_vmax s) (s_mb s) (n_z s) (n_c s) (n_mb s) (n_tr s).
Definition set_nfw v s := mkSt (s_x s) (s_y s) (s_norm s) (s_once s) (s_zinf s) (s_zeval s) (s_tsi s) (s_c s)
  (Some v) (s_pargs s) (s_phys s) (s_kw s) (s_vmax s) (s_mb s) (n_z s) (n_c s) (n_mb s) (n_tr s).
Definition set_pargs v s := mkSt (s_x s) (s_y s) (s_norm s) (s_once s) (s_zinf s) (s_zeval s) (s_tsi s) (s_c s)
  (s_nfw s) (Some v) (s_phys s) (s_kw s) (s_vmax s) (s_mb s) (n_z s) (n_c s) (n_mb s) (n_tr s).
Definition set_phys v s := mkSt (s_x s) (s_y s) (s_norm s) (s_once s) (s_zinf s) (s_zeval s) (s_tsi s) (s_c s)
  (s_nfw s) (s_pargs s) (Some v) (s_kw s) (s_vmax s) (s_mb s) (n_z s) (n_c s) (n_mb s) (n_tr s).
Definition set_kw v s := mkSt (s_x s) (s_y s) (s_norm s) (s_once s) (s_zinf s) (s_zeval s) (s_tsi s) (s_c s)
  (s_nfw s) (s_pargs s) (s_phys s) (Some v) (s_vmax s) (s_mb s) (n_z s) (n_c s) (n_mb s) (n_tr s).
Definition set_vmax v s := mkSt (s_x s) (s_y s) (s_norm s) (s_once s) (s_zinf s) (s_zeval s) (s_tsi s) (s_c s)
  (s_nfw s) (s_pargs s) (s_phys s) (s_kw s) (Some v) (s_mb s) (n_z s) (n_c s) (n_mb s) (n_tr s).
Definition set_mb v s := mkSt (s_x s) (s_y s) (s_norm s) (s_once s) (s_zinf s) (s_zeval s) (s_tsi s) (s_c s)
  (s_nfw s) (s_pargs s) (s_phys s) (s_kw s) (s_vmax s) (Some v) (n_z s) (n_c s) (n_mb s) (n_tr s).
Definition set_xy x y s := mkSt x y (s_norm s) (s_once s) (s_zinf s) (s_zeval s) (s_tsi s) (s_c s)
  (s_nfw s) (s_pargs s) (s_phys s) (s_kw s) (s_vmax s) (s_mb s) (n_z s) (n_c s) (n_mb s) (n_tr s).
(** one more random draw *)
Definition tick_z s := mkSt (s_x s) (s_y s) (s_norm s) (s_once s) (s_zinf s) (s_zeval s) (s_tsi s) (s_c s)
  (s_nfw s) (s_pargs s) (s_phys s) (s_kw s) (s_vmax s) (s_mb s) (S (n_z s)) (n_c s) (n_mb s) (n_tr s).
Definition tick_c s := mkSt (s_x s) (s_y s) (s_norm s) (s_once s) (s_zinf s) (s_zeval s) (s_tsi s) (s_c s)
  (s_nfw s) (s_pargs s) (s_phys s) (s_kw s) (s_vmax s) (s_mb s) (n_z s) (S (n_c s)) (n_mb s) (n_tr s).
Definition tick_mb s := mkSt (s_x s) (s_y s) (s_norm s) (s_once s) (s_zinf s) (s_zeval s) (s_tsi s) (s_c s)
  (s_nfw s) (s_pargs s) (s_phys s) (s_kw s) (s_vmax s) (s_mb s) (n_z s) (n_c s) (S (n_mb s)) (n_tr s).
Definition tick_tr s := mkSt (s_x s) (s_y s) (s_norm s) (s_once s) (s_zinf s) (s_zeval s) (s_tsi s) (s_c s)
  (s_nfw s) (s_pargs s) (s_phys s) (s_kw s) (s_vmax s) (s_mb s) (n_z s) (n_c s) (n_mb s) (S (n_tr s)).

(** halo_base.py 75-81 / 87-93: multiply the normalisation and delete three cached attributes. *)
Definition apply_rescale (factor : R) (log : bool) s :=
  mkSt (s_x s) (s_y s) (s_norm s * factor) (if log then true else s_once s)
    (s_zinf s) (s_zeval s) (s_tsi s) (s_c s) None (s_pargs s) None None (s_vmax s) (s_mb s)
    (n_z s) (n_c s) (n_mb s) (n_tr s).
(** halo_base.py 64-93 [rescale_normalization(factor, force=False, log=True)] *)
Definition rescale_normalization (factor : R) (force log : bool) (s : St) : St :=
  if force then apply_rescale factor log s
  else if s_once s then s
  else apply_rescale factor log s.

Section Halo.
Variable E : Env.
Variable H : Static.

(** halo_base.py 129-143 (the printed warning is not modelled) *)
Definition z_infall : M R :=
  let* v := gets s_zinf in
  match v with
  | Some z => ret z
  | None =>
      let* n := gets n_z in
      let z := e_draw_z E n (h_mass H) in
      let* _ := modify tick_z in
      let* _ := modify (set_zinf z) in ret z
  end.

(** halo_base.py 145-158. [None] for field halos; the attribute is stored before the assertion. *)
Definition time_since_infall : M (option R) :=
  if negb (h_sub H) then ret None
  else
    let* v := gets s_tsi in
    match v with
    | Some t => ret (Some t)
    | None =>
        let* zi := z_infall in
        let t := e_age E (h_z H) zi in
        let* _ := modify (set_tsi t) in
        if Rleb 0 t then ret (Some t) else raise EAssertionError
    end.

(** halo_base.py 160-168 *)
Definition set_infall_redshift (z : R) : M unit :=
  if h_sub H then modify (set_zinf z) else raise EException.

(** halo_base.py 204-214 *)
Definition z_eval : M R :=
  let* v := gets s_zeval in
  match v with
  | Some z => ret z
  | None =>
      let* z := (if h_sub H then z_infall else ret (h_z H)) in
      let* _ := modify (set_zeval z) in ret z
  end.

(** TNFW.py 173-180 *)
Definition conc : M R :=
  let* v := gets s_c in
  match v with
  | Some c => ret c
  | None =>
      let* z := z_eval in
      let* n := gets n_c in
      let c := e_draw_c E n (h_mass H) z in
      let* _ := modify tick_c in
      let* _ := modify (set_c c) in ret c
  end.

(** halo_base.py 216-225 *)
Definition nfw_params : M (R * R * R) :=
  let* v := gets s_nfw in
  match v with
  | Some p => ret p
  | None =>
      let* c := conc in
      let* z := z_eval in
      let p := e_nfw E (h_mass H) c z in
      let* _ := modify (set_nfw p) in ret p
  end.

(** One evaluation of [_mass_loss_interp] / of the bound-fraction draw. *)
Definition draw_number (st : stream) : M nat :=
  match st with
  | SBound => let* n := gets n_mb in let* _ := modify tick_mb in ret n
  | STrunc => let* n := gets n_tr in let* _ := modify tick_tr in ret n
  end.
Definition mass_loss (st : stream) (logc : R) (t : option R) (chost : R) : M R :=
  match t with
  | None => raise ETypeError   (* max(0.0, None), interpolation at None *)
  | Some t => let* n := draw_number st in ret (e_loss E st n logc t chost)
  end.

(** tidal_truncation.py 209-220 [_make_params_in_bounds_tau_evaluate] (same in the other classes) *)
Definition clamp (lo hi x : R) : R := Rmin hi (Rmax lo x).

(** tidal_truncation.py 329-335, 437-443, 538-544, 679-685 (tail of [truncation_radius_halo]) and
    337-353 [truncation_radius_from_bound_mass]: structure from the bound mass, rescaling the halo. *)
Definition structure_from_mbound (m_bound c : R) : M R :=
  let* z := z_eval in
  let '(_, _, r200) := e_nfw E (h_mass H) c z in
  let '(r_te, f_t) := e_rte E m_bound (h_mass H) r200 c in
  let* _ := modify (rescale_normalization f_t false true) in
  ret r_te.

(** [truncation_radius_halo(halo)] of each class. *)
Definition truncation_radius_halo : M R :=
  match h_kind H with
  | KSplashBack => let* z := z_eval in ret (e_splash E (h_mass H) z)            (* tidal_truncation.py 22-28 *)
  | KRN N => let* z := z_eval in ret (e_rN E N (h_mass H) z)                    (* tidal_truncation.py 59-65 *)
  | KRoche a b g =>                                                              (* tidal_truncation.py 98-117 *)
      ret (e_round E 3 (a * Rpower (h_mass H / 10 ^ 7) b * Rpower (h_r3d H / 50) g))
  | KMeanDensity nrm cpow sc =>                                                  (* tidal_truncation.py 140-168 *)
      let* z := z_eval in
      let cm := e_cmed E (h_mass H) z in
      let* c := conc in
      let* z := z_eval in
      let mu := nrm * Rpower (c / cm) cpow in
      let* q := (if Rltb 0 sc then let* n := draw_number STrunc in ret (Rabs (e_normal E n mu (sc * mu)))
                 else ret mu) in
      let '(_, rs, _) := e_nfw E (h_mass H) c z in
      ret (rs * q)
  | KMultipleRS tau => let* p := nfw_params in let '(_, rs, _) := p in ret (tau * rs)   (* tidal_truncation.py 178-181 *)
  | KConstant rt => ret rt                                                       (* tidal_truncation.py 191-192 *)
  | KKeeley24 chost =>                                                           (* tidal_truncation.py 236-266 *)
      let* c := conc in
      let* t := time_since_infall in
      let* z := z_eval in
      let* ml := mass_loss STrunc (log10 c) t chost in
      let lc := clamp (log10 1) (log10 (pow10 2.7)) (log10 c) in
      let lm := clamp (-8) (-0.001) ml in
      let '(_, rs, _) := e_nfw E (h_mass H) c z in
      ret (pow10 (e_tau E lc lm) * rs)
  | KGalacticus chost | KMilkyWay chost =>                                       (* tidal_truncation.py 316-335, 666-685 *)
      let* c := conc in
      let* t := time_since_infall in
      let* ml := mass_loss STrunc (log10 c) t chost in
      structure_from_mbound (h_mass H * pow10 ml) c
  | KZinfall chost =>                                                            (* tidal_truncation.py 424-443 *)
      let* c := conc in
      let* zi := z_infall in
      let* ml := mass_loss STrunc (log10 c) (Some (zi - e_zlens E)) chost in
      structure_from_mbound (h_mass H * pow10 ml) c
  | KApproxCDM =>                                                                (* tidal_truncation.py 504-544 *)
      let* c := conc in
      let* n := draw_number STrunc in
      structure_from_mbound (h_mass H * pow10 (e_logf E STrunc n)) c
  | KBoundMassPDF _ _ =>                                                         (* tidal_truncation.py 595-616 *)
      let* n := draw_number STrunc in
      let f := pow10 (e_logf E STrunc n) in
      let f := if Rleb 1 f then 0.999 else f in
      let* c := conc in
      structure_from_mbound (f * h_mass H) c
  end.

(** [calculate_mbound(halo)]: 222-234, 302-314, 410-422, 519-526 *)
Definition calculate_mbound : M R :=
  match h_kind H with
  | KKeeley24 chost | KGalacticus chost =>
      let* c := conc in
      let* t := time_since_infall in
      let* ml := mass_loss SBound (log10 c) t chost in
      ret (h_mass H * pow10 ml)
  | KZinfall chost =>
      let* c := conc in
      let* zi := z_infall in
      let* ml := mass_loss SBound (log10 c) (Some (zi - e_zlens E)) chost in
      ret (h_mass H * pow10 ml)
  | KApproxCDM => let* n := draw_number SBound in ret (h_mass H * pow10 (e_logf E SBound n))
  | _ => raise EAttributeError
  end.

(** TNFW.py 319-334 *)
Definition bound_mass_galacticus_definition : M R :=
  if negb (h_sub H) then raise EAttributeError else
  match h_kind H with
  | KGalacticus _ | KZinfall _ | KKeeley24 _ | KApproxCDM =>
      let* v := gets s_mb in
      match v with
      | Some m => ret m
      | None => let* m := calculate_mbound in let* _ := modify (set_mb m) in ret m
      end
  | _ => raise EException
  end.

(** TNFW.py 219-227 (field halos) and 336-348 (subhalos) *)
Definition profile_args : M (R * R) :=
  let* v := gets s_pargs in
  match v with
  | Some p => ret p
  | None =>
      let* rt :=
        (match h_sub H, h_kind H with
         | true, KGalacticus _ =>
             let* mb := bound_mass_galacticus_definition in
             let* c := conc in
             structure_from_mbound mb c
         | _, _ => truncation_radius_halo
         end) in
      let* c := conc in
      let* _ := modify (set_pargs (c, rt)) in ret (c, rt)
  end.

(** TNFW.py 182-193 *)
Definition params_physical : M Phys :=
  let* v := gets s_phys in
  match v with
  | Some p => ret p
  | None =>
      let* a := profile_args in
      let* p := nfw_params in
      let '(rhos, rs, r200) := p in
      let* g := gets s_norm in
      let r := mkPhys (rhos * g) rs r200 (snd a) in
      let* _ := modify (set_phys r) in ret r
  end.

(** TNFW.py 195-217 *)
Definition lenstronomy_params : M LensKw :=
  let* v := gets s_kw in
  match v with
  | Some k => ret k
  | None =>
      let* a := profile_args in
      let* p := nfw_params in
      let '(rhos, rs, _) := p in
      let '(Rs, theta) := e_angle E (rhos * 10 ^ 9) (rs * / 10 ^ 3) (h_z H) in
      let* x := gets s_x in
      let* y := gets s_y in
      let* g := gets s_norm in
      let k := mkLensKw (g * e_round E 10 theta) (e_round E 10 Rs) (e_round E 4 x) (e_round E 4 y)
                        (e_round E 10 (snd a / e_kpc E (h_z H))) in
      let* _ := modify (set_kw k) in ret k
  end.

(** TNFW.py 229-239 *)
Definition vmax_nfw : M R :=
  let* v := gets s_vmax in
  match v with
  | Some p => ret p
  | None =>
      let* p := nfw_params in
      let '(rhos, rs, _) := p in
      let* _ := profile_args in
      let* g := gets s_norm in
      let r := e_vmax E (g * rhos) rs in
      let* _ := modify (set_vmax r) in ret r
  end.

(** TNFW.py 134-146; [None] stands for the string 'r200'. The normalisation is read before the
    profile arguments. *)
Definition mass_3d (rmax : option R) : M R :=
  let* rmax := (match rmax with
                | Some r => ret r
                | None => let* p := nfw_params in let* c := conc in ret (snd (fst p) * c)
                end) in
  let* p := nfw_params in
  let rs := snd (fst p) in
  let* p := nfw_params in
  let* g := gets s_norm in
  let rho0 := fst (fst p) * g in
  let* a := profile_args in
  ret (e_m3d E rmax rs rho0 (snd a / rs)).

(** TNFW.py 118-132 with default arguments *)
Definition density_profile_3d (r : R) : M R :=
  let* a := profile_args in
  let* p := nfw_params in
  let '(rhos, rs, _) := p in
  let tau := snd a / rs in
  let x := r / rs in
  ret (1 * (rhos / x / (1 + x) ^ 2) * tau ^ 2 / (tau ^ 2 + x ^ 2)).

(** TNFW.py 305-317 for subhalos; halo_base.py 177-183 raises for field halos. *)
Definition bound_mass : M R :=
  if negb (h_sub H) then raise EException else
  let* k := gets s_kw in
  let* tau := (match k with
               | Some k => ret (k_rtrunc k / k_Rs k)
               | None => let* p := params_physical in ret (p_rt p / p_rs p)
               end) in
  let* c := conc in
  let* g := gets s_norm in
  ret (e_frac E tau c * h_mass H * g).

(** What a user can do with the object. [ORead] queries; [OSetInfall], [ORescale], [OMove] are the
    mutating calls (halo_base.py 160-168, 64-93; single_realization.py 330-346 assigns x and y). *)
Inductive query :=
| QC | QZInfall | QZEval | QTime | QNfw | QProfileArgs | QPhysical | QLensing | QVmax | QBoundMass | QMbound
| QMass3D (rmax : option R) | QDensity (r : R).

Definition unit_of {A} (m : M A) : M unit := let* _ := m in ret tt.
Definition ask (q : query) : M unit :=
  match q with
  | QC => unit_of conc | QZInfall => unit_of z_infall | QZEval => unit_of z_eval
  | QTime => unit_of time_since_infall | QNfw => unit_of nfw_params | QProfileArgs => unit_of profile_args
  | QPhysical => unit_of params_physical | QLensing => unit_of lenstronomy_params | QVmax => unit_of vmax_nfw
  | QBoundMass => unit_of bound_mass | QMbound => unit_of bound_mass_galacticus_definition
  | QMass3D r => unit_of (mass_3d r) | QDensity r => unit_of (density_profile_3d r)
  end.

Inductive action :=
| ORead (q : query) | OSetInfall (z : R) | ORescale (factor : R) (force log : bool) | OMove (x y : R).
Definition act (o : action) (s : St) : St :=
  match o with
  | ORead q => snd (ask q s)
  | OSetInfall z => snd (set_infall_redshift z s)
  | ORescale f fo lg => rescale_normalization f fo lg s
  | OMove x y => set_xy x y s
  end.
(** A history: exceptions are caught by the caller. *)
Definition history (l : list action) (s : St) : St := fold_left (fun s o => act o s) l s.
Definition reads (l : list query) (s : St) : St := fold_left (fun s q => snd (ask q s)) l s.
End Halo.
