(** Model of pyHalo/realization_extensions.py 42-70 and 262-924: the methods of [RealizationExtensions] that
    replace halos of a realization by other halo objects.

    Halo objects and keyword dictionaries are shared and mutated in place by the Python code, so both live in
    a store; a realization holds references (positions in the store).  Uniform and normal random numbers are
    infinite streams with a position kept in the state.  Values that belong to other parts of the code
    (concentration, truncation radius, NFW parameters, infall redshift, enclosed masses) are functions of the
    reference: they are cached by the halo object and do not change (C19, C20). *)
From Verif Require Import Prelude MassFnModel.
Local Open Scope string_scope.
Local Open Scope R_scope.
Local Open Scope list_scope.

Inductive xval := VNum (r : R) | VStr (s : string) | VNone.
Definition xdict := list (string * xval).
Fixpoint dict_set (k : string) (v : xval) (d : xdict) : xdict :=
  match d with
  | [] => [(k, v)]
  | (k', v') :: t => if String.eqb k' k then (k, v) :: t else (k', v') :: dict_set k v t
  end.
Fixpoint dict_get (k : string) (d : xdict) : option xval :=
  match d with [] => None | (k', v) :: t => if String.eqb k' k then Some v else dict_get k t end.
(** [dict.update] *)
Definition dict_update (d kw : xdict) : xdict := fold_left (fun a p => dict_set (fst p) (snd p) a) kw d.

(** halo_base.py 11-45 and the attributes set later: [_z_infall] (168), [_bound_mass] (177),
    [halo_effective_age]/[t_over_tc] (realization_extensions.py 512-513), [_nfw_halo] (sis.py 20).
    [xh_cls] is the Python class; [xh_tag] (a float) is only compared. *)
Record xhalo := mkX {
  xh_cls : string; xh_mdef : string; xh_mass : R; xh_x : R; xh_y : R; xh_r3d : option R; xh_z : R;
  xh_sub : bool; xh_fixed : bool; xh_norm : R; xh_tag : Z; xh_args : nat;
  xh_zinf : option R; xh_bound : option R; xh_evo : option (R * R); xh_nfw : option nat }.

Record xstate := mkS { xs_h : list xhalo; xs_d : list xdict; xs_u : nat; xs_n : nat }.
Definition M (A : Type) := xstate -> result (A * xstate).
Definition ret {A} (a : A) : M A := fun s => Ok (a, s).
Definition fail {A} (e : err) : M A := fun _ => Err e.
Definition sbind {A B} (m : M A) (f : A -> M B) : M B :=
  fun s => match m s with Ok (a, s') => f a s' | Err e => Err e end.
Notation "'go' x <- m ; k" := (sbind m (fun x => k)) (at level 200, x pattern, m at level 100, k at level 200, right associativity).
Definition lift {A} (m : result A) : M A := fun s => match m with Ok a => Ok (a, s) | Err e => Err e end.

(** Values computed by other parts of the code for the halo at a reference. *)
Record xenv := {
  xe_c : nat -> result R;                    (* halo.c *)
  xe_rt : nat -> result R;                   (* halo.profile_args[1] of a TNFW halo [kpc] *)
  xe_nfw : nat -> result (R * R * R);        (* halo.nfw_params *)
  xe_zeval : nat -> R;                       (* halo.z_eval *)
  xe_zinf : nat -> R;                        (* halo.z_infall *)
  xe_bound : nat -> result R;                (* halo.bound_mass *)
  xe_m200 : nat -> R;                        (* halo.mass_3d('r200') *)
  xe_rmatch : nat -> R -> R;                 (* halo.log_derivative_inverse(slope, rs, rt) *)
  xe_mass3d : nat -> R -> R;                 (* halo.mass_3d(r) *)
  xe_age : R -> R -> R;                      (* cosmo.halo_age(z, zform) *)
  xe_u : nat -> R;                           (* np.random.rand() *)
  xe_n : nat -> R }.                         (* standard normal deviates *)

Definition get (r : nat) : M xhalo := fun s => match nth_error (xs_h s) r with Some h => Ok (h, s) | None => Err EIndexError end.
Fixpoint replace_at {A} (i : nat) (a : A) (l : list A) : list A :=
  match l, i with [] , _ => [] | _ :: t, O => a :: t | b :: t, S j => b :: replace_at j a t end.
Definition put (r : nat) (h : xhalo) : M unit :=
  fun s => Ok (tt, mkS (replace_at r h (xs_h s)) (xs_d s) (xs_u s) (xs_n s)).
Definition rand (e : xenv) : M R := fun s => Ok (xe_u e (xs_u s), mkS (xs_h s) (xs_d s) (S (xs_u s)) (xs_n s)).
(** [np.random.normal(mean, sigma)]; a negative scale raises *)
Definition normal (e : xenv) (mean sigma : R) : M R :=
  fun s => if Rltb sigma 0 then Err EValueError
           else Ok (mean + sigma * xe_n e (xs_n s), mkS (xs_h s) (xs_d s) (xs_u s) (S (xs_n s))).
(** halo_base.py 44: every constructor asserts a positive redshift *)
Definition alloc (h : xhalo) : M nat :=
  fun s => if Rltb 0 (xh_z h) then Ok (List.length (xs_h s), mkS (xs_h s ++ [h]) (xs_d s) (xs_u s) (xs_n s))
           else Err EAssertionError.
Definition alloc_dict (d : xdict) : M nat :=
  fun s => Ok (List.length (xs_d s), mkS (xs_h s) (xs_d s ++ [d]) (xs_u s) (xs_n s)).
(** halo_base.py 51-57 [update_args]: the dictionary object is updated in place *)
Definition update_dict (i : nat) (kw : xdict) : M unit :=
  fun s => match nth_error (xs_d s) i with
           | Some d => Ok (tt, mkS (xs_h s) (replace_at i (dict_update d kw) (xs_d s)) (xs_u s) (xs_n s))
           | None => Err EAttributeError
           end.

(** A new halo object built from the mass, position, redshift, flag and tag of [h] by a constructor that does not
    pass [fixed_position] (default False); halo_base.py 31-44 *)
Definition make (h : xhalo) (cls mdef : string) (r3d : option R) (args : nat) : xhalo :=
  {| xh_cls := cls; xh_mdef := mdef; xh_mass := xh_mass h; xh_x := xh_x h; xh_y := xh_y h; xh_r3d := r3d;
     xh_z := xh_z h; xh_sub := xh_sub h; xh_fixed := false; xh_norm := 1; xh_tag := xh_tag h; xh_args := args;
     xh_zinf := None; xh_bound := None; xh_evo := None; xh_nfw := None |}.
Definition with_zinf (z : R) (h : xhalo) : xhalo :=
  mkX (xh_cls h) (xh_mdef h) (xh_mass h) (xh_x h) (xh_y h) (xh_r3d h) (xh_z h) (xh_sub h) (xh_fixed h) (xh_norm h)
      (xh_tag h) (xh_args h) (Some z) (xh_bound h) (xh_evo h) (xh_nfw h).
Definition with_bound (b : R) (h : xhalo) : xhalo :=
  mkX (xh_cls h) (xh_mdef h) (xh_mass h) (xh_x h) (xh_y h) (xh_r3d h) (xh_z h) (xh_sub h) (xh_fixed h) (xh_norm h)
      (xh_tag h) (xh_args h) (xh_zinf h) (Some b) (xh_evo h) (xh_nfw h).
Definition with_evo (a t : R) (h : xhalo) : xhalo :=
  mkX (xh_cls h) (xh_mdef h) (xh_mass h) (xh_x h) (xh_y h) (xh_r3d h) (xh_z h) (xh_sub h) (xh_fixed h) (xh_norm h)
      (xh_tag h) (xh_args h) (xh_zinf h) (xh_bound h) (Some (a, t)) (xh_nfw h).
Definition with_nfw (r : nat) (fixed : bool) (h : xhalo) : xhalo :=
  mkX (xh_cls h) (xh_mdef h) (xh_mass h) (xh_x h) (xh_y h) (xh_r3d h) (xh_z h) (xh_sub h) fixed (xh_norm h)
      (xh_tag h) (xh_args h) (xh_zinf h) (xh_bound h) (xh_evo h) (Some r).

(** realization_extensions.py 447-449 (and 472-474, 504-506, 540-542, 593-595): new subhalos get the infall redshift
    and the bound mass of the old ones *)
Definition build (e : xenv) (r : nat) (h h' : xhalo) : M (nat * xhalo) :=
  if xh_sub h then
    go b <- lift (xe_bound e r);
    let h'' := with_bound b (with_zinf (xe_zeval e r) h') in
    go r' <- alloc h''; ret (r', h'')
  else go r' <- alloc h'; ret (r', h').

(** arguments of [toSIDM_single_halo], realization_extensions.py 372-385 *)
Record sidm := mkSidm {
  sd_tc : option R; sd_scaling : option R; sd_xcore : option R; sd_cut : R; sd_evolving : bool; sd_prob : R;
  sd_profile : string; sd_gamma : R; sd_scale : R; sd_slope : R; sd_toc : option R; sd_threshold : R }.
(** its default arguments *)
Definition sidm_default : sidm := mkSidm None None None 0.15 true 1 "TNFWC" 2.6 1.6 (-1.9) None 1.

Definition onum (o : option R) : xval := match o with Some r => VNum r | None => VNone end.
(** lens_cosmo.py 409-423; an infall redshift above 10 counts as 10 *)
Definition effective_age (e : xenv) (z zinf lambda : R) : R :=
  let zi := if Rltb 10 zinf then 10 else zinf in xe_age e zi 10 + lambda * xe_age e z zi.
(** NFW_core_trunc.py 217-226 and core_collapsed_halo.py 230-240: [halo_effective_age]; 228-242: [t_over_tc].
    [lambda_t] or [sidm_timescale] equal to None raise TypeError.  Division by a zero timescale is the real-number
    convention of Coq (numpy returns inf with a warning). *)
Definition halo_effective_age (e : xenv) (h : xhalo) (zeval : R) (lambda : option R) : result R :=
  if xh_sub h then match lambda with Some l => Ok (effective_age e (xh_z h) zeval l) | None => Err ETypeError end
  else Ok (xe_age e (xh_z h) 10).
Definition t_over_tc (age : R) (tc : option R) : result R :=
  match tc with Some t => Ok (age / t) | None => Err ETypeError end.

(** realization_extensions.py 406-423 / 556-576: arguments of the composite profile *)
Definition cc_args (e : xenv) (p : sidm) (r : nat) (rt rs r200 : R) (gamma : R) : xdict :=
  let rm := xe_rmatch e r (sd_slope p) in
  [("gamma_inner", VNum gamma); ("gamma_outer", VNum 6); ("rt_kpc", VNum rt); ("m_target_r200", VNum (xe_mass3d e r r200));
   ("m_target_R", VNum (sd_scale p * xe_mass3d e r rm)); ("r_match_kpc", VNum rm); ("Rs_inner_kpc", VNum rm)].
Definition cc_class (gamma : R) : string := if Reqb gamma (-1) then "CoreCollapsedHaloBH" else "CoreCollapsedHalo".
Definition cc_gamma (gamma : R) : R := if Reqb gamma (-1) then 2.6 else gamma.

(** Keep the halo object, recording its age (realization_extensions.py 511-518, 526-533, 598-605) or return the new one:
    [lazy] decides. The random number is drawn only when the age is at least [cut]. *)
Definition decide (e : xenv) (p : sidm) (r : nat) (h : xhalo) (age toc cut : R) (collapsed : M nat) : M nat :=
  if Rltb toc cut then go _ <- put r (with_evo age toc h); ret r
  else go u <- rand e;
       if Rltb (sd_prob p) u then go _ <- put r (with_evo age toc h); ret r else collapsed.

(** realization_extensions.py 372-618.  The SIDM halo object built first in the timescale branches is only used to
    compute its age (and returned when it collapses), so it is allocated where it is returned; its constructor's
    redshift assertion and the reading of the bound mass happen first, as in the code. *)
Definition toSIDM_single_halo (e : xenv) (p : sidm) (r : nat) : M nat :=
  go h <- get r;
  if negb (String.eqb (xh_mdef h) "TNFW") then fail EAssertionError else
  go rt <- lift (xe_rt e r);
  go _ <- lift (xe_c e r);
  match sd_tc p, sd_toc p with
  | None, None =>
      if String.eqb (sd_profile p) "CC_COMPOSITE" then
        go (_, rs, r200) <- lift (xe_nfw e r);
        go a <- alloc_dict (cc_args e p r rt rs r200 (cc_gamma (sd_gamma p)));
        go x <- build e r h (make h (cc_class (sd_gamma p)) "CORE_COLLAPSED" (xh_r3d h) a); ret (fst x)
      else if String.eqb (sd_profile p) "TNFWC" then
        match sd_xcore p with
        | None => fail EAssertionError
        | Some xc =>
            go a <- alloc_dict [("x_core_halo", VNum xc); ("mass_conservation", VNum (xe_m200 e r)); ("rt_kpc", VNum rt)];
            go x <- build e r h (make h "TNFWCHaloParametric" "TNFWC" (xh_r3d h) a); ret (fst x)
        end
      else fail EValueError
  | _, _ =>
      if String.eqb (sd_profile p) "TNFWC" then
        let tc := match sd_toc p with None => sd_tc p | Some q => Some (xe_age e (xh_z h) 10 / q) end in
        let lambda := match sd_toc p with None => if xh_sub h then sd_scaling p else Some 1 | Some _ => Some 1 end in
        if negb (Rltb 0 (xh_z h)) then fail EAssertionError else
        go _ <- (if xh_sub h then lift (xe_bound e r) else ret 0);
        go age <- lift (halo_effective_age e h (xe_zeval e r) lambda);
        go toc <- lift (t_over_tc age tc);
        if sd_evolving p then
          decide e p r h age toc (sd_cut p)
            (go a <- alloc_dict [("sidm_timescale", onum tc); ("lambda_t", onum lambda);
                                 ("mass_conservation", VNum (xe_m200 e r)); ("rt_kpc", VNum rt)];
             go x <- build e r h (make h "TNFWCHaloEvolving" "TNFWC" (xh_r3d h) a); ret (fst x))
        else
          decide e p r h age toc (sd_threshold p)
            (go a <- alloc_dict [("x_core_halo", onum (sd_xcore p)); ("mass_conservation", VNum (xe_m200 e r)); ("rt_kpc", VNum rt)];
             go x <- build e r h (with_evo age toc (make h "TNFWCHaloParametric" "TNFWC" (xh_r3d h) a)); ret (fst x))
      else if String.eqb (sd_profile p) "CC_COMPOSITE" then
        go (_, rs, r200) <- lift (xe_nfw e r);
        let lambda := if xh_sub h then sd_scaling p else Some 1 in
        if negb (Rltb 0 (xh_z h)) then fail EAssertionError else
        go _ <- (if xh_sub h then lift (xe_bound e r) else ret 0);
        go age <- lift (halo_effective_age e h (xe_zeval e r) lambda);
        go toc <- lift (t_over_tc age (sd_tc p));
        decide e p r h age toc (sd_threshold p)
          (go a <- alloc_dict (cc_args e p r rt rs r200 (cc_gamma (sd_gamma p))
                               ++ [("sidm_timescale", onum (sd_tc p)); ("lambda_t", onum lambda)]);
           go x <- build e r h (make h (cc_class (sd_gamma p)) "CORE_COLLAPSED" (xh_r3d h) a); ret (fst x))
      else fail EValueError
  end.

(** A realization as far as these methods are concerned: the halos, [_has_been_shifted] and what is handed over to the
    new one (single_realization.py 95-124, 174-201). *)
Record xreal := mkXR { xr_halos : list nat; xr_shifted : bool; xr_sheet : bool; xr_classes : list string; xr_cx : R -> R; xr_cy : R -> R }.
(** [Realization.from_halos(halos, lens_cosmo, kwargs_halo_model, apply_mass_sheet_correction, rendering_classes, centre, geometry)] *)
Definition x_rebuild (rz : xreal) (hs : list nat) : xreal := mkXR hs false (xr_sheet rz) (xr_classes rz) (xr_cx rz) (xr_cy rz).
Definition x_keep_shift (rz rz' : xreal) : xreal := mkXR (xr_halos rz') (xr_shifted rz) (xr_sheet rz') (xr_classes rz') (xr_cx rz') (xr_cy rz').

Fixpoint mapS {A B} (f : A -> M B) (l : list A) : M (list B) :=
  match l with [] => ret [] | a :: t => go b <- f a; go bs <- mapS f t; ret (b :: bs) end.

(** realization_extensions.py 308-370 *)
Definition toSIDM_halo_list (e : xenv) (rz : xreal) (p : sidm) (hs : list nat) : M xreal :=
  go hs' <- mapS (toSIDM_single_halo e p) hs; ret (x_keep_shift rz (x_rebuild rz hs')).

(** realization_extensions.py 655-665, 724-730: the first bin containing log10(mass).  For a mass that is not positive
    log10 is -inf or nan, in no bin. *)
Definition in_bin (m : R) (b : R * R) : bool := Rltb 0 m && Rleb (fst b) (log10 m) && Rltb (log10 m) (snd b).
Fixpoint find_bin (f : R * R -> bool) (i : nat) (bins : list (R * R)) : option nat :=
  match bins with [] => None | b :: t => if f b then Some i else find_bin f (S i) t end.
Definition at_index {A} (l : list A) (i : nat) : result A := match nth_error l i with Some a => Ok a | None => Err EIndexError end.

(** arguments shared by the two conversions *)
Record convert := mkConv {
  cv_bins : list (R * R); cv_log_scaling : R; cv_evolving : bool; cv_xcore : option R; cv_prob : R; cv_profile : string;
  cv_gamma : R; cv_scale : R; cv_slope : R; cv_threshold : R }.
Definition conv_sidm (c : convert) (tc : R) : sidm :=
  mkSidm (Some tc) (Some (pow10 (cv_log_scaling c))) (cv_xcore c) 0.15 (cv_evolving c) (cv_prob c) (cv_profile c)
         (cv_gamma c) (cv_scale c) (cv_slope c) None (cv_threshold c).

(** realization_extensions.py 653-680: one pass of the loop of [toSIDM_from_timescale] *)
Definition timescale_step (e : xenv) (c : convert) (log_tc : list R) (sigma : option (list R)) (r : nat) : M nat :=
  go h <- get r;
  match find_bin (in_bin (xh_mass h)) 0 (cv_bins c) with
  | None => fail EException
  | Some i =>
      go tc <- match sigma with
               | None => go l <- lift (at_index log_tc i); ret (pow10 l)
               | Some sg => go l <- lift (at_index log_tc i); go sd <- lift (at_index sg i); go x <- normal e l sd; ret (pow10 x)
               end;
      if String.eqb (xh_mdef h) "TNFW" || String.eqb (xh_mdef h) "NFW" then toSIDM_single_halo e (conv_sidm c tc) r
      else ret r
  end.
(** realization_extensions.py 620-689 *)
Definition toSIDM_from_timescale (e : xenv) (rz : xreal) (c : convert) (log_tc : list R) (sigma : option (list R)) : M xreal :=
  go hs' <- mapS (timescale_step e c log_tc sigma) (xr_halos rz); ret (x_keep_shift rz (x_rebuild rz hs')).

(** lens_cosmo.py 425-440 *)
Definition sidm_collapse_timescale (rhos rs sigma : R) : R :=
  150 / 0.75 / (2.0889e-10 * sigma * rhos * rs * sqrt (4 * PI * 4.3e-6 * rhos * 1.05e-33)) * 3.171e-17.
(** realization_extensions.py 723-750 *)
Definition cross_section_step (e : xenv) (c : convert) (log_sigma : list R) (tfun : option (R -> R -> R -> R)) (r : nat) : M nat :=
  go h <- get r;
  match find_bin (in_bin (xh_mass h)) 0 (cv_bins c) with
  | None => fail EException
  | Some i =>
      go l <- lift (at_index log_sigma i);
      go (rhos, rs, _) <- lift (xe_nfw e r);
      let tc := match tfun with Some f => f rhos rs (pow10 l) | None => sidm_collapse_timescale rhos rs (pow10 l) end in
      if String.eqb (xh_mdef h) "TNFW" || String.eqb (xh_mdef h) "NFW" then toSIDM_single_halo e (conv_sidm c tc) r
      else ret r
  end.
(** realization_extensions.py 691-760 *)
Definition toSIDM_from_cross_section (e : xenv) (rz : xreal) (c : convert) (log_sigma : list R) (tfun : option (R -> R -> R -> R)) : M xreal :=
  go hs' <- mapS (cross_section_step e c log_sigma tfun) (xr_halos rz); ret (x_keep_shift rz (x_rebuild rz hs')).

(** realization_extensions.py 762-817.  A probability is a number or a function of the halo. *)
Inductive prob := PNum (p : R) | PFun (f : nat -> R).
Definition eval_prob (p : prob) (r : nat) : R := match p with PNum q => q | PFun f => f r end.
Definition in_mass_bin (m : R) (b : R * R) : bool := Rleb (pow10 (fst b)) m && Rltb m (pow10 (snd b)).
Fixpoint collapse_loop (e : xenv) (msub mfield : list (R * R)) (psub pfield : list prob) (i : nat) (hs : list nat) : M (list nat) :=
  match hs with
  | [] => ret []
  | r :: t =>
      go u <- rand e;
      go h <- get r;
      go hit <- (if negb (String.eqb (xh_mdef h) "TNFW") then ret false
                 else let '(bins, ps) := if xh_sub h then (msub, psub) else (mfield, pfield) in
                      match find_bin (in_mass_bin (xh_mass h)) 0 bins with
                      | None => ret false
                      | Some k => go p <- lift (at_index ps k); ret (Rleb u (eval_prob p r))
                      end);
      go rest <- collapse_loop e msub mfield psub pfield (S i) t;
      ret (if hit then i :: rest else rest)
  end.
Definition core_collapse_by_mass (e : xenv) (rz : xreal) (msub mfield : list (R * R)) (psub pfield : list prob) : M (list nat) :=
  if negb (Nat.eqb (List.length msub) (List.length psub)) then fail EAssertionError
  else if negb (Nat.eqb (List.length mfield) (List.length pfield)) then fail EAssertionError
  else collapse_loop e msub mfield psub pfield 0 (xr_halos rz).

(** Classes without an attribute [_truncation_class] (sis.py, NFW_core_trunc.py 274-300, globular_cluster.py, TNFWemulator.py)
    or [_concentration_class] (blackhole.py 17 sets [_concentration_clss]) *)
Definition has_classes (cls : string) : bool :=
  negb (existsb (String.eqb cls) ["SIS"; "MassiveGalaxy"; "Hybrid"; "GlobularCluster"; "TNFWSubhaloEmulator"; "BlackHole"]).
Definition kw_num (kw : xdict) (k : string) : result R :=
  match dict_get k kw with None => Err EKeyError | Some (VNum r) => Ok r | Some _ => Err ETypeError end.
Definition kw_opt (kw : xdict) (k : string) : result (option R) :=
  match dict_get k kw with None => Err EKeyError | Some (VNum r) => Ok (Some r) | Some VNone => Ok None | Some _ => Err ETypeError end.
Definition is_in (i : nat) (l : list Z) : bool := existsb (Z.eqb (Z.of_nat i)) l.
(** realization_extensions.py 858-915: what happens to a listed halo *)
Definition collapse_one (e : xenv) (profile : string) (kw : xdict) (r : nat) : M nat :=
  go h <- get r;
  if String.eqb profile "TNFWC" then
    go xc <- lift (kw_opt kw "x_core_halo");
    toSIDM_single_halo e (mkSidm None (Some 1) xc 0.15 false 1 "TNFWC" 2.6 1.6 (-1.9) None 1) r
  else if String.eqb profile "CC_COMPOSITE" then
    go g <- lift (kw_num kw "gamma_inner"); go s <- lift (kw_num kw "scale_match_r"); go l <- lift (kw_num kw "log_slope_match");
    toSIDM_single_halo e (mkSidm None (Some 1) None 0.15 false 1 "CC_COMPOSITE" g s l None 1) r
  else
    if negb (has_classes (xh_cls h)) then fail EAttributeError else
    go _ <- update_dict (xh_args h) kw;
    let gnfw := String.eqb profile "GNFW" in
    let cls := if gnfw then (if xh_sub h then "GeneralNFWSubhalo" else "GeneralNFWFieldHalo")
               else (if xh_sub h then "PowerLawSubhalo" else "PowerLawFieldHalo") in
    alloc (make h cls (if gnfw then "PSEUDO_DPL" else "SPL_CORE") (xh_r3d h) (xh_args h)).
Fixpoint collapse_list (e : xenv) (profile : string) (kw : xdict) (idx : list Z) (i : nat) (hs : list nat) : M (list nat) :=
  match hs with
  | [] => ret []
  | r :: t => go r' <- (if is_in i idx then collapse_one e profile kw r else ret r);
              go t' <- collapse_list e profile kw idx (S i) t; ret (r' :: t')
  end.
(** realization_extensions.py 819-924 *)
Definition add_core_collapsed_halos (e : xenv) (rz : xreal) (idx : list Z) (profile : string) (kw : xdict) : M xreal :=
  if negb (existsb (String.eqb profile) ["GNFW"; "SPL_CORE"; "TNFWC"; "CC_COMPOSITE"]) then fail EException
  else go hs <- collapse_list e profile kw idx 0 (xr_halos rz); ret (x_keep_shift rz (x_rebuild rz hs)).

(** realization_extensions.py 262-306.  The dictionary {'beta': beta} is shared by all the new halos. *)
Fixpoint cored_list (e : xenv) (profile : string) (beta : R) (args : nat) (idx : list Z) (i : nat) (hs : list nat) : M (list nat) :=
  match hs with
  | [] => ret []
  | r :: t =>
      go h <- get r;
      go _ <- lift (xe_c e r);
      go r' <- (if String.eqb profile "CNFW" then
                  if is_in i idx then
                    let h' := make h "CoreNFWHalo" "CNFW" None args in
                    if xh_sub h then go b <- lift (xe_bound e r); alloc (with_bound b (with_zinf (xe_zinf e r) h'))
                    else alloc h'
                  else ret r
                else toSIDM_single_halo e (mkSidm None (Some 1) (Some beta) 0.15 false 1 "TNFWC" 2.6 1.6 (-1.9) None 1) r);
      go t' <- cored_list e profile beta args idx (S i) t; ret (r' :: t')
  end.
Definition add_cored_halos (e : xenv) (rz : xreal) (idx : list Z) (beta : R) (profile : string) : M xreal :=
  go args <- alloc_dict [("beta", VNum beta)];
  go hs <- cored_list e profile beta args idx 0 (xr_halos rz); ret (x_keep_shift rz (x_rebuild rz hs)).

(** realization_extensions.py 42-70; sis.py 13-31 and 72-95: the galaxy keeps a reference to the NFW halo *)
Definition sis_one (model : string) (threshold : R) (r : nat) : M nat :=
  go h <- get r;
  if Rleb threshold (xh_mass h) then
    if String.eqb model "GNFW" then
      go a <- alloc_dict [("gamma_inner", VNum 2); ("gamma_outer", VNum 5); ("x_match", VStr "c")];
      alloc (with_nfw r (xh_fixed h) (make h "MassiveGalaxy" "GNFW" (xh_r3d h) a))
    else if String.eqb model "SIS" then alloc (with_nfw r (xh_fixed h) (make h "SIS" "SIS" (xh_r3d h) (xh_args h)))
    else fail EException
  else ret r.
Definition SIS_injection (rz : xreal) (threshold : R) (model : string) : M xreal :=
  go hs <- mapS (sis_one model threshold) (xr_halos rz); ret (x_rebuild rz hs).
