(** Specification vocabulary for the halo-replacing extensions (C38-C42). *)
From Verif Require Import Prelude MassFnSpec ExtModel.
Local Open Scope string_scope.
Local Open Scope R_scope.
Local Open Scope list_scope.

(** Two halo objects represent the same astrophysical object. *)
Definition same_halo (h h' : xhalo) : Prop :=
  xh_mass h' = xh_mass h /\ xh_x h' = xh_x h /\ xh_y h' = xh_y h /\ xh_z h' = xh_z h /\ xh_sub h' = xh_sub h /\ xh_tag h' = xh_tag h.
(** The very same object, except possibly for the recorded evolution time. *)
Definition same_object (h h' : xhalo) : Prop :=
  same_halo h h' /\ xh_cls h' = xh_cls h /\ xh_mdef h' = xh_mdef h /\ xh_r3d h' = xh_r3d h /\ xh_fixed h' = xh_fixed h /\
  xh_norm h' = xh_norm h /\ xh_args h' = xh_args h /\ xh_zinf h' = xh_zinf h /\ xh_bound h' = xh_bound h /\ xh_nfw h' = xh_nfw h.

(** All references of a realization point to halos of the store. *)
Definition valid (s : xstate) (hs : list nat) : Prop := Forall (fun r => (r < List.length (xs_h s))%nat) hs.

(** Same number of halos in the same order, the k-th new one representing the k-th old one. *)
Definition matched (s s' : xstate) (hs hs' : list nat) : Prop :=
  Forall2 (fun r r' => exists h h', nth_error (xs_h s) r = Some h /\ nth_error (xs_h s') r' = Some h' /\ same_halo h h') hs hs'.
(** What is handed over to the new realization. *)
Definition same_setting (rz rz' : xreal) : Prop :=
  xr_sheet rz' = xr_sheet rz /\ xr_classes rz' = xr_classes rz /\ xr_cx rz' = xr_cx rz /\ xr_cy rz' = xr_cy rz.
(** The halo objects and dictionaries that existed before are unchanged (but for a recorded evolution time). *)
Definition undisturbed (s s' : xstate) : Prop :=
  (forall r h, nth_error (xs_h s) r = Some h -> exists h', nth_error (xs_h s') r = Some h' /\ same_object h h') /\
  (forall i d, nth_error (xs_d s) i = Some d -> nth_error (xs_d s') i = Some d).

(** Object [r'] is new in [s'] and replaces the halo [h] found at [r]: class [cls], mass definition [mdef], profile
    arguments [args]; the 3d radius is kept, subhalos keep infall redshift and bound mass; the normalisation starts at 1
    and the object is not fixed in position. *)
Definition replaced (e : xenv) (cls mdef : string) (args : xdict) (s s' : xstate) (r r' : nat) (h h' : xhalo) : Prop :=
  (List.length (xs_h s) <= r')%nat /\ nth_error (xs_h s') r' = Some h' /\ same_halo h h' /\
  xh_cls h' = cls /\ xh_mdef h' = mdef /\ xh_r3d h' = xh_r3d h /\ xh_norm h' = 1 /\ xh_fixed h' = false /\ xh_nfw h' = None /\
  (xh_sub h = true -> xh_zinf h' = Some (xe_zeval e r) /\ exists b, xe_bound e r = Ok b /\ xh_bound h' = Some b) /\
  (xh_sub h = false -> xh_zinf h' = None /\ xh_bound h' = None) /\
  nth_error (xs_d s') (xh_args h') = Some args.
(** The object itself is returned, with its age (in units of the collapse time) recorded. *)
Definition kept_aged (s' : xstate) (r r' : nat) (h : xhalo) (age toc : R) : Prop :=
  r' = r /\ exists h', nth_error (xs_h s') r = Some h' /\ same_object h h' /\ xh_evo h' = Some (age, toc).

(** Time available for the evolution: for field halos the time since redshift 10; for subhalos the time from redshift 10
    to infall plus [lambda] times the time since infall (infall before redshift 10 counts as redshift 10). *)
Definition age_of (e : xenv) (h : xhalo) (zinfall lambda : R) : R :=
  if xh_sub h then xe_age e (Rmin zinfall 10) 10 + lambda * xe_age e (xh_z h) (Rmin zinfall 10) else xe_age e (xh_z h) 10.

(** The mass bins: [i] is the first bin lo <= log10 m < hi. *)
Definition lies_in (m : R) (b : R * R) : Prop := 0 < m /\ fst b <= ln m / ln 10 < snd b.
Definition first_bin (inside : R * R -> Prop) (bins : list (R * R)) (i : nat) : Prop :=
  (exists b, nth_error bins i = Some b /\ inside b) /\ forall j b, (j < i)%nat -> nth_error bins j = Some b -> ~ inside b.

(** A dictionary after [update]: the entries of [kw] override. *)
Definition overridden (d kw d' : xdict) : Prop :=
  forall k, dict_get k d' = match dict_get k (rev kw) with Some v => Some v | None => dict_get k d end.

(** Profile arguments of the objects built by the conversion of the halo at [r] (truncation radius [rt]):
    the enclosed mass to be conserved is that of the original halo. *)
Definition tnfwc_args (e : xenv) (r : nat) (rt : R) (xcore : xval) : xdict :=
  [("x_core_halo", xcore); ("mass_conservation", VNum (xe_m200 e r)); ("rt_kpc", VNum rt)].
Definition evolving_args (e : xenv) (r : nat) (rt tc lambda : R) : xdict :=
  [("sidm_timescale", VNum tc); ("lambda_t", VNum lambda); ("mass_conservation", VNum (xe_m200 e r)); ("rt_kpc", VNum rt)].
(** The composite profile: [gamma = -1] asks for a central black hole. *)
Definition composite_class (gamma : R) (cls : string) (gamma' : R) : Prop :=
  (gamma = -1 /\ cls = "CoreCollapsedHaloBH" /\ gamma' = 2.6) \/ (gamma <> -1 /\ cls = "CoreCollapsedHalo" /\ gamma' = gamma).
Definition composite_args (e : xenv) (p : sidm) (r : nat) (rt r200 gamma : R) : xdict :=
  let rm := xe_rmatch e r (sd_slope p) in
  [("gamma_inner", VNum gamma); ("gamma_outer", VNum 6); ("rt_kpc", VNum rt); ("m_target_r200", VNum (xe_mass3d e r r200));
   ("m_target_R", VNum (sd_scale p * xe_mass3d e r rm)); ("r_match_kpc", VNum rm); ("Rs_inner_kpc", VNum rm)].

(** The halo has had the time [age], [toc] collapse times.  Before [limit] collapse times it stays an NFW halo; after that
    it collapses iff the random number drawn for it does not exceed the collapse probability.  [u] and [u'] count the
    random numbers drawn before and after. *)
Definition aged_outcome (e : xenv) (prob limit age toc : R) (u u' : nat) (s' : xstate) (r r' : nat) (h : xhalo) (collapsed : xhalo -> Prop) : Prop :=
  (toc < limit /\ u' = u /\ kept_aged s' r r' h age toc) \/
  (limit <= toc /\ u' = S u /\
     ((prob < xe_u e u /\ kept_aged s' r r' h age toc) \/ (xe_u e u <= prob /\ exists h', collapsed h'))).

(** Without a collapse time the halo is always replaced. *)
Definition static_outcome (e : xenv) (p : sidm) (rt : R) (s s' : xstate) (r r' : nat) (h : xhalo) : Prop :=
  (sd_profile p = "TNFWC" /\ exists xc h', sd_xcore p = Some xc /\
     replaced e "TNFWCHaloParametric" "TNFWC" (tnfwc_args e r rt (VNum xc)) s s' r r' h h') \/
  (sd_profile p = "CC_COMPOSITE" /\ exists rhos rs r200 cls g h', xe_nfw e r = Ok (rhos, rs, r200) /\ composite_class (sd_gamma p) cls g /\
     replaced e cls "CORE_COLLAPSED" (composite_args e p r rt r200 g) s s' r r' h h').
(** Collapse time and time scaling: as given, or such that a halo of the age of field halos is at [q] collapse times
    (the composite profile ignores [q]). *)
Definition times_of (e : xenv) (p : sidm) (h : xhalo) (tc lambda : R) : Prop :=
  (sd_toc p = None \/ sd_profile p = "CC_COMPOSITE" ->
     sd_tc p = Some tc /\ (xh_sub h = true -> sd_scaling p = Some lambda) /\ (xh_sub h = false -> lambda = 1)) /\
  (forall q, sd_toc p = Some q -> sd_profile p = "TNFWC" -> tc = xe_age e (xh_z h) 10 / q /\ lambda = 1).
Definition timed_outcome (e : xenv) (p : sidm) (rt : R) (u u' : nat) (s s' : xstate) (r r' : nat) (h : xhalo) : Prop :=
  exists tc lambda, times_of e p h tc lambda /\
    let age := age_of e h (xe_zeval e r) lambda in
    (sd_profile p = "TNFWC" /\ sd_evolving p = true /\
       aged_outcome e (sd_prob p) (sd_cut p) age (age / tc) u u' s' r r' h
         (replaced e "TNFWCHaloEvolving" "TNFWC" (evolving_args e r rt tc lambda) s s' r r' h)) \/
    (sd_profile p = "TNFWC" /\ sd_evolving p = false /\
       aged_outcome e (sd_prob p) (sd_threshold p) age (age / tc) u u' s' r r' h
         (fun h' => xh_evo h' = Some (age, age / tc) /\
            replaced e "TNFWCHaloParametric" "TNFWC" (tnfwc_args e r rt (onum (sd_xcore p))) s s' r r' h h')) \/
    (sd_profile p = "CC_COMPOSITE" /\
       aged_outcome e (sd_prob p) (sd_threshold p) age (age / tc) u u' s' r r' h
         (fun h' => exists rhos rs r200 cls g, xe_nfw e r = Ok (rhos, rs, r200) /\ composite_class (sd_gamma p) cls g /\
            replaced e cls "CORE_COLLAPSED" (composite_args e p r rt r200 g ++ [("sidm_timescale", VNum tc); ("lambda_t", VNum lambda)]) s s' r r' h h')).
(** Outcome of the conversion of one TNFW halo [h] at [r] with arguments [p]. *)
Definition sidm_outcome (e : xenv) (p : sidm) (u u' : nat) (s s' : xstate) (r r' : nat) (h : xhalo) : Prop :=
  exists rt, xe_rt e r = Ok rt /\
  match sd_tc p, sd_toc p with
  | None, None => u' = u /\ static_outcome e p rt s s' r r' h
  | _, _ => timed_outcome e p rt u u' s s' r r' h
  end.

(** The halos are treated one after the other: [P k k' r r'] relates the numbers of uniform and normal random numbers drawn
    before ([k]) and after ([k']) treating the halo at [r] to its outcome [r']. *)
Definition draws := (nat * nat)%type.
Definition drawn (s : xstate) : draws := (xs_u s, xs_n s).
Inductive in_turn (P : draws -> draws -> nat -> nat -> Prop) : draws -> draws -> list nat -> list nat -> Prop :=
| turn_nil k : in_turn P k k [] []
| turn_cons k k1 k2 r r' t t' : P k k1 r r' -> in_turn P k1 k2 t t' -> in_turn P k k2 (r :: t) (r' :: t').

(** What the two conversions ask for a halo of collapse time [tc]. *)
Definition conversion (c : convert) (tc : R) : sidm :=
  mkSidm (Some tc) (Some (ten_to (cv_log_scaling c))) (cv_xcore c) 0.15 (cv_evolving c) (cv_prob c) (cv_profile c)
         (cv_gamma c) (cv_scale c) (cv_slope c) None (cv_threshold c).
(** Collapse time of a halo in bin [i]: 10^l with the l of the bin, or with scatter around it. *)
Definition timescale_of (e : xenv) (log_tc : list R) (sigma : option (list R)) (i n n' : nat) (tc : R) : Prop :=
  match sigma with
  | None => n' = n /\ exists l, nth_error log_tc i = Some l /\ tc = ten_to l
  | Some sg => n' = S n /\ exists l sd, nth_error log_tc i = Some l /\ nth_error sg i = Some sd /\ 0 <= sd /\ tc = ten_to (l + sd * xe_n e n)
  end.
(** 150/0.75 (sigma rho_s r_s sqrt(4 pi G rho_s))^-1 with sigma in cm^2/gram, in Gyr *)
Definition collapse_time (rhos rs sigma : R) : R :=
  150 / 0.75 * / (2.0889e-10 * sigma * rhos * rs * sqrt (4 * PI * (4.3e-6 * 1.05e-33) * rhos)) * 3.171e-17.
(** TNFW halos are converted, 'NFW' halos are refused, all others are returned untouched. *)
Definition treated (e : xenv) (c : convert) (tc : R) (u u' : nat) (s s' : xstate) (r r' : nat) (h : xhalo) : Prop :=
  (xh_mdef h = "TNFW" /\ sidm_outcome e (conversion c tc) u u' s s' r r' h) \/
  (xh_mdef h <> "TNFW" /\ xh_mdef h <> "NFW" /\ r' = r /\ u' = u /\ nth_error (xs_h s') r = Some h).

(** Core collapse by mass: 10^lo <= m < 10^hi. *)
Definition mass_in (m : R) (b : R * R) : Prop := ten_to (fst b) <= m < ten_to (snd b).
Definition chance (p : prob) (r : nat) : R := match p with PNum q => q | PFun f => f r end.
(** The halo number [i] collapses with the random number [u]. *)
Definition collapses (s : xstate) (hs : list nat) (msub mfield : list (R * R)) (psub pfield : list prob) (i : nat) (u : R) : Prop :=
  exists r h k p, nth_error hs i = Some r /\ nth_error (xs_h s) r = Some h /\ xh_mdef h = "TNFW" /\
    first_bin (mass_in (xh_mass h)) (if xh_sub h then msub else mfield) k /\
    nth_error (if xh_sub h then psub else pfield) k = Some p /\ u <= chance p r.

(** No halo object is changed; new ones are only added. *)
Definition halos_grow (s s' : xstate) : Prop := exists l, xs_h s' = xs_h s ++ l.
(** Likewise for the argument dictionaries. *)
Definition dicts_grow (s s' : xstate) : Prop := exists l, xs_d s' = xs_d s ++ l.
Definition listed (idx : list Z) (j : nat) : Prop := In (Z.of_nat j) idx.

(** The collapsed profile asked for by the keywords. *)
Definition collapse_request (profile : string) (kw : xdict) (p : sidm) : Prop :=
  sd_tc p = None /\ sd_toc p = None /\ sd_profile p = profile /\
  (profile = "TNFWC" -> exists x, dict_get "x_core_halo" kw = Some (VNum x) /\ sd_xcore p = Some x) /\
  (profile = "CC_COMPOSITE" -> dict_get "gamma_inner" kw = Some (VNum (sd_gamma p)) /\
     dict_get "scale_match_r" kw = Some (VNum (sd_scale p)) /\ dict_get "log_slope_match" kw = Some (VNum (sd_slope p))).
(** The new object of the GNFW and SPL_CORE profiles: the old one's dictionary is reused, the infall redshift and the
    bound mass are not handed over. *)
Definition general_profile (profile : string) (s s' : xstate) (r r' : nat) (h h' : xhalo) : Prop :=
  (List.length (xs_h s) <= r')%nat /\ nth_error (xs_h s') r' = Some h' /\ same_halo h h' /\
  (profile = "GNFW" -> xh_mdef h' = "PSEUDO_DPL" /\ xh_cls h' = if xh_sub h then "GeneralNFWSubhalo" else "GeneralNFWFieldHalo") /\
  (profile = "SPL_CORE" -> xh_mdef h' = "SPL_CORE" /\ xh_cls h' = if xh_sub h then "PowerLawSubhalo" else "PowerLawFieldHalo") /\
  xh_r3d h' = xh_r3d h /\ xh_args h' = xh_args h /\ xh_zinf h' = None /\ xh_bound h' = None /\ xh_fixed h' = false /\ xh_norm h' = 1.
(** A cored NFW halo: its arguments hold the core size; the 3d radius is not handed over. *)
Definition cored (e : xenv) (beta : R) (s s' : xstate) (r r' : nat) (h h' : xhalo) : Prop :=
  (List.length (xs_h s) <= r')%nat /\ nth_error (xs_h s') r' = Some h' /\ same_halo h h' /\ xh_cls h' = "CoreNFWHalo" /\ xh_mdef h' = "CNFW" /\
  nth_error (xs_d s') (xh_args h') = Some [("beta", VNum beta)] /\ xh_r3d h' = None /\ xh_fixed h' = false /\ xh_norm h' = 1 /\
  (xh_sub h = true -> xh_zinf h' = Some (xe_zinf e r) /\ exists b, xe_bound e r = Ok b /\ xh_bound h' = Some b) /\
  (xh_sub h = false -> xh_zinf h' = None /\ xh_bound h' = None).
(** A galaxy placed in the halo at [r]. *)
Definition galaxy (model : string) (s s' : xstate) (r r' : nat) (h h' : xhalo) : Prop :=
  (List.length (xs_h s) <= r')%nat /\ nth_error (xs_h s') r' = Some h' /\ same_halo h h' /\ xh_nfw h' = Some r /\
  xh_r3d h' = xh_r3d h /\ xh_fixed h' = xh_fixed h /\
  (model = "GNFW" -> xh_cls h' = "MassiveGalaxy" /\ xh_mdef h' = "GNFW" /\
     nth_error (xs_d s') (xh_args h') = Some [("gamma_inner", VNum 2); ("gamma_outer", VNum 5); ("x_match", VStr "c")]) /\
  (model = "SIS" -> xh_cls h' = "SIS" /\ xh_mdef h' = "SIS" /\ xh_args h' = xh_args h).
