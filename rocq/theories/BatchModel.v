(** Model of the cache-warming driver of Halos/batch_halo_util.py (precompute_infall_times 176-217, precompute_concentrations
    139-169, precompute_nfw_params 69-88, precompute_tnfw_subhalos 366-426, precompute_tnfw_field_halos 429-459,
    precompute_tnfw_bound_masses 466-488, precompute_realization 609-650) on truncated-NFW halo objects (HaloStateModel.v).

    The array arithmetic inside (sampled infall redshifts, grouped concentrations, NFW parameters, mass loss, truncation
    radii) is modelled in InfallModel, ConcModel, NfwModel, MassLossModel and TidalModel, where it is compared with the
    scalar functions; here both paths use the same environment, so what is compared is which values are computed, in which
    order, from which caches, and what is stored.  Every loop of the code runs over all halos of a list before the next
    one starts; so do the loops below. *)
From Verif Require Import Prelude HaloStateModel.

(** A halo of a realization: its mass definition, constructor data, caches, and the attribute _bound_mass of the base class *)
Record bhalo := mkB { b_mdef : string; b_static : Static; b_state : St; b_bound : option R }.
Definition with_state (h : bhalo) (s : St) : bhalo := mkB (b_mdef h) (b_static h) s (b_bound h).
(** run a computation on one object; an exception ends the whole call, the assignments made so far stay *)
Definition on {A} (m : Static -> M A) (h : bhalo) : result A * bhalo :=
  let r := m (b_static h) (b_state h) in (fst r, with_state h (snd r)).
(** for h in halos: ... *)
Fixpoint for_each (sel : bhalo -> bool) (m : Static -> M unit) (hs : list bhalo) : option err * list bhalo :=
  match hs with
  | nil => (None, nil)
  | h :: t =>
      if sel h then
        match on m h with
        | (Ok _, h') => let r := for_each sel m t in (fst r, h' :: snd r)
        | (Err e, h') => (Some e, h' :: t)
        end
      else let r := for_each sel m t in (fst r, h :: snd r)
  end.
(** one loop after the other *)
Fixpoint loops (l : list ((bhalo -> bool) * (Static -> M unit))) (hs : list bhalo) : option err * list bhalo :=
  match l with
  | nil => (None, hs)
  | (sel, m) :: t => match for_each sel m hs with (None, hs') => loops t hs' | (Some e, hs') => (Some e, hs') end
  end.

Section Batch.
Variable E : Env.

(** batch_halo_util.py 190-197: h._z_infall for halos without one *)
Definition b_infall (H : Static) : M unit :=
  let* v := gets s_zinf in
  match v with
  | Some _ => ret tt
  | None => let* n := gets n_z in let* _ := modify tick_z in modify (set_zinf (e_draw_z E n (h_mass H)))
  end.
(** batch_halo_util.py 202-217: h._time_since_infall for halos without one.  The assertion precedes the assignment (halo_base.py assigns first). *)
Definition b_time (H : Static) : M unit :=
  let* v := gets s_tsi in
  match v with
  | Some _ => ret tt
  | None =>
      let* z := gets s_zinf in
      match z with
      | None => raise EAttributeError
      | Some zi => let t := e_age E (h_z H) zi in if Rleb 0 t then modify (set_tsi t) else raise EAssertionError
      end
  end.
(** batch_halo_util.py 154-169: h._c for halos without one, from the class's relation at h.z_eval *)
Definition b_conc (H : Static) : M unit :=
  let* v := gets s_c in
  match v with
  | Some _ => ret tt
  | None =>
      let* z := z_eval E H in
      let* n := gets n_c in
      let* _ := modify tick_c in
      modify (set_c (e_draw_c E n (h_mass H) z))
  end.
(** batch_halo_util.py 78-88: h._nfw_params, overwriting *)
Definition b_nfw (H : Static) : M unit :=
  let* c := conc E H in
  let* z := z_eval E H in
  modify (set_nfw (e_nfw E (h_mass H) c z)).

(** batch_halo_util.py 402-415: bound masses; [kind] is the truncation class that was passed *)
Definition b_mbound (kind : tkind) (H : Static) : M unit :=
  let* c := conc E H in
  let* t := (match kind with
             | KZinfall _ => let* zi := z_infall E H in ret (Some (zi - e_zlens E))
             | _ => time_since_infall E H end) in
  let* v := gets s_mb in
  match v with
  | Some _ => ret tt
  | None =>
      match kind with
      | KGalacticus chost | KZinfall chost =>
          let* ml := mass_loss E SBound (log10 c) t chost in modify (set_mb (h_mass H * pow10 ml))
      | _ => raise EException
      end
  end.
(** batch_halo_util.py 417-426 *)
Definition b_store (H : Static) : M unit :=
  let* mb := gets s_mb in
  match mb with
  | None => raise EAttributeError
  | Some m_bound =>
      let* z := z_eval E H in
      let* c := conc E H in
      let p := e_nfw E (h_mass H) c z in
      let '(r_te, f_t) := e_rte E m_bound (h_mass H) (snd p) c in
      let* _ := modify (rescale_normalization f_t false true) in
      let* _ := modify (set_nfw p) in
      modify (set_pargs (c, r_te))
  end.

Definition unwarmed (h : bhalo) : bool := match s_pargs (b_state h) with None => true | Some _ => false end.
Definition is_sub (h : bhalo) : bool := h_sub (b_static h).
Definition supported_sub (k : tkind) : bool := match k with KGalacticus _ | KZinfall _ => true | _ => false end.
(** batch_halo_util.py 366-426; [mine] marks the halos of the list handed over.  The exception for another class (396-398) comes after the
    infall times and the concentrations. *)
Definition precompute_tnfw_subhalos (kind : tkind) (mine : bhalo -> bool) (hs : list bhalo) : option err * list bhalo :=
  let sel h := andb (mine h) (andb (is_sub h) (unwarmed h)) in
  if negb (existsb sel hs) then (None, hs) else
  match loops ((sel, b_infall) :: (sel, b_time) :: (sel, b_conc) :: nil) hs with
  | (Some e, hs') => (Some e, hs')
  | (None, hs') =>
      if supported_sub kind then loops ((sel, b_mbound kind) :: (sel, b_store) :: nil) hs' else (Some EException, hs')
  end.

(** batch_halo_util.py 445-459: the profile arguments of a field halo *)
Definition b_field (kind : tkind) (H : Static) : M unit :=
  match kind with
  | KMultipleRS tau =>
      let* c := conc E H in
      let* v := gets s_nfw in
      match v with
      | Some p => modify (set_pargs (c, tau * snd (fst p)))
      | None => raise EAttributeError
      end
  | KRN N =>
      let* z := z_eval E H in
      let* c := conc E H in
      modify (set_pargs (c, e_rN E N (h_mass H) z))
  | k =>
      let* c := conc E H in
      let* rt := truncation_radius_halo E (mkStatic (h_mass H) (h_r3d H) (h_z H) (h_sub H) k) in
      modify (set_pargs (c, rt))
  end.
(** batch_halo_util.py 429-459 *)
Definition precompute_tnfw_field_halos (kind : tkind) (mine : bhalo -> bool) (hs : list bhalo) : option err * list bhalo :=
  let sel h := andb (mine h) (andb (negb (is_sub h)) (unwarmed h)) in
  if negb (existsb sel hs) then (None, hs) else loops ((sel, b_conc) :: (sel, b_nfw) :: (sel, b_field kind) :: nil) hs.

(** kwargs_halo_model (617-623): the key 'truncation_model', or the two keys for subhalos and field halos *)
Record halo_kwargs := { hk_all : option tkind; hk_sub : option tkind; hk_field : option tkind }.
Definition truncation_for (k : halo_kwargs) (sub : bool) : option tkind :=
  match hk_all k with Some t => Some t | None => if sub then hk_sub k else hk_field k end.
(** batch_halo_util.py 609-650 for the truncated NFW halos; TNFWC and NFW halos are in SidmModel and NfwModel and are left alone here *)
Definition precompute_realization (k : halo_kwargs) (hs : list bhalo) : option err * list bhalo :=
  let tnfw h := String.eqb (b_mdef h) "TNFW" in
  let r := match truncation_for k true with
           | Some t => if supported_sub t then precompute_tnfw_subhalos t tnfw hs else (None, hs)
           | None => (None, hs)
           end in
  match r with
  | (Some e, hs') => (Some e, hs')
  | (None, hs') =>
      match truncation_for k false with
      | Some t => precompute_tnfw_field_halos t tnfw hs'
      | None => (None, hs')
      end
  end.

(** batch_halo_util.py 466-488: stores _bound_mass of the base class.  The mass fraction is the vectorised form of tnfw_mass_fraction (C25). *)
Definition b_bound_mass (H : Static) : M R :=
  let* c := conc E H in
  let* a := profile_args E H in
  let* p := nfw_params E H in
  let* g := gets s_norm in
  ret (e_frac E (snd a / snd (fst p)) c * h_mass H * g).
Fixpoint precompute_tnfw_bound_masses (hs : list bhalo) : option err * list bhalo :=
  match hs with
  | nil => (None, nil)
  | h :: t =>
      if andb (is_sub h) (match b_bound h with None => true | Some _ => false end) then
        match on b_bound_mass h with
        | (Ok v, h') => let r := precompute_tnfw_bound_masses t in (fst r, mkB (b_mdef h') (b_static h') (b_state h') (Some v) :: snd r)
        | (Err e, h') => (Some e, h' :: t)
        end
      else let r := precompute_tnfw_bound_masses t in (fst r, h :: snd r)
  end.

(** halo_base.py 170-175 *)
Definition set_bound_mass (v : R) (h : bhalo) : bhalo := mkB (b_mdef h) (b_static h) (b_state h) (Some v).
(** the property bound_mass: TNFW.py 305-317 for subhalos, halo_base.py 177-183 for the others *)
Definition ask_bound_mass (h : bhalo) : result R :=
  if h_sub (b_static h) then fst (bound_mass E (b_static h) (b_state h))
  else match b_bound h with Some v => Ok v | None => Err EException end.
End Batch.
