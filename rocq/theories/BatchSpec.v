(** Specification vocabulary for the cache-warming driver (C85). *)
From Verif Require Import Prelude HaloStateModel HaloStateSpec BatchModel.

(** The object went through some history of queries and mutating calls since it was created... *)
Definition used (E : Env) (h : bhalo) : Prop :=
  exists x y l, b_state h = history E (b_static h) l (fresh x y).
(** ... or through queries only. *)
Definition queried (E : Env) (h : bhalo) : Prop :=
  exists x y qs, b_state h = reads E (b_static h) qs (fresh x y).

(** Every truncated NFW halo was made with the truncation class that the dictionary holds for its kind. *)
Definition own_classes (k : halo_kwargs) (hs : list bhalo) : Prop :=
  forall h, In h hs -> b_mdef h = "TNFW"%string -> truncation_for k (h_sub (b_static h)) = Some (h_kind (b_static h)).

(** Truncation classes that need the time since infall, which field halos do not have *)
Definition needs_time (k : tkind) : bool :=
  match k with KKeeley24 _ | KGalacticus _ | KMilkyWay _ => true | _ => false end.
Definition is_zinfall (k : tkind) : bool := match k with KZinfall _ => true | _ => false end.
(** The field halos of the list can be truncated. *)
Definition field_ok (hs : list bhalo) : Prop :=
  forall h, In h hs -> b_mdef h = "TNFW"%string -> h_sub (b_static h) = false -> needs_time (h_kind (b_static h)) = false.

(** Same object, same constructor data. *)
Definition same_object (h h' : bhalo) : Prop :=
  b_mdef h' = b_mdef h /\ b_static h' = b_static h /\ b_bound h' = b_bound h.
(** The object has the caches that the queries [qs] would have left. *)
Definition as_if_asked (E : Env) (qs : list query) (h h' : bhalo) : Prop :=
  same_object h h' /\ b_state h' = reads E (b_static h) qs (b_state h).

(** What the warm-up of a halo amounts to: nothing, or these queries *)
Definition warm_up (h : bhalo) : option (list query) :=
  match s_pargs (b_state h), String.eqb (b_mdef h) "TNFW" with
  | None, true =>
      if h_sub (b_static h)
      then match h_kind (b_static h) with KGalacticus _ => Some [QZInfall; QTime; QC; QProfileArgs; QNfw] | _ => None end
      else Some [QC; QZEval; QNfw; QProfileArgs]
  | _, _ => None
  end.
Definition warmed (E : Env) (h h' : bhalo) : Prop :=
  match warm_up h with Some qs => as_if_asked E qs h h' | None => h' = h end.
(** No truncated subhalo of the list has the class TruncationGalacticusZinfall. *)
Definition no_zinfall (hs : list bhalo) : Prop :=
  forall h, In h hs -> b_mdef h = "TNFW"%string -> h_sub (b_static h) = true -> is_zinfall (h_kind (b_static h)) = false.
(** The mass-loss model is not random. *)
Definition deterministic_loss (E : Env) : Prop :=
  forall st n st' n' a b c, e_loss E st n a b c = e_loss E st' n' a b c.

(** Every answer is the same for both objects (mass_3d and bound_mass depend on the order of queries: C19). *)
Definition same_answers (E : Env) (h h' : bhalo) : Prop :=
  let same {A} (q : Static -> M A) := value (q (b_static h')) (b_state h') = value (q (b_static h)) (b_state h) in
  same (lenstronomy_params E) /\ same (params_physical E) /\ same (profile_args E) /\ same (nfw_params E) /\
  same (conc E) /\ same (z_infall E) /\ same (z_eval E) /\ same (time_since_infall E) /\ same (vmax_nfw E) /\
  (forall r, same (fun H => density_profile_3d E H r)) /\ same (bound_mass_galacticus_definition E).
