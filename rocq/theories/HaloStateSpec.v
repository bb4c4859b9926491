(** Specification vocabulary for one halo object (C18-C21). *)
From Verif Require Import Prelude HaloStateModel.

(** A call of rescale_normalization(factor, force, log). *)
Definition call := (R * bool * bool)%type.
Definition rescale_all (l : list call) (s : St) : St :=
  fold_left (fun s c => rescale_normalization (fst (fst c)) (snd (fst c)) (snd c) s) l s.

(** Call number [i] of [l] takes effect: it is forced, or no earlier call was logged. *)
Definition effective (l : list call) (i : nat) : Prop :=
  exists f fo lg, nth_error l i = Some (f, fo, lg) /\
    (fo = true \/ forall j f' fo' lg', (j < i)%nat -> nth_error l j = Some (f', fo', lg') -> lg' = false).

Fixpoint rprod (l : list R) : R := match l with [] => 1 | a :: t => a * rprod t end.

(** [gs] lists, call by call, the factor it contributes: its own if effective, 1 otherwise. *)
Definition contributions (l : list call) (gs : list R) : Prop :=
  List.length gs = List.length l /\
  forall i f fo lg, nth_error l i = Some (f, fo, lg) ->
    (effective l i -> nth_error gs i = Some f) /\ (~ effective l i -> nth_error gs i = Some 1).

(** The cosmological age difference is never negative (cosmology.py [halo_age]). *)
Definition ages_ok (E : Env) : Prop := forall z zform, 0 <= e_age E z zform.

(** Value returned by a query. *)
Definition value {A} (m : M A) (s : St) : result A := fst (m s).

(** Truncation models that rescale the density profile of the halo. *)
Definition rescaling (k : tkind) : bool :=
  match k with
  | KGalacticus _ | KZinfall _ | KApproxCDM | KBoundMassPDF _ _ | KMilkyWay _ => true
  | _ => false
  end.

(** Queries that compute the truncation radius (everything but the basic quantities). *)
Definition truncating (q : query) : bool :=
  match q with
  | QC | QZInfall | QZEval | QTime | QNfw | QMbound => false
  | _ => true
  end.

(** Among the queries [qs] of a new object, one computed the truncation radius without failing. *)
Definition truncated_before E H x y (qs : list query) : Prop :=
  exists l1 q l2, qs = l1 ++ q :: l2 /\ truncating q = true /\
    value (ask E H q) (reads E H l1 (fresh x y)) = Ok tt.

(** Kinds of actions. *)
Definition no_set (o : action) : Prop := match o with OSetInfall _ => False | _ => True end.
Definition no_rescale (o : action) : Prop := match o with ORescale _ _ _ => False | _ => True end.
Definition no_lensing (o : action) : Prop := match o with ORead QLensing => False | _ => True end.

(** the position after a history: the last assignment *)
Fixpoint position (l : list action) (p : R * R) : R * R :=
  match l with [] => p | OMove a b :: t => position t (a, b) | _ :: t => position t p end.
