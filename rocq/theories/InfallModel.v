(** Model of Halos/accretion.py (infall redshifts of subhalos), Halos/lens_cosmo.py 75-140 (choice of the infall model), the
    vectorised sampler Halos/batch_halo_util.py 220-250 and the lines of the preset models that prepare the dictionary
    (PresetModels/cdm.py 85-87 and 360-362, wdm.py 93-95 and 367-369).
    Random numbers are explicit inputs in [0, 1]; [z_lens] is a number. *)
From Coquelicot Require Import Coquelicot.
From Verif Require Import Prelude MassFnModel Interp.
Local Open Scope string_scope.
Local Open Scope R_scope.
Local Open Scope list_scope.

(** scipy.special.ndtr: the cumulative distribution of the standard normal law, and its inverse ndtri *)
Definition gauss (t : R) : R := exp (- t ^ 2 / 2) / sqrt (2 * PI).
Definition ndtr (x : R) : R := 1 / 2 + RInt gauss 0 x.
Definition ndtri (u : R) : R := real (Lub_Rbar (fun x => ndtr x <= u)).

(** the fitted mean and standard deviation: a / (1 + b * (-log10(massRatio)) ** c) (accretion.py 72-96 and repeated) *)
Record fit := { fa : R; fb : R; fc : R }.
Record infall_fit := { if_mean : fit; if_std : fit }.
Definition fit_value (f : fit) (ratio : R) : R := fa f / (1 + fb f * Rpower (- log10 ratio) (fc f)).
(** accretion.py 72-96 *)
Definition fit_hybrid : infall_fit :=
  {| if_mean := {| fa := 3.35549949; fb := 3.20546995; fc := -2.91075587 |};
     if_std := {| fa := 1.97880156; fb := 4.17390702; fc := -2.14428416 |} |}.
(** accretion.py 138-162 *)
Definition fit_direct : infall_fit :=
  {| if_mean := {| fa := 3.3064042; fb := 4.528511; fc := -3.84346439 |};
     if_std := {| fa := 1.94929171; fb := 4.91504583; fc := -2.4187402 |} |}.
(** accretion.py 217-241 *)
Definition fit_cluster : infall_fit :=
  {| if_mean := {| fa := 2.05705664; fb := 9.43229827; fc := -4.69408104 |};
     if_std := {| fa := 1.60922533; fb := 9.45120467; fc := -2.5087969 |} |}.
(** accretion.py 358-417: the Milky Way models *)
Definition fit_mw30 : infall_fit :=
  {| if_mean := {| fa := 3.2; fb := -3; fc := -3 |}; if_std := {| fa := 1.8; fb := 2; fc := -2.6 |} |}.
Definition fit_mw50 : infall_fit :=
  {| if_mean := {| fa := 2.7; fb := -2; fc := -3 |}; if_std := {| fa := 1.8; fb := 2; fc := -2.6 |} |}.
Definition fit_mw200 : infall_fit :=
  {| if_mean := {| fa := 0.5; fb := 2.04; fc := -11.3861 |}; if_std := {| fa := 2.07127; fb := 2.22591; fc := -2.619518 |} |}.

(** accretion.py 60-70 (and 126-136, 205-215, 312-322) *)
Definition mass_ratio_in_bounds (q : R) : R := Rmin (pow10 (-0.5)) (Rmax (pow10 (-5)) q).
(** accretion.py 52-57: the random number is uniform between ndtr(a) and ndtr(b) *)
Definition truncated_normal (mu sig v : R) : R :=
  let a := (0 - mu) / sig in
  let b := (15 - mu) / sig in
  let u := ndtr a + (ndtr b - ndtr a) * v in
  mu + sig * ndtri u.
(** accretion.py 43-58 *)
Definition fitted_call (f : infall_fit) (z_lens m_host m_sub v : R) : R :=
  let ratio := mass_ratio_in_bounds (m_sub / m_host) in
  z_lens + truncated_normal (fit_value (if_mean f) ratio) (fit_value (if_std f) ratio) v.

(** accretion.py 11-23: cumulated counts divided by their maximum, and the redshift offsets *)
Definition g24_counts : list Z :=
  [50; 93; 125; 180; 175; 144; 120; 117; 97; 82; 52; 51; 35; 20; 9; 4; 4; 0; 1; 1]%Z.
Definition g24_z : list R :=
  map (fun x => x - 0.5) [0.53836189; 1.37376234; 2.2091628; 3.04456325; 3.87996371; 4.71536416; 5.55076461; 6.38616507;
     7.22156552; 8.05696598; 8.89236643; 9.72776689; 10.56316734; 11.39856779; 12.23396825; 13.0693687; 13.90476916;
     14.74016961; 15.57557007; 16.41097052].
Fixpoint cumsum (acc : Z) (l : list Z) : list Z := match l with [] => [] | a :: t => (acc + a)%Z :: cumsum (acc + a) t end.
Definition g24_total : Z := fold_right Z.max 0%Z (cumsum 0 g24_counts).
Definition g24_cdf : list R := map (fun c => IZR c / IZR g24_total) (cumsum 0 g24_counts).
Definition list_min (l : list R) : R := match l with [] => 0 | a :: t => fold_left Rmin t a end.
Definition list_max (l : list R) : R := match l with [] => 0 | a :: t => fold_left Rmax t a end.
(** accretion.py 25-28; the mass is ignored *)
Definition g24_call (z_lens v : R) : result R :=
  let lo := list_min g24_cdf in
  let hi := list_max g24_cdf in
  do dz <- interp1d (combine g24_cdf g24_z) (lo + (hi - lo) * v);
  Ok (z_lens + dz).

(** The model objects.  [IUser] is an instance of a class supplied by the user. *)
Inductive infall :=
| IFitted (name : string) (f : infall_fit) (z_lens m_host : R)
| IG24 (z_lens : R)
| IZlens (z_lens : R)
| IZero
| IUser (call : R -> R -> result R).
(** __call__(m_sub) *)
Definition infall_call (i : infall) (m_sub v : R) : result R :=
  match i with
  | IFitted _ f z h => Ok (fitted_call f z h m_sub v)
  | IG24 z => g24_call z v
  | IZlens z => Ok z
  | IZero => Ok 0
  | IUser f => f m_sub v
  end.
(** constructors: accretion.py 34-41, 103-110, 183-193 *)
Definition hybrid_init (z_lens log_m_host : R) : infall := IFitted "hybrid" fit_hybrid z_lens (pow10 log_m_host).
Definition direct_init (z_lens log_m_host : R) : infall := IFitted "direct" fit_direct z_lens (pow10 log_m_host).
Definition cluster_init (z_lens log_m_host : R) : result infall :=
  if Rltb 15 log_m_host || Rltb log_m_host 14 then Err EValueError
  else Ok (IFitted "direct_cluster" fit_cluster z_lens (pow10 log_m_host)).

(** Keyword dictionaries with numbers as values. *)
Definition kwd := list (string * R).
Fixpoint kget (k : string) (d : kwd) : option R :=
  match d with [] => None | (k', v) :: t => if String.eqb k' k then Some v else kget k t end.
Fixpoint kset (k : string) (v : R) (d : kwd) : kwd :=
  match d with [] => [(k, v)] | (k', v') :: t => if String.eqb k' k then (k, v) :: t else (k', v') :: kset k v t end.
Definition kdel (k : string) (d : kwd) : kwd := filter (fun p => negb (String.eqb (fst p) k)) d.

(** The argument infall_redshift_model: a string or a class; [ctor z_lens kwargs] is the call of the class *)
Inductive selector := SName (s : string) | SClass (ctor : R -> kwd -> result infall).
(** the attributes _infall_pdf_set and _z_infall_model ([None]: not set) of LensCosmo *)
Record lc_state := { ls_set : bool; ls_model : option infall }.

(** lens_cosmo.py 92-94 and 106-108: m_host is converted to log_m_host and removed *)
Definition convert_host (d : kwd) : kwd :=
  match kget "m_host" d with Some m => kdel "m_host" (kset "log_m_host" (log10 m) d) | None => d end.
(** lens_cosmo.py 91-98 *)
Definition with_default (d : kwd) : kwd := match kget "log_m_host" d with Some _ => d | None => kset "log_m_host" 13 d end.
Definition kneed (k : string) (d : kwd) : result R := match kget k d with Some v => Ok v | None => Err EKeyError end.
(** lens_cosmo.py 75-125: the state of the object and the caller's dictionary after the call, and what it raised *)
Definition setup_infall_model (z_lens : R) (s : selector) (d : kwd) (st : lc_state) : lc_state * kwd * option err :=
  let finish (d : kwd) (m : result infall) :=
    match m with
    | Ok i => ({| ls_set := true; ls_model := Some i |}, d, None)
    | Err e => ({| ls_set := true; ls_model := ls_model st |}, d, Some e)
    end in
  match s with
  | SName n =>
      if String.eqb n "HYBRID_INFALL" then
        let d := with_default (convert_host d) in finish d (do l <- kneed "log_m_host" d; Ok (hybrid_init z_lens l))
      else if String.eqb n "DIRECT_INFALL" then
        let d := with_default (convert_host d) in finish d (do l <- kneed "log_m_host" d; Ok (direct_init z_lens l))
      else if String.eqb n "GALACTICUS_2024" then finish d (Ok (IG24 z_lens))
      else if String.eqb n "DIRECT_INFALL_CLUSTER" then
        let d := convert_host d in finish d (do l <- kneed "log_m_host" d; cluster_init z_lens l)
      else if String.eqb n "INFALL_ZLENS" then finish d (Ok (IZlens z_lens))
      else if String.eqb n "INFALL_0" then finish d (Ok IZero)
      else finish d (Err EException)
  | SClass ctor => finish d (match ctor z_lens d with Ok i => Ok i | Err _ => Err EException end)
  end.
(** lens_cosmo.py 127-138 *)
Definition z_accreted (st : lc_state) (m_sub v : R) : result R :=
  if ls_set st then match ls_model st with Some i => infall_call i m_sub v | None => Err EAttributeError end
  else Err EException.

(** cdm.py 85-87 (wdm.py 93-95): the preset writes its argument log_m_host into the dictionary for two of the models *)
Definition preset_kwargs (s : selector) (log_m_host : R) (d : kwd) : kwd :=
  match s with
  | SName n => if String.eqb n "HYBRID_INFALL" || String.eqb n "DIRECT_INFALL_CLUSTER" then kset "log_m_host" log_m_host d else d
  | SClass _ => d
  end.
Definition preset_infall (z_lens : R) (s : selector) (log_m_host : R) (d : kwd) (st : lc_state) : lc_state * kwd * option err :=
  setup_infall_model z_lens s (preset_kwargs s log_m_host d) st.
(** A history of preset calls that do not pass kwargs_infall_model: they share the default dictionary ({} at first, cdm.py 18). *)
Record preset_call := { pc_zlens : R; pc_model : selector; pc_log_m_host : R }.
Definition lc_fresh : lc_state := {| ls_set := false; ls_model := None |}.
Definition run_preset (d : kwd) (c : preset_call) : lc_state * kwd * option err :=
  preset_infall (pc_zlens c) (pc_model c) (pc_log_m_host c) d lc_fresh.
Fixpoint default_after (d : kwd) (h : list preset_call) : kwd :=
  match h with [] => d | c :: t => default_after (snd (fst (run_preset d c))) t end.

(** batch_halo_util.py 220-250: one truncated normal draw per subhalo for the hybrid and direct models, otherwise the scalar
    sampler.  scipy's truncnorm.rvs(a, b, loc, scale) is loc + scale * ndtri(ndtr(a) + (ndtr(b) - ndtr(a)) * v). *)
Definition clip (x lo hi : R) : R := Rmin hi (Rmax lo x).
Definition sample_infall_redshifts (st : lc_state) (ms : list (R * R)) : result (list R) :=
  let scalar := mapM (fun mv => z_accreted st (fst mv) (snd mv)) ms in
  match ls_model st with
  | Some (IFitted n f z h) =>
      if String.eqb n "hybrid" || String.eqb n "direct" then
        Ok (map (fun mv => let q := clip (fst mv / h) (pow10 (-5)) (pow10 (-0.5)) in
                           z + truncated_normal (fit_value (if_mean f) q) (fit_value (if_std f) q) (snd mv)) ms)
      else scalar
  | _ => scalar
  end.
