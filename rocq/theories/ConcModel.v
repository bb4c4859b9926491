(** Model of Halos/concentration.py, of concentration_models.py and of Halos/batch_halo_util.py 90-169: concentrations of halos.
    colossus' concentration (with the unit conversion M * h) is a function argument; scatter uses explicit standard normal
    deviates. *)
From Verif Require Import Prelude MassFnModel Interp.
Local Open Scope string_scope.
Local Open Scope R_scope.
Local Open Scope list_scope.

(** ** Scatter and floor: concentration.py 21-63 *)

(** [_scatter], [_scatter_dex], [_scatter_dex_z_dep] *)
Record scatter := { sc_on : bool; sc_dex : R; sc_zdep : R }.
(** concentration.py 22: [_universal_minimum] *)
Definition universal_minimum : R := 1.2.
(** numpy.random.lognormal(mean, sigma) = exp(mean + sigma * g); a negative sigma raises *)
Definition np_lognormal (mean sigma g : R) : result R := if Rltb sigma 0 then Err EValueError else Ok (exp (mean + sigma * g)).
(** concentration.py 36-59 for one mass with median concentration [c] *)
Definition scattered (s : scatter) (z c : R) (no_scatter : bool) (g : R) : result R :=
  do c <- (if sc_on s then if no_scatter then Ok c else np_lognormal (ln c) (sc_dex s + sc_zdep s * z) g else Ok c);
  Ok (Rmax c universal_minimum).
(** constructors that do not pass scatter_dex_z_dep on: concentration.py 202-215, 259-270, 305-328, 546-578 *)
Definition mk_scatter (on : bool) (dex zdep : R) : scatter := {| sc_on := on; sc_dex := dex; sc_zdep := 0 |}.

(** ** Suppression factors *)

(** concentration.py 650-661 *)
Definition bose_evolution (z : R) : R := Rpower (1 + z) (0.026 * z - 0.04).
(** concentration.py 351-398; [evolve] is mc_suppression_redshift_evolution *)
Record poly := { po_log_mc : R; po_scale : R; po_power : R; po_inner : R; po_evolve : bool }.
Definition poly_init (p : poly) : result poly :=
  if Rltb 0 (po_power p) then Err EException else if Rltb (po_scale p) 0 then Err EException else Ok p.
Definition poly_suppression (p : poly) (m z : R) : R :=
  let mhm := pow10 (po_log_mc p) in
  let rescale := Rpower (1 + po_scale p * Rpower (mhm / m) (po_inner p)) (po_power p) in
  (if po_evolve p then bose_evolution z else 1) * rescale.
(** concentration.py 420-433 *)
Definition hyper_suppression (log_mc a b m z : R) : R :=
  let mhm := pow10 log_mc in
  let argument := (log10 (m / mhm) - a) / (2 * b) in
  0.5 * (1 + tanh argument).
(** concentration.py 438-461: tabulated coefficients on the grid (dlogT/dlogk, log10 mhm, z), row-major *)
Definition lw_points1 : list R := [1; 2; 2.7; 3.2; 4].
Definition lw_points2 : list R := [6; 7; 8].
Definition lw_points3 : list R := [0; 1; 2; 3; 4].
Definition lw_a : list (list (list R)) :=
  [[[0.554; 0.484; 0.432; 0.276; 0.116]; [0.474; 0.46; 0.376; 0.206; 0.053]; [0.486; 0.429; 0.319; 0.12; -0.048]];
   [[0.497; 0.457; 0.37; 0.288; 0.131]; [0.472; 0.446; 0.35; 0.216; 0.057]; [0.477; 0.393; 0.329; 0.134; -0.021]];
   [[0.49; 0.412; 0.367; 0.268; 0.121]; [0.454; 0.406; 0.343; 0.24; 0.074]; [0.455; 0.388; 0.287; 0.123; -0.017]];
   [[0.453; 0.428; 0.363; 0.271; 0.128]; [0.442; 0.412; 0.337; 0.225; 0.072]; [0.409; 0.392; 0.282; 0.146; 0.004]];
   [[0.432; 0.414; 0.348; 0.255; 0.103]; [0.425; 0.419; 0.318; 0.166; 0.065]; [0.412; 0.379; 0.283; 0.119; 0.01]]].
Definition lw_b : list (list (list R)) :=
  [[[0.805; 0.766; 0.85; 0.927; 0.938]; [0.739; 0.782; 0.868; 0.952; 1.015]; [0.782; 0.778; 0.892; 0.946; 1.045]];
   [[0.545; 0.513; 0.552; 0.617; 0.715]; [0.533; 0.574; 0.606; 0.711; 0.721]; [0.549; 0.56; 0.638; 0.702; 0.749]];
   [[0.499; 0.46; 0.495; 0.543; 0.646]; [0.468; 0.485; 0.553; 0.57; 0.686]; [0.498; 0.509; 0.56; 0.64; 0.684]];
   [[0.457; 0.464; 0.499; 0.492; 0.631]; [0.445; 0.471; 0.499; 0.555; 0.657]; [0.45; 0.504; 0.518; 0.641; 0.685]];
   [[0.42; 0.447; 0.477; 0.483; 0.584]; [0.42; 0.476; 0.501; 0.565; 0.622]; [0.424; 0.473; 0.514; 0.59; 0.665]]].
(** scipy's RegularGridInterpolator (linear) in three dimensions, one dimension after the other; outside the grid it raises *)
Definition interp3 (t : list (list (list R))) (x1 x2 x3 : R) : result R :=
  do rows <- mapM (fun plane => do cols <- mapM (fun line => interp1d (combine lw_points3 line) x3) plane;
                                interp1d (combine lw_points2 cols) x2) t;
  interp1d (combine lw_points1 rows) x1.
(** concentration.py 480-493 *)
Definition make_in_bounds (log_mhm slope z : R) : R * R * R :=
  (Rmin 8 (Rmax 6 log_mhm), Rmin 4 (Rmax 1 (-1 * slope)), Rmin (Rmax z 0) 4).
(** concentration.py 495-508 *)
Definition suppression_fit (log_mhm slope z : R) : result (R * R) :=
  let '(lm, sl, ze) := make_in_bounds log_mhm slope z in
  do a <- interp3 lw_a sl lm ze; do b <- interp3 lw_b sl lm ze; Ok (a, b).
(** concentration.py 463-478 and 525-538 *)
Definition ludlow_wdm_init (slope : R) : result unit := if Rltb 0 slope then Err EException else Ok tt.
Definition ludlow_wdm_suppression (log_mc slope m z : R) : result R :=
  do ab <- suppression_fit log_mc slope z; Ok (hyper_suppression log_mc (fst ab) (snd ab) m z).

(** ** Power law in peak height: concentration.py 301-345, 617-648 *)

Record peak := { pk_c0 : R; pk_zeta : R; pk_beta : R; pk_pivot : R; pk_rho_crit : bool (* redshift_evolution = 'RHO_CRIT' *) }.
(** [nu m z] is peaks.peakHeight(m * h, z), [rho z] the critical density *)
Definition peak_concentration (nu : R -> R -> R) (rho : R -> R) (p : peak) (m z : R) : R :=
  let factor := if pk_rho_crit p then rho z / rho 0 else nu m 0 / nu m z in
  pk_c0 p * Rpower (nu m z / nu (pk_pivot p) z) (- pk_beta p) * Rpower factor (pk_zeta p).

(** ** Bins in halo mass: concentration.py 541-615 *)

(** [models i m z] is the median of the i-th model; the mass is a float or int *)
Fixpoint binned_loop (bins : list (R * R)) (models : nat -> R -> R -> R) (i : nat) (m z : R) : result R :=
  match bins with
  | [] => Err EValueError
  | b :: t => if Rltb m (pow10 (snd b)) then Ok (models i m z) else binned_loop t models (S i) m z
  end.
Definition binned_concentration (bins : list (R * R)) (models : nat -> R -> R -> R) (m z : R) : result R :=
  match bins with
  | [] => Err EIndexError
  | b0 :: t =>
      if Rltb m (pow10 (fst b0)) then Err EValueError
      else if Rltb (pow10 (snd (last t b0))) m then Err EValueError
      else binned_loop bins models 0 m z
  end.

(** ** The interpolation table: concentration.py 66-169 *)

(** ranges and numbers of nodes; the tabulated values are functions of them *)
Record table := { tb_mlo : R; tb_mhi : R; tb_nm : nat; tb_ulo : R; tb_uhi : R; tb_nu : nat }.
Definition floor_nat (x : R) : nat := Z.to_nat (Int_part x).
(** numpy.linspace(lo, hi, n)[i] *)
Definition node (lo hi : R) (n i : nat) : R := lo + INR i * ((hi - lo) / INR (n - 1)).
(** concentration.py 86-101; 16 nodes per dex in mass, 60 per dex in 1 + z *)
Definition build_table (mlo mhi ulo uhi : R) : table :=
  {| tb_mlo := mlo; tb_mhi := mhi; tb_nm := Nat.max 4 (floor_nat ((mhi - mlo) * 16) + 1);
     tb_ulo := ulo; tb_uhi := uhi; tb_nu := Nat.max 4 (floor_nat ((uhi - ulo) * 60) + 1) |}.
Definition mnode (t : table) (i : nat) : R := node (tb_mlo t) (tb_mhi t) (tb_nm t) i.
Definition unode (t : table) (j : nat) : R := node (tb_ulo t) (tb_uhi t) (tb_nu t) j.
(** [f] is _evaluate_concentration_colossus *)
Definition entry (f : R -> R -> R) (t : table) (i j : nat) : R := log10 (f (pow10 (mnode t i)) (pow10 (unode t j) - 1)).
Definition blend (e : nat -> nat -> R) (i j : nat) (tm tu : R) : R :=
  e i j * (1 - tm) * (1 - tu) + e (S i) j * tm * (1 - tu) + e i (S j) * (1 - tm) * tu + e (S i) (S j) * tm * tu.
Definition in_table (t : table) (x y : R) : bool :=
  (Rleb (tb_mlo t) x && Rleb x (tb_mhi t) && Rleb (tb_ulo t) y && Rleb y (tb_uhi t))%bool.
(** concentration.py 122-132: the scalar formula *)
Definition look_scalar (f : R -> R -> R) (t : table) (x y : R) : R :=
  let dm := mnode t 1 - mnode t 0 in
  let du := unode t 1 - unode t 0 in
  let i := Nat.min (floor_nat ((x - mnode t 0) / dm)) (tb_nm t - 2) in
  let j := Nat.min (floor_nat ((y - unode t 0) / du)) (tb_nu t - 2) in
  let tm := (x - mnode t 0 - INR i * dm) / dm in
  let tu := (y - unode t 0 - INR j * du) / du in
  pow10 (blend (entry f t) i j tm tu).
(** concentration.py 156-166: the array formula for one element *)
Definition look_array (f : R -> R -> R) (t : table) (x y : R) : R :=
  let dm := mnode t 1 - mnode t 0 in
  let du := unode t 1 - unode t 0 in
  let i := Nat.min (floor_nat ((x - mnode t 0) / dm)) (tb_nm t - 2) in
  let j := Nat.min (floor_nat ((y - unode t 0) / du)) (tb_nu t - 2) in
  let tm := (x - mnode t i) / dm in
  let tu := (y - unode t j) / du in
  pow10 (blend (entry f t) i j tm tu).
Definition amin (l : list R) : R := match l with [] => 0 | a :: t => fold_left Rmin t a end.
Definition amax (l : list R) : R := match l with [] => 0 | a :: t => fold_left Rmax t a end.
(** concentration.py 139-154 *)
Definition ensure_table (o : option table) (xs ys : list R) : table :=
  let lo := Rmin (amin xs - 0.5) 5 in
  let hi := Rmax (amax xs + 0.5) 11.5 in
  let ulo := Rmin (Rmax 0 (amin ys - 0.1)) 0 in
  let uhi := Rmax (amax ys + 0.1) 1.05 in
  match o with
  | None => build_table lo hi ulo uhi
  | Some t =>
      if (Rltb (amin xs) (tb_mlo t) || Rltb (tb_mhi t) (amax xs) || Rltb (amin ys) (tb_ulo t) || Rltb (tb_uhi t) (amax ys))%bool
      then build_table (Rmin lo (tb_mlo t)) (Rmax hi (tb_mhi t)) (Rmin ulo (tb_ulo t)) (Rmax uhi (tb_uhi t))
      else t
  end.
(** concentration.py 133-169: an array of (mass, redshift) pairs *)
Definition eval_array (f : R -> R -> R) (o : option table) (q : list (R * R)) : table * list R :=
  let xs := map (fun p => log10 (fst p)) q in
  let ys := map (fun p => log10 (1 + snd p)) q in
  let t := ensure_table o xs ys in
  (t, map (fun p => look_array f t (fst p) (snd p)) (combine xs ys)).
(** concentration.py 113-169 for one mass *)
Definition eval_scalar (f : R -> R -> R) (o : option table) (m z : R) : table * R :=
  match o with
  | Some t => if in_table t (log10 m) (log10 (1 + z)) then (t, look_scalar f t (log10 m) (log10 (1 + z)))
              else let r := eval_array f o [(m, z)] in (fst r, hd 0 (snd r))
  | None => let r := eval_array f o [(m, z)] in (fst r, hd 0 (snd r))
  end.
(** a history of queries to one object *)
Inductive query := QOne (m z : R) | QMany (q : list (R * R)).
Definition run_query (f : R -> R -> R) (o : option table) (q : query) : table :=
  match q with QOne m z => fst (eval_scalar f o m z) | QMany l => fst (eval_array f o l) end.
Fixpoint run_queries (f : R -> R -> R) (o : option table) (h : list query) : option table :=
  match h with [] => o | q :: t => run_queries f (Some (run_query f o q)) t end.

(** ** Shared default dictionaries: concentration.py 351-381, 402-418 *)

(** the keys scatter and scatter_dex of kwargs_cdm; other keys are passed through *)
Record cdm_kwargs := { ck_scatter : option bool; ck_dex : option R }.
Definition ck_empty : cdm_kwargs := {| ck_scatter := None; ck_dex := None |}.
(** the dictionary after the constructor, and the scatter settings of the CDM class it builds *)
Definition wdm_init (scatter_ : bool) (dex : R) (d : cdm_kwargs) : cdm_kwargs * (bool * R) :=
  let s := match ck_scatter d with Some b => b | None => scatter_ end in
  let x := match ck_dex d with Some r => r | None => dex end in
  ({| ck_scatter := Some s; ck_dex := Some x |}, (s, x)).
(** objects created one after the other with the default dictionary: the settings each one gets *)
Fixpoint wdm_many (d : cdm_kwargs) (l : list (bool * R)) : list (bool * R) :=
  match l with [] => [] | (s, x) :: t => let r := wdm_init s x d in snd r :: wdm_many (fst r) t end.
(** through preset_concentration_models('BOSE2016' | 'BOSE2016_LUDLOW' | 'LAROCHE2022'): concentration_models.py 34-60 puts a
    new empty dictionary into the keywords each time *)
Definition wdm_many_preset (l : list (bool * R)) : list (bool * R) := map (fun p => snd (wdm_init (fst p) (snd p) ck_empty)) l.

(** ** Classes, and the vectorised evaluation *)

Inductive kclass :=
| KCdm (name : string) (median : R -> R -> result R) (s : scatter)   (* _ConcentrationCDM and subclasses *)
| KTurn (cdm : kclass) (supp : R -> R -> R)                          (* _ConcentrationTurnover and subclasses *)
| KConst (c : R)                                                     (* ConcentrationConstant *)
| KOther (call : R -> R -> R -> result R).                           (* user classes: mass, redshift, deviate *)
(** nfw_concentration(m, z) for one mass: concentration.py 36-59, 180-193, 510-523, 18-19 *)
Fixpoint nfw_concentration (k : kclass) (m z g : R) : result R :=
  match k with
  | KCdm _ med s => do c <- med m z; scattered s z c false g
  | KTurn cdm supp => do c <- nfw_concentration cdm m z g; Ok (Rmax (c * supp m z) universal_minimum)
  | KConst c => Ok c
  | KOther f => f m z g
  end.
Definition array_safe (name : string) : bool :=
  existsb (String.eqb name) ["DIEMERJOYCE19"; "LUDLOW2016"; "PEAK_HEIGHT_POWERLAW"].
(** batch_halo_util.py 102-136: masses with their deviates *)
Fixpoint batch_concentration (k : kclass) (q : list (R * R)) (z : R) : result (list R) :=
  match k with
  | KCdm name med s =>
      if array_safe name then
        do cs <- mapM (fun p => med (fst p) z) q;
        do cs <- (if sc_on s then mapM (fun cg => np_lognormal (ln (fst cg)) (sc_dex s + sc_zdep s * z) (snd cg)) (combine cs (map snd q))
                  else Ok cs);
        Ok (map (fun c => if Rltb c universal_minimum then universal_minimum else c) cs)
      else mapM (fun p => nfw_concentration k (fst p) z (snd p)) q
  | KTurn cdm supp =>
      do cs <- batch_concentration cdm q z;
      Ok (map (fun cm => let c := fst cm * supp (snd cm) z in if Rltb c universal_minimum then universal_minimum else c)
              (combine cs (map fst q)))
  | KConst c => Ok (map (fun _ => c) q)
  | KOther _ => mapM (fun p => nfw_concentration k (fst p) z (snd p)) q
  end.

(** A halo as far as precompute_concentrations is concerned: class (an identity), z_eval, mass, cached value, and the deviate
    used for it *)
Record khalo := { kh_class : nat; kh_z : R; kh_mass : R; kh_c : option R; kh_dev : R }.
Definition with_c (h : khalo) (c : R) : khalo := {| kh_class := kh_class h; kh_z := kh_z h; kh_mass := kh_mass h; kh_c := Some c; kh_dev := kh_dev h |}.
(** batch_halo_util.py 154-160: groups in order of first appearance; [setdefault(key, []).append(h)] *)
Notation key := (nat * R)%type.
Definition key_eqb (a b : key) : bool := (Nat.eqb (fst a) (fst b) && Reqb (snd a) (snd b))%bool.
Fixpoint add_group (k : key) (i : nat) (gs : list (key * list nat)) : list (key * list nat) :=
  match gs with
  | [] => [(k, [i])]
  | (k', l) :: t => if key_eqb k' k then (k', l ++ [i]) :: t else (k', l) :: add_group k i t
  end.
Fixpoint group_halos (i : nat) (hs : list khalo) (gs : list (key * list nat)) : list (key * list nat) :=
  match hs with
  | [] => gs
  | h :: t => group_halos (S i) t (match kh_c h with Some _ => gs | None => add_group (kh_class h, kh_z h) i gs end)
  end.
Fixpoint set_at (i : nat) (c : R) (hs : list khalo) : list khalo :=
  match hs, i with [], _ => [] | h :: t, O => with_c h c :: t | h :: t, S j => h :: set_at j c t end.
Fixpoint set_many (l : list (nat * R)) (hs : list khalo) : list khalo :=
  match l with [] => hs | (i, c) :: t => set_many t (set_at i c hs) end.
Definition dummy_halo : khalo := {| kh_class := 0; kh_z := 0; kh_mass := 0; kh_c := None; kh_dev := 0 |}.
(** batch_halo_util.py 161-169: one group *)
Definition run_group (classes : nat -> kclass) (all : list khalo) (g : key * list nat) (hs : list khalo) : result (list khalo) :=
  let q := map (fun i => let h := nth i all dummy_halo in (kh_mass h, kh_dev h)) (snd g) in
  do cs <- (match q with
            | [p] => do c <- nfw_concentration (classes (fst (fst g))) (fst p) (snd (fst g)) (snd p); Ok [c]
            | _ => batch_concentration (classes (fst (fst g))) q (snd (fst g))
            end);
  Ok (set_many (combine (snd g) cs) hs).
Fixpoint run_groups (classes : nat -> kclass) (all : list khalo) (gs : list (key * list nat)) (hs : list khalo) : result (list khalo) :=
  match gs with [] => Ok hs | g :: t => do hs' <- run_group classes all g hs; run_groups classes all t hs' end.
Definition precompute_concentrations (classes : nat -> kclass) (hs : list khalo) : result (list khalo) :=
  run_groups classes hs (group_halos 0 hs []) hs.
