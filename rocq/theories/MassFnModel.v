(** Model of the mass functions (Rendering/MassFunctions) and of their normalisation in Rendering/subhalos.py,
    over exact reals.  Random numbers are explicit inputs: the Poisson count and the stream of uniform
    (or normal) deviates that numpy would produce. *)
From Verif Require Import Prelude.

(** Python's [10 ** x] *)
Definition pow10 (x : R) : R := Rpower 10 x.
(** numpy.log10 of a positive number *)
Definition log10 (x : R) : R := ln x / ln 10.

(** numpy.round to zero decimals: nearest integer, ties to even *)
Definition np_round (x : R) : Z :=
  let f := Int_part x in
  let d := x - IZR f in
  if Rltb d (1 / 2) then f
  else if Rltb (1 / 2) d then (f + 1)%Z
  else if Z.even f then f else (f + 1)%Z.

(** numpy.random.poisson: raises ValueError for a negative mean, returns 0 for mean 0 and otherwise an
    arbitrary count [k] supplied by the generator. *)
Definition np_poisson (lam : R) (k : nat) : result nat :=
  if Rltb lam 0 then Err EValueError else Ok (if Reqb lam 0 then 0%nat else k).

(** numpy.random.uniform(0,1,n) / rand(n) / normal(...,n): the first [n] deviates of the stream [u];
    a negative size raises ValueError. *)
Definition np_deviates (n : Z) (u : nat -> R) : result (list R) :=
  if (n <? 0)%Z then Err EValueError else Ok (map u (seq 0 (Z.to_nat n))).

(** Rendering/MassFunctions/util.py 5-20 *)
Definition integrate_power_law_analytic (norm m_low m_high n plaw_index : R) : R :=
  let factor := n + 1 + plaw_index in
  let integral :=
    if Reqb factor 0 then ln (m_high / m_low)
    else (Rpower m_high factor - Rpower m_low factor) / factor in
  norm * integral.

(** Rendering/MassFunctions/util.py 22-31; scipy's [quad(...)[0]] is the argument [quad]. *)
Definition integrate_power_law_quad (quad : (R -> R) -> R -> R -> R)
    (norm m_low m_high n plaw_index : R) (turnover : R -> R) : R :=
  quad (fun m => norm * Rpower m (n + plaw_index) * turnover m) m_low m_high.

(** Rendering/MassFunctions/mass_function_base.py 8-30, [_PowerLawBase.__init__] (CDMPowerLaw 128-139 adds nothing) *)
Record power_law := {
  pl_logmlow : R; pl_logmhigh : R; pl_index : R; pl_draw_poisson : bool; pl_norm : R;
  pl_n_mean : R; pl_first_moment : R }.
Definition mk_power_law (lo hi index : R) (draw_poisson : bool) (norm : R) : power_law :=
  {| pl_logmlow := lo; pl_logmhigh := hi; pl_index := index; pl_draw_poisson := draw_poisson; pl_norm := norm;
     pl_n_mean := if Rleb hi lo then 0
                  else integrate_power_law_analytic norm (pow10 lo) (pow10 hi) 0 index;
     pl_first_moment := if Rleb hi lo then 0
                  else integrate_power_law_analytic norm (pow10 lo) (pow10 hi) 1 index |}.

(** mass_function_base.py 32-38 *)
Definition pl_evaluate (p : power_law) (m : R) : R := pl_norm p * Rpower m (pl_index p).

(** mass_function_base.py 53-59: the mass assigned to one uniform deviate *)
Definition pl_sample (p : power_law) (x : R) : R :=
  let mH := pow10 (pl_logmhigh p) in
  let mL := pow10 (pl_logmlow p) in
  if Reqb (pl_index p) (-1) then mL * exp (ln (mH / mL) * x)
  else
    let e := 1 + pl_index p in
    Rpower (x * (Rpower mH e - Rpower mL e) + Rpower mL e) (/ e).

(** mass_function_base.py 49: the argument handed to np.random.poisson *)
Definition pl_poisson_argument (p : power_law) : R := pl_n_mean p.

(** mass_function_base.py 48-51: the number of objects; [k] is the Poisson count of the generator *)
Definition pl_ndraw (p : power_law) (k : nat) : result Z :=
  if pl_draw_poisson p then do n <- np_poisson (pl_poisson_argument p) k; Ok (Z.of_nat n)
  else Ok (np_round (pl_n_mean p)).

(** mass_function_base.py 40-60 *)
Definition pl_draw (p : power_law) (k : nat) (u : nat -> R) : result (list R) :=
  do n <- pl_ndraw p k;
  do x <- np_deviates n u;
  Ok (map (pl_sample p) x).

(** mass_function_base.py 176-190 *)
Definition wdm_turnover (log_mc a b c m : R) : R :=
  let m_c := pow10 log_mc in
  let r := a * Rpower (m_c / m) b in
  let factor := 1 + r in
  Rpower factor c.

(** mass_function_base.py 214-231 *)
Definition mixed_turnover (log_mc a b c f m : R) : R :=
  let m_c := pow10 log_mc in
  let r := a * Rpower (m_c / m) b in
  let factor := 1 + r in
  let wdm_comp := Rpower factor c in
  (f + (1 - f) * sqrt wdm_comp) ^ 2.

(** mass_function_base.py 62-91, [_PowerLawTurnoverBase.__init__]; WDMPowerLaw (141-161) and
    MixedWDMPowerLaw (192-212) only choose the turnover function. *)
Record turnover_law := {
  tl_unbroken : power_law; tl_turnover : R -> R; tl_index : R; tl_norm : R; tl_n_mean : R; tl_first_moment : R }.
Definition mk_turnover_law (quad : (R -> R) -> R -> R -> R) (lo hi index : R) (draw_poisson : bool) (norm : R)
    (turnover : R -> R) : turnover_law :=
  {| tl_unbroken := mk_power_law lo hi index draw_poisson norm;
     tl_turnover := turnover; tl_index := index; tl_norm := norm;
     tl_n_mean := integrate_power_law_quad quad norm (pow10 lo) (pow10 hi) 0 index turnover;
     tl_first_moment := integrate_power_law_quad quad norm (pow10 lo) (pow10 hi) 1 index turnover |}.

(** mass_function_base.py 93-100 *)
Definition tl_evaluate (t : turnover_law) (m : R) : R := tl_norm t * Rpower m (tl_index t) * tl_turnover t m.

(** [m[np.where(u < factor)]] : the entries whose random number is below their factor *)
Fixpoint where_lt (u factor m : list R) : list R :=
  match u, factor, m with
  | ui :: us, fi :: fs, mi :: ms => if Rltb ui fi then mi :: where_lt us fs ms else where_lt us fs ms
  | _, _, _ => []
  end.

(** mass_function_base.py 102-113 and 163-174; [u] feeds the unbroken draw, [v] is the second stream *)
Definition tl_draw (t : turnover_law) (k : nat) (u v : nat -> R) : result (list R) :=
  do m <- pl_draw (tl_unbroken t) k u;
  match m with
  | [] => Ok m
  | _ =>
    let factor := map (tl_turnover t) m in
    do w <- np_deviates (Z.of_nat (List.length m)) v;
    Ok (where_lt w factor m)
  end.

(** numpy.logspace(lo, hi, 10) *)
Definition logspace10 (lo hi : R) : list R :=
  map (fun i => pow10 (lo + INR i * ((hi - lo) / 9))) (seq 0 10).

Definition sumR (l : list R) : R := fold_right Rplus 0 l.
(** numpy.polyfit(x, y, 1): the least-squares line (slope, intercept), by its normal equations *)
Definition polyfit1 (x y : list R) : R * R :=
  let n := INR (List.length x) in
  let sx := sumR x in
  let sy := sumR y in
  let sxx := sumR (map (fun a => a * a) x) in
  let sxy := sumR (map (fun p => fst p * snd p) (combine x y)) in
  let slope := (n * sxy - sx * sy) / (n * sxx - sx * sx) in
  (slope, (sy - slope * sx) / n).

(** Rendering/MassFunctions/density_peaks.py 8-24; colossus' massFunction(., z, 'dndlnM', model) is [dndlnM]. *)
Definition evaluate_mass_function (dndlnM : R -> R) (h m : R) : R :=
  let m_h := m * h in
  let dndlogM := dndlnM m_h in
  let dndM_comoving_h := dndlogM / m in
  dndM_comoving_h * h ^ 3.

(** density_peaks.py 49-57 (and 91-99, the same lines): slope and normalisation of the field-halo mass function.
    [volume] is geometry_class.volume_element_comoving(z, delta_z). *)
Definition sheth_tormen_params (dndlnM : R -> R) (h volume m_pivot lo hi delta los_norm : R) : R * R :=
  let m := logspace10 lo hi in
  let dndM := map (evaluate_mass_function dndlnM h) m in
  let coeffs := polyfit1 (map (fun x => log10 (x / m_pivot)) m) (map log10 dndM) in
  let plaw_index := fst coeffs + delta in
  let norm_dv := pow10 (snd coeffs) / Rpower m_pivot plaw_index in
  (plaw_index, los_norm * norm_dv * volume).

(** density_peaks.py 134-142, the variant of ShethTormenMixedWDM *)
Definition sheth_tormen_params_mixed (dndlnM : R -> R) (h volume m_pivot lo hi delta los_norm : R) : R * R :=
  let m := logspace10 lo hi in
  let dndM := map (evaluate_mass_function dndlnM h) m in
  let coeffs := polyfit1 (map (fun x => log10 (x / m_pivot)) m) (map log10 dndM) in
  let plaw_index := fst coeffs + delta in
  let norm_dv := pow10 (snd coeffs) in
  (plaw_index, los_norm * norm_dv * volume / Rpower m_pivot plaw_index).

(** density_peaks.py 38-59, ShethTormen.from_redshift *)
Definition sheth_tormen (dndlnM : R -> R) (h volume m_pivot lo hi delta los_norm : R) (poisson : bool) : power_law :=
  let p := sheth_tormen_params dndlnM h volume m_pivot lo hi delta los_norm in
  mk_power_law lo hi (fst p) poisson (snd p).
(** density_peaks.py 80-102, ShethTormenTurnover.from_redshift *)
Definition sheth_tormen_turnover quad (dndlnM : R -> R) (h volume m_pivot lo hi delta los_norm : R) (poisson : bool)
    (log_mc a b c : R) : turnover_law :=
  let p := sheth_tormen_params dndlnM h volume m_pivot lo hi delta los_norm in
  mk_turnover_law quad lo hi (fst p) poisson (snd p) (wdm_turnover log_mc a b c).
(** density_peaks.py 123-146, ShethTormenMixedWDM.from_redshift *)
Definition sheth_tormen_mixed quad (dndlnM : R -> R) (h volume m_pivot lo hi delta los_norm : R) (poisson : bool)
    (log_mc a b c f : R) : turnover_law :=
  let p := sheth_tormen_params_mixed dndlnM h volume m_pivot lo hi delta los_norm in
  mk_turnover_law quad lo hi (fst p) poisson (snd p) (mixed_turnover log_mc a b c f).

(** Rendering/subhalos.py 125-141 *)
Definition host_scaling_function (mhalo z host_scaling_factor redshift_scaling_factor : R) : R :=
  let logscaling := host_scaling_factor * log10 (mhalo / pow10 13) + redshift_scaling_factor * log10 (z + 0.5) in
  pow10 logscaling.

(** Rendering/subhalos.py 143-165 *)
Definition normalization_sigmasub (sigma_sub host_m200 zlens kpc_per_asec cone_opening_angle plaw_index m_pivot
    host_scaling_factor redshift_scaling_factor : R) : R :=
  let host_scaling := host_scaling_function host_m200 zlens host_scaling_factor redshift_scaling_factor in
  let a0_per_kpc2 := sigma_sub * host_scaling in
  let R_kpc := kpc_per_asec * (0.5 * cone_opening_angle) in
  let area := PI * R_kpc ^ 2 in
  let m_pivot_factor := Rpower m_pivot (- (plaw_index + 1)) in
  area * a0_per_kpc2 * m_pivot_factor.

(** A mass limit is a number or a function of redshift (rendering_class_base.py 62-84). *)
Inductive mlimit := MNum (m : R) | MFun (f : R -> R).
Definition eval_mlimit (z : R) (l : mlimit) : R := match l with MNum m => m | MFun f => f z end.

(** The keys of the subhalo mass-function dictionary that are read; [None] = key absent. *)
Record sub_kwargs := {
  sk_log_mlow : mlimit; sk_log_mhigh : mlimit; sk_power_law_index : R; sk_delta_power_law_index : R;
  sk_m_pivot : R; sk_sigma_sub : option R; sk_dndA : option R;
  sk_host_m200 : option R; sk_log_m_host : option R;
  sk_host_scaling_factor : option R; sk_redshift_scaling_factor : option R; sk_draw_poisson : option bool }.

(** Rendering/subhalos.py 11-26 with rendering_class_base.py 21-23: log_m_host replaces host_m200 and draw_poisson
    defaults to True. *)
Definition sub_init (k : sub_kwargs) : sub_kwargs :=
  {| sk_log_mlow := sk_log_mlow k; sk_log_mhigh := sk_log_mhigh k; sk_power_law_index := sk_power_law_index k;
     sk_delta_power_law_index := sk_delta_power_law_index k; sk_m_pivot := sk_m_pivot k;
     sk_sigma_sub := sk_sigma_sub k; sk_dndA := sk_dndA k;
     sk_host_m200 := match sk_log_m_host k with Some l => Some (pow10 l) | None => sk_host_m200 k end;
     sk_log_m_host := None;
     sk_host_scaling_factor := sk_host_scaling_factor k; sk_redshift_scaling_factor := sk_redshift_scaling_factor k;
     sk_draw_poisson := match sk_draw_poisson k with Some b => Some b | None => Some true end |}.

Definition need {A} (o : option A) : result A := match o with Some a => Ok a | None => Err EKeyError end.

(** Rendering/subhalos.py 63-98: the arguments (lo, hi, index, draw_poisson, normalization) handed to the mass
    function class.  [lo_new]/[hi_new] are the optional replacements. *)
Definition sub_mass_function_args (zlens kpc_per_asec cone_opening_angle : R) (k : sub_kwargs)
    (lo_new hi_new : option mlimit) : result (R * R * R * bool * R) :=
  let lo := eval_mlimit zlens (match lo_new with Some l => l | None => sk_log_mlow k end) in
  let hi := eval_mlimit zlens (match hi_new with Some l => l | None => sk_log_mhigh k end) in
  let index := sk_power_law_index k + sk_delta_power_law_index k in
  do norm <-
    match sk_sigma_sub k with
    | Some s =>
        do host <- need (sk_host_m200 k);
        do k1 <- need (sk_host_scaling_factor k);
        do k2 <- need (sk_redshift_scaling_factor k);
        Ok (normalization_sigmasub s host zlens kpc_per_asec cone_opening_angle index (sk_m_pivot k) k1 k2)
    | None =>
        match sk_dndA k with
        | Some d =>
            let R_kpc := kpc_per_asec * (0.5 * cone_opening_angle) in
            let area := PI * R_kpc ^ 2 in
            let m_pivot_factor := Rpower (sk_m_pivot k) (- (index + 1)) in
            Ok (area * d * m_pivot_factor)
        | None => Err EException
        end
    end;
  do p <- need (sk_draw_poisson k);
  Ok (lo, hi, index, p, norm).

(** Subhalos with the CDM power law: subhalos.py 63-98 followed by CDMPowerLaw(kwargs_model) *)
Definition sub_cdm (zlens kpc_per_asec cone_opening_angle : R) (k : sub_kwargs) lo_new hi_new : result power_law :=
  do a <- sub_mass_function_args zlens kpc_per_asec cone_opening_angle k lo_new hi_new;
  let '(lo, hi, index, p, norm) := a in
  Ok (mk_power_law lo hi index p norm).

(** Rendering/MassFunctions/delta_function.py 13-26 *)
Record delta_fn := { df_mass : R; df_volume : R; df_rho : R; df_poisson : bool; df_n_mean : R; df_first_moment : R }.
Definition mk_delta_fn (mass volume rho : R) (poisson : bool) : delta_fn :=
  {| df_mass := mass; df_volume := volume; df_rho := rho; df_poisson := poisson;
     df_n_mean := rho * volume / mass; df_first_moment := mass |}.
(** delta_function.py 28-40; [rho_dm_crit] is Odm(0)*critical_density(z)*unit factor *)
Definition delta_from_redshift (rho_dm_crit volume los_norm mass_fraction mass : R) (poisson : bool) : delta_fn :=
  mk_delta_fn mass volume (los_norm * mass_fraction * rho_dm_crit) poisson.
(** delta_function.py 42-56 *)
Definition df_draw (d : delta_fn) (k : nat) : result (list R) :=
  do n <- (if df_poisson d then do n <- np_poisson (df_n_mean d) k; Ok (Z.of_nat n)
           else Ok (np_round (df_n_mean d)));
  Ok (if (0 <? n)%Z then repeat (df_mass d) (Z.to_nat n) else []).

(** Rendering/MassFunctions/gaussian.py 12-24 *)
Record gauss_fn := { gf_mean : R; gf_sigma : R; gf_poisson : bool; gf_n_mean : R; gf_first_moment : R }.
Definition mk_gauss_fn (n mean sigma : R) (poisson : bool) : gauss_fn :=
  {| gf_mean := mean; gf_sigma := sigma; gf_poisson := poisson; gf_n_mean := n;
     gf_first_moment := pow10 (mean + sigma ^ 2 * ln 10 / 2) |}.
(** gaussian.py 26-42; numpy's normal(mean, sigma) is mean + sigma * (standard normal deviate), and a negative
    sigma raises ValueError *)
Definition gf_draw (g : gauss_fn) (k : nat) (g01 : nat -> R) : result (list R) :=
  do n <- (if gf_poisson g then do n <- np_poisson (gf_n_mean g) k; Ok (Z.of_nat n)
           else Ok (np_round (gf_n_mean g)));
  if (0 <? n)%Z then
    if Rltb (gf_sigma g) 0 then Err EValueError
    else Ok (map (fun i => pow10 (gf_mean g + gf_sigma g * g01 i)) (seq 0 (Z.to_nat n)))
  else Ok [].

(** realization_extensions.py 1087-1088: smooth and clumpy fractions of primordial black holes *)
Definition pbh_fractions (f in_halos : R) : R * R := ((1 - in_halos) * f, f * in_halos).
(** realization_extensions.py 1105-1121: the mass function of the smooth component at one plane *)
Definition pbh_smooth_delta (f in_halos rho_dm volume logM : R) : delta_fn :=
  mk_delta_fn (pow10 logM) volume (fst (pbh_fractions f in_halos) * rho_dm) true.
Definition pbh_smooth_gauss (f in_halos rho_dm volume logM sigma : R) : gauss_fn :=
  let rho := fst (pbh_fractions f in_halos) * rho_dm in
  let mean := exp (ln (pow10 logM) + ln (pow10 sigma) ^ 2 / 2) in
  mk_gauss_fn (volume * rho / mean) logM sigma true.

(** Rendering/MassFunctions/stucker.py 54-66; nan is [None].  [frac ** (1/c)] etc. on positive bases. *)
Definition supp_mscale (a b c frac : R) : option R :=
  if Rltb a 0 || Rltb b 0 || Rltb 0 c then None
  else Some (a / Rpower (Rpower frac (1 / c) - 1) (1 / b)).
(** stucker.py 4-15 *)
Definition beta_from_slope (dlogT gamma : R) : R :=
  let fabg := -1 + Rpower 0.5 (-1 / gamma) in
  - dlogT * (1 + fabg) / fabg / gamma.
(** stucker.py 36-37: the coefficient handed on to the mass function *)
Definition stucker_a (a_stucker b : R) : R := Rpower a_stucker b.
