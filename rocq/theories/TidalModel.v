(** Model of Halos/galacticus_truncation/transfer_function_density_profile.py (all functions) and of
    Halos/batch_halo_util.py 289-363.  Exponents written [** 2] are natural powers, other exponents are [Rpower] (defined
    as exp(y ln x), the meaning for x > 0).  The numbers of the file are copied. *)
From Verif Require Import Prelude MassFnModel InfallModel.
Local Open Scope R_scope.

(** transfer_function_density_profile.py 11-161: coefficients A, B, C of [_r_te_Du_2024]; unsupported combinations raise Exception (155-159).  The warning printed
    for alpha = 2, beta = 4 is not modelled. *)
Definition rte_coef (alpha beta gamma delta : R) : result (R * R * R) :=
  if Reqb delta 2 then
    if Reqb alpha 1 then
      if Reqb beta 3 then if Reqb gamma 0 then Ok ((-0.998429803), 0.000550290877, 1.23471540)
            else if Reqb gamma 0.5 then Ok ((-0.19210388), 0.42676044, 1.46250084)
            else if Reqb gamma 1 then Ok (0.68492777, 0.66438857, 2.07766512)
            else if Reqb gamma 1.5 then Ok (0.9839032, 0.76882264, 2.51841765)
            else Err EException
      else if Reqb beta 4 then if Reqb gamma 0 then Ok (39.42152817, 0.58827911, 4.05363252)
            else if Reqb gamma 0.5 then Ok (2.06550731, 0.38713431, 3.63592324)
            else if Reqb gamma 1 then Ok (13.98955016, 0.72217703, 5.00880454)
            else if Reqb gamma 1.5 then Ok (83.39811168, 1.21616656, 6.62016776)
            else Err EException
      else Err EException
    else if Reqb alpha 2 then
      if Reqb beta 3 then if Reqb gamma 0 then Ok ((-1.02415147), 0.00164345425, 2.41297704)
            else Err EException
      else if Reqb beta 4 then if Reqb gamma 0 then Ok (0.00000327271231, (-1.94602678), 5.84716369)
            else Err EException
      else Err EException
    else Err EException
  else if Reqb delta 3 then
    if Reqb alpha 1 then
      if Reqb beta 3 then if Reqb gamma 0 then Ok ((-0.93094144), 0.04703346, 0.76842857)
            else if Reqb gamma 0.5 then Ok ((-0.2290658), 0.41234666, 1.39936438)
            else if Reqb gamma 1 then Ok (0.90933265, 0.63676731, 2.18508243)
            else if Reqb gamma 1.5 then Ok (0.83533898, 0.73399035, 2.43215333)
            else Err EException
      else if Reqb beta 4 then if Reqb gamma 0 then Ok (41.3266337, 0.60818104, 4.07045865)
            else if Reqb gamma 0.5 then Ok (0.42123475, (-0.38164340), 3.62931001)
            else if Reqb gamma 1 then Ok (15.91886121, 0.71939954, 4.98186081)
            else if Reqb gamma 1.5 then Ok (104.0534991, 1.24696989, 6.62957129)
            else Err EException
      else Err EException
    else if Reqb alpha 2 then
      if Reqb beta 3 then if Reqb gamma 0 then Ok ((-0.964566747), (-0.00237053865), 2.51094575)
            else Err EException
      else if Reqb beta 4 then if Reqb gamma 0 then Ok (0.000000579321402, (-1.62255246), 5.47069835)
            else Err EException
      else Err EException
    else Err EException
  else Err EException.
(** transfer_function_density_profile.py 161 *)
Definition rte_fit (A B C x : R) : R := (1 + A) * Rpower x B / (1 + A * Rpower x (2 * B)) / exp (C * (1 - x)).
Definition r_te_Du_2024 (x alpha beta gamma delta : R) : result R :=
  do abc <- rte_coef alpha beta gamma delta;
  let '(A, B, C) := abc in Ok (rte_fit A B C x).

(** transfer_function_density_profile.py 166-284: coefficients D, E of [_f_t_Du_2024] *)
Definition ft_coef (alpha beta gamma delta : R) : result (R * R) :=
  if Reqb delta 2 then
    if Reqb alpha 1 then
      if Reqb beta 3 then if Reqb gamma 0 then Ok (1.48242247, 0.63639230)
            else if Reqb gamma 0.5 then Ok (1.17122717, 0.45000174)
            else if Reqb gamma 1 then Ok (0.75826635, 0.23376409)
            else if Reqb gamma 1.5 then Ok ((-0.995103536), 0.000131454694)
            else Err EException
      else if Reqb beta 4 then if Reqb gamma 0 then Ok (1.18519061, 0.73729078)
            else if Reqb gamma 0.5 then Ok (0.75235790, 0.47771706)
            else if Reqb gamma 1 then Ok (0.36838147, 0.22307797)
            else if Reqb gamma 1.5 then Ok (0.28500656, 0.10528364)
            else Err EException
      else Err EException
    else if Reqb alpha 2 then
      if Reqb beta 3 then if Reqb gamma 0 then Ok (1.37068893, 0.83149579)
            else Err EException
      else if Reqb beta 4 then if Reqb gamma 0 then Ok (0.83836120, 1.23071929)
            else Err EException
      else Err EException
    else Err EException
  else if Reqb delta 3 then
    if Reqb alpha 1 then
      if Reqb beta 3 then if Reqb gamma 0 then Ok (1.40209850, 0.63252747)
            else if Reqb gamma 0.5 then Ok (1.08663071, 0.45228951)
            else if Reqb gamma 1 then Ok (1.43637351, (-0.24907289))
            else if Reqb gamma 1.5 then Ok (0.08092773, 0.08490512)
            else Err EException
      else if Reqb beta 4 then if Reqb gamma 0 then Ok (1.08789526, 0.72799030)
            else if Reqb gamma 0.5 then Ok (0.68794863, 0.48619566)
            else if Reqb gamma 1 then Ok (0.33591171, 0.25084764)
            else if Reqb gamma 1.5 then Ok (0.15135479, 0.12838997)
            else Err EException
      else Err EException
    else if Reqb alpha 2 then
      if Reqb beta 3 then if Reqb gamma 0 then Ok (1.31446961, 0.82402378)
            else Err EException
      else if Reqb beta 4 then if Reqb gamma 0 then Ok (0.77798730, 1.21267992)
            else Err EException
      else Err EException
    else Err EException
  else Err EException.
(** transfer_function_density_profile.py 286-292 *)
Definition ft_fit (D E x : R) : R :=
  let f := if Rleb x 1 then (1 + D) * Rpower x E / (1 + D * Rpower x (2 * E)) else 1 in
  if Rleb f 1 then f else 1.
Definition f_t_Du_2024 (x alpha beta gamma delta : R) : result R :=
  do de <- ft_coef alpha beta gamma delta;
  let '(D, E) := de in Ok (ft_fit D E x).

(** transfer_function_density_profile.py 310-408: [_M_enclosed_generalized_NFW_dimensionless]; [hyp2f1] is scipy's function, used when no closed form applies *)
Definition M_enclosed (hyp2f1 : R -> R -> R -> R -> R) (x alpha beta gamma : R) : R :=
  let general := 4 * PI * Rpower x (3 - gamma)
    * hyp2f1 ((3 - gamma) / alpha) ((beta - gamma) / alpha) (1 + (3 - gamma) / alpha) (- Rpower x alpha) / (3 - gamma) in
  if Reqb alpha 1 then
    if Reqb beta 3 then
      if Reqb gamma 0 then 4 * PI * (ln (1 + x) - x * (2 + 3 * x) / 2 / (1 + x) ^ 2)
      else if Reqb gamma 0.5 then
        (-8 * PI * sqrt x * (3 + 4 * x)) / (3 * Rpower (1 + x) 1.5) + 8 * PI * arcsinh (sqrt x)
      else if Reqb gamma 1 then 4 * PI * (ln (1 + x) - x / (1 + x))
      else if Reqb gamma 1.5 then 8 * PI * (- sqrt (x / (1 + x)) + arcsinh (sqrt x))
      else general
    else if Reqb beta 4 then 4 * PI / (3 - gamma) * Rpower (x / (1 + x)) (3 - gamma)
    else general
  else if Reqb alpha 2 then
    if Reqb beta 3 then
      if Reqb gamma 0 then -4 * PI * (x / sqrt (1 + x ^ 2) + ln (sqrt (1 + x ^ 2) - x))
      else if Reqb gamma 1 then 2 * PI * ln (1 + x ^ 2)
      else general
    else if Reqb beta 4 then
      if Reqb gamma 0 then 2 * PI * (atan x - x / (1 + x ^ 2))
      else if Reqb gamma 1 then 4 * PI * (1 - 1 / sqrt (1 + x ^ 2))
      else general
    else general
  else general.

(** transfer_function_density_profile.py 411-477: [_R_max_generalized_NFW_dimensionless].  In the alpha = 2 branches the code assigns [Rmx] and returns the unbound
    [Rmax]; the numerical branch calls [newton], which is not imported. *)
Definition R_max (alpha beta gamma : R) : result R :=
  if Reqb alpha 1 then
    if Reqb beta 3 then
      if Rltb gamma 2 then
        if Reqb gamma 0 then Ok 4.424700646872270
        else if Reqb gamma 0.5 then Ok 3.289276561384110
        else if Reqb gamma 1 then Ok 2.162581587064612
        else if Reqb gamma 1.5 then Ok 1.054966571869124
        else Err ENameError
      else Err EException
    else if Reqb beta 4 then
      if Rltb gamma 2 then Ok (2 - gamma) else Err EException
    else Err ENameError
  else if Reqb alpha 2 then
    if Reqb beta 3 || Reqb beta 4 then
      if Rltb gamma 2 then
        if Reqb gamma 0 then Err EUnboundLocal else Err ENameError
      else Err EException
    else Err ENameError
  else Err ENameError.

(** Python values: a number, or the pair returned by scipy's [quad] (value, error estimate) *)
Inductive pyval := PNum (r : R) | PPair.
(** transfer_function_density_profile.py 498-503 *)
Definition tot_130 (tau : R) : R :=
  4 * PI * tau ^ 2 / (tau ^ 2 + 1) ^ 3
  * (0.5 * (-1 + (PI - tau) * tau) * (3 * tau ^ 2 - 1) + tau ^ 2 * (tau ^ 2 - 3) * ln tau).
(** transfer_function_density_profile.py 505-567 *)
Definition tot_130h (tau : R) : R :=
  let at_ := atan tau in
  let r2 := sqrt 2 in
  let s1 := sqrt (tau ^ 2 + 1) in
  let p := sqrt (1 + sqrt (2 * tau) + tau) in
  let m := sqrt (1 - sqrt (2 * tau) + tau) in
  let c := cos (0.25 * (PI + 2 * at_)) in
  let s := sin (0.25 * (PI + 2 * at_)) in
  let asn := asin (sqrt (0.5 * (1 + tau - s1))) in
  let lg := ln (tau + s1 + sqrt (2 * tau * (tau + s1))) in
  let q1 := 2 * r2 + 4 * sqrt tau + 3 * r2 * tau - 2 * r2 * tau ^ 2 - 4 * Rpower tau 2.5 - r2 * tau ^ 3 in
  let q2 := 2 * r2 - 4 * sqrt tau + 3 * r2 * tau - 2 * r2 * tau ^ 2 + 4 * Rpower tau 2.5 - r2 * tau ^ 3 in
  4 * PI * tau ^ 2 / Rpower (tau ^ 2 + 1) (9 / 4) / 6
  * (3 * r2 * PI * sqrt tau * (tau ^ 2 + 1) * (sin (2.5 * at_) - cos (2.5 * at_))
     + 2 * r2 * (p - m) * sqrt (tau * (tau ^ 2 + 1) * (1 - tau + s1)) * c
     - 2 * r2 * (p + m) * sqrt (tau * (tau ^ 2 + 1) * (-1 + tau + s1)) * s
     + (q1 * m + q2 * p) * sqrt ((-1 + tau + s1) / tau) * c
     + (q1 * m - q2 * p) * sqrt ((1 - tau + s1) / tau) * s
     - 12 * ((tau ^ 2 - 1) * asn + tau * lg) * sqrt tau * c
     - 12 * (2 * tau * asn - 0.5 * (tau ^ 2 - 1) * lg) * sqrt tau * s).
(** transfer_function_density_profile.py 569-575 *)
Definition tot_131 (tau : R) : R :=
  4 * PI * tau ^ 2 / (tau ^ 2 + 1) ^ 2 * ((tau ^ 2 - 1) * ln tau + tau * PI - (tau ^ 2 + 1)).
(** transfer_function_density_profile.py 577-613 *)
Definition tot_131h (tau : R) : R :=
  let at_ := atan tau in
  let r2 := sqrt 2 in
  let s1 := sqrt (tau ^ 2 + 1) in
  let p := sqrt (1 + sqrt (2 * tau) + tau) in
  let m := sqrt (1 - sqrt (2 * tau) + tau) in
  let c := cos (0.25 * (PI + 2 * at_)) in
  let s := sin (0.25 * (PI + 2 * at_)) in
  let asn := asin (sqrt (0.5 * (1 + tau - s1))) in
  let lg := ln (tau + s1 + sqrt (2 * tau * (tau + s1))) in
  4 * PI * Rpower tau 1.5 / Rpower (tau ^ 2 + 1) (5 / 4) / 2
  * (r2 * PI * s1 * (cos (1.5 * at_) + sin (1.5 * at_))
     - r2 * (p + m) * sqrt ((tau ^ 2 + 1) * (-1 + tau + s1)) * c
     - r2 * (p - m) * sqrt ((tau ^ 2 + 1) * (1 - tau + s1)) * s
     - 2 * (2 * tau * asn + lg) * c
     - 2 * (2 * asn - tau * lg) * s).
(** transfer_function_density_profile.py 621 *)
Definition tot_240 (tau : R) : R := PI ^ 2 * tau ^ 2 / (tau + 1) ^ 2.
(** transfer_function_density_profile.py 630-640 *)
Definition tot_131d3 (tau : R) : R :=
  4 * PI * tau ^ 2 / (tau ^ 3 - 1) ^ 2
  * (- tau * (tau ^ 3 - 1) + 2 * sqrt 3 * PI / 9 * (tau - 1) ^ 2 * (2 * tau + 1) + tau * (tau ^ 3 + 2) * ln tau).
(** transfer_function_density_profile.py 480-656: [_M_total_generalized_NFW_Truncated_dimensionless] *)
Definition M_total (alpha beta gamma delta tau : R) : pyval :=
  if Reqb delta 2 then
    if Reqb alpha 1 then
      if Reqb beta 3 then
        if Reqb gamma 0 then PNum (tot_130 tau)
        else if Reqb gamma 0.5 then PNum (tot_130h tau)
        else if Reqb gamma 1 then PNum (tot_131 tau)
        else if Reqb gamma 1.5 then PNum (tot_131h tau)
        else PPair
      else PPair
    else if Reqb alpha 2 then
      if Reqb beta 4 then if Reqb gamma 0 then PNum (tot_240 tau) else PPair else PPair
    else PPair
  else if Reqb delta 3 then
    if Reqb alpha 1 && Reqb beta 3 && Reqb gamma 1 then PNum (tot_131d3 tau) else PPair
  else PPair.

(** transfer_function_density_profile.py 730-795: [Convert_to_reference_model]; only closed-form enclosed masses are reached *)
Definition Mbound_ref_0 (alpha beta gamma : R) : result R :=
  if Reqb alpha 1 then
    if Reqb beta 3 then
      if Reqb gamma 0 then Ok 1196993400 else if Reqb gamma 0.5 then Ok 1179390300
      else if Reqb gamma 1 then Ok 1160500200 else if Reqb gamma 1.5 then Ok 1139551500 else Err EException
    else if Reqb beta 4 then
      if Reqb gamma 0 then Ok 1042653600 else if Reqb gamma 0.5 then Ok 1035376000
      else if Reqb gamma 1 then Ok 1028166900 else if Reqb gamma 1.5 then Ok 1021025400 else Err EException
    else Err EException
  else if Reqb alpha 2 then
    if Reqb beta 3 then if Reqb gamma 0 then Ok 1134326200 else Err EException
    else if Reqb beta 4 then if Reqb gamma 0 then Ok 1019428100 else Err EException
    else Err EException
  else Err EException.
Definition c_ref : R := 20.587820037799197.
Definition Rvir_ref : R := 0.02632439488393568.
Definition convert_to_reference (hyp : R -> R -> R -> R -> R) (alpha beta gamma : R) : result (R * R) :=
  do Mb <- Mbound_ref_0 alpha beta gamma;
  do Rmax <- R_max alpha beta gamma;
  let Mmx := M_enclosed hyp Rmax alpha beta gamma / M_enclosed hyp c_ref alpha beta gamma * 1000000000 in
  Ok (Mmx / Mb, Rmax / c_ref * Rvir_ref / Rvir_ref).

(** transfer_function_density_profile.py 659-674: the module-level mass table.  [t_used] holds alpha_used .. delta_used once Mass_table_Initialized is True;
    [t_tab] holds the nodes (log M, log x) of the interpolator. *)
Record table := mkTable {
  t_xmin : R; t_xmax : R; t_Mmin : pyval; t_Mmax : pyval;
  t_used : option (R * R * R * R); t_tab : list (R * R) }.
(** the state after import; M_min = inf and M_max = 0 are never read before being assigned *)
Definition table0 : table := mkTable (/ 10 ^ 6) (10 ^ 4) (PNum 0) (PNum 0) None [].
(** np.geomspace(lo, hi, n) *)
Definition geomspace (lo hi : R) (n : nat) : list R :=
  map (fun i => lo * Rpower (hi / lo) (INR i / INR (n - 1))) (seq 0 n).
(** transfer_function_density_profile.py 713: int(log10(x_max / x_min) * N_per_decade) *)
Definition n_tab (lo hi : R) : nat := Z.to_nat (Int_part (log10 (hi / lo) * 10)).
(** transfer_function_density_profile.py 705-711: the two loops; [fuel] bounds the number of iterations, [None] means the loop has not ended *)
Fixpoint halve (fuel : nat) (M : R -> R) (q x : R) : option R :=
  if Rltb q (M x) then match fuel with O => None | S n => halve n M q (x / 2) end else Some x.
Fixpoint double (fuel : nat) (M : R -> R) (q x : R) : option R :=
  if Rltb (M x) q then match fuel with O => None | S n => double n M q (x * 2) end else Some x.
(** scipy interp1d(kind='cubic') evaluated at [q]: ValueError outside the abscissae; inside, the value of the spline *)
Definition spline_at (spline : list (R * R) -> R -> R) (tab : list (R * R)) (q : R) : result R :=
  match tab with
  | [] => Err EValueError
  | (x0, _) :: _ => if Rltb q x0 || Rltb (fst (last tab (0, 0))) q then Err EValueError else Ok (spline tab q)
  end.
Definition num (p : pyval) : R := match p with PNum r => r | PPair => 0 end.
Definition same_params (p q : R * R * R * R) : bool :=
  let '(a, b, c, d) := p in let '(a', b', c', d') := q in Reqb a a' && Reqb b b' && Reqb c c' && Reqb d d'.
(** evaluation of the interpolator at the whole array: the first failing element raises *)
Definition eval_all (spline : list (R * R) -> R -> R) (tab : list (R * R)) (Ms : list R) : result (list R) :=
  mapM (fun M => do l <- spline_at spline tab (ln M); Ok (exp l)) Ms.
(** transfer_function_density_profile.py 677-727: [_Truncation_Radius]; [Ms] is the array M / f_t.  A comparison of a number with a pair gives an array of two
    booleans, whose truth value raises ValueError.  The result is [None] when a loop is still running. *)
Definition truncation_radius (spline : list (R * R) -> R -> R) (fuel : nat) (st : table) (Ms : list R)
    (alpha beta gamma delta : R) : option (result (list R) * table) :=
  let p := (alpha, beta, gamma, delta) in
  let lo := list_min Ms in
  let hi := list_max Ms in
  let rebuild (_ : unit) :=
    match M_total alpha beta gamma delta (t_xmin st) with
    | PPair => Some (Err EValueError, mkTable (t_xmin st) (t_xmax st) PPair PPair (t_used st) (t_tab st))
    | PNum _ =>
        let M x := num (M_total alpha beta gamma delta x) in
        match halve fuel M lo (t_xmin st) with
        | None => None
        | Some xmin =>
            match double fuel M hi (t_xmax st) with
            | None => None
            | Some xmax =>
                let xs := geomspace xmin xmax (n_tab xmin xmax) in
                let tab := map (fun x => (ln (M x), ln x)) xs in
                let st' := mkTable xmin xmax (PNum (M xmin)) (PNum (M xmax)) (Some p) tab in
                Some (eval_all spline tab Ms, st')
            end
        end
    end in
  match t_used st with
  | Some u =>
      if same_params u p then
        match t_Mmin st with
        | PPair => Some (Err EValueError, st)
        | PNum mmin =>
            if Rltb lo mmin then rebuild tt
            else match t_Mmax st with
                 | PPair => Some (Err EValueError, st)
                 | PNum mmax => if Rltb mmax hi then rebuild tt else Some (eval_all spline (t_tab st) Ms, st)
                 end
        end
      else rebuild tt
  | None => rebuild tt
  end.

(** transfer_function_density_profile.py 798-840: [compute_r_te_and_f_t] for arrays of halos (one halo: lists of length one); [delta] is not passed on to the
    truncation radius, whose default is 2 *)
Record halo_in := mkHalo { i_mbound : R; i_mvir : R; i_rvir : R; i_c : R }.
Definition compute_rte_ft (hyp : R -> R -> R -> R -> R) (spline : list (R * R) -> R -> R) (fuel : nat) (st : table)
    (hs : list halo_in) (alpha beta gamma delta : R) : option (result (list (R * R)) * table) :=
  match R_max alpha beta gamma with
  | Err e => Some (Err e, st)
  | Ok Rmax =>
    match convert_to_reference hyp alpha beta gamma with
    | Err e => Some (Err e, st)
    | Ok (y_scale, _) =>
      let M0 h := i_mvir h / M_enclosed hyp (i_c h) alpha beta gamma in
      let y h := i_mbound h / (M0 h * M_enclosed hyp Rmax alpha beta gamma) in
      match mapM (fun h => f_t_Du_2024 (y h * y_scale) alpha beta gamma delta) hs with
      | Err e => Some (Err e, st)
      | Ok fts =>
        let Ms := map (fun hf => i_mbound (fst hf) / M0 (fst hf) / snd hf) (combine hs fts) in
        match truncation_radius spline fuel st Ms alpha beta gamma 2 with
        | None => None
        | Some (Err e, st') => Some (Err e, st')
        | Some (Ok xs, st') =>
            Some (Ok (map (fun t => (i_rvir (fst (fst t)) / i_c (fst (fst t)) * snd t, snd (fst t))) (combine (combine hs fts) xs)), st')
        end
      end
    end
  end.

(** batch_halo_util.py 331-363: [_TRUNC_TABLE] and [_truncation_radius_cached]; the table is rebuilt from the initial range
    whenever a query is outside the stored one.  [fuel] as above. *)
Definition cache := option (list (R * R)).
Definition truncation_radius_cached (spline : list (R * R) -> R -> R) (fuel : nat) (st : cache) (Ms : list R) :
    option (result (list R) * cache) :=
  let lo := list_min Ms in
  let hi := list_max Ms in
  let rebuild (_ : unit) :=
    match halve fuel tot_131 lo (/ 10 ^ 6) with
    | None => None
    | Some xmin =>
        match double fuel tot_131 hi (10 ^ 4) with
        | None => None
        | Some xmax =>
            let tab := map (fun x => (ln (tot_131 x), ln x)) (geomspace xmin xmax (n_tab xmin xmax)) in
            Some (eval_all spline tab Ms, Some tab)
        end
    end in
  match st with
  | None => rebuild tt
  | Some tab =>
      if Rltb (ln lo) (fst (hd (0, 0) tab)) || Rltb (fst (last tab (0, 0))) (ln hi) then rebuild tt
      else Some (eval_all spline tab Ms, Some tab)
  end.
(** batch_halo_util.py 289-320: [compute_r_te_and_f_t_vectorized] *)
Definition compute_rte_ft_vectorized (hyp : R -> R -> R -> R -> R) (spline : list (R * R) -> R -> R) (fuel : nat) (st : cache)
    (hs : list halo_in) : option (result (list (R * R)) * cache) :=
  match R_max 1 3 1, convert_to_reference hyp 1 3 1 with
  | Ok Rmax, Ok (y_scale, _) =>
      let mu x := M_enclosed hyp x 1 3 1 in
      let m0 h := i_mvir h / mu (i_c h) in
      let y h := i_mbound h / (m0 h * mu Rmax) in
      match mapM (fun h => f_t_Du_2024 (y h * y_scale) 1 3 1 2) hs with
      | Err e => Some (Err e, st)
      | Ok fts =>
        let Ms := map (fun hf => i_mbound (fst hf) / m0 (fst hf) / snd hf) (combine hs fts) in
        match truncation_radius_cached spline fuel st Ms with
        | None => None
        | Some (Err e, st') => Some (Err e, st')
        | Some (Ok xs, st') =>
            Some (Ok (map (fun t => (i_rvir (fst (fst t)) / i_c (fst (fst t)) * snd t, snd (fst t))) (combine (combine hs fts) xs)), st')
        end
      end
  | Err e, _ => Some (Err e, st)
  | _, Err e => Some (Err e, st)
  end.
