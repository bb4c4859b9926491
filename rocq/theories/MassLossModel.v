(** Model of the tidal mass-loss models: Halos/galacticus_truncation/interp_mass_loss.py,
    Halos/batch_halo_util.py 254-286 and the bound-mass draws of Halos/tidal_truncation.py.
    Random numbers are arguments: [g] is one standard normal draw, [v] one uniform draw in (0, 1). *)
From Verif Require Import Prelude Interp MassFnModel InfallModel MassLossTables.
Local Open Scope R_scope.

(** numpy.linspace(lo, hi, n)[i] *)
Record axis := mkAxis { ax_lo : R; ax_hi : R; ax_n : nat }.
Definition node (a : axis) (i : nat) : R := ax_lo a + INR i * ((ax_hi a - ax_lo a) / INR (ax_n a - 1)).
(** scipy RegularGridInterpolator, method "linear", bounds_error=False, fill_value=None: index of the cell used for
    [x]: numpy.searchsorted(nodes, x) - 1, limited to 0 .. n-2, so points outside use the nearest cell. *)
Fixpoint count_below (a : axis) (n : nat) (x : R) : nat :=
  match n with O => O | S k => ((if Rltb (node a k) x then 1 else 0) + count_below a k x)%nat end.
Definition cell (a : axis) (x : R) : nat := Nat.min (count_below a (ax_n a) x - 1) (ax_n a - 2).
Definition weight (a : axis) (x : R) : R :=
  (x - node a (cell a x)) / (node a (S (cell a x)) - node a (cell a x)).
(** one-dimensional linear interpolation (and extrapolation) of node values [f] *)
Definition lin (a : axis) (f : nat -> R) (x : R) : R :=
  (1 - weight a x) * f (cell a x) + weight a x * f (S (cell a x)).
(** the three-dimensional interpolator; scipy sums the 8 corners weighted by products of one-dimensional weights,
    which is this nesting *)
Definition rgi3 (a1 a2 a3 : axis) (f : nat -> nat -> nat -> R) (x1 x2 x3 : R) : R :=
  lin a1 (fun i => lin a2 (fun j => lin a3 (fun k => f i j k) x3) x2) x1.
(** np.array(table).reshape(n, n, n); tables are in thousandths (MassLossTables.v) *)
Definition entry (t : list Z) (n i j k : nat) : R := IZR (nth (i * (n * n) + j * n + k) t 0%Z) / 1000.

(** interp_mass_loss.py 81-92: axes and interpolators of InterpGalacticusZinfall *)
Definition ax_logc : axis := mkAxis (log10 2) (log10 384) 15.
Definition ax_t : axis := mkAxis 0 8.1 15.
Definition ax_host : axis := mkAxis 4 9 15.
Definition zinf_a (dz lc ch : R) : R := rgi3 ax_t ax_logc ax_host (entry a_fit_zinfall 15) dz lc ch.
Definition zinf_b (dz lc ch : R) : R := rgi3 ax_t ax_logc ax_host (entry b_fit_zinfall 15) dz lc ch.
(** interp_mass_loss.py 119-131: InterpGalacticus (same axis values) *)
Definition gal_a (t lc ch : R) : R := rgi3 ax_t ax_logc ax_host (entry a_fit 15) t lc ch.
Definition gal_b (t lc ch : R) : R := rgi3 ax_t ax_logc ax_host (entry b_fit 15) t lc ch.
(** interp_mass_loss.py 157-179: InterpGalacticusMW selects its tables by rmax *)
Definition mw_init (rmax : R) : result (list Z * list Z) :=
  if Reqb rmax 30 then Ok (a_fit_MW30, b_fit_MW30)
  else if Reqb rmax 50 then Ok (a_fit_MW50, b_fit_MW50)
  else if Reqb rmax 200 then Ok (a_fit_MW200, b_fit_MW200)
  else Err EValueError.
Definition mw_logc : axis := mkAxis (log10 2) (log10 128) 15.
Definition mw_t : axis := mkAxis 0 12.9 15.
Definition mw_host : axis := mkAxis 6 12 15.

(** interp_mass_loss.py 110-111, 149-150, 197-198: sinh((normal - a) / b), at most 0 *)
Definition su (a b g : R) : R := sinh ((g - a) / b).
Definition su_cap (a b g : R) : R := Rmin (su a b g) 0.
(** Python: x = max(lo, x); x = min(hi, x) *)
Definition clip (lo hi x : R) : R := Rmin hi (Rmax lo x).
(** interp_mass_loss.py 94-111 InterpGalacticusZinfall.__call__ *)
Definition zinfall_loss (g logc dz chost : R) : R :=
  let logc := clip (log10 2) (log10 384) logc in
  let dz := clip 0.001 9.5 dz in
  let chost := clip 4 8 chost in
  su_cap (zinf_a dz logc chost) (zinf_b dz logc chost) g.
(** interp_mass_loss.py 133-150 InterpGalacticus.__call__ *)
Definition galacticus_loss (g logc t chost : R) : R :=
  let logc := clip (log10 2) (log10 384) logc in
  let t := clip 0 8.1 t in
  let chost := clip 4 8 chost in
  su_cap (gal_a t logc chost) (gal_b t logc chost) g.
(** interp_mass_loss.py 181-198 InterpGalacticusMW.__call__, [tabs] from [mw_init] *)
Definition mw_loss (tabs : list Z * list Z) (g logc t chost : R) : R :=
  let logc := clip (log10 2) (log10 128) logc in
  let t := clip 0 12.9 t in
  let chost := clip 6 12 chost in
  su_cap (rgi3 mw_t mw_logc mw_host (entry (fst tabs) 15) t logc chost)
         (rgi3 mw_t mw_logc mw_host (entry (snd tabs) 15) t logc chost) g.
(** interp_mass_loss.py 27-39 InterpGalacticusKeeley24.__call__: Gaussian in the logarithm; the tabulated mean and scatter are arguments
    (they are evaluated without clamping) *)
Definition keeley_loss (mean scatter : R -> R -> R -> R) (g logc t chost : R) : R :=
  mean t chost logc + Rmax (scatter t chost logc) 0.001 * g.

(** batch_halo_util.py 254-286.  scipy.stats.johnsonsu.rvs(a, b) is sinh((ndtri(v) - a) / b) for a uniform draw [v]
    per halo; the class name selects the clamps. *)
Inductive loss_class := LGalacticus | LZinfall | LOther (a b : R -> R -> R -> R).
Definition batch_loss (k : loss_class) (pts : list (R * R)) (chost : R) (vs : list R) : list R :=
  let one (a b : R -> R -> R -> R) (clampc : R -> R) (clampt : R -> R) (ch : R) (p : R * R) (v : R) :=
    let lc := clampc (fst p) in
    let t := clampt (snd p) in
    Rmin (su (a t lc ch) (b t lc ch) (ndtri v)) 0 in
  match k with
  | LGalacticus => map (fun pv => one gal_a gal_b (clip (log10 2) (log10 384)) (clip 0 8.1) (clip 4 9 chost) (fst pv) (snd pv)) (combine pts vs)
  | LZinfall => map (fun pv => one zinf_a zinf_b (clip (log10 2) (log10 384)) (clip 0.001 9.5) (clip 4 8 chost) (fst pv) (snd pv)) (combine pts vs)
  | LOther a b => map (fun pv => one a b (fun x => x) (fun x => x) chost (fst pv) (snd pv)) (combine pts vs)
  end.

(** tidal_truncation.py 302-314, 410-422, 652-664 (and 222-234 with Keeley24): m_bound = m * 10^loss *)
Definition bound_mass (m loss : R) : R := m * pow10 loss.

(** tidal_truncation.py 489-505: TruncationGalacticusApproxCDM.__init__ (scale, loc) *)
Definition approx_init (z_lens : R) : result (R * R) :=
  let z := Rmax z_lens 0.2 in
  let z := Rmin z 1.2 in
  do sc <- interp1d [(0.2, 2.5); (0.5, 1.8); (0.8, 1.2); (1.2, 0.6)] z;
  do lo <- interp1d [(0.2, -4); (0.5, -1.3); (0.8, -1); (1.2, -1)] z;
  Ok (sc, lo).
(** tidal_truncation.py 507-517; scipy truncnorm.rvs(a, b, loc, scale) = loc + scale * ndtri(ndtr(a) + (ndtr(b) - ndtr(a)) * v) *)
Definition approx_fbound (scale loc v : R) : R :=
  let a := (-10 - loc) / scale in
  let b := (0 - loc) / scale in
  let log10f := loc + scale * ndtri (ndtr a + (ndtr b - ndtr a) * v) in
  pow10 log10f.
(** tidal_truncation.py 519-526 *)
Definition approx_mbound (m scale loc v : R) : R := m * approx_fbound scale loc v.
(** tidal_truncation.py 595-610: TruncationBoundMassPDF *)
Definition pdf_mbound (m mean sd g : R) : R :=
  let f := pow10 (mean + sd * g) in
  let f := if Rleb 1 f then 0.999 else f in
  f * m.
