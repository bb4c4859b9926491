(** The numbers drawn by plotting_routines.py and by Realization.plot (single_realization.py 826-922); C113.
    The functions return what is handed to the axes; matplotlib itself is not modelled. *)
From Verif Require Import Prelude RealizationModel SampleModel.

(** the argument z_eval: None, a number, a list of two numbers, the string 'z_lens', anything else *)
Inductive zarg := ZNone | ZNum (z : R) | ZPair (a b : R) | ZLens | ZOther.

(** np.logspace(a, b, n) *)
Definition logspace (a b : R) (n i : nat) : R := Rpower 10 (a + INR i * ((b - a) / INR (n - 1))).

(** np.histogram(values, bins=edges): the edges must not decrease; the counts are the differences of the numbers of values below
    the edges, for the last edge of the values not above it. *)
Fixpoint increasing (e : list R) : bool :=
  match e with
  | a :: t => match t with b :: _ => Rleb a b && increasing t | [] => true end
  | [] => true
  end.
Definition cumulated (values e : list R) : list Z :=
  map (fun a => Z.of_nat (count (fun v => Rltb v a) values)) (removelast e) ++ [Z.of_nat (count (fun v => Rleb v (last e 0)) values)].
Fixpoint diff (l : list Z) : list Z :=
  match l with
  | a :: t => match t with b :: _ => (b - a)%Z :: diff t | [] => [] end
  | [] => []
  end.
Definition histogram_edges (values e : list R) : result (list Z) :=
  if negb (increasing e) then Err EValueError else
  match e with [] => Err EIndexError | _ => Ok (diff (cumulated values e)) end.

Section Plot.
Variable hp : heap.

(** plotting_routines.py 62-76: the masses in the histogram.  The attribute masses is a copy made when the realization was built,
    the loop reads the halos. *)
Definition mf_masses (rz : Realz) (z : zarg) : result (list R) :=
  match z with
  | ZNone => Ok (rz_masses rz)
  | ZNum z => Ok (rz_masses (fst (realization_at_z hp rz z None true)))
  | ZPair a b => Ok (map (fun r => h_mass (hp r))
      (filter (fun r => if h_sub (hp r) then false else Rleb a (h_z (hp r)) && Rltb (h_z (hp r)) b) (rz_halos rz)))
  | _ => Err EException
  end.
(** plotting_routines.py 50-82 plot_halo_mass_function: the points of the curve *)
Definition plot_halo_mass_function (rz : Realz) (z : zarg) (lo hi : R) (nbins : nat) : result (list R * list Z) :=
  do masses <- mf_masses rz z;
  let e := map (logspace lo hi nbins) (seq 0 nbins) in
  do h <- histogram_edges masses e;
  Ok (removelast e, h).

(** np.median; None is nan, with a warning, for an empty array.  [rsort] is np.sort. *)
Fixpoint rinsert (a : R) (l : list R) : list R := match l with [] => [a] | b :: t => if Rleb a b then a :: l else b :: rinsert a t end.
Definition rsort (l : list R) : list R := fold_right rinsert [] l.
Definition np_median (l : list R) : option R :=
  let s := rsort l in
  let n := List.length s in
  if (n =? 0)%nat then None else
  if Nat.even n then Some ((nth (n / 2 - 1) s 0 + nth (n / 2) s 0) / 2) else Some (nth (n / 2) s 0).
(** np.mean and np.std *)
Definition rmean (l : list R) : R := rsum l / INR (List.length l).
Definition np_std (l : list R) : option R :=
  match l with [] => None | _ => Some (sqrt (rmean (map (fun x => (x - rmean l) ^ 2) l))) end.

(** plotting_routines.py 106-136: the halos in the relation *)
Definition cm_halos (rz : Realz) (z : zarg) : result (list ref) :=
  match z with
  | ZLens => Ok (filter (fun r => h_sub (hp r)) (rz_halos rz))
  | ZNum z => Ok (filter (fun r => h_sub (hp r) && Reqb (h_z (hp r)) z) (rz_halos rz))
  | ZPair a b => Ok (filter (fun r => Rleb a (h_z (hp r)) && Rltb (h_z (hp r)) b) (rz_halos rz))
  | _ => Err EException
  end.
(** plotting_routines.py 84-158 plot_concentration_mass_relation: mass, median concentration and its scatter in each bin.
    [conc r] is the attribute c of a halo. *)
Definition plot_concentration_mass_relation (conc : ref -> R) (rz : Realz) (z : zarg) (lo hi : R) (nbins : nat) :
    result (list (R * option R * option R)) :=
  do hs <- cm_halos rz z;
  let x := logspace lo hi (nbins + 1) in
  Ok (map (fun i => let c := map conc (filter (fun r => Rleb (x i) (h_mass (hp r)) && Rltb (h_mass (hp r)) (x (S i))) hs) in
                    (x i, np_median c, np_std c)) (seq 0 nbins)).

(** plotting_routines.py 209-216: infall or bound masses of the subhalos; reading a bound mass can raise *)
Definition smf_masses (rz : Realz) (bound : bool) : result (list R) :=
  mapM (fun r => if bound then match h_bound (hp r) with Some b => Ok b | None => Err EException end else Ok (h_mass (hp r)))
    (filter (fun r => h_sub (hp r)) (rz_halos rz)).
(** plotting_routines.py 193-233 plot_subhalo_mass_functon: bin centres, medians and scatters over the bootstrap samples.
    [draws] are the index arrays np.random.randint(0, n, n) returned, one per sample; [log10] as np.log10.  Without samples the
    edges _x are unbound. *)
Definition bootstrap_row (masses : list R) (lo hi : R) (nbins : nat) (inds : list nat) : list R :=
  fst (np_histogram (map (fun i => ln (nth i masses 1) / ln 10) inds) lo hi nbins).
Definition plot_subhalo_mass_functon (rz : Realz) (lo hi : R) (bound : bool) (nbins : nat) (draws : list (list nat)) :
    result (list (R * option R * option R)) :=
  do masses <- smf_masses rz bound;
  match draws with
  | [] => Err EUnboundLocal
  | _ =>
      let h := map (bootstrap_row masses lo hi nbins) draws in
      let x := snd (np_histogram [] lo hi nbins) in
      Ok (map (fun j => let column := map (fun row => nth j row 0) h in
                        (nth (S j) x 0 - (nth 1 x 0 - nth 0 x 0) / 2, np_median column, np_std column)) (seq 0 nbins))
  end.

(** plotting_routines.py 34-40: the subhalos whose positions are drawn *)
Definition in_mass_range (lo hi : R) (r : ref) : bool := Rleb (Rpower 10 lo) (h_mass (hp r)) && Rltb (h_mass (hp r)) (Rpower 10 hi).
Definition sd_halos (rz : Realz) (lo hi : R) : list ref := filter (in_mass_range lo hi) (filter (fun r => h_sub (hp r)) (rz_halos rz)).
(** np.histogram2d on a square of half width [w] with [n] pixels per side: number of positions in pixel (i, j) *)
Definition pixel (rz : Realz) (lo hi w : R) (n i j : nat) : R :=
  INR (List.length (filter (fun r => in_bin (- w) w n i (h_x (hp r)) && in_bin (- w) w n j (h_y (hp r))) (sd_halos rz lo hi))).
(** plotting_routines.py 18-48 plot_subhalo_spatial_distribution: radii and values of the curve.  [average] is lenstronomy's
    azimuthal_average of an n by n image: the averages over rings and the ring radii in pixels. *)
Definition plot_subhalo_spatial_distribution (average : nat -> (nat -> nat -> R) -> list R * list R) (rz : Realz) (rmax lo hi : R) (n : nat) : list R * list R :=
  let '(prof, r_bin) := average n (pixel rz lo hi (rmax / sqrt 2) n) in
  let arcsec_per_pixel := rmax / INR (List.length r_bin) in
  (map (fun r => r * arcsec_per_pixel) r_bin, prof).

(** plotting_routines.py 252-258, 284-291, 313-320 (plot_subhalo_concentration_versus_bound_mass, plot_subhalo_infall_time_versus_bound_mass,
    plot_bound_mass_histogram): an attribute against the bound mass fraction *)
Definition bound_fraction_points (attr : ref -> R) (rz : Realz) (lo hi : R) : result (list (R * R)) :=
  mapM (fun r => match h_bound (hp r) with Some b => Ok (attr r, b / h_mass (hp r)) | None => Err EException end) (sd_halos rz lo hi).

(** single_realization.py 865-872 and 880-885: redshift by redshift, the points of Realization.plot.  [D] is D_C_transverse. *)
Definition plot_halos (rz : Realz) : list ref := flat_map (fun z => fst (halos_at_z hp rz z)) (rz_uniq rz).
Definition plot_points (D : R -> R) (rz : Realz) : list (R * R * R) :=
  combine (combine (map (fun r => D (h_z (hp r))) (plot_halos rz))
            (map (fun v => v / 206265) (flat_map (fun z => map (fun r => h_x (hp r) * D z) (fst (halos_at_z hp rz z))) (rz_uniq rz))))
    (map (fun v => v / 206265) (flat_map (fun z => map (fun r => h_y (hp r) * D z) (fst (halos_at_z hp rz z))) (rz_uniq rz))).
(** single_realization.py 873-878, 881: the colour index and the marker size of a halo *)
Definition plot_colour (norm m : R) : R := Rmin (Rmax 0.1 ((ln m / ln 10 - norm) / 4)) 0.9.
Definition plot_size (norm scaling m : R) : R := 24 * Rpower (m / Rpower 10 norm) scaling.
End Plot.
