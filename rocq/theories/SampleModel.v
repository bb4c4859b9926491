(** utilities.py 11-49: class ITSampling, inverse transform sampling from a histogram of given samples.
    Random numbers are explicit: the uniform deviates that np.random.uniform returns. *)
From Verif Require Import Prelude Interp.

(** np.min, np.max: ValueError on an empty array *)
Definition np_min (l : list R) : result R := match l with [] => Err EValueError | x :: t => Ok (fold_left Rmin t x) end.
Definition np_max (l : list R) : result R := match l with [] => Err EValueError | x :: t => Ok (fold_left Rmax t x) end.

(** np.histogram(samples, range=(a, b), bins=n): an empty range is widened by one half on both sides; all bins are closed on the left
    and open on the right except the last, which is closed.  Simplification: numpy's corrections for rounding are not needed in
    exact arithmetic. *)
Definition hist_range (a b : R) : R * R := if Reqb a b then (a - 1 / 2, b + 1 / 2) else (a, b).
Definition edge (a b : R) (n i : nat) : R := a + INR i * ((b - a) / INR n).
Definition in_bin (a b : R) (n i : nat) (s : R) : bool :=
  Rleb (edge a b n i) s && (if (i =? n - 1)%nat then Rleb s (edge a b n (S i)) else Rltb s (edge a b n (S i))).
Definition count (f : R -> bool) (l : list R) : nat := List.length (filter f l).
Definition np_histogram (samples : list R) (a b : R) (n : nat) : list R * list R :=
  let (a, b) := hist_range a b in
  (map (fun i => INR (count (in_bin a b n i) samples)) (seq 0 n), map (edge a b n) (seq 0 (S n))).

(** np.cumsum *)
Fixpoint cumsum_from (acc : R) (l : list R) : list R := match l with [] => [] | x :: t => (acc + x) :: cumsum_from (acc + x) t end.
Definition np_cumsum (l : list R) : list R := cumsum_from 0 l.

(** utilities.py 14-22: the interpolation of x against the normalised cdf, and the range of the deviates *)
Record sampler := mkSampler { sp_table : list (R * R); sp_umin : R; sp_umax : R }.
Definition it_sampling (x cdf : list R) : result sampler :=
  do m <- np_max cdf;
  let cdf := map (fun c => c / m) cdf in
  Ok (mkSampler (combine cdf x) (hd 0 cdf) (last cdf 0)).

(** utilities.py 24-36 *)
Definition from_samples (samples : list R) : result sampler :=
  do a <- np_min samples;
  do b <- np_max samples;
  let (h, x) := np_histogram samples a b 150 in
  let x := map (fun e => e + (nth 1 x 0 - nth 0 x 0) / 2) (removelast x) in
  let cdf := np_cumsum h in
  do m <- np_max cdf;
  it_sampling x (map (fun c => c / m) cdf).

(** utilities.py 38-49: one value per deviate.  [us] are the numbers np.random.uniform(umin, umax, n) returned.  A single sample is
    converted to a float, which changes nothing here. *)
Definition draw (s : sampler) (us : list R) : result (list R) := mapM (interp1d (sp_table s)) us.
