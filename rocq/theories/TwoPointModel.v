(** The two-point correlation function of a convergence map, its multipoles and the power-law fit:
    realization_extensions.py 1264-1461 (corr_kappa_with_mask, xi_l, xi_l_to_Pk_l, fit_correlation_multipole) and
    utilities.py 378-400 (mask_annular).
    External: the two RectBivariateSpline interpolants (arbitrary functions of (y, x)), scipy's curve_fit and mcfit's
    Hankel transform.  scipy.integrate.simpson is written out. *)
From Verif Require Import Prelude SpaceModel.
From Coq Require Import Lra.

(** scipy.integrate.simpson(y, x) for an odd number of points, as the list of weights of the samples
    (scipy _quadrature.py _basic_simpson, non-uniform spacing) *)
Fixpoint basic_simpson (xs : list R) : list R :=
  match xs with
  | x0 :: ((x1 :: ((x2 :: _) as t2)) as t1) =>
      let h0 := x1 - x0 in
      let h1 := x2 - x1 in
      let hs := h0 + h1 in
      let w0 := hs / 6 * (2 - h1 / h0) in
      let w1 := hs / 6 * (hs * hs / (h0 * h1)) in
      let w2 := hs / 6 * (2 - h0 / h1) in
      match basic_simpson t2 with
      | v :: vs => w0 :: w1 :: (w2 + v) :: vs
      | [] => [w0; w1; w2]
      end
  | _ => map (fun _ => 0) xs
  end.

(** the correction of the last interval for an even number of points (scipy >= 1.11, Cartwright): the last three
    abscissae are a, b, c *)
Definition cartwright (a b c : R) : R * R * R :=
  let h0 := b - a in
  let h1 := c - b in
  (- (h1 * h1 * h1 / (6 * h0 * (h0 + h1))), (h1 * h1 + 3 * h0 * h1) / (6 * h0), (2 * (h1 * h1) + 3 * h0 * h1) / (6 * (h1 + h0))).

(** scipy.integrate.simpson(y, x): the weights of the samples.  The abscissae are written reversed, so that the last
    three come first. *)
Definition simpson_weights (xs : list R) : list R :=
  if Nat.even (List.length xs) then
    match rev xs with
    | c :: b :: a :: r =>
        let '(wa, wb, wc) := cartwright a b c in
        match rev (basic_simpson (rev (b :: a :: r))) with
        | vb :: va :: vs => rev (wc :: (vb + wb) :: (va + wa) :: vs)
        | _ => []
        end
    | [c; b] => [(c - b) / 2; (c - b) / 2]
    | _ => []
    end
  else basic_simpson xs.

(** sum of weights times samples *)
Fixpoint dot (ws ys : list R) : R :=
  match ws, ys with w :: ws', y :: ys' => w * y + dot ws' ys' | _, _ => 0 end.

Definition simpson (ys xs : list R) : R := dot (simpson_weights xs) ys.

(** simpson(simpson(F, x_, axis=0), y_, axis=-1) on a square grid with the same axis in both directions; F is given as a
    function of the row coordinate y and the column coordinate x *)
Definition simpson2 (axis : list R) (F : R -> R -> R) : R :=
  simpson (map (fun x => simpson (map (fun y => F y x) axis) axis) axis) axis.

(** realization_extensions.py:1302-1304: cosine and sine of arctan2(y, x); arctan2(0, 0) = 0 *)
Definition cos_phi (x y : R) : R := if Reqb (x * x + y * y) 0 then 1 else x / sqrt (x * x + y * y).
Definition sin_phi (x y : R) : R := if Reqb (x * x + y * y) 0 then 0 else y / sqrt (x * x + y * y).

(** realization_extensions.py:1321-1325: the two points sampled at the grid point (x, y), (x1, y1) and (x2, y2) *)
Definition pair_points (r mu x y : R) : (R * R) * (R * R) :=
  let ux := cos_phi x y * mu + sin_phi x y * sqrt (1 - mu ^ 2) in
  let uy := sin_phi x y * mu - cos_phi x y * sqrt (1 - mu ^ 2) in
  ((x - r / 2 * ux, y - r / 2 * uy), (x + r / 2 * ux, y + r / 2 * uy)).

(** realization_extensions.py:1347-1351: the interpolated mask is made binary in place; exactly 0.9 stays 0.9 *)
Definition binarise (m : R) : R :=
  if Rltb m (9 / 10) then 0 else if Rltb (9 / 10) m then 1 else m.

(** realization_extensions.py:1327-1333; [lo] and [hi] are the ends of the inner grid *)
Definition area (apply_mask : bool) (r_min : R) (r_max : option R) (lo hi : R) : R :=
  if apply_mask then
    match r_max with
    | None => (hi - lo) * (hi - lo) - PI * r_min ^ 2
    | Some rm => PI * (rm ^ 2 - r_min ^ 2)
    end
  else (hi - lo) * (hi - lo).

(** a floating point division: no number results from a division by zero *)
Definition fdiv (a b : R) : option R := if Reqb b 0 then None else Some (a / b).
Definition obind {A B} (m : option A) (f : A -> option B) : option B := match m with Some a => f a | None => None end.

(** realization_extensions.py:1321-1378: one entry of the table.  [kap] and [msk] are the two interpolants, called with
    the y coordinate first; None is a nan or an infinity.  The mask interpolant does not exist without a mask. *)
Definition corr_entry (kap msk : R -> R -> R) (apply_mask normalise : bool) (A : R) (axis : list R) (r mu : R) : option R :=
  let k1 := fun y x => let '(p1, _) := pair_points r mu x y in kap (snd p1) (fst p1) in
  let k2 := fun y x => let '(_, p2) := pair_points r mu x y in kap (snd p2) (fst p2) in
  let m1 := fun y x => let '(p1, _) := pair_points r mu x y in binarise (if apply_mask then msk (snd p1) (fst p1) else 1) in
  let m2 := fun y x => let '(_, p2) := pair_points r mu x y in binarise (if apply_mask then msk (snd p2) (fst p2) else 1) in
  let K1 := fun y x => k1 y x * m1 y x in
  let K2 := fun y x => k2 y x * m2 y x in
  let term_1 := simpson2 axis (fun y x => K1 y x * K2 y x) in
  let term_2_1 := simpson2 axis (fun y x => K1 y x * m2 y x) in
  let term_2_2 := simpson2 axis (fun y x => m1 y x * K2 y x) in
  let term_3 := simpson2 axis (fun y x => m1 y x * m2 y x) in
  let term_4 := simpson2 axis (fun y x => (K1 y x) ^ 2 * m2 y x) in
  let term_7 := simpson2 axis (fun y x => m1 y x * (K2 y x) ^ 2) in
  obind (fdiv (term_2_1 * term_2_2) term_3) (fun t =>
  obind (fdiv (term_1 - t) A) (fun num =>
  obind (fdiv (term_2_1 ^ 2) term_3) (fun t5 =>
  obind (fdiv (term_4 - t5) A) (fun den1 =>
  obind (fdiv (term_2_2 ^ 2) term_3) (fun t8 =>
  obind (fdiv (term_7 - t8) A) (fun den2 =>
  if normalise then
    if Rltb (den1 * den2) 0 then None else fdiv num (sqrt (den1 * den2))
  else Some num)))))).

(** Python's int() of a float *)
Definition py_int (x : R) : Z := if Rltb x 0 then (- Int_part (- x))%Z else Int_part x.

(** realization_extensions.py:1284-1300: the inner grid for a square map with [Npix] pixels a side (at least two);
    X_.max() is map_size/2 *)
Definition inner_axis (map_size : R) (Npix : nat) (r_largest : R) : result (list R) :=
  let half := map_size / 2 in
  let rmin_max := half - r_largest in
  let npix := py_int (INR Npix / half * rmin_max) in
  if (npix <? 0)%Z then Err EValueError
  else if (npix =? 0)%Z then Err EIndexError
  else Ok (np_linspace (- rmin_max) rmin_max (Z.to_nat npix)).

Definition largest (rs : list R) : result R :=
  match rs with [] => Err EValueError | r :: t => Ok (fold_right Rmax r t) end.

(** realization_extensions.py:1264-1384 corr_kappa_with_mask *)
Definition corr_kappa_with_mask (kap msk : R -> R -> R) (map_size : R) (Npix : nat) (rs mus : list R) (apply_mask : bool)
    (r_min : R) (r_max : option R) (normalise : bool) : result (list (list (option R))) :=
  do rl <- largest rs;
  do axis <- inner_axis map_size Npix rl;
  let lo := hd 0 axis in
  let hi := last axis 0 in
  Ok (map (fun r => map (fun mu => corr_entry kap msk apply_mask normalise (area apply_mask r_min r_max lo hi) axis r mu) mus) rs).

(** utilities.py:378-400 mask_annular at one pixel *)
Definition mask_annular (cx cy x y r_min : R) (r_max : option R) : R :=
  let xs := x - cx in
  let ys := y - cy in
  let rr := sqrt (xs * xs + ys * ys) in
  match r_max with
  | None => if Rleb rr r_min then 0 else 1
  | Some rm => if Rleb rm rr then 0 else if Rleb rr r_min then 0 else 1
  end.

(** scipy.special.eval_chebyt for integer order *)
Fixpoint chebyt2 (l : nat) (x : R) : R * R :=
  match l with O => (1, x) | S l' => let '(a, b) := chebyt2 l' x in (b, 2 * x * b - a) end.
Definition chebyt (l : nat) (x : R) : R := fst (chebyt2 l x).

(** realization_extensions.py:1401-1404 *)
Definition xi_prefactor (l : nat) : R := match l with O => 1 / PI | _ => 2 / PI end.

(** realization_extensions.py:1386-1410 xi_l: one row of the table; the abscissae are flipped, the samples are not *)
Definition xi_row (l : nat) (mus row : list R) : R :=
  xi_prefactor l * simpson (map (fun p => fst p * chebyt l (snd p)) (combine row mus)) (rev (map acos mus)).
Definition xi_l (l : nat) (corr : list (list R)) (mus : list R) : list R := map (xi_row l mus) corr.

(** realization_extensions.py:1426-1428: separations equal to zero are removed from both arrays *)
Definition delete_zero (r xi : list R) : list R * list R :=
  split (filter (fun p => negb (Reqb (fst p) 0)) (combine r xi)).

(** (-1j)**l as (real, imaginary) *)
Fixpoint minus_i_pow (l : nat) : R * R :=
  match l with O => (1, 0) | S l' => let '(a, b) := minus_i_pow l' in (b, - a) end.

(** realization_extensions.py:1412-1436 xi_l_to_Pk_l: [hankel l r xi] is the pair (k, transform) of mcfit's Hankel *)
Definition xi_l_to_Pk_l (hankel : nat -> list R -> list R -> list R * list R) (r xi : list R) (l : nat) : list R * list R :=
  let '(r', xi') := delete_zero r xi in
  let '(k, pk) := hankel l r' xi' in
  let pre := minus_i_pow l in
  (k, map (fun p => p * (2 * PI * fst pre)) pk).

(** realization_extensions.py:1438-1461 fit_correlation_multipole: [fit model data] is scipy's curve_fit *)
Definition fit_correlation_multipole (fit : (R -> R -> R -> R) -> list (R * R) -> R * R) (r xi : list R) (r_min r_max : R) : R * R :=
  let pivot := (r_min + r_max) / 2 in
  let data := filter (fun p => andb (Rltb r_min (fst p)) (Rltb (fst p) r_max)) (combine r xi) in
  fit (fun x As n => As * Rpower (x / pivot) n) data.
