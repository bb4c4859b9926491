(** Independent vocabulary for the two-point statistics: weighted sums over cells, masked means and covariances, plane
    geometry.  Nothing here refers to the model. *)
From Verif Require Import Prelude.

(** points of the plane *)
Definition dist2 (p q : R * R) : R := sqrt ((fst p - fst q) ^ 2 + (snd p - snd q) ^ 2).

(** a cubature is a list of cells (weight, x, y) *)
Definition total (cs : list (R * R * R)) (f : R -> R -> R) : R := rsum (map (fun c => fst (fst c) * f (snd (fst c)) (snd c)) cs).

(** value of a map at a point; maps are stored with the vertical coordinate first *)
Definition value (map_ : R -> R -> R) (p : R * R) : R := map_ (snd p) (fst p).

(** a point takes part if there is no mask or the mask there exceeds 0.9 *)
Definition counted (apply_mask : bool) (msk : R -> R -> R) (p : R * R) : bool :=
  if apply_mask then Rltb (9 / 10) (value msk p) else true.

(** weight function of the pairs of which both ends take part *)
Definition both (apply_mask : bool) (msk : R -> R -> R) (p q : R -> R -> R * R) (x y : R) : R :=
  if andb (counted apply_mask msk (p x y)) (counted apply_mask msk (q x y)) then 1 else 0.

(** mean and covariance with respect to a weight function [b] *)
Definition wmean (cs : list (R * R * R)) (b f : R -> R -> R) : R := total cs (fun x y => b x y * f x y) / total cs b.
Definition wcov (cs : list (R * R * R)) (b f g : R -> R -> R) : R :=
  total cs (fun x y => b x y * ((f x y - wmean cs b f) * (g x y - wmean cs b g))).
