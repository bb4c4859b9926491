(** Vocabulary for the concentration properties, independent of the model. *)
From Verif Require Import Prelude.
Local Open Scope R_scope.

(** [v] is the bilinear interpolation, at (x, y), of the function [g], from the corners of a cell that contains (x, y) and is
    no wider than [wx] times [wy] *)
Definition bilinear_in_cell (g : R -> R -> R) (wx wy x y v : R) : Prop :=
  exists x0 x1 y0 y1 s t,
    0 <= s <= 1 /\ 0 <= t <= 1 /\ 0 < x1 - x0 <= wx /\ 0 < y1 - y0 <= wy /\
    x = (1 - s) * x0 + s * x1 /\ y = (1 - t) * y0 + t * y1 /\
    v = (1 - s) * (1 - t) * g x0 y0 + s * (1 - t) * g x1 y0 + (1 - s) * t * g x0 y1 + s * t * g x1 y1.

(** a suppression factor never enhances, never vanishes, and relaxes with mass *)
Definition suppresses (f : R -> R) : Prop :=
  (forall m, 0 < m -> 0 < f m <= 1) /\ (forall m m', 0 < m -> m <= m' -> f m <= f m').
