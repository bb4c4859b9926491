(** Specification vocabulary for infall redshifts: the normal law and the truncated normal law, stated without the
    program's formulas. *)
From Coquelicot Require Import Coquelicot.
From Verif Require Import Prelude.
Local Open Scope R_scope.

(** probability that a normal variable of mean [mu] and standard deviation [s] lies between [a] and [b] *)
Definition normal_density (mu s x : R) : R := exp (- ((x - mu) / s) ^ 2 / 2) / (s * sqrt (2 * PI)).
Definition normal_mass (mu s a b : R) : R := RInt (normal_density mu s) a b.
(** [z] is the [v]-quantile of the normal law restricted to [0, hi] *)
Definition truncated_quantile (mu s hi v z : R) : Prop :=
  0 <= z <= hi /\ forall t, 0 <= t <= hi -> (z <= t <-> v * normal_mass mu s 0 hi <= normal_mass mu s 0 t).
(** [x] limited to the interval [lo, hi] *)
Definition limited (lo hi x y : R) : Prop :=
  (x < lo -> y = lo) /\ (lo <= x <= hi -> y = x) /\ (hi < x -> y = hi).
(** host-to-subhalo mass ratio in decades *)
Definition decades (m_host m_sub : R) : R := (ln m_host - ln m_sub) / ln 10.
(** a / (1 + b * L^c) *)
Definition fitted (a b c L : R) : R := a / (1 + b * Rpower L c).
