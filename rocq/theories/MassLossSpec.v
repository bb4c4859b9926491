(** Specification vocabulary for tidal mass loss. *)
From Coquelicot Require Import Coquelicot.
From Verif Require Import Prelude InfallSpec.
Local Open Scope R_scope.

(** [y] follows Johnson's SU law with parameters [a], [b] when [a + b arcsinh y] is standard normal; here [g] is the
    value of that normal variable *)
Definition johnson_su (a b g y : R) : Prop := g = a + b * arcsinh y.
(** Johnson's SU law limited from above at 0, seen from the underlying normal variable *)
Definition capped_johnson_su (a b g y : R) : Prop := (g < a -> y < 0 /\ johnson_su a b g y) /\ (a <= g -> y = 0).
(** all entries of a table (in thousandths) lie between [lo] and [hi] *)
Definition table_within (t : list Z) (lo hi : R) : Prop := Forall (fun z => lo <= IZR z / 1000 <= hi) t.
(** evenly spaced grid *)
Definition evenly (lo hi : R) (n i : nat) : R := lo + (hi - lo) * (INR i / INR (n - 1)).
(** [z] is the [v]-quantile of the normal law restricted to [lo, hi] *)
Definition quantile_between (mu s lo hi v z : R) : Prop :=
  lo <= z <= hi /\ forall t, lo <= t <= hi -> (z <= t <-> v * normal_mass mu s lo hi <= normal_mass mu s lo t).
