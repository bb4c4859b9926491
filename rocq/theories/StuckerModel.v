(** Model of Rendering/MassFunctions/stucker.py: from the logarithmic slope of the transfer function at the half-mode scale to the
    parameters a, b, c of the suppressed mass function.  beta_from_slope (4-15), _supp_mscale (54-66) and the last line of
    stucker_suppression_params (37) are in MassFnModel.v. *)
From Verif Require Import Prelude MassFnModel.
Local Open Scope R_scope.

(** stucker.py 46-49: the residuals handed to scipy.optimize.root, for par = (log10 a, b, c); [None] when _supp_mscale answers nan *)
Definition equations (m20 m50 m80 : R) (par : R * R * R) : option (R * R * R) :=
  let '(la, b, c) := par in
  let res := fun frac m => match supp_mscale (pow10 la) b c frac with Some M => Some (Rabs (log10 M - log10 m) / 0.01) | None => None end in
  match res 0.2 m20, res 0.5 m50, res 0.8 m80 with
  | Some r1, Some r2, Some r3 => Some (r1, r2, r3)
  | _, _, _ => None
  end.
(** stucker.py 40-52; [root f p0] is the point res.x at which scipy.optimize.root(f, p0, method="lm") stops.  The code does not look at
    whether it converged. *)
Definition mscales_to_abc (root : (R * R * R -> option (R * R * R)) -> R * R * R -> R * R * R) (m20 m50 m80 : R) : R * R * R :=
  let '(la, b, c) := root (equations m20 m50 m80) (log10 m50, 2, -1) in (pow10 la, b, c).
(** stucker.py 33-35: the three mass scales in units of the half-mode mass *)
Definition mass_scales (beta : R) : R * R * R :=
  (0.2651 * Rpower beta 0.3656, 1.638 * Rpower beta (-0.0994), 16.51 * Rpower beta (-0.9466)).
(** stucker.py 17-38: whether a warning is printed, and a, b, c; [None] when the scales are not positive finite numbers (a fractional
    power of a negative number is nan in numpy, a negative power of zero is inf) *)
Definition stucker_suppression_params (root : (R * R * R -> option (R * R * R)) -> R * R * R -> R * R * R) (dlogT gamma : R) : bool * option (R * R * R) :=
  let beta := beta_from_slope dlogT gamma in
  let warn := orb (Rltb 6 beta) (Rltb beta 1.5) in
  if Rleb beta 0 then (warn, None) else
  let '(m20, m50, m80) := mass_scales beta in
  let '(a_stucker, b, c) := mscales_to_abc root m20 m50 m80 in
  (warn, Some (stucker_a a_stucker b, b, c)).
