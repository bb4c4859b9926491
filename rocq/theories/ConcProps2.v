(** C48, continued: how accurate the interpolation table of the concentration is. *)
From Verif Require Import Prelude MassFnModel MassFnProofs Interp RenderProofs ConcModel ConcSpec ConcProofs ConcProofs2 ConcProofs3 ConcProps InterpError.
Local Open Scope R_scope.
Local Open Scope list_scope.

(** * Theorem *)
(** If, around the queried mass and redshift, the second derivatives of log10 c with respect to log10 m and log10(1+z) are at most K1
    and K2, then after any history of queries the table's log10 c differs from the direct evaluation by at most
    K1 0.064^2/8 + K2 0.017^2/8: for curvatures of 0.1 this is less than 6e-5 dex, or 1.3e-4 in c, the accuracy the code states. *)
Theorem C48_accuracy : forall f h m z K1 K2, Forall good_query h -> 0 < m -> 0 <= z ->
  (forall y, Rabs (y - log10 (1 + z)) <= 0.017 ->
     curvature (fun x => log10 (f (pow10 x) (pow10 y - 1))) (log10 m - 0.064) (log10 m + 0.064) K1) ->
  curvature (fun y => log10 (f m (pow10 y - 1))) (log10 (1 + z) - 0.017) (log10 (1 + z) + 0.017) K2 ->
  Rabs (log10 (snd (eval_scalar f (run_queries f None h) m z)) - log10 (f m z)) <= K1 * 0.064 ^ 2 / 8 + K2 * 0.017 ^ 2 / 8.
Proof.
  intros f h m z K1 K2 Hh Hm Hz C1 C2. destruct (C48_interpolates f h m z Hh Hm Hz) as (x0 & x1 & y0 & y1 & s & t & S & T & DX & DY & Ex & Ey & ->).
  set (G := fun x y => log10 (f (pow10 x) (pow10 y - 1))) in *.
  assert (GE : log10 (f m z) = G (log10 m) (log10 (1 + z))). { unfold G. rewrite !pow10_log10 by lra. do 2 f_equal. ring. }
  assert (X0 : log10 m - 0.064 <= x0 /\ x1 <= log10 m + 0.064) by (rewrite Ex; split; nra).
  assert (Y0 : log10 (1 + z) - 0.017 <= y0 /\ y1 <= log10 (1 + z) + 0.017) by (rewrite Ey; split; nra).
  assert (K1p : 0 <= K1). { destruct (C1 (log10 (1 + z))) as (g' & g'' & H). { rewrite Rminus_eq_0, Rabs_R0. lra. } destruct (H (log10 m) ltac:(lra)) as (_ & _ & Q). pose proof (Rabs_pos (g'' (log10 m))). lra. }
  assert (K2p : 0 <= K2). { destruct C2 as (g' & g'' & H). destruct (H (log10 (1 + z)) ltac:(lra)) as (_ & _ & Q). pose proof (Rabs_pos (g'' (log10 (1 + z)))). lra. }
  assert (B1 : forall y, y0 <= y <= y1 -> Rabs ((1 - s) * G x0 y + s * G x1 y - G (log10 m) y) <= K1 * 0.064 ^ 2 / 8).
  { intros y Y. assert (N : Rabs (y - log10 (1 + z)) <= 0.017) by (apply Rabs_le; lra).
    destruct (C1 y N) as (g' & g'' & H). eapply Rle_trans; [rewrite Ex; apply (blend_error (fun x => G x y) x0 x1 K1 s); [lra|exact S|]|].
    - exists g', g''. intros x I. apply H. lra.
    - assert ((x1 - x0) ^ 2 <= 0.064 ^ 2) by nra. nra. }
  assert (B2 : Rabs ((1 - t) * G (log10 m) y0 + t * G (log10 m) y1 - G (log10 m) (log10 (1 + z))) <= K2 * 0.017 ^ 2 / 8).
  { destruct C2 as (g' & g'' & H). eapply Rle_trans; [rewrite Ey; apply (blend_error (fun y => G (log10 m) y) y0 y1 K2 t); [lra|exact T|]|].
    - exists g', g''. intros y I. assert (E : (fun y => G (log10 m) y) = (fun y => log10 (f m (pow10 y - 1)))) by (unfold G; now rewrite pow10_log10 by lra).
      rewrite E. apply H. lra.
    - assert ((y1 - y0) ^ 2 <= 0.017 ^ 2) by nra. nra. }
  pose proof (B1 y0 ltac:(lra)) as E0. pose proof (B1 y1 ltac:(lra)) as E1. rewrite GE.
  assert (U : forall u k, Rabs u <= k -> - k <= u <= k) by (intros u k; unfold Rabs; destruct (Rcase_abs u); lra).
  apply U in E0, E1, B2. apply Rabs_le. set (k1 := K1 * 0.064 ^ 2 / 8) in *.
  assert (- k1 <= (1 - t) * ((1 - s) * G x0 y0 + s * G x1 y0 - G (log10 m) y0) + t * ((1 - s) * G x0 y1 + s * G x1 y1 - G (log10 m) y1) <= k1); cycle 1.
  { fold (G x0 y0) (G x1 y0) (G x0 y1) (G x1 y1). clearbody G k1. clear - H B2. lra. }
  set (e0 := (1 - s) * G x0 y0 + s * G x1 y0 - G (log10 m) y0) in *. set (e1 := (1 - s) * G x0 y1 + s * G x1 y1 - G (log10 m) y1) in *. clearbody e0 e1 k1. nra.
Qed.
Example C48_accuracy_nonvacuous : exists f : R -> R -> R, (forall lo hi y, curvature (fun x => log10 (f (pow10 x) (pow10 y - 1))) lo hi 0.02) /\
  (forall lo hi m, curvature (fun y => log10 (f m (pow10 y - 1))) lo hi 0) /\ ~ (exists a b, forall m, 0 < m -> log10 (f m 0) = a + b * log10 m).
Proof.
  exists (fun m _ => pow10 (1 - 0.01 * log10 m ^ 2)). split; [|split].
  - intros lo hi y. exists (fun x => -0.02 * x), (fun _ => -0.02). intros x _. split; [|split].
    + replace (fun x => log10 (pow10 (1 - 0.01 * log10 (pow10 x) ^ 2))) with (fun x => 1 - 0.01 * (x * x)).
      2:{ apply FunctionalExtensionality.functional_extensionality. intros u. rewrite !log10_pow10. ring. }
      replace (-0.02 * x) with (0 - 0.01 * (1 * x + x * 1)) by lra.
      apply derivable_pt_lim_minus; [apply derivable_pt_lim_const|]. apply derivable_pt_lim_scal. apply (derivable_pt_lim_mult (fun t => t) (fun t => t)); apply derivable_pt_lim_id.
    + assert (D : derivable_pt_lim (fun x => -0.02 * x) x (-0.02 * 1)) by (apply derivable_pt_lim_scal, derivable_pt_lim_id). rewrite Rmult_1_r in D. exact D.
    + rewrite Rabs_left; lra.
  - intros lo hi m. exists (fun _ => 0), (fun _ => 0). intros y _. split; [apply derivable_pt_lim_const|]. split; [apply derivable_pt_lim_const|]. rewrite Rabs_R0; lra.
  - intros (a & b & H). pose proof (H (pow10 0) (pow10_pos 0)) as H0. pose proof (H (pow10 1) (pow10_pos 1)) as H1. pose proof (H (pow10 2) (pow10_pos 2)) as H2.
    rewrite !log10_pow10 in *. lra.
Qed.

Print Assumptions C48_accuracy.
