(** The error of linear interpolation between two nodes. *)
From Verif Require Import Prelude.
Local Open Scope R_scope.

(** * Specification *)
(** on [lo, hi] the function has a second derivative, at most [K] in size *)
Definition curvature (g : R -> R) (lo hi K : R) : Prop := exists g' g'' : R -> R, forall x, lo <= x <= hi ->
  derivable_pt_lim g x (g' x) /\ derivable_pt_lim g' x (g'' x) /\ Rabs (g'' x) <= K.

(** * Proofs *)
(** the error of linear interpolation: two applications of the mean value theorem *)
Lemma linear_error g a b K x : a < b -> a < x < b -> curvature g a b K ->
  Rabs ((b - x) / (b - a) * g a + (x - a) / (b - a) * g b - g x) <= K * (b - a) ^ 2 / 8.
Proof.
  intros AB X (g' & g'' & H).
  set (sl := (g b - g a) / (b - a)). set (L := fun t => g a + sl * (t - a)).
  set (c := (g x - L x) / ((x - a) * (x - b))).
  set (h := fun t => g t - (g a + sl * (t - a)) - c * ((t - a) * (t - b))).
  set (h' := fun t => g' t - sl - c * (2 * t - a - b)).
  assert (Dh : forall t, a <= t <= b -> derivable_pt_lim h t (h' t)).
  { intros t T. destruct (H t T) as (D & _). unfold h, h'.
    replace (g' t - sl - c * (2 * t - a - b)) with (g' t - (0 + sl * (1 - 0)) - c * ((1 - 0) * (t - b) + (t - a) * (1 - 0))) by ring.
    apply derivable_pt_lim_minus; [apply derivable_pt_lim_minus; [exact D|]|].
    - apply derivable_pt_lim_plus; [apply derivable_pt_lim_const|]. apply derivable_pt_lim_scal. apply derivable_pt_lim_minus; [apply derivable_pt_lim_id|apply derivable_pt_lim_const].
    - apply derivable_pt_lim_scal. apply (derivable_pt_lim_mult (fun t => t - a) (fun t => t - b)); (apply derivable_pt_lim_minus; [apply derivable_pt_lim_id|apply derivable_pt_lim_const]). }
  assert (Dh' : forall t, a <= t <= b -> derivable_pt_lim h' t (g'' t - 2 * c)).
  { intros t T. destruct (H t T) as (_ & D & _). unfold h'.
    replace (g'' t - 2 * c) with (g'' t - 0 - c * (2 * 1 - 0 - 0)) by ring.
    apply derivable_pt_lim_minus; [apply derivable_pt_lim_minus; [exact D|apply derivable_pt_lim_const]|].
    apply derivable_pt_lim_scal. apply derivable_pt_lim_minus; [apply derivable_pt_lim_minus|apply derivable_pt_lim_const].
    - apply derivable_pt_lim_scal, derivable_pt_lim_id.
    - apply derivable_pt_lim_const. }
  assert (Ha : h a = 0) by (unfold h; ring).
  assert (Hb : h b = 0) by (unfold h, sl; field; lra).
  assert (Hx : h x = 0) by (unfold h, c, L; field; lra).
  destruct (MVT_cor2 h h' a x ltac:(lra)) as (u & Eu & Iu). { intros t T; apply Dh; lra. }
  destruct (MVT_cor2 h h' x b ltac:(lra)) as (v & Ev & Iv). { intros t T; apply Dh; lra. }
  assert (Hu : h' u = 0) by (rewrite Ha, Hx in Eu; apply Rmult_eq_reg_r with (x - a); lra).
  assert (Hv : h' v = 0) by (rewrite Hb, Hx in Ev; apply Rmult_eq_reg_r with (b - x); lra).
  destruct (MVT_cor2 h' (fun t => g'' t - 2 * c) u v ltac:(lra)) as (w & Ew & Iw). { intros t T; apply Dh'; lra. }
  assert (Hw : g'' w = 2 * c). { rewrite Hu, Hv in Ew. assert (g'' w - 2 * c = 0) by (apply Rmult_eq_reg_r with (v - u); lra). lra. }
  destruct (H w ltac:(lra)) as (_ & _ & KW). rewrite Hw in KW.
  replace ((b - x) / (b - a) * g a + (x - a) / (b - a) * g b - g x) with (c * ((x - a) * (b - x))).
  2:{ unfold c, L, sl. field. lra. }
  assert (P : 0 <= (x - a) * (b - x) <= (b - a) ^ 2 / 4). { split; [nra|]. pose proof (pow2_ge_0 (2 * x - a - b)). nra. }
  rewrite Rabs_mult, (Rabs_right ((x - a) * (b - x))) by lra.
  assert (C2 : Rabs c <= K / 2) by (rewrite Rabs_mult, (Rabs_right 2) in KW by lra; lra). pose proof (Rabs_pos c). nra.
Qed.
Lemma blend_error g a b K s : a < b -> 0 <= s <= 1 -> curvature g a b K ->
  Rabs ((1 - s) * g a + s * g b - g ((1 - s) * a + s * b)) <= K * (b - a) ^ 2 / 8.
Proof.
  intros AB S C. assert (K0 : 0 <= K) by (destruct C as (g' & g'' & H); destruct (H a ltac:(lra)) as (_ & _ & Q); pose proof (Rabs_pos (g'' a)); lra).
  assert (P2 : 0 <= K * (b - a) ^ 2 / 8) by (pose proof (pow2_ge_0 (b - a)); nra).
  destruct (Req_dec s 0) as [->|S0]. { replace ((1 - 0) * g a + 0 * g b - g ((1 - 0) * a + 0 * b)) with 0; [rewrite Rabs_R0; exact P2|]. replace ((1 - 0) * a + 0 * b) with a by ring. ring. }
  destruct (Req_dec s 1) as [->|S1]. { replace ((1 - 1) * g a + 1 * g b - g ((1 - 1) * a + 1 * b)) with 0; [rewrite Rabs_R0; exact P2|]. replace ((1 - 1) * a + 1 * b) with b by ring. ring. }
  pose proof (linear_error g a b K ((1 - s) * a + s * b) AB ltac:(split; nra) C) as E.
  replace ((b - ((1 - s) * a + s * b)) / (b - a)) with (1 - s) in E by (field; lra).
  replace (((1 - s) * a + s * b - a) / (b - a)) with s in E by (field; lra). exact E.
Qed.
