(** C19: where the Keeley 2024 truncation model reads its table, for every history of queries.  Model: HaloStateModel.v *)
From Verif Require Import Prelude HaloStateModel HaloStateSpec HaloStateProofs HaloFrame HaloStateLemmas HaloStateProps.
From Coq Require Import Lra.

(** ** Specification: [y] is the point of [lo, hi] nearest to [x] *)
Definition nearest_in (lo hi x y : R) : Prop := lo <= y <= hi /\ forall w, lo <= w <= hi -> Rabs (x - y) <= Rabs (x - w).

Lemma clamp_nearest lo hi x : lo <= hi -> nearest_in lo hi x (clamp lo hi x).
Proof.
  intros L. unfold nearest_in, clamp, Rmin, Rmax.
  split; [repeat destruct Rle_dec; lra|]. intros w W. unfold Rabs. repeat destruct Rle_dec; repeat destruct Rcase_abs; lra.
Qed.

Lemma keeley_fresh E H ch x y p : h_kind H = KKeeley24 ch -> h_sub H = true -> ages_ok E ->
  value (params_physical E H) (fresh x y) = Ok p ->
  let zi := e_draw_z E 0 (h_mass H) in let c := e_draw_c E 0 (h_mass H) zi in
  p_rt p = pow10 (e_tau E (clamp (log10 1) (log10 (pow10 2.7)) (log10 c))
     (clamp (-8) (-0.001) (e_loss E STrunc 0 (log10 c) (e_age E (h_z H) zi) ch))) * p_rs p /\
  value (conc E H) (fresh x y) = Ok c /\ value (time_since_infall E H) (fresh x y) = Ok (Some (e_age E (h_z H) zi)).
Proof.
  intros K S A V. destruct H as [m r3d z sub kind]. cbn in K, S. subst sub kind.
  pose proof (A z (e_draw_z E 0 m)) as A0. clear A. destruct E. cbn in A0.
  cbv -[Rmult Rplus Rdiv Rinv Rminus Ropp IZR INR pow Rpower exp ln log10 pow10 not clamp Rle_dec] in *.
  destruct (Rle_dec 0 (e_age z (e_draw_z 0%nat m))) as [L|L]; [|lra].
  cbv -[Rmult Rplus Rdiv Rinv Rminus Ropp IZR INR pow Rpower exp ln log10 pow10 not clamp Rle_dec] in *.
  destruct (e_nfw m (e_draw_c 0%nat m (e_draw_z 0%nat m)) (e_draw_z 0%nat m)) as [[a b] c] eqn:N.
  cbv -[Rmult Rplus Rdiv Rinv Rminus Ropp IZR INR pow Rpower exp ln log10 pow10 not clamp Rle_dec] in *.
  rewrite ?N in V. cbv -[Rmult Rplus Rdiv Rinv Rminus Ropp IZR INR pow Rpower exp ln log10 pow10 not clamp Rle_dec] in V.
  injection V as <-. repeat split; reflexivity.
Qed.

(** ** C19 *)
(** For a subhalo truncated with the Keeley 2024 model, after any queries, the truncation radius is the tabulated multiple of the scale
    radius, read at the point of the table's rectangle (log10 concentration in [0, 2.7], log10 bound fraction in [-8, -0.001]) nearest to
    the halo's own log10 concentration and drawn mass loss. *)
Theorem C19_keeley_table : forall E H ch x y qs p, ages_ok E -> h_kind H = KKeeley24 ch -> h_sub H = true ->
  value (params_physical E H) (reads E H qs (fresh x y)) = Ok p ->
  exists c t u v, value (conc E H) (reads E H qs (fresh x y)) = Ok c /\
    value (time_since_infall E H) (reads E H qs (fresh x y)) = Ok (Some t) /\
    p_rt p = pow10 (e_tau E u v) * p_rs p /\
    nearest_in 0 2.7 (log10 c) u /\ nearest_in (-8) (-0.001) (e_loss E STrunc 0 (log10 c) t ch) v.
Proof.
  intros E H ch x y qs p A K S V.
  destruct (C19_history_independent E H x y qs 0 A) as (_ & P & _ & _ & C & _ & _ & T & _). cbv beta in P, C, T.
  rewrite P in V. destruct (keeley_fresh E H ch x y p K S A V) as (R & C' & T').
  do 4 eexists. rewrite C, T. split; [exact C'|]. split; [exact T'|]. split; [exact R|].
  assert (L1 : log10 1 = 0) by (unfold log10; rewrite ln_1; lra).
  assert (L2 : log10 (pow10 2.7) = 2.7).
  { unfold log10, pow10, Rpower. rewrite ln_exp. field. pose proof (ln_increasing 1 10 ltac:(lra) ltac:(lra)) as I. rewrite ln_1 in I. lra. }
  rewrite L1, L2. split; apply clamp_nearest; lra.
Qed.
Definition demo_keeley : Static := mkStatic 8 50 (1 / 2) true (KKeeley24 5).
Example C19_keeley_table_nonvacuous : ages_ok demo_env /\ h_kind demo_keeley = KKeeley24 5 /\ h_sub demo_keeley = true /\
  exists p, value (params_physical demo_env demo_keeley) (reads demo_env demo_keeley [QC; QVmax] (fresh 1 2)) = Ok p.
Proof.
  split; [exact demo_ages|]. split; [reflexivity|]. split; [reflexivity|].
  destruct (C19_history_independent demo_env demo_keeley 1 2 [QC; QVmax] 0 demo_ages) as (_ & P & _). cbv beta in P. rewrite P.
  eexists. cbv -[Rmult Rplus Rdiv Rinv Rminus Ropp IZR INR pow Rpower exp ln log10 pow10 not clamp Rle_dec demo_round].
  destruct (Rle_dec 0 1) as [L|L]; [|lra]. reflexivity.
Qed.

Print Assumptions C19_keeley_table.
