(** C30: the mean over the Poisson counts of the mass in objects of one fixed mass. *)
From Verif Require Import Prelude MassFnModel MassFnSpec MassFnProps MeanMassProps.
From Coquelicot Require Import Coquelicot.
Open Scope R_scope.

Lemma rsum_repeat (m : R) n : rsum (repeat m n) = INR n * m.
Proof. induction n as [|n IH]; [cbn; ring|]. cbn [repeat rsum]. rewrite IH, S_INR. ring. Qed.
Lemma map_one (m : R) n : map (fun _ : R => 1) (repeat m n) = repeat 1 n.
Proof. induction n as [|n IH]; [reflexivity|]. cbn [repeat map]. rewrite IH. reflexivity. Qed.
Lemma delta_draw mass volume rho k : 0 < rho * volume / mass ->
  df_draw (mk_delta_fn mass volume rho true) k = Ok (repeat mass k).
Proof.
  intros H. unfold df_draw. cbn [df_poisson df_n_mean df_mass mk_delta_fn]. unfold np_poisson.
  rewrite (proj2 (Rltb_false _ 0)) by lra. rewrite (proj2 (Reqb_false _ 0)) by lra. cbn [bind].
  destruct k as [|k]; [reflexivity|]. rewrite (proj2 (Z.ltb_lt 0 _)) by lia. rewrite Nat2Z.id. reflexivity.
Qed.

(** Averaged over the Poisson counts the number of objects is n_mean and their mass is the density times the volume. *)
Theorem C30_mean_mass mass volume rho :
  0 < mass -> 0 < rho -> 0 < volume ->
  let d := mk_delta_fn mass volume rho true in
  poisson_mean (df_n_mean d) (fun k => drawn (fun _ => 1) (df_draw d k)) (df_n_mean d) /\
  poisson_mean (df_n_mean d) (fun k => drawn (fun m => m) (df_draw d k)) (rho * volume).
Proof.
  intros Hm Hr Hv d.
  assert (P : 0 < rho * volume / mass) by (apply Rdiv_lt_0_compat; [apply Rmult_lt_0_compat|]; assumption).
  change (df_n_mean d) with (rho * volume / mass). split.
  - replace (rho * volume / mass) with (rho * volume / mass * 1) at 2 by ring.
    unfold poisson_mean. eapply is_series_ext; [|apply (poisson_linear (rho * volume / mass) 1)].
    intros k. match goal with |- @eq _ ?x ?y => change (@eq R x y) end. cbv beta. apply Rmult_eq_compat_l.
    unfold d. rewrite delta_draw by exact P. cbn [drawn]. rewrite map_one, rsum_repeat. reflexivity.
  - replace (rho * volume) with (rho * volume / mass * mass) at 2 by (field; lra).
    unfold poisson_mean. eapply is_series_ext; [|apply (poisson_linear (rho * volume / mass) mass)].
    intros k. match goal with |- @eq _ ?x ?y => change (@eq R x y) end. cbv beta. apply Rmult_eq_compat_l.
    unfold d. rewrite delta_draw by exact P. cbn [drawn]. rewrite map_id, rsum_repeat. reflexivity.
Qed.

(** For a field population: the mean mass is LOS_normalization * mass fraction * dark matter density * volume, while
    the first_moment from which a sheet would be made is the mass of one object. They agree only if one object is
    expected. *)
Theorem C30_mean_from_redshift rho_dm volume los frac mass :
  0 < mass -> 0 < rho_dm -> 0 < volume -> 0 < los -> 0 < frac ->
  let d := delta_from_redshift rho_dm volume los frac mass true in
  exists mean,
    poisson_mean (df_n_mean d) (fun k => drawn (fun m => m) (df_draw d k)) mean /\
    mean = los * frac * rho_dm * volume /\
    (df_first_moment d = mean <-> df_n_mean d = 1).
Proof.
  intros Hm Hr Hv Hl Hf d. exists (los * frac * rho_dm * volume).
  assert (P : 0 < los * frac * rho_dm) by (repeat apply Rmult_lt_0_compat; assumption).
  destruct (C30_mean_mass mass volume (los * frac * rho_dm) Hm P Hv) as [_ M]. split; [exact M|]. split; [reflexivity|].
  unfold d, delta_from_redshift. cbn [df_first_moment df_n_mean mk_delta_fn]. split; intros E.
  - rewrite <- E. field. lra.
  - apply (Rmult_eq_compat_r mass) in E. unfold Rdiv in E. rewrite Rmult_assoc, Rinv_l in E by lra. lra.
Qed.
Example C30_mean_mass_nonvacuous : exists ms,
  df_draw (mk_delta_fn 2 3 4 true) 5 = Ok ms /\ List.length ms = 5%nat /\ df_n_mean (mk_delta_fn 2 3 4 true) = 6.
Proof. exists (repeat 2 5). split; [apply delta_draw; lra|]. split; [reflexivity|]. cbn. lra. Qed.

Print Assumptions C30_mean_mass.
Print Assumptions C30_mean_from_redshift.
