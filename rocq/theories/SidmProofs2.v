(** The batch computation of evolving SIDM profiles equals the per-halo one. *)
From Verif Require Import Prelude MassFnModel NfwModel NfwProofs3 SidmModel SidmProofs.
Local Open Scope string_scope.
Local Open Scope R_scope.
Local Open Scope list_scope.

Definition argd (k : string) (o : shalo) : R := match arg k (sh_args o) with Ok v => v | Err _ => 0 end.
Definition has (k : string) (o : shalo) : Prop := exists v, arg k (sh_args o) = Ok v.
Lemma argd_ok k o : has k o -> arg k (sh_args o) = Ok (argd k o).
Proof. intros [v E]. unfold argd. rewrite E. reflexivity. Qed.
Lemma mapM_arg k l : Forall (has k) l -> mapM (fun o => arg k (sh_args o)) l = Ok (map (argd k) l).
Proof. induction 1 as [|o l H F IH]; cbn [mapM map]; [reflexivity|]. rewrite (argd_ok k o H), IH. reflexivity. Qed.

Lemma masked (f : shalo -> R) l :
  map snd (filter (fun p : bool * R => fst p) (combine (map sh_sub l) (map f l))) = map f (filter sh_sub l).
Proof. induction l as [|o l IH]; cbn; [reflexivity|]. destruct (sh_sub o); cbn; rewrite IH; reflexivity. Qed.
Lemma no_subs l : existsb (fun b => b) (map sh_sub l) = false -> filter sh_sub l = nil.
Proof.
  induction l as [|o l IH]; cbn; [reflexivity|]. destruct (sh_sub o); cbn; [discriminate|exact IH].
Qed.
Lemma scatter_spec (f g : shalo -> R) l :
  scatter (map sh_sub l) (map f (filter sh_sub l)) (map g (filter (fun o => negb (sh_sub o)) l)) = map (fun o => if sh_sub o then f o else g o) l.
Proof. induction l as [|o l IH]; cbn; [reflexivity|]. destruct (sh_sub o); cbn; rewrite IH; reflexivity. Qed.

Lemma nth_map {A} (f : A -> R) l i d : (i < List.length l)%nat -> nth i (map f l) 0 = f (nth i l d).
Proof. intros H. rewrite (nth_indep _ 0 (f d)) by (rewrite map_length; exact H). apply map_nth. Qed.
Lemma map_seq {A B} (d : A) (F : nat -> B) (G : A -> B) l :
  (forall i, (i < List.length l)%nat -> F i = G (nth i l d)) -> map F (seq 0 (List.length l)) = map G l.
Proof.
  intros H. apply nth_ext with (d := F 0%nat) (d' := G d); [rewrite !map_length, seq_length; reflexivity|].
  intros n Hn. rewrite map_length, seq_length in Hn.
  rewrite map_nth. rewrite seq_nth by exact Hn. rewrite map_nth. apply H. exact Hn.
Qed.

Definition eff (C : cosmo) (o : shalo) : R :=
  if sh_sub o then (if Rltb 10 (Rmin (sh_zinf o) 10) then 0 else co_age C (Rmin (sh_zinf o) 10) - co_age C 10)
    + argd "lambda_t" o * (if Rltb (Rmin (sh_zinf o) 10) (sh_z o) then 0 else co_age C (sh_z o) - co_age C (Rmin (sh_zinf o) 10))
  else if Rltb 10 (sh_z o) then 0 else co_age C (sh_z o) - co_age C 10.
Lemma eff_scalar C o : (sh_sub o = true -> has "lambda_t" o) -> halo_effective_age C o = Ok (eff C o).
Proof.
  intros H. unfold halo_effective_age, eff. destruct (sh_sub o); [|reflexivity]. rewrite (argd_ok _ o (H eq_refl)). cbn [bind].
  unfold sidm_halo_effective_age, halo_age.
  replace (if Rltb 10 (sh_zinf o) then 10 else sh_zinf o) with (Rmin (sh_zinf o) 10); [reflexivity|].
  destruct (Rltb 10 (sh_zinf o)) eqn:B; [apply Rltb_true in B; apply Rmin_right; lra|apply Rltb_false in B; apply Rmin_left; lra].
Qed.

Definition rs0_of (C : cosmo) (o : shalo) : R := snd (fst (triple C (sh_mass o, sh_c o, sh_zeval o, true))).
Definition ev (C : cosmo) (o : shalo) : R * R := evolve_profile (eff C o / argd "sidm_timescale" o) (rs0_of C o).
Definition args_of (C : cosmo) (P : tnfwc) (zs : R) (o : shalo) : R * R * R * R * R :=
  (argd "mass_conservation" o /
     unit_mass C P zs (sh_z o) (rs0_of C o) (fst (ev C o) / co_kpc C (sh_z o)) (snd (ev C o) / co_kpc C (sh_z o))
       (argd "rt_kpc" o / co_kpc C (sh_z o)) (logspace (- 4) (log10 (sh_c o)) 250),
   fst (ev C o), snd (ev C o), argd "rt_kpc" o, sh_c o * rs0_of C o).

Lemma args_scalar C P zs o : has "rt_kpc" o -> has "sidm_timescale" o -> has "mass_conservation" o ->
  (sh_sub o = true -> has "lambda_t" o) -> profile_args_evolving C P zs o = Ok (args_of C P zs o).
Proof.
  intros H1 H2 H3 H4. unfold profile_args_evolving, t_over_tc. rewrite (argd_ok _ o H1). cbn [bind].
  pose proof (triple_scalar C (sh_mass o, sh_c o, sh_zeval o, true)) as T. unfold q_m, q_c, q_z, q_p in T. cbn [fst snd] in T. rewrite T. cbn [bind].
  rewrite (eff_scalar C o H4). cbn [bind]. rewrite (argd_ok _ o H2). cbn [bind]. rewrite (argd_ok _ o H3). reflexivity.
Qed.

Lemma vec_nfw C l : nfw_params_physical_vectorized C (map sh_mass l) (map sh_c l) (map sh_zeval l) (map (fun _ => true) l) =
  let q o := triple C (sh_mass o, sh_c o, sh_zeval o, true) in
  (map (fun o => fst (fst (q o))) l, map (fun o => snd (fst (q o))) l, map (fun o => snd (q o)) l).
Proof.
  pose proof (vectorised C (map (fun o => (sh_mass o, sh_c o, sh_zeval o, true)) l)) as V. rewrite !map_map in V.
  unfold q_m, q_c, q_z, q_p in V. cbn [fst snd] in V. exact V.
Qed.

Theorem precompute_spec C P zs l : Forall (has "rt_kpc") l -> Forall (has "sidm_timescale") l -> Forall (has "mass_conservation") l ->
  (existsb (fun b => b) (map sh_sub l) = true -> Forall (has "lambda_t") l) ->
  precompute_sidm C P zs l = Ok (map (fun o => (eff C o, args_of C P zs o)) l).
Proof.
  intros H1 H2 H3 H4. unfold precompute_sidm. destruct (List.length l =? 0)%nat eqn:N.
  { apply Nat.eqb_eq in N. destruct l; [reflexivity|discriminate]. }
  rewrite (mapM_arg _ _ H1), (mapM_arg _ _ H2), (mapM_arg _ _ H3). cbn [bind].
  set (LA := if existsb (fun b => b) (map sh_sub l) then _ else _).
  assert (EL : exists la, LA = Ok la /\ map snd (filter (fun p : bool * R => fst p) (combine (map sh_sub l) la)) = map (argd "lambda_t") (filter sh_sub l)).
  { unfold LA. destruct (existsb (fun b => b) (map sh_sub l)) eqn:X.
    - rewrite (mapM_arg _ _ (H4 eq_refl)). eexists. split; [reflexivity|]. apply masked.
    - exists nil. split; [reflexivity|]. rewrite (no_subs l X). destruct (map sh_sub l); reflexivity. }
  destruct EL as (la & EL & EM). rewrite EL. cbn [bind]. rewrite EM. clear LA EL EM la.
  rewrite !map_map, !zip_with_map.
  pose proof (scatter_spec
    (fun o => (if Rltb 10 (Rmin (sh_zinf o) 10) then 0 else co_age C (Rmin (sh_zinf o) 10) - co_age C 10)
    + argd "lambda_t" o * (if Rltb (Rmin (sh_zinf o) 10) (sh_z o) then 0 else co_age C (sh_z o) - co_age C (Rmin (sh_zinf o) 10)))
    (fun o => if Rltb 10 (sh_z o) then 0 else co_age C (sh_z o) - co_age C 10) l) as S.
  rewrite S. clear S. change (fun o => if sh_sub o then _ else _) with (eff C).
  rewrite vec_nfw. cbv zeta. cbn [fst snd].
  rewrite !zip_with_map. change (fun a => snd (fst (triple C (sh_mass a, sh_c a, sh_zeval a, true)))) with (rs0_of C).
  pose proof (evolve_vectorized_spec (map (fun o => (eff C o / argd "sidm_timescale" o, rs0_of C o)) l)) as V. rewrite !map_map in V. cbn [fst snd] in V.
  change (fun x => rs0_of C x) with (rs0_of C) in V. rewrite V. clear V. cbn [fst snd].
  change (fun x => fst (evolve_profile (eff C x / argd "sidm_timescale" x) (rs0_of C x))) with (fun x => fst (ev C x)).
  change (fun x => snd (evolve_profile (eff C x / argd "sidm_timescale" x) (rs0_of C x))) with (fun x => snd (ev C x)).
  rewrite !zip_with_map. f_equal.
  destruct l as [|d t]; [discriminate|]. set (l := d :: t) in *.
  apply (map_seq d). intros i Hi. rewrite !(nth_map _ l i d) by exact Hi. unfold args_of.
  set (o := nth i l d).
  assert (EA : nth i (zip_with Rdiv (map (argd "mass_conservation") l)
     (map (fun i0 => trapezoid (map (fun ri => (ri, 4 * PI * ri ^ 2 * (nth i0 (map (fun a => c_light ^ 2 / (4 * PI * Grav) * co_DAz C zs / (co_DA C (sh_z a) zs * co_DAz C (sh_z a)) * / 10 ^ 6 / co_kpc C (sh_z a)) l) 0 *
        tc_density P (ri / nth i0 (map (fun a => co_kpc C (sh_z a)) l) 0) (nth i0 (map (fun a => fst (ev C a) / co_kpc C (sh_z a)) l) 0)
         (nth i0 (map (fun a => tc_alpha2rho0 P 1 (fst (ev C a) / co_kpc C (sh_z a)) (snd (ev C a) / co_kpc C (sh_z a)) (argd "rt_kpc" a / co_kpc C (sh_z a))) l) 0)
         (nth i0 (map (fun a => snd (ev C a) / co_kpc C (sh_z a)) l) 0) (nth i0 (map (fun a => argd "rt_kpc" a / co_kpc C (sh_z a)) l) 0))))
         (map (fun xi => xi * nth i0 (map (rs0_of C) l) 0) (logspace (- 4) (log10 (nth i0 (map sh_c l) 0)) 250)))) (seq 0 (List.length l)))) 0
    = argd "mass_conservation" o / unit_mass C P zs (sh_z o) (rs0_of C o) (fst (ev C o) / co_kpc C (sh_z o)) (snd (ev C o) / co_kpc C (sh_z o))
       (argd "rt_kpc" o / co_kpc C (sh_z o)) (logspace (- 4) (log10 (sh_c o)) 250)).
  { erewrite (map_seq d).
    2:{ intros j Hj. rewrite !(nth_map _ l j d) by exact Hj.
        instantiate (1 := fun a => unit_mass C P zs (sh_z a) (rs0_of C a) (fst (ev C a) / co_kpc C (sh_z a)) (snd (ev C a) / co_kpc C (sh_z a))
          (argd "rt_kpc" a / co_kpc C (sh_z a)) (logspace (- 4) (log10 (sh_c a)) 250)). cbv beta.
        unfold unit_mass. apply trapezoid_ext. intros r _. unfold density_profile, density_lens, get_sigma_crit_lensing. cbv zeta.
        set (a := nth j l d). unfold Rdiv. rewrite !Rinv_mult. ring. }
    rewrite zip_with_map, (nth_map _ l i d) by exact Hi. reflexivity. }
  apply f_equal2; [reflexivity|]. apply f_equal2; [|reflexivity]. apply f_equal2; [|reflexivity]. apply f_equal2; [|reflexivity]. apply f_equal2; [|reflexivity].
  exact EA.
Qed.
