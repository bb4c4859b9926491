(** C118: halos described by an emulator's catalogue. *)
From Coq Require Import Lra Lia.
From Verif Require Import Prelude MassFnModel MassFnProofs MassLossModel TnfwModel TnfwSpec TauModel TauProofs TauProps NfwModel NfwSpec NfwProofs NfwProps GalaxyModel GcoreProps EmuHaloModel.
Local Open Scope R_scope.
Local Open Scope list_scope.

(** * Specification *)
(** a catalogue entry of a lens system: positive masses and concentration, redshift after the observer *)
Definition entry_ok (h : emu) : Prop := 0 < eh_mass h /\ 0 < eh_final h /\ 1 <= eh_conc h <= 200 /\ 0 < eh_z h.
(** [t] scale radii is the truncation radius the table gives for the bound fraction of the entry *)
Definition table_ratio (h : emu) (t : R) : Prop := t = pow10 (tau_mf_interpolator (eh_conc h) (log10 (eh_final h / eh_mass h))).
(** product of the rescalings that take effect: forced ones, and unforced ones until one was logged *)
Fixpoint applied (once : bool) (l : list emu_op) : R :=
  match l with
  | [] => 1
  | URescale f force log :: t => if force || negb once then f * applied (once || log) t else applied once t
  | _ :: t => applied once t
  end.

(** the bound mass the user stated last, if any *)
Fixpoint stated (b : option R) (l : list emu_op) : option R :=
  match l with [] => b | USetBound v :: t => stated (Some v) t | _ :: t => stated b t end.

(** * Proofs *)
Section Emu.
  Variables (C : cosmo) (zs : R) (h : emu).
  Hypothesis (EX : expanding C) (AU : angle_units C (eh_z h)) (PD : 0 < co_DAz C (eh_z h)) (OK : entry_ok h).

  Definition v_phys : R * R * R := match NFW_params_physical C (eh_mass h) (eh_conc h) (eh_z h) (Some false) with Ok v => v | Err _ => (0, 0, 0) end.
  Definition v_ang : R * R := match nfw_physical2angle C zs (eh_mass h) (eh_conc h) (eh_z h) false with Ok v => v | Err _ => (0, 0) end.
  Let v_args : R * R := (eh_conc h, emulator_radius (eh_conc h) (emu_fraction h) (fst v_ang) (co_kpc C (eh_z h))).
  Let v_par : emu_phys := mkEmuPhys (fst (fst v_phys)) (snd (fst v_phys)) (snd v_phys) (snd v_args).
  Let v_lens (n : R) : emu_lens := mkEmuLens (n * np_round_to 10 (snd v_ang)) (np_round_to 10 (fst v_ang)) (np_round_to 4 (emu_x C h)) (np_round_to 4 (emu_y C h)) (snd v_args / co_kpc C (eh_z h)).

  Definition consistent (s : emu_state) : Prop :=
    (forall v, eo_args s = Some v -> v = v_args) /\ (forall v, eo_phys s = Some v -> v = v_par) /\ (forall v, eo_lens s = Some v -> v = v_lens (eo_norm s)).

  Lemma phys_ok : NFW_params_physical C (eh_mass h) (eh_conc h) (eh_z h) (Some false) = Ok v_phys.
  Proof. reflexivity. Qed.
  Lemma ang_ok : nfw_physical2angle C zs (eh_mass h) (eh_conc h) (eh_z h) false = Ok v_ang.
  Proof. reflexivity. Qed.
  Lemma args_read s : consistent s -> exists s', emu_profile_args C zs h s = Ok (s', v_args) /\ consistent s' /\ eo_norm s' = eo_norm s /\ eo_once s' = eo_once s /\ eo_phys s' = eo_phys s /\ eo_lens s' = eo_lens s /\ eo_bound s' = eo_bound s.
  Proof.
    intros K. pose proof K as (A & P & L). unfold emu_profile_args, emu_c. destruct (eo_args s) as [v|] eqn:E.
    - exists s. rewrite (A v eq_refl). split; [reflexivity|]. split; [exact K|auto].
    - eexists. split; [reflexivity|]. split; [|repeat split].
      repeat split; cbn; auto; try discriminate. intros v [= <-]. reflexivity.
  Qed.
  Lemma phys_read s : consistent s -> exists s', emu_params_physical C zs h s = Ok (s', v_par) /\ consistent s' /\ eo_norm s' = eo_norm s /\ eo_once s' = eo_once s /\ eo_bound s' = eo_bound s.
  Proof.
    intros K. unfold emu_params_physical. destruct (eo_phys s) as [v|] eqn:E.
    - exists s. pose proof K as (A & P & L). rewrite (P v E). split; [reflexivity|]. split; [exact K|auto].
    - destruct (args_read s K) as (s1 & -> & (A & P & L) & N & O & P' & L' & B'). cbn [bind]. 
      eexists. split; [reflexivity|]. split; [|split; [exact N|split; [exact O|exact B']]]. repeat split; cbn; auto. intros v [= <-]. reflexivity.
  Qed.
  Lemma lens_read s : consistent s -> exists s', emu_lenstronomy_params C zs h s = Ok (s', v_lens (eo_norm s)) /\ consistent s' /\ eo_norm s' = eo_norm s /\ eo_once s' = eo_once s /\ eo_bound s' = eo_bound s.
  Proof.
    intros K. unfold emu_lenstronomy_params. destruct (eo_lens s) as [v|] eqn:E.
    - exists s. pose proof K as (A & P & L). rewrite (L v E). split; [reflexivity|]. split; [exact K|auto].
    - destruct (args_read s K) as (s1 & -> & (A & P & L) & N & O & P' & L' & B'). cbn [bind]. rewrite N.
      eexists. split; [reflexivity|]. split; [|split; [reflexivity|split; [exact O|exact B']]]. repeat split; cbn; auto. intros v [= <-]. reflexivity.
  Qed.
  Lemma consistent_run l : forall s, consistent s -> exists s', emu_run C zs h s l = Ok s' /\ consistent s' /\ eo_norm s' = eo_norm s * applied (eo_once s) l /\ eo_bound s' = stated (eo_bound s) l.
  Proof.
    induction l as [|o l IH]; intros s K; cbn [emu_run applied stated].
    - exists s. repeat split; try apply K. ring.
    - destruct o as [| | |f force log|b]; cbn [emu_step].
      + destruct (args_read s K) as (s1 & -> & K1 & N & O & _ & _ & B). cbn [bind fst]. destruct (IH s1 K1) as (s2 & E & K2 & N2 & B2). exists s2. rewrite N2, N, O, B2, B. auto.
      + destruct (phys_read s K) as (s1 & -> & K1 & N & O & B). cbn [bind fst]. destruct (IH s1 K1) as (s2 & E & K2 & N2 & B2). exists s2. rewrite N2, N, O, B2, B. auto.
      + destruct (lens_read s K) as (s1 & -> & K1 & N & O & B). cbn [bind fst]. destruct (IH s1 K1) as (s2 & E & K2 & N2 & B2). exists s2. rewrite N2, N, O, B2, B. auto.
      + cbn [bind]. unfold emu_rescale. destruct (force || negb (eo_once s)) eqn:B.
        * destruct (IH (mkEmuState (eo_norm s * f) (if log then true else eo_once s) (eo_args s) None None (eo_bound s))) as (s2 & E & K2 & N2 & B2).
          { destruct K as (A & P & L). repeat split; cbn; auto; discriminate. }
          exists s2. split; [exact E|]. split; [exact K2|]. split; [|exact B2]. rewrite N2. cbn [eo_norm eo_once].
          replace (if log then true else eo_once s) with (eo_once s || log)%bool by (destruct log, (eo_once s); reflexivity). ring.
        * apply IH, K.
      + cbn [bind]. apply (IH (emu_set_bound_mass s b)). exact K.
  Qed.
  (** Rs_angle in arcsec is the scale radius of the physical parameters *)
  Lemma angle_is_radius : fst v_ang * co_kpc C (eh_z h) = snd (fst v_phys).
  Proof.
    unfold v_ang, v_phys, NFW_params_physical, nfw_physical2angle, nfwParam_physical. cbn [bind fst snd]. unfold nfw_physical2angle_fromNFWparams. cbn [fst].
    rewrite AU. assert (0 < arcsec) by (unfold arcsec; pose proof PI_RGT_0; lra). destruct OK as (_ & _ & Hc & _). field. repeat split; apply Rgt_not_eq; try assumption; try lra; apply EX.
  Qed.
End Emu.

(** * Theorems *)
(** However the halo of a catalogue entry was read and rescaled before, it is the NFW halo of its infall mass and concentration at its
    redshift, cut at the tabulated number of scale radii; the lens model has the same scale and truncation radius in arcsec, up to the
    rounding of the scale radius, sits at the position given in kpc, and only its normalisation is rescaled. *)
Theorem C118_described : forall C zs h ops, expanding C -> angle_units C (eh_z h) -> 0 < co_DAz C (eh_z h) -> entry_ok h ->
  exists s0 s rhos rs r200 t theta, emu_init h = Ok s0 /\ emu_run C zs h s0 ops = Ok s /\
    describes_halo false (eh_mass h) (eh_conc h) (critical_kpc C (eh_z h)) rhos rs r200 /\ table_ratio h t /\
    nfw_physical2angle C zs (eh_mass h) (eh_conc h) (eh_z h) false = Ok (rs / co_kpc C (eh_z h), theta) /\
    (exists s', emu_profile_args C zs h s = Ok (s', (eh_conc h, t * rs))) /\
    (exists s', emu_params_physical C zs h s = Ok (s', mkEmuPhys rhos rs r200 (t * rs))) /\
    (exists s', emu_lenstronomy_params C zs h s = Ok (s', mkEmuLens (applied false ops * np_round_to 10 theta) (np_round_to 10 (rs / co_kpc C (eh_z h)))
       (np_round_to 4 (eh_x h / co_kpc C (eh_z h))) (np_round_to 4 (eh_y h / co_kpc C (eh_z h))) (t * rs / co_kpc C (eh_z h)))).
Proof.
  intros C zs h ops EX AU PD OK. pose proof OK as (Pm & Pf & Hc & Pz).
  assert (K0 : consistent C zs h (mkEmuState 1 false None None None None)) by (repeat split; cbn; discriminate).
  destruct (consistent_run C zs h ops _ K0) as (s & ER & K & N & _). cbn [eo_norm eo_once] in N. rewrite Rmult_1_l in N.
  destruct (C55_nfw_parameters C (eh_mass h) (eh_conc h) (eh_z h) false EX (Rlt_le _ _ Pz) Pm ltac:(lra)) as (rhos & rs & r200 & E & _ & D).
  assert (PO : v_phys C h = (rhos, rs, r200)) by (unfold v_phys; rewrite E; reflexivity).
  pose proof (angle_is_radius C zs h EX AU PD OK) as AR. rewrite PO in AR. cbn [fst snd] in AR.
  assert (PA : 0 < arcsec) by (unfold arcsec; pose proof PI_RGT_0; lra).
  assert (PK : 0 < co_kpc C (eh_z h)) by (rewrite AU; apply Rmult_lt_0_compat; [apply Rmult_lt_0_compat; assumption|lra]).
  set (t := pow10 (tau_mf_interpolator (eh_conc h) (log10 (eh_final h / eh_mass h)))).
  assert (AG : emulator_radius (eh_conc h) (emu_fraction h) (fst (v_ang C zs h)) (co_kpc C (eh_z h)) = t * rs).
  { unfold emulator_radius, emu_fraction. fold t. rewrite <- AR. ring. }
  exists (mkEmuState 1 false None None None None), s, rhos, rs, r200, t, (snd (v_ang C zs h)).
  split; [unfold emu_init; rewrite (proj2 (Rltb_true _ _) Pz); reflexivity|]. split; [exact ER|]. split; [exact D|]. split; [reflexivity|].
  assert (FA : fst (v_ang C zs h) = rs / co_kpc C (eh_z h)) by (rewrite <- AR; field; lra).
  split; [rewrite <- FA, <- surjective_pairing; apply ang_ok|]. split; [|split].
  - destruct (args_read C zs h s K) as (s' & E' & _). exists s'. rewrite E', AG. reflexivity.
  - destruct (phys_read C zs h s K) as (s' & E' & _). exists s'. rewrite E'. cbn [snd]. rewrite AG, PO. reflexivity.
  - destruct (lens_read C zs h s K) as (s' & E' & _). exists s'. rewrite E'. cbn [snd]. rewrite AG, N.
    rewrite FA. reflexivity.
Qed.

(** The truncation depends on the two masses through their ratio only and grows with the final mass. *)
Theorem C118_ratio : forall h h' t t', entry_ok h -> entry_ok h' -> eh_conc h' = eh_conc h -> table_ratio h t -> table_ratio h' t' ->
  eh_final h / eh_mass h <= eh_final h' / eh_mass h' -> 0 < t <= t'.
Proof.
  intros h h' t t' (Pm & Pf & Hc & _) (Pm' & Pf' & _) Ec -> -> L. split; [apply pow10_pos|]. rewrite Ec. apply pow10_le'.
  apply (C103_more_mass _ grid_emulator); [left; auto|cbn; lra|]. apply log10_le'; [apply Rdiv_lt_0_compat; assumption|exact L].
Qed.

(** Between tabulated values the halo, cut there, keeps the fraction of its mass that the entry states, up to the table's cells. *)
Theorem C118_fraction : forall h t i j tau1 tau2, entry_ok h -> table_ratio h t ->
  (S i < ax_n (tg_x grid_emulator))%nat -> (S j < ax_n (tg_mf grid_emulator))%nat ->
  node (tg_x grid_emulator) i <= eh_conc h <= node (tg_x grid_emulator) (S i) ->
  node (tg_mf grid_emulator) j <= log10 (eh_final h / eh_mass h) <= node (tg_mf grid_emulator) (S j) ->
  holds_fraction tau1 (node (tg_x grid_emulator) i) (pow10 (node (tg_mf grid_emulator) j)) -> tabulated grid_emulator tau1 ->
  holds_fraction tau2 (node (tg_x grid_emulator) (S i)) (pow10 (node (tg_mf grid_emulator) (S j))) -> tabulated grid_emulator tau2 ->
  tau1 / spacing grid_emulator <= t <= tau2 * spacing grid_emulator /\
  (forall tau, holds_fraction tau (eh_conc h) (eh_final h / eh_mass h) -> tau1 <= tau <= tau2).
Proof.
  intros h t i j t1 t2 (Pm & Pf & Hc & _) -> I J Hx Hy H1 B1 H2 B2.
  destruct (C103_cell tau_mf_interpolator grid_emulator _ _ i j t1 t2 (or_introl (conj eq_refl eq_refl)) I J Hx Hy H1 B1 H2 B2) as (A & B).
  split; [exact A|]. intros tau Ht. apply B. rewrite pow10_log10 by (apply Rdiv_lt_0_compat; assumption). exact Ht.
Qed.

(** A non-positive redshift is refused, and nothing else is. *)
Theorem C118_redshift : forall h, is_err (emu_init h) <-> eh_z h <= 0.
Proof.
  intros h. unfold emu_init, is_err. destruct (Rltb 0 (eh_z h)) eqn:B; [apply Rltb_true in B|apply Rltb_false in B]; split; eauto.
  - intros [e X]. discriminate.
  - lra.
Qed.

(** Although the entry states the final mass, the halo does not report a bound mass unless the user sets it again, and its NFW parameters
    cannot be read from the base class. *)
Theorem C118_bound_mass : forall C zs h ops s0 s, emu_init h = Ok s0 -> emu_run C zs h s0 ops = Ok s ->
  emu_bound_mass s = match stated None ops with Some v => Ok v | None => Err EException end.
Proof.
  intros C zs h ops s0 s I E. unfold emu_init in I. destruct (Rltb 0 (eh_z h)); [|discriminate]. injection I as <-.
  destruct (consistent_run C zs h ops (mkEmuState 1 false None None None None)) as (s' & E' & _ & _ & B); [repeat split; cbn; discriminate|].
  rewrite E' in E. injection E as <-. unfold emu_bound_mass. rewrite B. reflexivity.
Qed.
Theorem C118_bound_mass_refuted : forall C zs h s0, entry_ok h -> emu_init h = Ok s0 ->
  emu_bound_mass s0 <> Ok (eh_final h) /\ (forall ops s, stated None ops = None -> emu_run C zs h s0 ops = Ok s -> is_err (emu_bound_mass s)) /\
  is_err (emu_nfw_params C h).
Proof.
  intros C zs h s0 _ I. split; [|split].
  - rewrite (C118_bound_mass C zs h [] s0 s0 I eq_refl). discriminate.
  - intros ops s S E. rewrite (C118_bound_mass C zs h ops s0 s I E), S. eexists. reflexivity.
  - eexists. reflexivity.
Qed.

Example C118_nonvacuous : let h := mkEmu (10 ^ 8) 3 4 (10 ^ 7) 15 0.5 in
  entry_ok h /\ applied false [ULens; URescale 2 false true; UPhys; URescale 3 false true; URescale 5 true false; UArgs] = 10.
Proof. cbv zeta. split; [unfold entry_ok; cbn [eh_mass eh_final eh_conc eh_z]; repeat split; lra|]. cbn. lra. Qed.
Example C118_described_nonvacuous : let h := mkEmu (10 ^ 8) 3 4 (10 ^ 7) 15 0.5 in let ops := [ULens; URescale 2 false true; UPhys; URescale 3 false true] in
  exists s0 s, emu_init h = Ok s0 /\ emu_run demo_units 2 h s0 ops = Ok s /\ emu_bound_mass s = Err EException.
Proof.
  intros h ops. assert (K : entry_ok h) by (unfold entry_ok, h; cbn [eh_mass eh_final eh_conc eh_z]; repeat split; lra).
  destruct (C118_described demo_units 2 h ops demo_units_expanding eq_refl (proj1 demo_units_distances) K) as (s0 & s & _ & _ & _ & _ & _ & A & B & _).
  exists s0, s. split; [exact A|]. split; [exact B|]. rewrite (C118_bound_mass _ _ _ _ _ _ A B). reflexivity.
Qed.

Print Assumptions C118_described.
Print Assumptions C118_ratio.
Print Assumptions C118_fraction.
Print Assumptions C118_redshift.
Print Assumptions C118_bound_mass.
Print Assumptions C118_bound_mass_refuted.
