(** C59: generalised NFW halos. *)
From Verif Require Import Prelude TnfwSpec TnfwProofs NfwModel NfwSpec NfwProofs NfwProps SidmModel CompositeModel ProfileModel.
From Verif Require CubicProofs.
From Coquelicot Require Import Coquelicot.
Local Open Scope string_scope.
Local Open Scope R_scope.
Local Open Scope list_scope.

(** ** Specification *)
(** What lenstronomy guarantees about its double power-law profile: its mass is positive and scales as any mass does, with
    the density and the cube of the scale radius; alpha2rho0 inverts rho02alpha. *)
Record scales (P : dpl) : Prop := {
  sc_mass : forall r Rs rho0 gi go, 0 < Rs -> dp_mass_3d P r Rs rho0 gi go = rho0 * Rs ^ 3 * dp_mass_3d P (r / Rs) 1 1 gi go;
  sc_pos : forall x gi go, 0 < x -> 0 < dp_mass_3d P x 1 1 gi go;
  sc_inv : forall rho0 Rs gi go, 0 < Rs -> dp_alpha2rho0 P (dp_rho02alpha P rho0 Rs gi go) Rs gi go = rho0 }.
(** Mass (solar masses) inside [r] kpc of the lens model with parameters alpha_Rs, Rs. *)
Definition lens_mass (C : cosmo) (P : dpl) (sig : R -> R) (z r alpha Rs gi go : R) : R :=
  sig z * dp_mass_3d P (r / co_kpc C z) Rs (dp_alpha2rho0 P alpha Rs gi go) gi go.
(** Requirements on cosmology and halo. *)
Record physical (C : cosmo) (sig : R -> R) (h : ghalo) : Prop := {
  ph_exp : expanding C; ph_kpc : 0 < co_kpc C (gh_z h); ph_sig : 0 < sig (gh_z h); ph_ze : 0 <= gh_zeval h; ph_m : 0 < gh_mass h;
  ph_c : 0 < gh_c h; ph_conc : 0 < gh_conc h }.

(** ** Proofs *)
Lemma same_rs p p' m c k rhos rs r200 rhos' rs' r200' : 0 < m -> 0 < c ->
  describes_halo p m c k rhos rs r200 -> describes_halo p' m c k rhos' rs' r200' -> rs = rs'.
Proof.
  intros Hm Hc H H'. pose proof (dh_rs _ _ _ _ _ _ _ H) as P1. pose proof (dh_rs _ _ _ _ _ _ _ H') as P2.
  pose proof (dh_mean _ _ _ _ _ _ _ H) as M1. pose proof (dh_mean _ _ _ _ _ _ _ H') as M2. rewrite <- M2 in M1. clear M2.
  rewrite (dh_conc _ _ _ _ _ _ _ H), (dh_conc _ _ _ _ _ _ _ H') in M1. pose proof PI_RGT_0.
  assert (Q1 : 0 < (c * rs) ^ 3) by (apply pow_lt; apply Rmult_lt_0_compat; assumption).
  assert (Q2 : 0 < (c * rs') ^ 3) by (apply pow_lt; apply Rmult_lt_0_compat; assumption).
  assert (E : (c * rs) ^ 3 = (c * rs') ^ 3).
  { set (u := (c * rs) ^ 3) in *. set (w := (c * rs') ^ 3) in *. clearbody u w.
    transitivity (m / (4 / 3 * PI) / (m / (4 / 3 * PI * u))); [field; lra|]. rewrite M1. field. lra. }
  apply CubicProofs.cube_inj in E. apply (Rmult_eq_reg_l c); lra.
Qed.

Lemma fx_Func0 x : fx x = Func0 x.
Proof. unfold fx, Func0. try reflexivity. Qed.

Section Norm.
Variables (C : cosmo) (P : dpl) (sig : R -> R) (h : ghalo) (a : gargs).
Hypothesis SC : scales P.
Hypothesis PH : physical C sig h.
Let k := co_kpc C (gh_z h).
Let x := x_match (ga_x a) (gh_conc h).

Lemma norm_spec rhos rs r200 : 0 < x -> (forall r, ga_rt a = Some r -> 0 < r) ->
  describes_halo false (gh_mass h) (gh_conc h) (critical_kpc C (gh_zeval h)) rhos rs r200 ->
  let rt := match ga_rt a with Some r => r | None => rs end in
  density_norm C P sig h a = Ok ({| ga_rt := Some rt; ga_x := ga_x a; ga_m := ga_m a; ga_gi := ga_gi a; ga_go := ga_go a |},
    (match ga_m a with Some m => m | None => 4 * PI * rt ^ 3 * rhos * fx x end)
      / (sig (gh_z h) * (rt / k) ^ 3 * dp_mass_3d P x 1 1 (ga_gi a) (ga_go a))).
Proof.
  intros Hx Hr H rt. destruct PH as [K Hk Hs Hz Hm Hc Hcc]. pose proof (dh_rs _ _ _ _ _ _ _ H) as Prs.
  assert (Prt : 0 < rt) by (unfold rt; destruct (ga_rt a); [apply Hr; reflexivity|exact Prs]).
  destruct (C55_nfw_parameters C (gh_mass h) (gh_conc h) (gh_zeval h) false K Hz Hm Hcc) as (rhos' & rs' & r2' & EN & _ & H').
  destruct (describes_unique _ _ _ _ _ _ _ _ _ _ Hm Hcc H H') as (? & ? & ?). subst rhos' rs' r2'.
  unfold density_norm. rewrite EN. cbn [bind fst snd]. fold rt k x. f_equal. f_equal.
  rewrite (sc_mass P SC (x * rt / k) (rt / k)) by (apply Rdiv_lt_0_compat; assumption).
  replace (x * rt / k / (rt / k)) with x by (field; unfold k; lra). reflexivity.
Qed.

Lemma lens_spec rho0 r : exists alpha Rs rs, gnfw_lens C P h a rho0 = Ok (alpha, Rs) /\
  (forall p rhos rs' r200, describes_halo p (gh_mass h) (gh_c h) (critical_kpc C (gh_zeval h)) rhos rs' r200 -> rs' = rs) /\ 0 < rs /\ Rs = rs / k /\
  lens_mass C P sig (gh_z h) r alpha Rs (ga_gi a) (ga_go a) = sig (gh_z h) * rho0 * (rs / k) ^ 3 * dp_mass_3d P (r / rs) 1 1 (ga_gi a) (ga_go a).
Proof.
  destruct PH as [K Hk Hs Hz Hm Hc Hcc].
  destruct (C55_nfw_parameters C (gh_mass h) (gh_c h) (gh_zeval h) true K Hz Hm Hc) as (rhos' & rs & r2' & EN & _ & H').
  pose proof (dh_rs _ _ _ _ _ _ _ H') as Prs.
  unfold gnfw_lens. rewrite EN. cbn [bind fst snd]. fold k. eexists. exists (rs / k), rs. split; [reflexivity|]. split.
  - intros p rhos rs2 r200 H. apply (same_rs _ _ _ _ _ _ _ _ _ _ _ Hm Hc H H').
  - split; [exact Prs|]. split; [reflexivity|]. assert (0 < rs / k) by (apply Rdiv_lt_0_compat; assumption).
    unfold lens_mass. rewrite (sc_inv P SC) by assumption. rewrite (sc_mass P SC) by assumption. fold k.
    replace (r / k / (rs / k)) with (r / rs) by (field; unfold k; lra). ring.
Qed.
End Norm.

(** The mass inside the matching radius [x_match] r_s is that of the NFW halo with the same mass and concentration, whatever
    transition radius the (shared) dictionary holds, provided both draws of the concentration agree and no target mass is
    given. *)
Theorem C59_mass_matched : forall C P sig h a rhos rs r200, scales P -> physical C sig h ->
  gh_c h = gh_conc h -> ga_m a = None -> (forall r, ga_rt a = Some r -> 0 < r) ->
  let x := x_match (ga_x a) (gh_conc h) in 0 < x ->
  describes_halo false (gh_mass h) (gh_conc h) (critical_kpc C (gh_zeval h)) rhos rs r200 ->
  exists a' rho0 alpha Rs, density_norm C P sig h a = Ok (a', rho0) /\ gnfw_lens C P h a rho0 = Ok (alpha, Rs) /\
    lens_mass C P sig (gh_z h) (x * rs) alpha Rs (ga_gi a) (ga_go a) = sphere_mass (rho_nfw rhos rs) (x * rs).
Proof.
  intros C P sig h a rhos rs r2 SC PH Ec Em Hr x Hx H. pose proof (dh_rs _ _ _ _ _ _ _ H) as Prs.
  pose proof (norm_spec C P sig h a SC PH rhos rs r2 Hx Hr H) as N. cbv zeta in N. rewrite Em in N.
  set (rt := match ga_rt a with Some r => r | None => rs end) in *. assert (Prt : 0 < rt) by (unfold rt; destruct (ga_rt a); [apply Hr; reflexivity|exact Prs]).
  eexists _, _. 
  destruct (lens_spec C P sig h a SC PH (4 * PI * rt ^ 3 * rhos * fx x / (sig (gh_z h) * (rt / co_kpc C (gh_z h)) ^ 3 * dp_mass_3d P x 1 1 (ga_gi a) (ga_go a))) (x * rs))
    as (alpha & Rs & rs2 & EL & U & P2 & _ & M).
  rewrite <- (U false rhos rs r2) in M by (rewrite Ec; exact H). clear U P2.
  exists alpha, Rs. split; [exact N|]. split; [exact EL|]. rewrite M. fold x.
  destruct (nfw_mass rhos rs x Prs ltac:(lra)) as [_ ->]. change (Func0 x) with (fx x).
  replace (x * rs / rs) with x by (field; lra). destruct PH as [K Hk Hs Hz Hm Hc Hcc]. pose proof (sc_pos P SC x (ga_gi a) (ga_go a) Hx).
  set (g := dp_mass_3d P x 1 1 _ _) in *. field. repeat split; lra.
Qed.

(** Every history of queries: a halo's normalisation is the one it would have if nothing had been queried before and no
    dictionary were shared. *)
Lemma norm_independent C P sig h a r : scales P -> physical C sig h -> ga_m a = None -> 0 < r ->
  0 < x_match (ga_x a) (gh_conc h) ->
  let b := {| ga_rt := Some r; ga_x := ga_x a; ga_m := ga_m a; ga_gi := ga_gi a; ga_go := ga_go a |} in
  let b' := {| ga_rt := None; ga_x := ga_x a; ga_m := ga_m a; ga_gi := ga_gi a; ga_go := ga_go a |} in
  exists v r', 0 < r' /\ density_norm C P sig h b' = Ok ({| ga_rt := Some r'; ga_x := ga_x a; ga_m := ga_m a; ga_gi := ga_gi a; ga_go := ga_go a |}, v) /\
    density_norm C P sig h b = Ok (b, v).
Proof.
  intros SC PH Em Pr Hx b b'. pose proof (ph_exp _ _ _ PH) as K. pose proof (ph_ze _ _ _ PH) as Hz. pose proof (ph_m _ _ _ PH) as Hm. pose proof (ph_conc _ _ _ PH) as Hcc.
  destruct (C55_nfw_parameters C (gh_mass h) (gh_conc h) (gh_zeval h) false K Hz Hm Hcc) as (rhos & rs & r2 & _ & _ & H).
  pose proof (dh_rs _ _ _ _ _ _ _ H) as Prs.
  pose proof (norm_spec C P sig h b SC PH rhos rs r2 Hx) as N. pose proof (norm_spec C P sig h b' SC PH rhos rs r2 Hx) as N'.
  cbn [ga_rt b b' ga_m ga_x ga_gi ga_go] in N, N'. cbv zeta in N, N'.
  rewrite N' by (try discriminate; exact H). rewrite N by (try (intros ? E; injection E as <-; exact Pr); exact H).
  eexists _, rs. split; [exact Prs|]. split; [reflexivity|]. unfold b. f_equal. f_equal. rewrite Em.
  pose proof (sc_pos P SC _ (ga_gi a) (ga_go a) Hx). set (g := dp_mass_3d P _ 1 1 _ _) in *. set (x := x_match _ _) in *.
  pose proof (ph_kpc _ _ _ PH). pose proof (ph_sig _ _ _ PH). field. repeat split; lra.
Qed.
Definition own (a : gargs) : gargs := {| ga_rt := None; ga_x := ga_x a; ga_m := ga_m a; ga_gi := ga_gi a; ga_go := ga_go a |}.
Theorem C59_any_history : forall C P sig hs dicts qs,
  scales P -> (forall i, physical C sig (hs i)) -> (forall d, ga_m (dicts d) = None) -> (forall d r, ga_rt (dicts d) = Some r -> 0 < r) ->
  (forall i, 0 < x_match (ga_x (dicts (gh_dict (hs i)))) (gh_conc (hs i))) ->
  exists s, grun C P sig hs qs {| gs_dicts := dicts; gs_norm := fun _ => None |} = Ok s /\
    forall i, In i qs -> exists a' v, gs_norm s i = Some v /\ density_norm C P sig (hs i) (own (dicts (gh_dict (hs i)))) = Ok (a', v).
Proof.
  intros C P sig hs dicts qs SC PH Em Hr Hx.
  pose (good := fun s : gstate =>
    (forall d, own (gs_dicts s d) = own (dicts d) /\ (forall r, ga_rt (gs_dicts s d) = Some r -> 0 < r)) /\
    (forall i v, gs_norm s i = Some v -> exists a', density_norm C P sig (hs i) (own (dicts (gh_dict (hs i)))) = Ok (a', v))).
  assert (G : forall qs s, good s -> exists s', grun C P sig hs qs s = Ok s' /\ good s' /\ (forall i v, gs_norm s i = Some v -> gs_norm s' i = Some v) /\ (forall i, In i qs -> gs_norm s' i <> None)).
  { clear qs. induction qs as [|i qs IH]; intros s Gs.
    - exists s. split; [reflexivity|]. split; [exact Gs|]. split; [auto|intros i []].
    - cbn [grun]. unfold gquery at 1. destruct (gs_norm s i) as [v|] eqn:EV.
      + cbn [bind fst]. destruct (IH s Gs) as (s' & E & G' & M & I). exists s'. split; [exact E|]. split; [exact G'|]. split; [exact M|].
        intros j [<-|J]; [rewrite (M i v EV); discriminate|apply I; exact J].
      + destruct Gs as [GD GN]. destruct (GD (gh_dict (hs i))) as [EO ER]. set (d := gh_dict (hs i)) in *. set (a := gs_dicts s d) in *.
        assert (Ea : ga_m a = None /\ ga_x a = ga_x (dicts d)) by (unfold own in EO; injection EO as ? ? ? ?; split; [congruence|assumption]).
        destruct Ea as [Ea Ex].
        assert (Hxa : 0 < x_match (ga_x a) (gh_conc (hs i))) by (rewrite Ex; apply Hx).
        assert (N : exists v r', 0 < r' /\ density_norm C P sig (hs i) a = Ok ({| ga_rt := Some r'; ga_x := ga_x a; ga_m := ga_m a; ga_gi := ga_gi a; ga_go := ga_go a |}, v) /\
                    exists a', density_norm C P sig (hs i) (own (dicts d)) = Ok (a', v)).
        { rewrite <- EO. destruct (ga_rt a) as [r|] eqn:Er.
          - destruct (norm_independent C P sig (hs i) a r SC (PH i) Ea (ER r eq_refl) Hxa) as (v & r' & P' & N1 & N2).
            exists v, r. split; [apply ER; reflexivity|]. split; [|eexists; exact N1]. destruct a as [ar ax am agi ago]. cbn in Er. subst ar. exact N2.
          - destruct (norm_independent C P sig (hs i) a 1 SC (PH i) Ea ltac:(lra) Hxa) as (v & r' & P' & N1 & N2).
            exists v, r'. split; [exact P'|]. split; [|eexists; exact N1]. destruct a as [ar ax am agi ago]. cbn in Er. subst ar. exact N1. }
        destruct N as (v & r' & P' & N1 & N2). rewrite N1. cbn [bind fst snd].
        destruct (IH {| gs_dicts := upd (gs_dicts s) d {| ga_rt := Some r'; ga_x := ga_x a; ga_m := ga_m a; ga_gi := ga_gi a; ga_go := ga_go a |}; gs_norm := upd (gs_norm s) i (Some v) |}) as (s' & E & G' & M & I).
        * split.
          -- intros d'. cbn [gs_dicts]. unfold upd. destruct (Nat.eqb d d') eqn:B; [|apply GD]. apply Nat.eqb_eq in B. subst d'.
             split; [rewrite <- EO; reflexivity|]. cbn [ga_rt]. intros r0 E0. injection E0 as <-. exact P'.
          -- intros j w. cbn [gs_norm]. unfold upd. destruct (Nat.eqb i j) eqn:B; [|apply GN]. apply Nat.eqb_eq in B. subst j. intros E0. injection E0 as <-. exact N2.
        * exists s'. split; [exact E|]. split; [exact G'|]. split.
          -- intros j w Ew. apply M. cbn [gs_norm]. unfold upd. destruct (Nat.eqb i j) eqn:B; [|exact Ew]. apply Nat.eqb_eq in B. subst j. congruence.
          -- intros j [<-|J]; [|apply I; exact J]. rewrite (M i v); [discriminate|]. cbn [gs_norm]. unfold upd. rewrite Nat.eqb_refl. reflexivity. }
  destruct (G qs {| gs_dicts := dicts; gs_norm := fun _ => None |}) as (s & E & [_ GN] & _ & I).
  { split; [|intros i v E; discriminate E]. intros d. split; [reflexivity|apply Hr]. }
  exists s. split; [exact E|]. intros i Hi. destruct (gs_norm s i) as [v|] eqn:EV; [|exfalso; apply (I i Hi EV)].
  destruct (GN i v EV) as [a' N]. exists a', v. split; [reflexivity|exact N].
Qed.

(** With a target mass in the shared dictionary the mass inside the matching radius is not the target: it is off by the cube
    of the ratio of the halo's own scale radius to the scale radius of the halo queried first. *)
Theorem C59_target_mass : forall C P sig h a m rhos rs r200, scales P -> physical C sig h ->
  gh_c h = gh_conc h -> ga_m a = Some m -> (forall r, ga_rt a = Some r -> 0 < r) ->
  let x := x_match (ga_x a) (gh_conc h) in 0 < x ->
  describes_halo false (gh_mass h) (gh_conc h) (critical_kpc C (gh_zeval h)) rhos rs r200 ->
  let rt := match ga_rt a with Some r => r | None => rs end in
  exists a' rho0 alpha Rs, density_norm C P sig h a = Ok (a', rho0) /\ ga_rt a' = Some rt /\ gnfw_lens C P h a rho0 = Ok (alpha, Rs) /\
    lens_mass C P sig (gh_z h) (x * rs) alpha Rs (ga_gi a) (ga_go a) = m * (rs / rt) ^ 3.
Proof.
  intros C P sig h a m rhos rs r2 SC PH Ec Em Hr x Hx H rt. pose proof (dh_rs _ _ _ _ _ _ _ H) as Prs.
  pose proof (norm_spec C P sig h a SC PH rhos rs r2 Hx Hr H) as N. cbv zeta in N. rewrite Em in N. fold rt in N.
  assert (Prt : 0 < rt) by (unfold rt; destruct (ga_rt a); [apply Hr; reflexivity|exact Prs]).
  eexists _, _.
  destruct (lens_spec C P sig h a SC PH (m / (sig (gh_z h) * (rt / co_kpc C (gh_z h)) ^ 3 * dp_mass_3d P x 1 1 (ga_gi a) (ga_go a))) (x * rs))
    as (alpha & Rs & rs2 & EL & U & P2 & _ & M).
  rewrite <- (U false rhos rs r2) in M by (rewrite Ec; exact H). clear U P2.
  exists alpha, Rs. split; [exact N|]. split; [reflexivity|]. split; [exact EL|]. rewrite M.
  replace (x * rs / rs) with x by (field; lra). destruct PH as [K Hk Hs Hz Hm Hc Hcc]. pose proof (sc_pos P SC x (ga_gi a) (ga_go a) Hx).
  set (g := dp_mass_3d P x 1 1 _ _) in *. field. repeat split; lra.
Qed.

(** The two draws of the concentration, one for the density and one for the scale radius: with scatter they differ, and the
    mass inside the matching radius is that of neither NFW halo. *)
Theorem C59_two_draws : forall C P sig h a rhos rs r200 rhos' rs' r200', scales P -> physical C sig h ->
  ga_m a = None -> (forall r, ga_rt a = Some r -> 0 < r) ->
  let x := x_match (ga_x a) (gh_conc h) in 0 < x ->
  describes_halo false (gh_mass h) (gh_conc h) (critical_kpc C (gh_zeval h)) rhos rs r200 ->
  describes_halo false (gh_mass h) (gh_c h) (critical_kpc C (gh_zeval h)) rhos' rs' r200' ->
  exists a' rho0 alpha Rs, density_norm C P sig h a = Ok (a', rho0) /\ gnfw_lens C P h a rho0 = Ok (alpha, Rs) /\
    lens_mass C P sig (gh_z h) (x * rs') alpha Rs (ga_gi a) (ga_go a) = sphere_mass (rho_nfw rhos rs) (x * rs) * (rs' / rs) ^ 3.
Proof.
  intros C P sig h a rhos rs r2 rhos' rs' r2' SC PH Em Hr x Hx H H'. pose proof (dh_rs _ _ _ _ _ _ _ H) as Prs. pose proof (dh_rs _ _ _ _ _ _ _ H') as Prs'.
  pose proof (norm_spec C P sig h a SC PH rhos rs r2 Hx Hr H) as N. cbv zeta in N. rewrite Em in N.
  set (rt := match ga_rt a with Some r => r | None => rs end) in *. assert (Prt : 0 < rt) by (unfold rt; destruct (ga_rt a); [apply Hr; reflexivity|exact Prs]).
  eexists _, _. 
  destruct (lens_spec C P sig h a SC PH (4 * PI * rt ^ 3 * rhos * fx x / (sig (gh_z h) * (rt / co_kpc C (gh_z h)) ^ 3 * dp_mass_3d P x 1 1 (ga_gi a) (ga_go a))) (x * rs'))
    as (alpha & Rs & rs2 & EL & U & P2 & _ & M).
  rewrite <- (U false rhos' rs' r2') in M by exact H'. clear U P2.
  exists alpha, Rs. split; [exact N|]. split; [exact EL|]. rewrite M. fold x.
  destruct (nfw_mass rhos rs x Prs ltac:(lra)) as [_ ->]. change (Func0 x) with (fx x).
  replace (x * rs' / rs') with x by (field; lra). destruct PH as [K Hk Hs Hz Hm Hc Hcc]. pose proof (sc_pos P SC x (ga_gi a) (ga_go a) Hx).
  set (g := dp_mass_3d P x 1 1 _ _) in *. field. repeat split; lra.
Qed.

(** ** Examples and counterexamples *)
Definition demo_dpl : dpl := {| dp_mass_3d := fun r Rs rho0 _ _ => rho0 * r * Rs ^ 2; dp_rho02alpha := fun rho0 Rs _ _ => rho0 * Rs ^ 2; dp_alpha2rho0 := fun al Rs _ _ => al / Rs ^ 2 |}.
Lemma demo_scales : scales demo_dpl.
Proof. split; cbn [dp_mass_3d dp_rho02alpha dp_alpha2rho0 demo_dpl]; intros; [field; lra|lra|field; lra]. Qed.
Definition demo_sig : R -> R := fun _ => 10 ^ 9.
Definition demo_gh (m c conc : R) : ghalo := {| gh_mass := m; gh_z := 0.5; gh_zeval := 0.5; gh_c := c; gh_conc := conc; gh_dict := 0 |}.
Definition demo_dict (r m : option R) : gargs := {| ga_rt := r; ga_x := XAbsent; ga_m := m; ga_gi := 2; ga_go := 3 |}.
Lemma demo_physical m c conc : 0 < m -> 0 < c -> 0 < conc -> physical demo demo_sig (demo_gh m c conc).
Proof. intros A B D. split; cbn; unfold demo_sig; try lra; try exact demo_expanding. Qed.
Lemma demo_describes m c : 0 < m -> 0 < c -> exists rhos rs r200, describes_halo false m c (critical_kpc demo 0.5) rhos rs r200.
Proof.
  intros A B. destruct (C55_nfw_parameters demo m c 0.5 false demo_expanding ltac:(lra) A B) as (x & y & w & _ & _ & H). exists x, y, w. exact H.
Qed.
Example C59_mass_matched_nonvacuous : exists a' rho0 alpha Rs, density_norm demo demo_dpl demo_sig (demo_gh (10 ^ 8) 10 10) (demo_dict (Some 7) None) = Ok (a', rho0) /\
  gnfw_lens demo demo_dpl (demo_gh (10 ^ 8) 10 10) (demo_dict (Some 7) None) rho0 = Ok (alpha, Rs).
Proof.
  destruct (demo_describes (10 ^ 8) 10 ltac:(lra) ltac:(lra)) as (rhos & rs & r2 & H).
  destruct (C59_mass_matched demo demo_dpl demo_sig (demo_gh (10 ^ 8) 10 10) (demo_dict (Some 7) None) rhos rs r2 demo_scales) as (a' & v & al & Rs & E1 & E2 & _);
    try reflexivity; try (apply demo_physical; lra); try exact H; try solve [cbn; lra].
  - intros r E. injection E as <-. lra.
  - exists a', v, al, Rs. split; assumption.
Qed.
Definition demo_hs (i : nat) : ghalo := match i with O => demo_gh (10 ^ 8) 10 10 | _ => demo_gh (8 * 10 ^ 8) 10 10 end.
Example C59_any_history_nonvacuous : exists s, grun demo demo_dpl demo_sig demo_hs (0 :: 1 :: 0 :: nil)%nat {| gs_dicts := fun _ => demo_dict None None; gs_norm := fun _ => None |} = Ok s.
Proof.
  destruct (C59_any_history demo demo_dpl demo_sig demo_hs (fun _ => demo_dict None None) (0 :: 1 :: 0 :: nil)%nat demo_scales) as (s & E & _).
  - intros [|i]; cbn [demo_hs]; apply demo_physical; lra.
  - reflexivity.
  - intros d r E. discriminate E.
  - intros i. cbn. lra.
  - exists s. exact E.
Qed.

Lemma rs_cubes m c k rhos rs r2 rhos' rs' r2' : 0 < c -> 0 < m ->
  describes_halo false m c k rhos rs r2 -> describes_halo false (8 * m) c k rhos' rs' r2' -> (rs' / rs) ^ 3 = 8.
Proof.
  intros Hc Hm H H'. pose proof (dh_rs _ _ _ _ _ _ _ H) as P1. pose proof (dh_rs _ _ _ _ _ _ _ H') as P2.
  pose proof (dh_mean _ _ _ _ _ _ _ H) as M1. pose proof (dh_mean _ _ _ _ _ _ _ H') as M2. rewrite <- M1 in M2. clear M1.
  rewrite (dh_conc _ _ _ _ _ _ _ H), (dh_conc _ _ _ _ _ _ _ H') in M2. pose proof PI_RGT_0.
  assert (Q1 : 0 < rs ^ 3) by (apply pow_lt; assumption). assert (Q2 : 0 < rs' ^ 3) by (apply pow_lt; assumption). assert (Q3 : 0 < c ^ 3) by (apply pow_lt; assumption).
  replace ((c * rs) ^ 3) with (c ^ 3 * rs ^ 3) in M2 by ring. replace ((c * rs') ^ 3) with (c ^ 3 * rs' ^ 3) in M2 by ring.
  replace ((rs' / rs) ^ 3) with (rs' ^ 3 / rs ^ 3) by (field; lra). set (u := rs ^ 3) in *. set (w := rs' ^ 3) in *. set (c3 := c ^ 3) in *. clearbody u w c3.
  transitivity (8 * ((m / (4 / 3 * PI * (c3 * u))) / (8 * m / (4 / 3 * PI * (c3 * w))))); [field; repeat split; lra|].
  rewrite M2. field. repeat split; lra.
Qed.

(** The shared dictionary with a target mass: query halo 0, then halo 1, which is eight times as massive; halo 1 gets eight
    times the target mass inside its matching radius. *)
Theorem C59_target_mass_refuted : exists C P sig hs dicts m s v alpha Rs rhos rs r200,
  scales P /\ (forall i, physical C sig (hs i)) /\ (forall i, gh_c (hs i) = gh_conc (hs i)) /\ (forall d, ga_rt (dicts d) = None /\ ga_m (dicts d) = Some m) /\
  grun C P sig hs (0 :: 1 :: nil)%nat {| gs_dicts := dicts; gs_norm := fun _ => None |} = Ok s /\ gs_norm s 1%nat = Some v /\
  gnfw_lens C P (hs 1%nat) (gs_dicts s (gh_dict (hs 1%nat))) v = Ok (alpha, Rs) /\
  describes_halo false (gh_mass (hs 1%nat)) (gh_conc (hs 1%nat)) (critical_kpc C (gh_zeval (hs 1%nat))) rhos rs r200 /\
  lens_mass C P sig (gh_z (hs 1%nat)) (2.16 * rs) alpha Rs 2 3 = 8 * m /\ 0 < m.
Proof.
  destruct (demo_describes (10 ^ 8) 10 ltac:(lra) ltac:(lra)) as (rhos0 & rs0 & r20 & H0).
  destruct (demo_describes (8 * 10 ^ 8) 10 ltac:(lra) ltac:(lra)) as (rhos & rs & r2 & H).
  pose proof (dh_rs _ _ _ _ _ _ _ H0) as Prs0.
  destruct (C59_target_mass demo demo_dpl demo_sig (demo_hs 0) (demo_dict None (Some 5)) 5 rhos0 rs0 r20 demo_scales) as (a0 & v0 & _ & _ & N0 & R0 & _ & _);
    try reflexivity; try (apply demo_physical; lra); try exact H0; try (intros; discriminate); try solve [cbn; lra].
  assert (A0 : a0 = demo_dict (Some rs0) (Some 5)).
  { pose proof (norm_spec demo demo_dpl demo_sig (demo_hs 0) (demo_dict None (Some 5)) demo_scales ltac:(apply demo_physical; lra) rhos0 rs0 r20) as N.
    cbv zeta in N. cbn [ga_rt demo_dict] in N. rewrite N0 in N. specialize (N ltac:(cbn; lra) ltac:(intros; discriminate) H0). injection N as ->. reflexivity. }
  subst a0.
  destruct (C59_target_mass demo demo_dpl demo_sig (demo_hs 1) (demo_dict (Some rs0) (Some 5)) 5 rhos rs r2 demo_scales) as (a1 & v1 & al & Rs & N1 & _ & EL & M);
    try reflexivity; try (apply demo_physical; lra); try exact H; try (intros r E; injection E as <-; exact Prs0); try solve [cbn; lra].
  pose (d1 := upd (fun _ : nat => demo_dict None (Some 5)) 0%nat (demo_dict (Some rs0) (Some 5))).
  pose (s2 := {| gs_dicts := upd d1 0%nat a1; gs_norm := upd (upd (fun _ : nat => @None R) 0%nat (Some v0)) 1%nat (Some v1) |}).
  assert (ES : grun demo demo_dpl demo_sig demo_hs (0 :: 1 :: nil)%nat {| gs_dicts := fun _ => demo_dict None (Some 5); gs_norm := fun _ => None |} = Ok s2).
  { assert (Q0 : gquery demo demo_dpl demo_sig demo_hs 0 {| gs_dicts := fun _ => demo_dict None (Some 5); gs_norm := fun _ => None |}
      = Ok ({| gs_dicts := d1; gs_norm := upd (fun _ : nat => @None R) 0%nat (Some v0) |}, v0)).
    { unfold gquery, gs_norm, gs_dicts. rewrite N0. reflexivity. }
    assert (Q1 : gquery demo demo_dpl demo_sig demo_hs 1 {| gs_dicts := d1; gs_norm := upd (fun _ : nat => @None R) 0%nat (Some v0) |} = Ok (s2, v1)).
    { unfold gquery, gs_norm, gs_dicts. change (upd (fun _ : nat => @None R) 0%nat (Some v0) 1%nat) with (@None R).
      change (d1 (gh_dict (demo_hs 1))) with (demo_dict (Some rs0) (Some 5)). rewrite N1. reflexivity. }
    unfold grun. rewrite Q0. unfold bind at 1, fst at 1. rewrite Q1. reflexivity. }
  exists demo, demo_dpl, demo_sig, demo_hs, (fun _ => demo_dict None (Some 5)), 5, s2, v1, al, Rs, rhos, rs, r2.
  split; [exact demo_scales|]. split; [intros [|i]; cbn [demo_hs]; apply demo_physical; lra|].
  split; [intros [|i]; reflexivity|]. split; [intros d; split; reflexivity|]. split; [exact ES|]. split; [reflexivity|].
  assert (A1 : a1 = demo_dict (Some rs0) (Some 5)).
  { pose proof (norm_spec demo demo_dpl demo_sig (demo_hs 1) (demo_dict (Some rs0) (Some 5)) demo_scales ltac:(apply demo_physical; lra) rhos rs r2) as N.
    cbv zeta in N. cbn [ga_rt demo_dict] in N. rewrite N1 in N. specialize (N ltac:(cbn; lra) ltac:(intros r E; injection E as <-; exact Prs0) H). injection N as ->. reflexivity. }
  split; [change (gs_dicts s2 (gh_dict (demo_hs 1))) with a1; rewrite A1; exact EL|]. split; [exact H|]. split; [|lra].
  change (x_match (ga_x (demo_dict (Some rs0) (Some 5))) (gh_conc (demo_hs 1))) with 2.16 in M. cbn [ga_rt demo_dict ga_gi ga_go] in M.
  rewrite M. rewrite (rs_cubes (10 ^ 8) 10 _ _ _ _ _ _ _ ltac:(lra) ltac:(lra) H0 H). lra.
Qed.

(** Two draws: concentration 10 for the density, 20 for the scale radius.  The lens mass inside the matching radius is below
    the mass of both NFW halos there. *)
Lemma f_20_10 : fx 20 < 8 * fx 10.
Proof.
  unfold fx. assert (L : 2 <= ln 11).
  { rewrite <- (ln_exp 2). destruct (Req_dec (exp 2) 11) as [E|E]; [rewrite E; lra|]. left. apply ln_increasing; [apply exp_pos|].
    replace 2 with (1 + 1) by lra. rewrite exp_plus. pose proof exp_le_3. pose proof (exp_pos 1). nra. }
  assert (U : ln 21 <= ln 11 + 10 / 11).
  { replace 21 with (11 * (21 / 11)) by field. rewrite ln_mult by lra. apply Rplus_le_compat_l.
    replace (10 / 11) with (ln (exp (10 / 11))) by apply ln_exp. left. apply ln_increasing; [lra|]. pose proof (exp_ineq1 (10 / 11) ltac:(lra)). lra. }
  replace (1 + 20) with 21 by lra. replace (1 + 10) with 11 by lra. lra.
Qed.
Theorem C59_two_draws_refuted : exists C P sig h a v a' alpha Rs rhos rs r200 rhos' rs' r200',
  scales P /\ physical C sig h /\ ga_m a = None /\ ga_rt a = None /\
  density_norm C P sig h a = Ok (a', v) /\ gnfw_lens C P h a v = Ok (alpha, Rs) /\
  describes_halo false (gh_mass h) (gh_conc h) (critical_kpc C (gh_zeval h)) rhos rs r200 /\
  describes_halo false (gh_mass h) (gh_c h) (critical_kpc C (gh_zeval h)) rhos' rs' r200' /\
  lens_mass C P sig (gh_z h) (2.16 * rs') alpha Rs 2 3 < sphere_mass (rho_nfw rhos rs) (2.16 * rs) /\
  lens_mass C P sig (gh_z h) (2.16 * rs') alpha Rs 2 3 < sphere_mass (rho_nfw rhos' rs') (2.16 * rs').
Proof.
  set (m := 10 ^ 8). assert (Hm : 0 < m) by (unfold m; lra).
  destruct (demo_describes m 10 Hm ltac:(lra)) as (rhos & rs & r2 & H). destruct (demo_describes m 20 Hm ltac:(lra)) as (rhos' & rs' & r2' & H').
  destruct (C59_two_draws demo demo_dpl demo_sig (demo_gh m 20 10) (demo_dict None None) rhos rs r2 rhos' rs' r2' demo_scales) as (a' & v & al & Rs & N & EL & M);
    try reflexivity; try (apply demo_physical; lra); try exact H; try exact H'; try (intros; discriminate); try solve [cbn; lra].
  exists demo, demo_dpl, demo_sig, (demo_gh m 20 10), (demo_dict None None), v, a', al, Rs, rhos, rs, r2, rhos', rs', r2'.
  split; [exact demo_scales|]. split; [apply demo_physical; lra|]. split; [reflexivity|]. split; [reflexivity|]. split; [exact N|]. split; [exact EL|]. split; [exact H|]. split; [exact H'|].
  change (x_match (ga_x (demo_dict None None)) (gh_conc (demo_gh m 20 10))) with 2.16 in M. cbn [ga_gi ga_go demo_dict] in M. change (gh_z (demo_gh m 20 10)) with 0.5 in *.
  rewrite M. clear M N EL.
  pose proof (dh_rs _ _ _ _ _ _ _ H) as P1. pose proof (dh_rs _ _ _ _ _ _ _ H') as P2.
  assert (ER : rs = 2 * rs').
  { pose proof (dh_mean _ _ _ _ _ _ _ H) as M1. pose proof (dh_mean _ _ _ _ _ _ _ H') as M2. rewrite <- M2 in M1. clear M2.
    rewrite (dh_conc _ _ _ _ _ _ _ H), (dh_conc _ _ _ _ _ _ _ H') in M1. pose proof PI_RGT_0.
    assert (Q1 : 0 < (10 * rs) ^ 3) by (apply pow_lt; lra). assert (Q2 : 0 < (20 * rs') ^ 3) by (apply pow_lt; lra).
    assert (E : (10 * rs) ^ 3 = (20 * rs') ^ 3).
    { set (u := (10 * rs) ^ 3) in *. set (w := (20 * rs') ^ 3) in *. clearbody u w m.
      transitivity (m / (4 / 3 * PI) / (m / (4 / 3 * PI * u))); [field; lra|]. rewrite M1. field. lra. }
    apply CubicProofs.cube_inj in E. lra. }
  pose proof (dh_mass _ _ _ _ _ _ _ H) as E1. pose proof (dh_mass _ _ _ _ _ _ _ H') as E2. cbn [halo_density] in E1, E2.
  rewrite (dh_conc _ _ _ _ _ _ _ H) in E1. rewrite (dh_conc _ _ _ _ _ _ _ H') in E2.
  rewrite (proj2 (nfw_mass rhos rs 10 P1 ltac:(lra))) in E1. rewrite (proj2 (nfw_mass rhos' rs' 20 P2 ltac:(lra))) in E2.
  rewrite (proj2 (nfw_mass rhos rs 2.16 P1 ltac:(lra))), (proj2 (nfw_mass rhos' rs' 2.16 P2 ltac:(lra))).
  pose proof f_20_10 as F. change (Func0 10) with (fx 10) in E1. change (Func0 20) with (fx 20) in E2. change (Func0 2.16) with (fx 2.16).
  assert (F1 : 0 < fx 10) by (apply (Fp_pos false 10); lra). assert (F2 : 0 < fx 20) by (apply (Fp_pos false 20); lra). assert (F3 : 0 < fx 2.16) by (apply (Fp_pos false 2.16); lra).
  set (A := 4 * PI * rhos * rs ^ 3) in *. set (B := 4 * PI * rhos' * rs' ^ 3) in *. replace ((rs' / rs) ^ 3) with (/ 8) by (rewrite ER; field; lra).
  set (f1 := fx 10) in *. set (f2 := fx 20) in *. set (f3 := fx 2.16) in *. clearbody A B f1 f2 f3 m.
  assert (PA : 0 < A) by nra. assert (PB : 0 < B) by nra. split; [assert (0 < A * f3) by nra; lra|].
  assert (A < 8 * B). { apply (Rmult_lt_reg_r f1); [exact F1|]. rewrite E1, <- E2. nra. }
  nra.
Qed.

Print Assumptions C59_mass_matched.
Print Assumptions C59_any_history.
Print Assumptions C59_target_mass.
Print Assumptions C59_two_draws.
Print Assumptions C59_target_mass_refuted.
Print Assumptions C59_two_draws_refuted.
