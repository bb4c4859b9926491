(** C115: the time since infall of subhalos, for every choice of the infall model. *)
From Coquelicot Require Import Coquelicot.
From Verif Require Import Prelude MassFnModel Interp InfallModel InfallProofs InfallProps SpaceModel SpaceProofs SpaceProps AgeModel.
Local Open Scope string_scope.
Local Open Scope R_scope.
Local Open Scope list_scope.

(** * Specification *)
(** an expanding universe ages: higher redshift, younger *)
Definition younger_before (age : R -> R) : Prop := forall u w, 0 <= u -> u < w -> age w <= age u.
(** [y] is the age at [z] read off a table with nodes every 20/249 in redshift *)
Definition tabulated (age : R -> R) (z y : R) : Prop := exists i, (i < 249)%nat /\
  INR i * (20 / 249) <= z <= INR (S i) * (20 / 249) /\ age (INR (S i) * (20 / 249)) <= y <= age (INR i * (20 / 249)).
(** the redshifts for which the package can convert angles to lengths (C33: the kpc-per-arcsecond table) *)
Definition usable (z : R) : Prop := 0 <= z <= 4.001.

(** * Proofs *)
Lemma age_dom a z : 0 <= z <= 20 -> exists t, age_of a z = Ok t.
Proof.
  intros. unfold age_of. rewrite age_table_eq. apply (grid_domain 0 (20 / 249) 249 (as_age a) z ltac:(lra)).
  replace (INR 249) with 249 by (rewrite INR_IZR_INZ; reflexivity). lra.
Qed.
Lemma age_dom' a z t : age_of a z = Ok t -> 0 <= z <= 20.
Proof.
  unfold age_of. rewrite age_table_eq. intros E. assert (D := proj1 (grid_domain 0 (20 / 249) 249 (as_age a) z ltac:(lra)) (ex_intro _ _ E)).
  replace (INR 249) with 249 in D by (rewrite INR_IZR_INZ; reflexivity). lra.
Qed.
Lemma age_anti a z z' t t' : younger_before (as_age a) -> z <= z' -> age_of a z = Ok t -> age_of a z' = Ok t' -> t' <= t.
Proof.
  unfold age_of. rewrite age_table_eq. intros Y L E E'. eapply (interp1d_anti (as_age a) (grid 0 (20 / 249) (Datatypes.S 249)) z z' t t'); eauto.
  - intros x Hx. unfold grid in Hx. apply in_map_iff in Hx. destruct Hx as (i & <- & _). pose proof (pos_INR i). lra.
  - apply grid_sortedR. lra.
Qed.
Lemma age_tab a z t : younger_before (as_age a) -> age_of a z = Ok t -> tabulated (as_age a) z t.
Proof.
  unfold age_of. rewrite age_table_eq. intros Y E.
  destruct (grid_between 0 (20 / 249) 249 (as_age a) z t ltac:(lra) ltac:(lia) E) as (i & Hi & B & V).
  rewrite !Rplus_0_l in *. exists i. split; [exact Hi|]. split; [exact B|].
  assert (as_age a (INR (Datatypes.S i) * (20 / 249)) <= as_age a (INR i * (20 / 249))).
  { pose proof (pos_INR i). rewrite S_INR. apply Y; nra. }
  rewrite Rmin_right, Rmax_left in V by lra. exact V.
Qed.
Lemma reply_age a qs z zf : reply a qs (QAge z zf) = (do t0 <- age_of a zf; if Rltb zf z then Ok 0 else do t <- age_of a z; Ok (t - t0)).
Proof. rewrite reply_answer. reflexivity. Qed.
#[local] Opaque age_of ask ask_all cosmo_init age_table.
Lemma elapsed a qs z zi : 0 <= z -> z <= zi -> zi <= 20 -> exists t ti, age_of a z = Ok t /\ age_of a zi = Ok ti /\ reply a qs (QAge z zi) = Ok (t - ti).
Proof.
  intros P L M. destruct (age_dom a z ltac:(lra)) as [t E]. destruct (age_dom a zi ltac:(lra)) as [ti Ei]. exists t, ti. repeat split; auto.
  rewrite reply_age, Ei. cbn [bind]. rewrite (proj2 (Rltb_false _ _)) by lra. now rewrite E.
Qed.
Lemma ask_late a qs st m z v zi : younger_before (as_age a) -> 0 <= z -> z <= zi -> zi <= 20 -> z_accreted st m v = Ok zi ->
  exists t ti, age_of a z = Ok t /\ age_of a zi = Ok ti /\ ti <= t /\
    ask_subhalo a qs st m z v = Ok {| ir_z := zi; ir_warned := false; ir_time := t - ti |}.
Proof.
  intros Y P L M A. destruct (elapsed a qs z zi P L M) as (t & ti & E & Ei & Q). exists t, ti. repeat split; auto.
  - exact (age_anti a z zi t ti Y L E Ei).
  - unfold ask_subhalo. change (cosmo_answer a qs) with (reply a qs). rewrite A. cbn [bind]. rewrite Q. cbn [bind]. assert (ti <= t) by exact (age_anti a z zi t ti Y L E Ei).
    rewrite !(proj2 (Rltb_false _ _)) by lra. reflexivity.
Qed.

(** * Theorems *)
(** Times add up: from formation to infall and from infall to observation, whatever was asked before. *)
Theorem C115_additive : forall a qs qs' qs'' z zi zf, 0 <= z -> z <= zi -> zi <= zf -> zf <= 20 ->
  exists t1 t2, reply a qs (QAge z zi) = Ok t1 /\ reply a qs' (QAge zi zf) = Ok t2 /\ reply a qs'' (QAge z zf) = Ok (t1 + t2).
Proof.
  intros * P L1 L2 M. destruct (elapsed a qs z zi) as (t & ti & E & Ei & Q1); try lra.
  destruct (elapsed a qs' zi zf) as (ti' & tf & Ei' & Ef & Q2); try lra. destruct (elapsed a qs'' z zf) as (t' & tf' & E' & Ef' & Q3); try lra.
  rewrite Ei in Ei'. injection Ei' as <-. rewrite E in E'. injection E' as <-. rewrite Ef in Ef'. injection Ef' as <-.
  exists (t - ti), (ti - tf). repeat split; auto. rewrite Q3. f_equal. lra.
Qed.
(** The four calibrated models: at every usable lens redshift, whatever the random number, the mass and the history, a subhalo in
    the lens plane has an infall redshift at or above the lens, no warning, and the time since infall is the non-negative
    difference of the tabulated ages; it is at most the age of a halo that formed at redshift 20. *)
Theorem C115_calibrated : forall a qs st m z_lens v log_m_host n d st0 d', younger_before (as_age a) -> usable z_lens ->
  0 < m -> 0 <= v <= 1 ->
  (n = "HYBRID_INFALL" \/ n = "DIRECT_INFALL" \/ n = "GALACTICUS_2024" \/
   (n = "DIRECT_INFALL_CLUSTER" /\ d = [("log_m_host", log_m_host)] /\ 14 <= log_m_host <= 15)) ->
  setup_infall_model z_lens (SName n) d st0 = (st, d', None) ->
  exists zi t ti tmax, ask_subhalo a qs st m z_lens v = Ok {| ir_z := zi; ir_warned := false; ir_time := t - ti |} /\
    z_lens <= zi <= 20 /\ tabulated (as_age a) z_lens t /\ tabulated (as_age a) zi ti /\ 0 <= t - ti <= tmax /\
    reply a qs (QAge z_lens 20) = Ok tmax.
Proof.
  intros * Y U M V N S.
  assert (A : exists zi, z_accreted st m v = Ok zi /\ z_lens <= zi <= z_lens + 15.92).
  { unfold usable in U. destruct N as [-> | [-> | [-> | (-> & -> & B)]]]; unfold setup_infall_model in S; cbn [String.eqb Ascii.eqb Bool.eqb] in S.
    - destruct (kneed _ _) as [l|]; cbn [bind] in S; [|discriminate]. injection S as <- <-.
      destruct (C45_physical z_lens l m v (hybrid_init z_lens l) M V ltac:(auto)) as (zi & E & L). exists zi. split; [exact E|lra].
    - destruct (kneed _ _) as [l|]; cbn [bind] in S; [|discriminate]. injection S as <- <-.
      destruct (C45_physical z_lens l m v (direct_init z_lens l) M V ltac:(auto)) as (zi & E & L). exists zi. split; [exact E|lra].
    - injection S as <- <-. destruct (C45_galacticus2024 z_lens m v V) as (zi & E & L). exists zi. split; [exact E|lra].
    - cbn [convert_host kget String.eqb Ascii.eqb Bool.eqb kneed bind] in S.
      unfold kneed in S. cbn [kget String.eqb Ascii.eqb Bool.eqb bind] in S. destruct (cluster_init z_lens log_m_host) as [i|] eqn:CI; [|discriminate]. injection S as <- <-.
      destruct (C45_physical z_lens log_m_host m v i M V ltac:(auto)) as (zi & E & L). exists zi. split; [exact E|lra]. }
  destruct A as (zi & A & L). unfold usable in U. destruct (ask_late a qs st m z_lens v zi Y) as (t & ti & E & Ei & TT & Q); try lra; auto.
  destruct (elapsed a qs z_lens 20) as (t' & t20 & E' & E20 & Q20); try lra. rewrite E in E'. injection E' as <-.
  assert (t20 <= ti) by (apply (age_anti a zi 20 ti t20); auto; lra).
  exists zi, t, ti, (t - t20). repeat split; auto; try lra; apply age_tab; auto.
Qed.
(** A larger infall redshift means a longer time since infall. *)
Theorem C115_monotone : forall a qs qs' z zi zi', younger_before (as_age a) -> 0 <= z -> z <= zi -> zi <= zi' -> zi' <= 20 ->
  exists t t', reply a qs (QAge z zi) = Ok t /\ reply a qs' (QAge z zi') = Ok t' /\ 0 <= t <= t'.
Proof.
  intros * Y P L1 L2 M. destruct (elapsed a qs z zi) as (t & ti & E & Ei & Q1); try lra. destruct (elapsed a qs' z zi') as (t' & ti' & E' & Ei' & Q2); try lra.
  rewrite E in E'. injection E' as <-. assert (ti <= t) by exact (age_anti a z zi t ti Y L1 E Ei). assert (ti' <= ti) by exact (age_anti a zi zi' ti ti' Y L2 Ei Ei').
  exists (t - ti), (t - ti'). repeat split; auto; lra.
Qed.
(** INFALL_ZLENS: infall at the lens, zero time. *)
Theorem C115_at_lens : forall a qs st0 d m z_lens v, usable z_lens ->
  exists st, setup_infall_model z_lens (SName "INFALL_ZLENS") d st0 = (st, d, None) /\
    ask_subhalo a qs st m z_lens v = Ok {| ir_z := z_lens; ir_warned := false; ir_time := 0 |}.
Proof.
  intros * U. unfold usable in U. eexists. split; [reflexivity|]. unfold ask_subhalo. change (cosmo_answer a qs) with (reply a qs). cbn [z_accreted ls_set ls_model infall_call bind].
  destruct (elapsed a qs z_lens z_lens) as (t & ti & E & Ei & Q); try lra. rewrite Q. cbn [bind]. rewrite E in Ei. injection Ei as <-.
  replace (t - t) with 0 by lra. rewrite !(proj2 (Rltb_false _ _)) by lra. reflexivity.
Qed.
(** INFALL_0 (refuted: subhalos that fell in at redshift 0 have a negative age, or have been in the host for a long time): the
    infall redshift is 0, below that of every lens; a warning is printed for each subhalo and the time since infall is zero, as
    for INFALL_ZLENS. *)
Theorem C115_at_zero_refuted : forall a qs st0 d m z_lens v, 0 < z_lens ->
  exists st, setup_infall_model z_lens (SName "INFALL_0") d st0 = (st, d, None) /\
    ask_subhalo a qs st m z_lens v = Ok {| ir_z := 0; ir_warned := true; ir_time := 0 |}.
Proof.
  intros * U. eexists. split; [reflexivity|]. unfold ask_subhalo. change (cosmo_answer a qs) with (reply a qs). cbn [z_accreted ls_set ls_model infall_call bind].
  rewrite reply_age. destruct (age_dom a 0 ltac:(lra)) as [t ->]. cbn [bind]. rewrite (proj2 (Rltb_true _ _)) by lra. cbn [bind].
  rewrite (proj2 (Rltb_false _ _)) by lra. reflexivity.
Qed.
(** A user's model can return an infall redshift outside the age table: the query raises ValueError, it does not extrapolate. *)
Theorem C115_outside : forall a qs st m z v zi, z_accreted st m v = Ok zi -> zi < 0 \/ 20 < zi -> ask_subhalo a qs st m z v = Err EValueError.
Proof.
  intros * A O. unfold ask_subhalo. change (cosmo_answer a qs) with (reply a qs). rewrite A. cbn [bind].
  destruct (C33_halo_age a qs z zi) as (_ & _ & _ & H). now rewrite (H O).
Qed.
(** The age of a halo that formed at redshift 10 is the time since infall of a subhalo that fell in at redshift 10. *)
Theorem C115_from_10 : forall a qs z, 0 <= z -> (z <= 10 -> exists t t10, age_of a z = Ok t /\ age_of a 10 = Ok t10 /\ age_from_10 a qs z = Ok (t - t10)) /\
  (10 < z -> age_from_10 a qs z = Ok 0).
Proof.
  intros * P. split; intros L.
  - destruct (elapsed a qs z 10) as (t & ti & E & Ei & Q); try lra. exists t, ti. auto.
  - unfold age_from_10. change (cosmo_answer a qs) with (reply a qs). rewrite reply_age. destruct (age_dom a 10 ltac:(lra)) as [t ->]. cbn [bind]. rewrite (proj2 (Rltb_true _ _)) by lra. reflexivity.
Qed.
(** The vectorised version succeeds on exactly the same lists of subhalos and with the same numbers as one query per subhalo, when
    all of them are at redshifts between 0 and 20. *)
Theorem C115_batch : forall a qs st hs r, ls_set st = true -> List.Forall (fun h => 0 <= nc_z h <= 20) hs ->
  (batch_times a st hs = Ok r <->
   exists rs, mapM (fun h => ask_subhalo a qs st (nc_m h) (nc_z h) (nc_v h)) hs = Ok rs /\ r = map (fun x => (ir_z x, ir_time x)) rs).
Proof.
  intros a qs st hs r S F. unfold batch_times. rewrite C45_batch by auto.
  revert r. induction F as [|h t H F IH]; intros r.
  - cbn. split; [intros E; injection E as <-; exists nil; auto|intros (rs & E & ->); injection E as <-; reflexivity].
  - cbn [map mapM]. cbn [fst snd]. unfold ask_subhalo at 1. change (cosmo_answer a qs) with (reply a qs). destruct (z_accreted st (nc_m h) (nc_v h)) as [zi|e]; cbn [bind].
    2: split; [discriminate|intros (rs & E & _); discriminate].
    destruct (age_dom a (nc_z h) H) as [th Eh]. rewrite Eh. cbn [bind].
    rewrite reply_age, Eh.
    destruct (mapM (fun mv => z_accreted st (fst mv) (snd mv)) (map (fun h => (nc_m h, nc_v h)) t)) as [zis|e] eqn:EZ; cbn [bind] in *.
    2:{ split; [discriminate|]. intros (rs & E & _). exfalso.
        destruct (do t0 <- age_of a zi; if Rltb zi (nc_z h) then Ok 0 else Ok (th - t0)) as [q|]; cbn [bind] in E; [|discriminate].
        destruct (Rltb q 0); [discriminate|]. cbn [bind] in E.
        destruct (mapM (fun h0 => ask_subhalo a qs st (nc_m h0) (nc_z h0) (nc_v h0)) t) as [rs'|] eqn:ER; [|discriminate].
        pose proof (proj2 (IH (map (fun x => (ir_z x, ir_time x)) rs')) (ex_intro _ rs' (conj eq_refl eq_refl))). discriminate. }
    destruct (mapM (fun h0 => age_of a (nc_z h0)) t) as [ts|e] eqn:ET; cbn [bind] in *.
    2:{ exfalso. clear - F ET. induction F as [|x l H F IH]; [discriminate|]. cbn [mapM] in ET. destruct (age_dom a (nc_z x) H) as [y Y]. rewrite Y in ET. cbn [bind] in ET.
        destruct (mapM _ l); [discriminate|]. auto. }
    cbn [mapM]. destruct (age_of a zi) as [ti|e] eqn:EI; cbn [bind].
    2: split; [discriminate|intros (rs & E & _); discriminate].
    destruct (mapM (age_of a) zis) as [tis|e] eqn:EA; cbn [bind] in *.
    2:{ split; [discriminate|]. intros (rs & E & _). exfalso.
        destruct (if Rltb zi (nc_z h) then Ok 0 else Ok (th - ti)) as [q|]; cbn [bind] in E; [|discriminate].
        destruct (Rltb q 0); [discriminate|]. cbn [bind] in E.
        destruct (mapM (fun h0 => ask_subhalo a qs st (nc_m h0) (nc_z h0) (nc_v h0)) t) as [rs'|] eqn:ER; [|discriminate].
        pose proof (proj2 (IH (map (fun x => (ir_z x, ir_time x)) rs')) (ex_intro _ rs' (conj eq_refl eq_refl))). discriminate. }
    cbn [combine map fst snd set_times]. unfold np_where_age at 1.
    replace (if Rltb zi (nc_z h) then Ok 0 else Ok (th - ti)) with (Ok (if Rltb zi (nc_z h) then 0 else th - ti)) by (destruct (Rltb zi (nc_z h)); reflexivity).
    cbn [bind]. set (dt := if Rltb zi (nc_z h) then 0 else th - ti).
    destruct (Rltb dt 0) eqn:ED; cbn [bind].
    { split; [discriminate|intros (rs & E & _); discriminate]. }
    set (L := map (fun q => (snd (fst q), np_where_age (fst (fst (fst q))) (snd (fst q)) (snd (fst (fst q))) (snd q)))
      (combine (combine (combine (map nc_z t) ts) zis) tis)) in *.
    destruct (mapM (fun h0 => ask_subhalo a qs st (nc_m h0) (nc_z h0) (nc_v h0)) t) as [rs'|e] eqn:ER; cbn [bind].
    + rewrite (proj2 (IH _) (ex_intro _ rs' (conj eq_refl eq_refl))). cbn [bind]. split.
      * intros E. injection E as <-. eexists. split; [reflexivity|reflexivity].
      * intros (rs & E & ->). injection E as <-. reflexivity.
    + destruct (set_times L) as [r'|] eqn:EL; cbn [bind].
      * destruct (proj1 (IH r') eq_refl) as (rs & E & _). discriminate.
      * split; [discriminate|intros (rs & E & _); discriminate].
Qed.

Example C115_nonvacuous : younger_before (fun z => 14 / (1 + z)) /\ usable 0.5 /\
  (exists st d', setup_infall_model 0.5 (SName "HYBRID_INFALL") [("log_m_host", 13)] lc_fresh = (st, d', None) /\ ls_set st = true) /\
  (exists st d', setup_infall_model 0.5 (SName "DIRECT_INFALL_CLUSTER") [("log_m_host", 14.5)] lc_fresh = (st, d', None)) /\
  z_accreted {| ls_set := true; ls_model := Some (IUser (fun _ _ => Ok 25)) |} 1 0 = Ok 25.
Proof.
  split; [exact (proj1 C33_halo_age_nonvacuous)|]. split; [unfold usable; lra|]. split; [|split; [|reflexivity]].
  - do 2 eexists. split; [reflexivity|reflexivity].
  - do 2 eexists. unfold setup_infall_model. cbn [String.eqb Ascii.eqb Bool.eqb convert_host kget]. unfold kneed. cbn [kget String.eqb Ascii.eqb Bool.eqb bind].
    unfold cluster_init. rewrite !(proj2 (Rltb_false _ _)) by lra. cbn [orb]. reflexivity.
Qed.

Print Assumptions C115_additive.
Print Assumptions C115_calibrated.
Print Assumptions C115_monotone.
Print Assumptions C115_at_lens.
Print Assumptions C115_at_zero_refuted.
Print Assumptions C115_outside.
Print Assumptions C115_from_10.
Print Assumptions C115_batch.
