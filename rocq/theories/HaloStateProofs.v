From Verif Require Import Prelude HaloStateModel.
#[local] Arguments pow : simpl never.

Lemma bind_ok {A B} (m : M A) (k : A -> M B) s a s' : m s = (Ok a, s') -> mbind m k s = k a s'.
Proof. unfold mbind; intros ->; reflexivity. Qed.
Lemma bind_err {A B} (m : M A) (k : A -> M B) s e s' : m s = (Err e, s') -> mbind m k s = (Err e, s').
Proof. unfold mbind; intros ->; reflexivity. Qed.
Lemma bind_gets {A B} (f : St -> A) (k : A -> M B) s : mbind (gets f) k s = k (f s) s.
Proof. reflexivity. Qed.
Lemma bind_modify {B} f (k : unit -> M B) s : mbind (modify f) k s = k tt (f s).
Proof. reflexivity. Qed.
Lemma bind_ret {A B} (a : A) (k : A -> M B) s : mbind (ret a) k s = k a s.
Proof. reflexivity. Qed.

Section Canonical.
Variable E : Env.
Variable H : Static.
Hypothesis age_nonneg : forall z zf, 0 <= e_age E z zf.

(** The values every history gives to the attributes. *)
Definition zi0 := e_draw_z E 0 (h_mass H).
Definition ze0 := if h_sub H then zi0 else h_z H.
Definition c0 := e_draw_c E 0 (h_mass H) ze0.
Definition nfw0 := e_nfw E (h_mass H) c0 ze0.
Definition t0 : option R := if h_sub H then Some (e_age E (h_z H) zi0) else None.

Definition loss0 st (t : option R) chost : result R :=
  match t with None => Err ETypeError | Some t => Ok (e_loss E st 0 (log10 c0) t chost) end.
Definition mb0 : result R :=
  match h_kind H with
  | KKeeley24 ch | KGalacticus ch => do l <- loss0 SBound t0 ch; Ok (h_mass H * pow10 l)
  | KZinfall ch => do l <- loss0 SBound (Some (zi0 - e_zlens E)) ch; Ok (h_mass H * pow10 l)
  | KApproxCDM => Ok (h_mass H * pow10 (e_logf E SBound 0))
  | _ => Err EAttributeError
  end.
(** truncation radius and factor applied to the normalisation, if any *)
Definition st0 (mb : R) : R * option R :=
  let '(_, _, r200) := nfw0 in let '(r, f) := e_rte E mb (h_mass H) r200 c0 in (r, Some f).
Definition tr0 : result (R * option R) :=
  match h_kind H with
  | KSplashBack => Ok (e_splash E (h_mass H) ze0, None)
  | KRN N => Ok (e_rN E N (h_mass H) ze0, None)
  | KRoche a b g => Ok (e_round E 3 (a * Rpower (h_mass H / 10 ^ 7) b * Rpower (h_r3d H / 50) g), None)
  | KMeanDensity nrm cp sc =>
      let mu := nrm * Rpower (c0 / e_cmed E (h_mass H) ze0) cp in
      let q := if Rltb 0 sc then Rabs (e_normal E 0 mu (sc * mu)) else mu in
      Ok (let '(_, rs, _) := nfw0 in rs * q, None)
  | KMultipleRS tau => Ok (let '(_, rs, _) := nfw0 in tau * rs, None)
  | KConstant rt => Ok (rt, None)
  | KKeeley24 ch => do l <- loss0 STrunc t0 ch;
      Ok (let '(_, rs, _) := nfw0 in
          pow10 (e_tau E (clamp (log10 1) (log10 (pow10 2.7)) (log10 c0)) (clamp (-8) (-0.001) l)) * rs, None)
  | KGalacticus ch | KMilkyWay ch => do l <- loss0 STrunc t0 ch; Ok (st0 (h_mass H * pow10 l))
  | KZinfall ch => do l <- loss0 STrunc (Some (zi0 - e_zlens E)) ch; Ok (st0 (h_mass H * pow10 l))
  | KApproxCDM => Ok (st0 (h_mass H * pow10 (e_logf E STrunc 0)))
  | KBoundMassPDF _ _ =>
      let f := pow10 (e_logf E STrunc 0) in let f := if Rleb 1 f then 0.999 else f in Ok (st0 (f * h_mass H))
  end.
Definition rt0 : result (R * option R) :=
  match h_sub H, h_kind H with
  | true, KGalacticus _ => do m <- mb0; Ok (st0 m)
  | _, _ => tr0
  end.
Definition factor (o : option R) : R := match o with Some f => 1 * f | None => 1 end.

(** caches of the basic quantities *)
Definition Inv0 (s : St) : Prop :=
  (s_zinf s = None /\ n_z s = 0%nat \/ s_zinf s = Some zi0 /\ n_z s = 1%nat) /\
  (s_zeval s = None \/ s_zeval s = Some ze0) /\
  (s_tsi s = None \/ s_tsi s = Some (e_age E (h_z H) zi0)) /\
  (s_c s = None /\ n_c s = 0%nat \/ s_c s = Some c0 /\ n_c s = 1%nat) /\
  (s_nfw s = None \/ s_nfw s = Some nfw0).
Definition same (s s' : St) : Prop :=
  s_x s' = s_x s /\ s_y s' = s_y s /\ s_norm s' = s_norm s /\ s_once s' = s_once s /\ s_pargs s' = s_pargs s /\
  s_phys s' = s_phys s /\ s_kw s' = s_kw s /\ s_vmax s' = s_vmax s /\ n_tr s' = n_tr s.
Definition same_mb (s s' : St) : Prop := s_mb s' = s_mb s /\ n_mb s' = n_mb s.
Definition InvMb (s : St) : Prop :=
  s_mb s = None /\ n_mb s = 0%nat \/ (exists m, s_mb s = Some m /\ mb0 = Ok m) /\ n_mb s = 1%nat.

Lemma same_refl s : same s s. Proof. repeat split. Qed.
Lemma same_trans a b c : same a b -> same b c -> same a c.
Proof. unfold same; intuition congruence. Qed.
Lemma same_mb_trans a b c : same_mb a b -> same_mb b c -> same_mb a c.
Proof. unfold same_mb; intuition congruence. Qed.

Definition getter {A} (m : M A) (r : result A) : Prop :=
  forall s, Inv0 s -> exists s', m s = (r, s') /\ Inv0 s' /\ same s s' /\ same_mb s s'.

Ltac fin := split; [reflexivity|split; [unfold Inv0; simpl; tauto|split; repeat split]].

Lemma get_z_infall : getter (z_infall E H) (Ok zi0).
Proof.
  intros s HI. pose proof HI as ([[Hz Hn]|[Hz Hn]] & H2 & H3 & H4 & H5); unfold z_infall; rewrite bind_gets, Hz.
  - rewrite bind_gets, !bind_modify, Hn. eexists. split; [reflexivity|].
    split; [unfold Inv0; simpl; rewrite Hn; tauto|split; repeat split].
  - exists s. split; [reflexivity|]. split; [assumption|split; repeat split].
Qed.

Tactic Notation "chain" constr(G) hyp(HI) ident(s1) ident(E1) ident(I1) ident(S1) ident(M1) :=
  destruct (G _ HI) as (s1 & E1 & I1 & S1 & M1); rewrite (bind_ok _ _ _ _ _ E1).

Lemma get_z_eval : getter (z_eval E H) (Ok ze0).
Proof.
  intros s HI. pose proof HI as (H1 & [Hz|Hz] & H3 & H4 & H5); unfold z_eval; rewrite bind_gets, Hz.
  - unfold ze0. destruct (h_sub H) eqn:Es.
    + chain get_z_infall HI s1 E1 I1 S1 M1. rewrite bind_modify. eexists. split; [reflexivity|].
      destruct I1 as (J1 & J2 & J3 & J4 & J5).
      split; [unfold Inv0, ze0; simpl; rewrite Es; tauto|]. split; [exact S1|exact M1].
    + rewrite bind_ret, bind_modify. eexists. split; [reflexivity|].
      split; [unfold Inv0, ze0; simpl; rewrite Es; tauto|split; repeat split].
  - exists s. split; [reflexivity|]. split; [assumption|split; repeat split].
Qed.

Lemma get_time : getter (time_since_infall E H) (Ok t0).
Proof.
  intros s HI. unfold time_since_infall, t0. destruct (h_sub H) eqn:Es; simpl.
  - pose proof HI as (H1 & H2 & [Hz|Hz] & H4 & H5); rewrite bind_gets, Hz.
    + chain get_z_infall HI s1 E1 I1 S1 M1. rewrite bind_modify.
      assert (L : Rleb 0 (e_age E (h_z H) zi0) = true) by (apply Rleb_true; apply age_nonneg).
      rewrite L. eexists. split; [reflexivity|].
      destruct I1 as (J1 & J2 & J3 & J4 & J5).
      split; [unfold Inv0; simpl; tauto|]. split; [exact S1|exact M1].
    + exists s. split; [reflexivity|]. split; [assumption|split; repeat split].
  - exists s. split; [reflexivity|]. split; [assumption|split; repeat split].
Qed.

Lemma get_conc : getter (conc E H) (Ok c0).
Proof.
  intros s HI. pose proof HI as (H1 & H2 & H3 & [[Hz Hn]|[Hz Hn]] & H5); unfold conc; rewrite bind_gets, Hz.
  - (* z_eval does not touch the concentration *)
    assert (X : forall s1, z_eval E H s = (Ok ze0, s1) -> s_c s1 = s_c s /\ n_c s1 = n_c s).
    { intros s1. unfold z_eval. rewrite bind_gets. destruct (s_zeval s).
      - unfold ret; intros Y; injection Y as _ <-; auto.
      - destruct (h_sub H).
        + unfold z_infall. unfold mbind at 1. rewrite bind_gets.
          destruct (s_zinf s); [|rewrite bind_gets, !bind_modify]; cbv beta iota delta [ret mbind modify];
            intros Y; injection Y as _ <-; simpl; auto.
        + rewrite bind_ret, bind_modify. unfold ret. intros Y; injection Y as _ <-; simpl; auto. }
    chain get_z_eval HI s1 E1 I1 S1 M1. destruct (X _ E1) as [Xc Xn].
    rewrite bind_gets, !bind_modify, Xn, Hn. eexists. split; [reflexivity|].
    destruct I1 as (J1 & J2 & J3 & J4 & J5).
    split; [unfold Inv0; simpl; rewrite Xn, Hn; tauto|]. split; [exact S1|exact M1].
  - exists s. split; [reflexivity|]. split; [assumption|split; repeat split].
Qed.

Lemma get_nfw : getter (nfw_params E H) (Ok nfw0).
Proof.
  intros s HI. pose proof HI as (H1 & H2 & H3 & H4 & [Hz|Hz]); unfold nfw_params; rewrite bind_gets, Hz.
  - chain get_conc HI s1 E1 I1 S1 M1. chain get_z_eval I1 s2 E2 I2 S2 M2.
    rewrite bind_modify. eexists. split; [reflexivity|].
    destruct I2 as (J1 & J2 & J3 & J4 & J5). split; [unfold Inv0; simpl; tauto|].
    split; [exact (same_trans _ _ _ S1 S2)|exact (same_mb_trans _ _ _ M1 M2)].
  - exists s. split; [reflexivity|]. split; [assumption|split; repeat split].
Qed.


(** composition of getters with arguments fixed to the canonical values *)
Lemma getter_bind {A B} (m : M A) (k : A -> M B) a r :
  getter m (Ok a) -> getter (k a) r -> getter (mbind m k) r.
Proof.
  intros G1 G2 s HI. chain G1 HI s1 E1 I1 S1 M1. destruct (G2 _ I1) as (s2 & E2 & I2 & S2 & M2).
  exists s2. split; [exact E2|]. split; [exact I2|].
  split; [exact (same_trans _ _ _ S1 S2)|exact (same_mb_trans _ _ _ M1 M2)].
Qed.
Lemma getter_ret {A} (a : A) : getter (ret a) (Ok a).
Proof. intros s HI. exists s. repeat split; auto; apply HI. Qed.
Lemma getter_raise {A} e : getter (@raise A e) (Err e).
Proof. intros s HI. exists s. repeat split; auto; apply HI. Qed.

(** the bound-mass computation *)
Definition mb_getter (m : M R) (r : result R) : Prop :=
  forall s, Inv0 s -> n_mb s = 0%nat -> s_mb s = None ->
    exists s', m s = (r, s') /\ Inv0 s' /\ same s s' /\ s_mb s' = None /\
      match r with Ok _ => n_mb s' = 1%nat | Err _ => n_mb s' = 0%nat end.
Lemma mb_getter_bind {A} (m : M A) (k : A -> M R) a r :
  getter m (Ok a) -> mb_getter (k a) r -> mb_getter (mbind m k) r.
Proof.
  intros G1 G2 s HI Hn Hm. chain G1 HI s1 E1 I1 S1 M1. destruct M1 as [M1 M1'].
  destruct (G2 _ I1) as (s2 & E2 & I2 & S2 & M2 & N2); [congruence|congruence|].
  exists s2. split; [exact E2|]. split; [exact I2|]. split; [exact (same_trans _ _ _ S1 S2)|]. auto.
Qed.
Lemma mb_loss lc t ch (k : R -> R) :
  mb_getter (let* ml := mass_loss E SBound lc t ch in ret (k ml))
    (do ml <- match t with None => Err ETypeError | Some t => Ok (e_loss E SBound 0 lc t ch) end; Ok (k ml)).
Proof.
  intros s HI Hn Hm. destruct t as [t|]; simpl.
  - unfold mass_loss, draw_number. cbv beta iota delta [mbind gets modify ret]. rewrite Hn.
    eexists. split; [reflexivity|]. destruct HI as (J1 & J2 & J3 & J4 & J5).
    split; [unfold Inv0; simpl; tauto|]. simpl. rewrite Hn. repeat split; auto.
  - exists s. repeat split; auto; apply HI.
Qed.
Lemma mb_logf (k : R -> R) :
  mb_getter (let* n := draw_number SBound in ret (k (e_logf E SBound n))) (Ok (k (e_logf E SBound 0))).
Proof.
  intros s HI Hn Hm. unfold draw_number. cbv beta iota delta [mbind gets modify ret]. rewrite Hn.
  eexists. split; [reflexivity|]. destruct HI as (J1 & J2 & J3 & J4 & J5).
  split; [unfold Inv0; simpl; tauto|]. simpl. rewrite Hn. repeat split; auto.
Qed.

Lemma get_mbound : mb_getter (calculate_mbound E H) mb0.
Proof.
  unfold calculate_mbound, mb0, loss0.
  destruct (h_kind H); try (intros s HI Hn Hm; exists s; repeat split; auto; apply HI).
  - eapply mb_getter_bind; [apply get_conc|]. eapply mb_getter_bind; [apply get_time|].
    apply (mb_loss (log10 c0) t0 chost (fun ml => h_mass H * pow10 ml)).
  - eapply mb_getter_bind; [apply get_conc|]. eapply mb_getter_bind; [apply get_time|].
    apply (mb_loss (log10 c0) t0 chost (fun ml => h_mass H * pow10 ml)).
  - eapply mb_getter_bind; [apply get_conc|]. eapply mb_getter_bind; [apply get_z_infall|].
    apply (mb_loss (log10 c0) (Some (zi0 - e_zlens E)) chost (fun ml => h_mass H * pow10 ml)).
  - apply (mb_logf (fun l => h_mass H * pow10 l)).
Qed.

Definition mbdef0 : result R :=
  if h_sub H then
    match h_kind H with
    | KGalacticus _ | KZinfall _ | KKeeley24 _ | KApproxCDM => mb0
    | _ => Err EException
    end
  else Err EAttributeError.

Lemma get_mbdef s : Inv0 s -> InvMb s ->
  exists s', bound_mass_galacticus_definition E H s = (mbdef0, s') /\ Inv0 s' /\ InvMb s' /\ same s s'.
Proof.
  intros HI HM. unfold bound_mass_galacticus_definition, mbdef0.
  destruct (h_sub H); simpl; [|exists s; repeat split; auto; apply HI].
  assert (X : exists s', (let* v := gets s_mb in match v with Some m => ret m | None =>
     let* m := calculate_mbound E H in let* _ := modify (set_mb m) in ret m end) s = (mb0, s') /\
     Inv0 s' /\ InvMb s' /\ same s s').
  { rewrite bind_gets. destruct HM as [[Hm Hn]|[(m & Hm & Hq) Hn]]; rewrite Hm.
    - destruct (get_mbound s HI Hn Hm) as (s1 & E1 & I1 & S1 & M1 & N1).
      destruct mb0 as [m|e] eqn:Em.
      + rewrite (bind_ok _ _ _ _ _ E1), bind_modify. eexists. split; [reflexivity|].
        destruct I1 as (J1 & J2 & J3 & J4 & J5). split; [unfold Inv0; simpl; tauto|].
        split; [right; split; [exists m; auto|exact N1]|exact S1].
      + rewrite (bind_err _ _ _ _ _ E1). exists s1. split; [reflexivity|]. split; [exact I1|].
        split; [left; auto|exact S1].
    - exists s. rewrite Hq. split; [reflexivity|]. split; [exact HI|]. split; [right; eauto|apply same_refl]. }
  destruct (h_kind H); try exact X; exists s; repeat split; auto; apply HI.
Qed.

(** results of computations that may draw and rescale *)
Definition trunc_pre (s : St) : Prop :=
  Inv0 s /\ n_tr s = 0%nat /\ s_norm s = 1 /\ s_once s = false /\ s_phys s = None /\ s_kw s = None.
Definition trunc_post (r : result (R * option R)) (s s' : St) : Prop :=
  Inv0 s' /\ same_mb s s' /\
  s_x s' = s_x s /\ s_y s' = s_y s /\ s_pargs s' = s_pargs s /\ s_vmax s' = s_vmax s /\
  s_phys s' = None /\ s_kw s' = None /\ (n_tr s' <= 1)%nat /\
  match r with Ok (_, o) => s_norm s' = factor o | Err _ => same s s' end.
Definition tval (r : result (R * option R)) : result R := do p <- r; Ok (fst p).
Definition trunc_result (m : M R) (r : result (R * option R)) : Prop :=
  forall s, trunc_pre s -> exists s', m s = (tval r, s') /\ trunc_post r s s'.

Lemma trunc_bind {A} (m : M A) (k : A -> M R) a r :
  getter m (Ok a) -> trunc_result (k a) r -> trunc_result (mbind m k) r.
Proof.
  intros G1 G2 s (HI & Ht & Hn & Ho & Hp & Hk). chain G1 HI s1 E1 I1 S1 M1.
  pose proof S1 as (A1 & A2 & A3 & A4 & A5 & A6 & A7 & A8 & A9).
  destruct (G2 s1) as (s2 & E2 & P2); [repeat split; try congruence; apply I1|].
  exists s2. split; [exact E2|].
  destruct P2 as (B1 & B2 & B3 & B4 & B5 & B6 & B7 & B8 & B9 & B10).
  unfold trunc_post. split; [exact B1|]. split; [exact (same_mb_trans _ _ _ M1 B2)|].
  do 7 (split; [congruence || assumption|]).
  destruct r as [[? ?]|]; [assumption|]. exact (same_trans _ _ _ S1 B10).
Qed.

Lemma trunc_simple (m : M R) r : getter m (Ok r) -> trunc_result m (Ok (r, None)).
Proof.
  intros G s (HI & Ht & Hn & Ho & Hp & Hk). destruct (G s HI) as (s1 & E1 & I1 & S1 & M1).
  exists s1. split; [exact E1|].
  destruct S1 as (A1 & A2 & A3 & A4 & A5 & A6 & A7 & A8 & A9).
  unfold trunc_post. simpl. rewrite A9, Ht. repeat (split; try congruence; try assumption). lia.
Qed.

Lemma struct_lemma m s : Inv0 s -> s_norm s = 1 -> s_once s = false -> s_phys s = None -> s_kw s = None ->
  (n_tr s <= 1)%nat ->
  exists s', structure_from_mbound E H m c0 s = (tval (Ok (st0 m)), s') /\ trunc_post (Ok (st0 m)) s s'.
Proof.
  intros HI Hn Ho Hp Hk Ht. unfold structure_from_mbound.
  chain get_z_eval HI s1 E1 I1 S1 M1. unfold st0, nfw0.
  destruct (e_nfw E (h_mass H) c0 ze0) as [[rhos rs] r200].
  destruct (e_rte E m (h_mass H) r200 c0) as [r f].
  rewrite bind_modify. unfold rescale_normalization.
  destruct S1 as (A1 & A2 & A3 & A4 & A5 & A6 & A7 & A8 & A9).
  rewrite A4, Ho. eexists. split; [reflexivity|].
  destruct I1 as (J1 & J2 & J3 & J4 & J5).
  split; [unfold Inv0; simpl; tauto|]. split; [exact M1|]. simpl.
  rewrite A3, Hn, A9. repeat split; auto.
Qed.

(** one truncation draw, then something canonical that depends on it *)
Lemma trunc_draw (k : nat -> M R) r :
  (forall s, Inv0 s -> s_norm s = 1 -> s_once s = false -> s_phys s = None -> s_kw s = None -> n_tr s = 1%nat ->
     exists s', k 0%nat s = (tval (Ok r), s') /\ trunc_post (Ok r) s s') ->
  trunc_result (let* n := draw_number STrunc in k n) (Ok r).
Proof.
  intros G s (HI & Ht & Hn & Ho & Hp & Hk). unfold draw_number.
  destruct (G (tick_tr s)) as (s2 & E2 & P2); try assumption.
  { simpl; congruence. }
  exists s2. split; [|exact P2].
  rewrite <- E2. cbv beta iota delta [mbind gets modify ret]. rewrite Ht. reflexivity.
Qed.

Lemma post_ret (r : R) s : Inv0 s -> s_norm s = 1 -> s_phys s = None -> s_kw s = None -> (n_tr s <= 1)%nat ->
  trunc_post (Ok (r, None)) s s.
Proof. intros. unfold trunc_post, same_mb. simpl. repeat (split; try assumption; try reflexivity). Qed.

Lemma trunc_loss (lc : R) t ch (k : R -> M R) (r : R -> R * option R) :
  (forall l s, Inv0 s -> s_norm s = 1 -> s_once s = false -> s_phys s = None -> s_kw s = None -> (n_tr s <= 1)%nat ->
     exists s', k l s = (tval (Ok (r l)), s') /\ trunc_post (Ok (r l)) s s') ->
  trunc_result (let* ml := mass_loss E STrunc lc t ch in k ml)
    (do ml <- match t with None => Err ETypeError | Some t => Ok (e_loss E STrunc 0 lc t ch) end; Ok (r ml)).
Proof.
  intros G. destruct t as [t|]; simpl.
  - intros s Hs. destruct (trunc_draw (fun n => k (e_loss E STrunc n lc t ch)) (r (e_loss E STrunc 0 lc t ch))) with (s := s)
      as (s' & E1 & P1); [|exact Hs|].
    + intros s0 I0 a b c d e. apply G; auto; lia.
    + exists s'. split; [|exact P1]. rewrite <- E1. unfold mass_loss, mbind, draw_number, gets, modify, ret. reflexivity.
  - intros s (HI & Ht & Hn & Ho & Hp & Hk). exists s. split; [reflexivity|].
    unfold trunc_post, same_mb, same. rewrite Ht. repeat (split; try assumption; try reflexivity). lia.
Qed.

Lemma get_trunc : trunc_result (truncation_radius_halo E H) tr0.
Proof.
  unfold truncation_radius_halo, tr0, loss0. destruct (h_kind H) eqn:Ek.
  - apply trunc_simple. eapply getter_bind; [apply get_z_eval|apply getter_ret].
  - apply trunc_simple. eapply getter_bind; [apply get_z_eval|apply getter_ret].
  - apply trunc_simple. apply getter_ret.
  - eapply trunc_bind; [apply get_z_eval|]. cbv beta zeta. eapply trunc_bind; [apply get_conc|].
    eapply trunc_bind; [apply get_z_eval|]. fold nfw0. destruct nfw0 as [[rhos rs] r200].
    destruct (Rltb 0 scatter).
    + set (mu := norm * Rpower (c0 / e_cmed E (h_mass H) ze0) cpow).
      intros s Hs. destruct (trunc_draw (fun n => ret (rs * Rabs (e_normal E n mu (scatter * mu))))
         (rs * Rabs (e_normal E 0 mu (scatter * mu)), None)) with (s := s) as (s' & E1 & P1); [|exact Hs|].
      * intros s0 I0 a b c d e. exists s0. split; [reflexivity|]. apply post_ret; auto; lia.
      * exists s'. split; [|exact P1]. rewrite <- E1. unfold mbind, draw_number, gets, modify, ret. reflexivity.
    + apply trunc_simple. eapply getter_bind; [apply getter_ret|apply getter_ret].
  - apply trunc_simple. eapply getter_bind; [apply get_nfw|]. destruct nfw0 as [[a b] c]. apply getter_ret.
  - apply trunc_simple. apply getter_ret.
  - eapply trunc_bind; [apply get_conc|]. eapply trunc_bind; [apply get_time|]. eapply trunc_bind; [apply get_z_eval|].
    fold nfw0. destruct nfw0 as [[rhos rs] r200].
    apply (trunc_loss (log10 c0) t0 chost _ (fun l => (_, None))).
    intros l s HI a b c d e. exists s. split; [reflexivity|]. apply post_ret; auto.
  - eapply trunc_bind; [apply get_conc|]. eapply trunc_bind; [apply get_time|].
    apply (trunc_loss (log10 c0) t0 chost _ (fun l => st0 (h_mass H * pow10 l))).
    intros l s HI a b c d e. apply struct_lemma; auto.
  - eapply trunc_bind; [apply get_conc|]. eapply trunc_bind; [apply get_z_infall|].
    apply (trunc_loss (log10 c0) (Some (zi0 - e_zlens E)) chost _ (fun l => st0 (h_mass H * pow10 l))).
    intros l s HI a b c d e. apply struct_lemma; auto.
  - eapply trunc_bind; [apply get_conc|]. apply trunc_draw.
    intros s HI a b c d e. apply struct_lemma; auto; lia.
  - apply trunc_draw. intros s HI a b c d e.
    destruct (get_conc s HI) as (s1 & E1 & I1 & S1 & M1). rewrite (bind_ok _ _ _ _ _ E1).
    pose proof S1 as (A1 & A2 & A3 & A4 & A5 & A6 & A7 & A8 & A9).
    destruct (struct_lemma ((if Rleb 1 (pow10 (e_logf E STrunc 0)) then 0.999 else pow10 (e_logf E STrunc 0)) * h_mass H) s1)
      as (s2 & E2 & P2); try assumption; try congruence; [rewrite A9; lia|].
    exists s2. split; [exact E2|].
    destruct P2 as (B1 & B2 & B3 & B4 & B5 & B6 & B7 & B8 & B9 & B10).
    unfold trunc_post. split; [exact B1|]. split; [exact (same_mb_trans _ _ _ M1 B2)|].
    do 7 (split; [congruence || assumption|]). exact B10.
  - eapply trunc_bind; [apply get_conc|]. eapply trunc_bind; [apply get_time|].
    apply (trunc_loss (log10 c0) t0 chost _ (fun l => st0 (h_mass H * pow10 l))).
    intros l s HI a b c d e. apply struct_lemma; auto.
Qed.

(** The canonical derived parameters once the truncation radius is known. *)
Definition phys0 (rt : R) (o : option R) : Phys :=
  let '(rhos, rs, r200) := nfw0 in mkPhys (rhos * factor o) rs r200 rt.
Definition kw0 (x y rt : R) (o : option R) : LensKw :=
  let '(rhos, rs, _) := nfw0 in
  let '(Rs, theta) := e_angle E (rhos * 10 ^ 9) (rs * / 10 ^ 3) (h_z H) in
  mkLensKw (factor o * e_round E 10 theta) (e_round E 10 Rs) (e_round E 4 x) (e_round E 4 y)
           (e_round E 10 (rt / e_kpc E (h_z H))).
Definition vmax0 (o : option R) : R := let '(rhos, rs, _) := nfw0 in e_vmax E (factor o * rhos) rs.

Section XY.
Variables X Y : R.
(** Invariant of objects that were only queried. *)
Definition Inv (s : St) : Prop :=
  Inv0 s /\ InvMb s /\ s_x s = X /\ s_y s = Y /\ (n_tr s <= 1)%nat /\
  ((s_pargs s = None /\ s_norm s = 1 /\ s_once s = false /\ s_phys s = None /\ s_kw s = None /\ s_vmax s = None /\
    n_tr s = 0%nat) \/
   (exists rt o, rt0 = Ok (rt, o) /\ s_pargs s = Some (c0, rt) /\ s_norm s = factor o /\
      (s_phys s = None \/ s_phys s = Some (phys0 rt o)) /\
      (s_kw s = None \/ s_kw s = Some (kw0 X Y rt o)) /\
      (s_vmax s = None \/ s_vmax s = Some (vmax0 o)))).

Definition have (s : St) rt o : Prop :=
  s_pargs s = Some (c0, rt) /\ s_norm s = factor o.

Lemma inv_get {A} (m : M A) r s : getter m r -> Inv s ->
  exists s', m s = (r, s') /\ Inv s' /\ same s s'.
Proof.
  intros G (I0 & IM & Hx & Hy & Hn & Hc). destruct (G s I0) as (s' & E1 & I1 & S1 & [M1 M2]).
  exists s'. split; [exact E1|]. split; [|exact S1].
  destruct S1 as (A1 & A2 & A3 & A4 & A5 & A6 & A7 & A8 & A9).
  unfold Inv, InvMb. rewrite M1, M2, A1, A2, A3, A4, A5, A6, A7, A8, A9. tauto.
Qed.

Lemma inv_mbdef s : Inv s ->
  exists s', bound_mass_galacticus_definition E H s = (mbdef0, s') /\ Inv s' /\ same s s'.
Proof.
  intros (I0 & IM & Hx & Hy & Hn & Hc). destruct (get_mbdef s I0 IM) as (s' & E1 & I1 & M1 & S1).
  exists s'. split; [exact E1|]. split; [|exact S1].
  destruct S1 as (A1 & A2 & A3 & A4 & A5 & A6 & A7 & A8 & A9).
  unfold Inv. rewrite A1, A2, A3, A4, A5, A6, A7, A8, A9. tauto.
Qed.

Definition pa0 : result (R * R) := do p <- rt0; Ok (c0, fst p).

Lemma inv_pargs s : Inv s ->
  exists s', profile_args E H s = (pa0, s') /\ Inv s' /\
    match rt0 with Ok (rt, o) => have s' rt o | Err _ => s_pargs s' = None end /\
    (s_pargs s <> None -> s' = s).
Proof.
  intros HI. pose proof HI as (I0 & IM & Hx & Hy & Hn & Hc). unfold profile_args. rewrite bind_gets.
  destruct Hc as [(Hp & Hno & Hon & Hph & Hk & Hv & Ht)|(rt & o & Hr & Hp & Hno & Hc)].
  - rewrite Hp.
    assert (T : exists s', (match h_sub H, h_kind H with
         | true, KGalacticus _ =>
             let* mb := bound_mass_galacticus_definition E H in
             let* c := conc E H in structure_from_mbound E H mb c
         | _, _ => truncation_radius_halo E H end) s = (tval rt0, s') /\ Inv0 s' /\ InvMb s' /\
         s_x s' = X /\ s_y s' = Y /\ s_pargs s' = None /\ s_vmax s' = None /\ s_phys s' = None /\ s_kw s' = None /\
         (n_tr s' <= 1)%nat /\
         match rt0 with Ok (_, o) => s_norm s' = factor o
                      | Err _ => s_norm s' = 1 /\ s_once s' = false /\ n_tr s' = 0%nat end).
    { assert (T0 : exists s', truncation_radius_halo E H s = (tval tr0, s') /\ Inv0 s' /\ InvMb s' /\
         s_x s' = X /\ s_y s' = Y /\ s_pargs s' = None /\ s_vmax s' = None /\ s_phys s' = None /\ s_kw s' = None /\
         (n_tr s' <= 1)%nat /\
         match tr0 with Ok (_, o) => s_norm s' = factor o
                      | Err _ => s_norm s' = 1 /\ s_once s' = false /\ n_tr s' = 0%nat end).
      { destruct (get_trunc s) as (s1 & E1 & P1); [repeat split; auto; apply I0|].
        destruct P1 as (B1 & [B2 B2'] & B3 & B4 & B5 & B6 & B7 & B8 & B9 & B10).
        exists s1. split; [exact E1|]. split; [exact B1|].
        split; [unfold InvMb; rewrite B2, B2'; exact IM|].
        repeat (split; [congruence || assumption|]).
        destruct tr0 as [[? ?]|]; [assumption|].
        destruct B10 as (A1 & A2 & A3 & A4 & A5 & A6 & A7 & A8 & A9). repeat split; congruence. }
      unfold rt0. destruct (h_sub H) eqn:Es; [|exact T0]. destruct (h_kind H) eqn:Ek; try exact T0.
      clear T0. destruct (get_mbdef s I0 IM) as (s1 & E1 & I1 & M1 & S1).
      unfold mbdef0 in E1. rewrite Es, Ek in E1.
      pose proof S1 as (A1 & A2 & A3 & A4 & A5 & A6 & A7 & A8 & A9).
      destruct mb0 as [m|e]; simpl.
      + rewrite (bind_ok _ _ _ _ _ E1). destruct (get_conc s1 I1) as (s2 & E2 & I2 & S2 & M2).
        rewrite (bind_ok _ _ _ _ _ E2).
        pose proof S2 as (C1 & C2 & C3 & C4 & C5 & C6 & C7 & C8 & C9).
        destruct (struct_lemma m s2) as (s3 & E3 & P3); try assumption; try congruence.
        exists s3. split; [exact E3|].
        destruct P3 as (B1 & [B2 B2'] & B3 & B4 & B5 & B6 & B7 & B8 & B9 & B10). destruct M2 as [M2 M2'].
        split; [exact B1|]. split; [unfold InvMb; rewrite B2, B2', M2, M2'; exact M1|].
        repeat (split; [congruence || assumption|]). exact B10.
      + rewrite (bind_err _ _ _ _ _ E1). exists s1. split; [reflexivity|].
        split; [exact I1|]. split; [exact M1|]. repeat (split; [congruence|]).
        repeat split; congruence. }
    destruct T as (s1 & E1 & I1 & M1 & T1 & T2 & T3 & T4 & T5 & T6 & T7 & T8).
    unfold pa0. destruct rt0 as [[rt o]|e] eqn:Er; simpl in *.
    + rewrite (bind_ok _ _ _ _ _ E1). destruct (get_conc s1 I1) as (s2 & E2 & I2 & S2 & M2).
      rewrite (bind_ok _ _ _ _ _ E2), bind_modify. eexists. split; [reflexivity|].
      pose proof S2 as (C1 & C2 & C3 & C4 & C5 & C6 & C7 & C8 & C9). destruct M2 as [M2 M2'].
      split.
      * split; [destruct I2 as (J1 & J2 & J3 & J4 & J5); unfold Inv0; simpl; tauto|].
        split; [unfold InvMb; simpl; rewrite M2, M2'; exact M1|].
        simpl. repeat (split; [congruence|]). right. exists rt, o.
        repeat split; try congruence; left; congruence.
      * split; [split; simpl; congruence|]. intros C. contradiction.
    + rewrite (bind_err _ _ _ _ _ E1). exists s1. split; [reflexivity|].
      split.
      * split; [exact I1|]. split; [exact M1|]. repeat (split; [congruence|]). left. tauto.
      * split; [assumption|]. intros C. contradiction.
  - rewrite Hp. exists s. unfold pa0. rewrite Hr. simpl.
    split; [reflexivity|]. split; [exact HI|]. split; [split; assumption|auto].
Qed.

Lemma same_have s s' rt o : same s s' -> have s rt o -> have s' rt o.
Proof. intros (A1 & A2 & A3 & A4 & A5 & A6 & A7 & A8 & A9) [B1 B2]; split; congruence. Qed.

Lemma inv_phys s : Inv s ->
  exists s', params_physical E H s = ((do p <- rt0; Ok (phys0 (fst p) (snd p))), s') /\ Inv s' /\
    (forall p, rt0 = Ok p -> have s' (fst p) (snd p)).
Proof.
  intros HI. unfold params_physical. rewrite bind_gets. destruct (s_phys s) as [p|] eqn:Ep.
  - exists s. split; [|split; [exact HI|]].
    2:{ intros q Hq. destruct HI as (I0 & IM & Hx & Hy & Hn & Hc).
      destruct Hc as [(Hp & Hno & Hon & Hph & Hk & Hv & Ht)|(rt & o & Hr & Hp & Hno & Hph & Hc)]; [congruence|].
      rewrite Hr in Hq. injection Hq as <-. split; assumption. }
    destruct HI as (I0 & IM & Hx & Hy & Hn & Hc).
    destruct Hc as [(Hp & Hno & Hon & Hph & Hk & Hv & Ht)|(rt & o & Hr & Hp & Hno & Hph & Hc)]; [congruence|].
    destruct Hph as [Hph|Hph]; [congruence|]. rewrite Hr. simpl. rewrite Hph in Ep. injection Ep as <-. reflexivity.
  - destruct (inv_pargs s HI) as (s1 & E1 & I1 & A1 & _). unfold pa0 in E1.
    destruct rt0 as [[rt o]|e] eqn:Er; simpl in *.
    + rewrite (bind_ok _ _ _ _ _ E1). destruct (inv_get _ _ s1 get_nfw I1) as (s2 & E2 & I2 & S2).
      rewrite (bind_ok _ _ _ _ _ E2). pose proof (same_have _ _ _ _ S2 A1) as [Hp Hno]. unfold phys0.
      destruct nfw0 as [[rhos rs] r200] eqn:En. rewrite bind_gets, bind_modify. eexists.
      split; [simpl; rewrite Hno; reflexivity|].
      split; [|intros q Hq; injection Hq as <-; split; assumption].
      destruct I2 as (I0 & IM & Hx & Hy & Hn & Hc). split; [exact I0|]. split; [exact IM|].
      repeat (split; [assumption|]). right. exists rt, o.
      destruct Hc as [(Hp' & _)|(rt' & o' & Hr & Hp' & Hno' & Hph & Hk & Hv)]; [congruence|].
      assert (rt' = rt /\ o' = o) as [-> ->] by (split; congruence).
      simpl. repeat split; auto. right. unfold phys0. rewrite En. reflexivity.
    + rewrite (bind_err _ _ _ _ _ E1). exists s1. split; [reflexivity|]. split; [exact I1|discriminate].
Qed.

Lemma inv_kw s : Inv s ->
  exists s', lenstronomy_params E H s = ((do p <- rt0; Ok (kw0 X Y (fst p) (snd p))), s') /\ Inv s' /\
    (forall p, rt0 = Ok p -> s_kw s' <> None /\ s_pargs s' <> None).
Proof.
  intros HI. unfold lenstronomy_params. rewrite bind_gets. destruct (s_kw s) as [p|] eqn:Ep.
  - exists s. split; [|split; [exact HI|]].
    + destruct HI as (I0 & IM & Hx & Hy & Hn & Hc).
      destruct Hc as [(Hp & Hno & Hon & Hph & Hk & Hv & Ht)|(rt & o & Hr & Hp & Hno & Hph & Hk & Hc)]; [congruence|].
      destruct Hk as [Hk|Hk]; [congruence|]. rewrite Hr. simpl. rewrite Hk in Ep. injection Ep as <-. reflexivity.
    + intros q _. split; [congruence|]. destruct HI as (I0 & IM & Hx & Hy & Hn & Hc).
      destruct Hc as [(Hp & Hno & Hon & Hph & Hk & Hv & Ht)|(rt & o & Hr & Hp & Hno & Hph & Hk & Hc)]; congruence.
  - destruct (inv_pargs s HI) as (s1 & E1 & I1 & A1 & _). unfold pa0 in E1.
    destruct rt0 as [[rt o]|e] eqn:Er; simpl in *.
    + rewrite (bind_ok _ _ _ _ _ E1). destruct (inv_get _ _ s1 get_nfw I1) as (s2 & E2 & I2 & S2).
      rewrite (bind_ok _ _ _ _ _ E2). pose proof (same_have _ _ _ _ S2 A1) as [Hp Hno]. unfold kw0.
      destruct nfw0 as [[rhos rs] r200] eqn:En.
      destruct (e_angle E (rhos * 10 ^ 9) (rs * / 10 ^ 3) (h_z H)) as [Rs th] eqn:Ea.
      cbv iota beta zeta. rewrite !bind_gets, bind_modify. eexists.
      destruct I2 as (I0 & IM & Hx & Hy & Hn & Hc).
      split; [simpl; rewrite Hno, Hx, Hy; reflexivity|]. split.
      * split; [exact I0|]. split; [exact IM|].
        repeat (split; [assumption|]). right. exists rt, o.
        destruct Hc as [(Hp' & _)|(rt' & o' & Hr & Hp' & Hno' & Hph & Hk & Hv)]; [congruence|].
        assert (rt' = rt /\ o' = o) as [-> ->] by (split; congruence).
        simpl. repeat split; auto. right. unfold kw0. rewrite En, Ea. reflexivity.
      * intros q _. simpl. split; congruence.
    + rewrite (bind_err _ _ _ _ _ E1). exists s1. split; [reflexivity|]. split; [exact I1|]. discriminate.
Qed.

Lemma inv_vmax s : Inv s ->
  exists s', vmax_nfw E H s = ((do p <- rt0; Ok (vmax0 (snd p))), s') /\ Inv s'.
Proof.
  intros HI. unfold vmax_nfw. rewrite bind_gets. destruct (s_vmax s) as [p|] eqn:Ep.
  - exists s. split; [|exact HI]. destruct HI as (I0 & IM & Hx & Hy & Hn & Hc).
    destruct Hc as [(Hp & Hno & Hon & Hph & Hk & Hv & Ht)|(rt & o & Hr & Hp & Hno & Hph & Hk & Hv)]; [congruence|].
    destruct Hv as [Hv|Hv]; [congruence|]. rewrite Hr. simpl. rewrite Hv in Ep. injection Ep as <-. reflexivity.
  - destruct (inv_get _ _ s get_nfw HI) as (s1 & E1 & I1 & S1). rewrite (bind_ok _ _ _ _ _ E1).
    destruct nfw0 as [[rhos rs] r200] eqn:En.
    destruct (inv_pargs s1 I1) as (s2 & E2 & I2 & A2 & _). unfold pa0 in E2.
    destruct rt0 as [[rt o]|e] eqn:Er; simpl in *.
    + rewrite (bind_ok _ _ _ _ _ E2). destruct A2 as [Hp Hno].
      rewrite bind_gets, bind_modify. eexists. split; [unfold vmax0; rewrite En, Hno; reflexivity|].
      destruct I2 as (I0 & IM & Hx & Hy & Hn & Hc). split; [exact I0|]. split; [exact IM|].
      repeat (split; [assumption|]). right. exists rt, o.
      destruct Hc as [(Hp' & _)|(rt' & o' & Hr & Hp' & Hno' & Hph & Hk & Hv)]; [congruence|].
      assert (rt' = rt /\ o' = o) as [-> ->] by (split; congruence).
      simpl. repeat split; auto. right. unfold vmax0. rewrite En. reflexivity.
    + rewrite (bind_err _ _ _ _ _ E2). exists s2. auto.
Qed.

Lemma inv_m3d r s : Inv s -> exists s', mass_3d E H r s =
     ((do p <- rt0;
       Ok (let '(rhos, rs, _) := nfw0 in
           e_m3d E (match r with Some r => r | None => rs * c0 end) rs
             (rhos * match s_pargs s with None => 1 | Some _ => factor (snd p) end) (fst p / rs))), s') /\ Inv s'.
Proof.
  intros HI. unfold mass_3d.
  assert (G : exists s1, (match r with Some r => ret r | None =>
      let* p := nfw_params E H in let* c := conc E H in ret (snd (fst p) * c) end) s =
      (Ok (match r with Some r => r | None => snd (fst nfw0) * c0 end), s1) /\ Inv s1 /\ same s s1).
  { destruct r as [r|].
    - exists s. split; [reflexivity|]. split; [exact HI|apply same_refl].
    - apply (inv_get _ _ s); [|exact HI]. eapply getter_bind; [apply get_nfw|].
      eapply getter_bind; [apply get_conc|apply getter_ret]. }
  destruct G as (s1 & E1 & I1 & S1). rewrite (bind_ok _ _ _ _ _ E1).
  destruct (inv_get _ _ s1 get_nfw I1) as (s2 & E2 & I2 & S2). rewrite (bind_ok _ _ _ _ _ E2).
  destruct (inv_get _ _ s2 get_nfw I2) as (s3 & E3 & I3 & S3). cbv zeta. rewrite (bind_ok _ _ _ _ _ E3).
  rewrite bind_gets.
  pose proof (same_trans _ _ _ S1 (same_trans _ _ _ S2 S3)) as (A1 & A2 & A3 & A4 & A5 & A6 & A7 & A8 & A9).
  destruct (inv_pargs s3 I3) as (s4 & E4 & I4 & A10 & _). unfold pa0 in E4.
  destruct rt0 as [[rt o]|e] eqn:Er; simpl in *.
  - rewrite (bind_ok _ _ _ _ _ E4). exists s4. split; [|exact I4]. unfold ret. simpl.
    destruct nfw0 as [[rhos rs] r200]. simpl. repeat f_equal. rewrite A3.
    destruct HI as (I0 & IM & Hx & Hy & Hn & Hc).
    destruct Hc as [(Hp & Hno & _)|(rt' & o' & Hr & Hp & Hno & _)]; rewrite Hp; [exact Hno|congruence].
  - rewrite (bind_err _ _ _ _ _ E4). exists s4. auto.
Qed.

Lemma inv_density r s : Inv s -> exists s', density_profile_3d E H r s =
     ((do p <- rt0;
       Ok (let '(rhos, rs, _) := nfw0 in
           1 * (rhos / (r / rs) / (1 + r / rs) ^ 2) * (fst p / rs) ^ 2 / ((fst p / rs) ^ 2 + (r / rs) ^ 2))), s') /\ Inv s'.
Proof.
  intros HI. unfold density_profile_3d.
  destruct (inv_pargs s HI) as (s1 & E1 & I1 & A1 & _). unfold pa0 in E1.
  destruct rt0 as [[rt o]|e] eqn:Er; simpl in *.
  - rewrite (bind_ok _ _ _ _ _ E1). destruct (inv_get _ _ s1 get_nfw I1) as (s2 & E2 & I2 & S2).
    rewrite (bind_ok _ _ _ _ _ E2). destruct nfw0 as [[rhos rs] r200]. exists s2. auto.
  - rewrite (bind_err _ _ _ _ _ E1). exists s1. auto.
Qed.

Lemma inv_bound s : Inv s -> exists s', bound_mass E H s =
     ((if h_sub H then do p <- rt0;
        Ok (e_frac E (match s_kw s with
                      | Some _ => k_rtrunc (kw0 X Y (fst p) (snd p)) / k_Rs (kw0 X Y (fst p) (snd p))
                      | None => p_rt (phys0 (fst p) (snd p)) / p_rs (phys0 (fst p) (snd p)) end) c0
            * h_mass H * factor (snd p))
       else Err EException), s') /\ Inv s'.
Proof.
  intros HI. unfold bound_mass. destruct (h_sub H); simpl; [|exists s; auto].
  rewrite bind_gets. destruct (s_kw s) as [k|] eqn:Ek.
  - rewrite bind_ret. destruct (inv_get _ _ s get_conc HI) as (s1 & E1 & I1 & S1). rewrite (bind_ok _ _ _ _ _ E1).
    rewrite bind_gets. exists s1. split; [|exact I1].
    destruct S1 as (A1 & A2 & A3 & A4 & A5 & A6 & A7 & A8 & A9).
    destruct HI as (I0 & IM & Hx & Hy & Hn & Hc).
    destruct Hc as [(Hp & Hno & Hon & Hph & Hk & Hv & Ht)|(rt & o & Hr & Hp & Hno & Hph & Hk & Hv)]; [congruence|].
    rewrite Hr. simpl. unfold ret. rewrite A3, Hno. destruct Hk as [Hk|Hk]; [congruence|].
    rewrite Ek in Hk. injection Hk as ->. reflexivity.
  - destruct (inv_phys s HI) as (s1 & E1 & I1 & A1).
    destruct rt0 as [[rt o]|e] eqn:Er; simpl in *.
    + assert (E1' : (let* p := params_physical E H in ret (p_rt p / p_rs p)) s =
              (Ok (p_rt (phys0 rt o) / p_rs (phys0 rt o)), s1)) by (rewrite (bind_ok _ _ _ _ _ E1); reflexivity).
      rewrite (bind_ok _ _ _ _ _ E1').
      destruct (inv_get _ _ s1 get_conc I1) as (s2 & E2 & I2 & S2). rewrite (bind_ok _ _ _ _ _ E2).
      rewrite bind_gets. exists s2. split; [|exact I2]. unfold ret. repeat f_equal.
      apply (same_have _ _ rt o S2). apply (A1 (rt, o)). reflexivity.
    + assert (E1' : (let* p := params_physical E H in ret (p_rt p / p_rs p)) s = (Err e, s1))
        by (rewrite (bind_err _ _ _ _ _ E1); reflexivity).
      rewrite (bind_err _ _ _ _ _ E1'). exists s1. auto.
Qed.

Lemma inv_fresh : Inv (fresh X Y).
Proof.
  unfold Inv, Inv0, InvMb, fresh; simpl. repeat split; auto. left. repeat split.
Qed.

Lemma unit_snd {A} (m : M A) s : snd (unit_of m s) = snd (m s).
Proof. unfold unit_of, mbind. destruct (m s) as [[a|e] s']; reflexivity. Qed.

Lemma inv_ask q s : Inv s -> Inv (snd (ask E H q s)).
Proof.
  intros HI. destruct q; unfold ask; rewrite unit_snd.
  - destruct (inv_get _ _ s get_conc HI) as (s' & -> & I' & _); exact I'.
  - destruct (inv_get _ _ s get_z_infall HI) as (s' & -> & I' & _); exact I'.
  - destruct (inv_get _ _ s get_z_eval HI) as (s' & -> & I' & _); exact I'.
  - destruct (inv_get _ _ s get_time HI) as (s' & -> & I' & _); exact I'.
  - destruct (inv_get _ _ s get_nfw HI) as (s' & -> & I' & _); exact I'.
  - destruct (inv_pargs s HI) as (s' & -> & I' & _); exact I'.
  - destruct (inv_phys s HI) as (s' & -> & I' & _); exact I'.
  - destruct (inv_kw s HI) as (s' & -> & I' & _); exact I'.
  - destruct (inv_vmax s HI) as (s' & -> & I'); exact I'.
  - destruct (inv_bound s HI) as (s' & -> & I'); exact I'.
  - destruct (inv_mbdef s HI) as (s' & -> & I' & _); exact I'.
  - destruct (inv_m3d rmax s HI) as (s' & -> & I'); exact I'.
  - destruct (inv_density r s HI) as (s' & -> & I'); exact I'.
Qed.

Lemma inv_reads qs : forall s, Inv s -> Inv (reads E H qs s).
Proof. induction qs as [|q qs IH]; simpl; intros s HI; auto. apply IH, inv_ask, HI. Qed.
End XY.
End Canonical.
