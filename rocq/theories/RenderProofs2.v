(** Sheets, the two-halo boost and correlated structure (C36, C37, C68, C69). *)
From Verif Require Import Prelude RealizationSpec RealizationProofs MassFnModel SpaceModel RenderModel RenderSpec RenderProofs.
From Coq Require Import String.
Open Scope string_scope.
Open Scope R_scope.

Lemma sheet_loop_ok e cls k scale lo hi zmin zmax norm p planes :
  lk_norm k = Some norm -> lk_poisson k = Some p ->
  exists sel,
    kept (fun q => zmin <= fst q <= zmax /\
            0 < mf_first_moment (cls (fst q) (snd q) (at_redshift (fst q) lo) (at_redshift (fst q) hi) (at_redshift (fst q) norm) p)
                / re_sigma_crit_mass e (fst q) (re_area e (fst q))) planes sel /\
    sheet_loop e cls k scale lo hi zmin zmax planes =
      Ok (map (fun q => - scale * (mf_first_moment (cls (fst q) (snd q) (at_redshift (fst q) lo) (at_redshift (fst q) hi)
                                                      (at_redshift (fst q) norm) p)
                                   / re_sigma_crit_mass e (fst q) (re_area e (fst q)))) sel,
          repeat "CONVERGENCE" (List.length sel), map fst sel).
Proof.
  intros EN EP. induction planes as [|[z dz] t IH]; cbn [sheet_loop].
  - exists []. split; [constructor|reflexivity].
  - destruct IH as (sel & HK & ->). unfold los_mass_fn; cbn [orelse need bind eval_mlimit].
    rewrite EN, EP. cbn [need bind]. unfold convergence_at_z.
    change (eval_mlimit z norm) with (at_redshift z norm). change (eval_mlimit z lo) with (at_redshift z lo).
    change (eval_mlimit z hi) with (at_redshift z hi).
    destruct (Rltb z zmin) eqn:E1; [|destruct (Rltb zmax z) eqn:E2].
    + exists sel. split; [|reflexivity]. apply kept_drop; [|exact HK]. cbn. apply Rltb_true in E1. lra.
    + exists sel. split; [|reflexivity]. apply kept_drop; [|exact HK]. cbn. apply Rltb_true in E2. lra.
    + apply Rltb_false in E1, E2.
      destruct (Rltb 0 _) eqn:E3; cbn [mf_first_moment] in *.
      * apply Rltb_true in E3. exists ((z, dz) :: sel). split; [|reflexivity]. apply kept_take; [|exact HK]. cbn. split; [lra|exact E3].
      * apply Rltb_false in E3. exists sel. split; [|reflexivity]. apply kept_drop; [|exact HK]. cbn. intros [_ ?]. lra.
Qed.

(** *** argmin *)
Lemma argmin_from_spec l : forall pre best bi i,
  nth_error pre bi = Some best -> i = List.length pre -> (forall j a, nth_error pre j = Some a -> best <= a) ->
  (forall j a, (j < bi)%nat -> nth_error pre j = Some a -> best < a) ->
  exists v, nth_error (app pre l) (argmin_from best bi i l) = Some v /\
    (forall j a, nth_error (app pre l) j = Some a -> v <= a) /\
    (forall j a, (j < argmin_from best bi i l)%nat -> nth_error (app pre l) j = Some a -> v < a).
Proof.
  induction l as [|a t IH]; intros pre best bi i HB HI HA HF; cbn [argmin_from].
  - rewrite app_nil_r. exists best. auto.
  - assert (LB : (bi < List.length pre)%nat) by (apply nth_error_Some; congruence).
    destruct (Rltb a best) eqn:E.
    + apply Rltb_true in E. replace (app pre (a :: t)) with (app (app pre [a]) t) by (rewrite <- app_assoc; reflexivity).
      apply IH.
      * rewrite nth_error_app2 by lia. rewrite HI, Nat.sub_diag. reflexivity.
      * rewrite app_length; cbn; lia.
      * intros j b Hj. destruct (Nat.lt_ge_cases j (List.length pre)).
        -- rewrite nth_error_app1 in Hj by assumption. apply HA in Hj. lra.
        -- rewrite nth_error_app2 in Hj by assumption. destruct (j - List.length pre)%nat as [|[|?]]; cbn in Hj; try discriminate. injection Hj as <-. lra.
      * intros j b Hj Hn. rewrite nth_error_app1 in Hn by lia. apply HA in Hn. lra.
    + apply Rltb_false in E. replace (app pre (a :: t)) with (app (app pre [a]) t) by (rewrite <- app_assoc; reflexivity).
      apply IH.
      * rewrite nth_error_app1 by lia. exact HB.
      * rewrite app_length; cbn; lia.
      * intros j b Hj. destruct (Nat.lt_ge_cases j (List.length pre)).
        -- rewrite nth_error_app1 in Hj by assumption. now apply HA in Hj.
        -- rewrite nth_error_app2 in Hj by assumption. destruct (j - List.length pre)%nat as [|[|?]]; cbn in Hj; try discriminate. injection Hj as <-. lra.
      * intros j b Hj Hn. rewrite nth_error_app1 in Hn by lia. eapply HF; eauto.
Qed.
Lemma np_argmin_spec l : l <> [] -> exists i v, np_argmin l = Ok i /\ nth_error l i = Some v /\
  (forall j a, nth_error l j = Some a -> v <= a) /\ (forall j a, (j < i)%nat -> nth_error l j = Some a -> v < a).
Proof.
  destruct l as [|a t]; [congruence|]. intros _. cbn [np_argmin].
  destruct (argmin_from_spec t [a] a 0 1 eq_refl eq_refl) as (v & H1 & H2 & H3).
  - intros [|[|j]] b; cbn; try discriminate. intros [= <-]. lra.
  - intros j b Hj. lia.
  - exists (argmin_from a 0 1 t), v. cbn [app] in *. auto.
Qed.

(** *** indices *)
Lemma near_iff h z ray rmax : near h z (fst (ray z)) (snd (ray z)) rmax = true <-> in_aperture rmax ray z h.
Proof.
  unfold near, in_aperture, sep. rewrite Bool.andb_true_iff. split.
  - intros [A B]. apply Reqb_true in A. apply Rltb_true in B. auto.
  - intros [A B]. split; [now apply Reqb_true|now apply Rltb_true].
Qed.
Lemma where_near_In halos z ax ay rmax : forall i j,
  In j (where_near i halos z ax ay rmax) <-> exists h, (i <= j)%nat /\ nth_error halos (j - i) = Some h /\ near h z ax ay rmax = true.
Proof.
  induction halos as [|h t IH]; intros i j; cbn [where_near].
  - split; [intros []|]. intros (h & _ & H & _). destruct (j - i)%nat; discriminate.
  - assert (STEP : (exists h', (S i <= j)%nat /\ nth_error t (j - S i) = Some h' /\ near h' z ax ay rmax = true) <->
                   (exists h', (S i <= j)%nat /\ nth_error (h :: t) (j - i) = Some h' /\ near h' z ax ay rmax = true)).
    { split; intros (h' & L & N & P); exists h'; (split; [exact L|]); (split; [|exact P]);
        replace (j - i)%nat with (S (j - S i)) in * by lia; exact N. }
    destruct (near h z ax ay rmax) eqn:E; cbn [In]; rewrite IH, STEP; split.
    + intros [<-|(h' & L & N & P)]; [exists h; rewrite Nat.sub_diag; auto with arith|exists h'; split; [lia|auto]].
    + intros (h' & L & N & P). destruct (Nat.eq_dec i j); [now left|]. right. exists h'. split; [lia|auto].
    + intros (h' & L & N & P). exists h'; split; [lia|auto].
    + intros (h' & L & N & P). destruct (Nat.eq_dec i j) as [->|]; [|exists h'; split; [lia|auto]].
      rewrite Nat.sub_diag in N. injection N as ->. congruence.
Qed.

Lemma insert_nat_In n l k : In k (insert_nat n l) <-> k = n \/ In k l.
Proof.
  induction l as [|a t IH]; cbn [insert_nat In]; [split; intros [<-|[]]; auto|].
  destruct (n <? a)%nat eqn:E; [cbn [In]; split; intros [<-|H]; auto|].
  destruct (n =? a)%nat eqn:E2; [apply Nat.eqb_eq in E2; subst; cbn [In]; split; [auto|intros [->|H]; auto]|].
  cbn [In]. rewrite IH. split; [intros [H|[H|H]]; auto|intros [H|[H|H]]; auto].
Qed.
Lemma insert_nat_sorted n l : StronglySorted lt l -> StronglySorted lt (insert_nat n l).
Proof.
  induction 1 as [|a t HS IH HF]; cbn [insert_nat]; [repeat constructor|].
  destruct (n <? a)%nat eqn:E.
  - apply Nat.ltb_lt in E. constructor; [now constructor|]. constructor; [exact E|].
    eapply Forall_impl; [|exact HF]. intros; lia.
  - apply Nat.ltb_ge in E. destruct (n =? a)%nat eqn:E2; [now constructor|]. apply Nat.eqb_neq in E2.
    constructor; [exact IH|]. apply Forall_forall. intros k Hk. apply insert_nat_In in Hk as [->|Hk]; [lia|].
    rewrite Forall_forall in HF. now apply HF.
Qed.
Lemma unique_nat_In l k : In k (unique_nat l) <-> In k l.
Proof. induction l as [|a l IHl]; [tauto|]. cbn [unique_nat fold_right In]. rewrite insert_nat_In. fold (unique_nat l). rewrite IHl. split; intros [<-|H]; auto. Qed.
Lemma unique_nat_sorted l : StronglySorted lt (unique_nat l).
Proof. induction l; cbn; [constructor|]. now apply insert_nat_sorted. Qed.
Lemma sorted_NoDup l : StronglySorted lt l -> NoDup l.
Proof.
  induction 1 as [|a t HS IH HF]; constructor; [|exact IH]. intros H. rewrite Forall_forall in HF. specialize (HF a H). lia.
Qed.

(** *** the loop over planes *)
Definition copies {A} (k : nat) (l : list A) : list A := List.concat (repeat l k).
Lemma render_at_z_near halos c cp z ax ay rmax app_ r :
  render_at_z halos c cp z ax ay rmax app_ = Ok r -> fst r <> [] -> exists h, In h halos /\ near h z ax ay rmax = true.
Proof.
  unfold render_at_z. destruct (existsb _ halos) eqn:E; [|intros [= <-]; cbn; congruence]. intros _ _.
  apply existsb_exists in E. exact E.
Qed.
Lemma render_at_z_none halos c cp z ax ay rmax app_ :
  (forall h, In h halos -> near h z ax ay rmax = false) -> render_at_z halos c cp z ax ay rmax app_ = Ok ([], 1).
Proof.
  intros H. unfold render_at_z. destruct (existsb _ halos) eqn:E; [|reflexivity].
  apply existsb_exists in E as (h & Hh & N). rewrite (H h Hh) in N. discriminate.
Qed.
Lemma render_masses_factor c m n g r f : render_masses_at_z c m n g = Ok r -> has_fraction c f -> snd r = 1 - f.
Proof.
  destruct c; cbn; intros H; [| |discriminate]; binds; injection H as <-; cbn; intros <-; reflexivity.
Qed.
Lemma render_at_z_factor halos c cp z ax ay rmax app_ r f :
  render_at_z halos c cp z ax ay rmax app_ = Ok r -> has_fraction c f -> snd r = 1 - f /\ fst r <> [] \/ r = ([], 1).
Proof.
  unfold render_at_z. destruct (existsb _ halos) eqn:E; [|intros [= <-]; auto]. intros H HC; binds.
  pose proof (render_masses_factor _ _ _ _ _ _ H0 HC) as F. destruct (fst x) eqn:EX; [injection H as <-; auto|].
  destruct (Reqb _ 0); [discriminate|]. injection H as <-. left. split; [exact F|congruence].
Qed.

Lemma corr_loop_spec halos c ray rmax app_ : forall planes last0 ms xs ys zs f is,
  corr_loop halos c ray rmax app_ planes last0 = Ok (ms, xs, ys, zs, f, is) ->
  (exists hit, (List.length hit <= List.length planes)%nat /\ xs = copies (List.length hit) (map ch_x halos) /\
     ys = copies (List.length hit) (map ch_y halos) /\
     zs = flat_map (fun z => repeat z (List.length halos)) hit /\
     (forall z, In z hit -> exists h, In h halos /\ in_aperture rmax ray z h) /\
     (hit = [] <-> ms = []) /\ (List.length hit <= List.length ms)%nat) /\
  (forall i, In i is <-> exists h z cp, nth_error halos i = Some h /\ In (z, cp) planes /\ in_aperture rmax ray z h).
Proof.
  induction planes as [|[z cp] t IH]; intros last0 ms xs ys zs f is H; cbn [corr_loop] in H.
  - injection H as <- <- <- <- <- <-. split.
    + exists []. cbn. repeat split; auto. intros z [].
    + intros i. split; [intros []|]. intros (h & z & cp & _ & [] & _).
  - destruct (ray z) as [ax ay] eqn:ER. binds. destruct x0 as [[[[[ms' xs'] ys'] zs'] f'] is'].
    destruct (IH _ _ _ _ _ _ _ H1) as ((hit & L & -> & -> & -> & HP & HZ & HM) & HI).
    assert (IDX : forall i, In i (app (where_near 0 halos z ax ay rmax) is') <->
       exists h z0 cp0, nth_error halos i = Some h /\ In (z0, cp0) ((z, cp) :: t) /\ in_aperture rmax ray z0 h).
    { intros i. rewrite in_app_iff, where_near_In, HI. split.
      - intros [(h & _ & N & P)|(h & z0 & cp0 & N & I & P)].
        + rewrite Nat.sub_0_r in N. exists h, z, cp. split; [exact N|]. split; [now left|]. apply near_iff. now rewrite ER.
        + exists h, z0, cp0. split; [exact N|]. split; [now right|exact P].
      - intros (h & z0 & cp0 & N & [E|I] & P).
        + injection E as <- <-. left. exists h. rewrite Nat.sub_0_r. split; [lia|]. split; [exact N|]. apply near_iff in P. now rewrite ER in P.
        + right. exists h, z0, cp0. auto. }
    destruct (fst x) as [|m0 mt] eqn:EX.
    + injection H as <- <- <- <- <- <-. split; [|exact IDX]. exists hit. cbn [List.length].
      split; [lia|]. split; [reflexivity|]. split; [reflexivity|]. split; [reflexivity|]. split; [exact HP|]. split; [exact HZ|exact HM].
    + injection H as <- <- <- <- <- <-. split; [|exact IDX]. exists (z :: hit). cbn [List.length].
      split; [lia|]. split; [reflexivity|]. split; [reflexivity|]. split; [cbn; now rewrite map_length|].
      split; [|split; [split; intros E; discriminate E|cbn; rewrite app_length; lia]].
      intros z0 [<-|I]; [|now apply HP].
      destruct (render_at_z_near _ _ _ _ _ _ _ _ _ H0) as (h & Hh & N); [congruence|]. exists h. split; [exact Hh|].
      apply near_iff. now rewrite ER.
Qed.

Lemma corr_loop_last halos c ray rmax app_ f : has_fraction c f -> forall planes last0 ms xs ys zs g is,
  corr_loop halos c ray rmax app_ planes last0 = Ok (ms, xs, ys, zs, g, is) ->
  (last0 = 1 \/ last0 = 1 - f) -> g = 1 \/ g = 1 - f.
Proof.
  intros HC. induction planes as [|[z cp] t IH]; intros last0 ms xs ys zs g is H HL; cbn [corr_loop] in H.
  - injection H as <- <- <- <- <- <-. exact HL.
  - destruct (ray z) as [ax ay] eqn:ER. binds. destruct x0 as [[[[[ms' xs'] ys'] zs'] f'] is'].
    apply IH in H1.
    + destruct (fst x); injection H as <- <- <- <- <- <-; exact H1.
    + destruct (render_at_z_factor _ _ _ _ _ _ _ _ _ _ H0 HC) as [[E _]| ->]; cbn; auto.
Qed.
Lemma corr_loop_last_none halos c ray rmax app_ : forall planes z cp last0 ms xs ys zs g is,
  corr_loop halos c ray rmax app_ (app planes [(z, cp)]) last0 = Ok (ms, xs, ys, zs, g, is) ->
  (forall h, In h halos -> ~ in_aperture rmax ray z h) -> g = 1.
Proof.
  induction planes as [|[z0 cp0] t IH]; intros z cp last0 ms xs ys zs g is H HN; cbn [app corr_loop] in H.
  - destruct (ray z) as [ax ay] eqn:ER. rewrite render_at_z_none in H.
    + cbn in H. now injection H as <- <- <- <- <- <-.
    + intros h Hh. destruct (near h z ax ay rmax) eqn:E; [|reflexivity]. exfalso. apply (HN h Hh). apply near_iff. now rewrite ER.
  - destruct (ray z0) as [ax ay] eqn:ER. binds. destruct x0 as [[[[[ms' xs'] ys'] zs'] f'] is'].
    apply IH in H1; [|exact HN]. destruct (fst x); injection H as <- <- <- <- <- <-; exact H1.
Qed.

Lemma copies_In {A} k (l : list A) a : In a (copies k l) -> In a l.
Proof. unfold copies. induction k; cbn; [intros []|]. rewrite in_app_iff. intros [|]; auto. Qed.
Lemma copies_length {A} k (l : list A) : List.length (copies k l) = (k * List.length l)%nat.
Proof. unfold copies. induction k; cbn; [reflexivity|]. now rewrite app_length, IHk. Qed.
Lemma copies_map {A B} (f : A -> B) k l : copies k (map f l) = map f (copies k l).
Proof. unfold copies. induction k; cbn; [reflexivity|]. now rewrite map_app, IHk. Qed.

Lemma zip_points_In : forall m x y z p, In p (zip_points m x y z) ->
  In (pt_x p, pt_y p) (combine x y) /\ In (pt_m p) m /\ In (pt_z p) z.
Proof.
  induction m as [|m0 m IH]; intros [|x0 x] [|y0 y] [|z0 z] p; cbn; try tauto.
  intros [<-|H]; [cbn; auto|]. apply IH in H as (? & ? & ?). auto.
Qed.
Lemma zip_points_length : forall m x y z, List.length x = List.length y -> List.length y = List.length z ->
  List.length (zip_points m x y z) = Nat.min (List.length m) (List.length x).
Proof.
  induction m as [|m0 m IH]; intros [|x0 x] [|y0 y] [|z0 z]; cbn; try (intros; lia). intros A B. rewrite IH by lia. reflexivity.
Qed.
Lemma combine_map_both {A B C} (f : A -> B) (g : A -> C) l : combine (map f l) (map g l) = map (fun a => (f a, g a)) l.
Proof. induction l; cbn; congruence. Qed.

(** *** rescaling *)
Lemma combine_seq_nth {A} (l : list A) : forall s i, nth_error (combine (seq s (List.length l)) l) i = option_map (fun a => ((s + i)%nat, a)) (nth_error l i).
Proof.
  induction l as [|a t IH]; intros s [|i]; cbn; try reflexivity; [now rewrite Nat.add_0_r|].
  rewrite IH. destruct (nth_error t i); cbn; [|reflexivity]. now rewrite <- Nat.add_succ_comm.
Qed.
Lemma rescale_step_nth f k halos i :
  nth_error (map (fun p => if Nat.eqb (fst p) k then rescale_halo f (snd p) else snd p) (combine (seq 0 (List.length halos)) halos)) i
  = option_map (fun h => if Nat.eqb i k then rescale_halo f h else h) (nth_error halos i).
Proof.
  rewrite nth_error_map, combine_seq_nth. destruct (nth_error halos i); cbn; [|reflexivity]. reflexivity.
Qed.
Lemma rescale_at_nth f : forall is halos i, NoDup is ->
  nth_error (rescale_at f is halos) i =
  option_map (fun h => if in_dec Nat.eq_dec i is then rescale_halo f h else h) (nth_error halos i).
Proof.
  induction is as [|k t IH]; intros halos i HN; cbn [rescale_at].
  - destruct (nth_error halos i); reflexivity.
  - inversion HN as [|? ? HK HT]; subst. rewrite IH by exact HT. rewrite rescale_step_nth.
    destruct (nth_error halos i) as [h|]; cbn [option_map]; [|reflexivity]. f_equal.
    destruct (Nat.eqb_spec i k) as [->|E].
    + destruct (in_dec Nat.eq_dec k t); [contradiction|]. destruct (in_dec Nat.eq_dec k (k :: t)) as [|n1]; [reflexivity|]. destruct n1; now left.
    + destruct (in_dec Nat.eq_dec i t) as [I|I]; destruct (in_dec Nat.eq_dec i (k :: t)) as [J|J]; cbn in J; try reflexivity.
      * destruct J; now right.
      * destruct J as [J|J]; [congruence|contradiction].
Qed.
Lemma rescale_at_length f : forall is halos, List.length (rescale_at f is halos) = List.length halos.
Proof.
  induction is as [|k t IH]; intros halos; cbn [rescale_at]; [reflexivity|]. rewrite IH, map_length, combine_length, seq_length. lia.
Qed.

Lemma corr_images_spec halos c rmax app_ : forall images last0 pts is f,
  corr_images halos c rmax app_ images last0 = Ok (pts, is, f) ->
  (forall p, In p pts -> exists h, In h halos /\ pt_x p = ch_x h /\ pt_y p = ch_y h) /\
  (forall i, In i is <-> exists h ray planes z cp, nth_error halos i = Some h /\ In (ray, planes) images /\ In (z, cp) planes /\ in_aperture rmax ray z h).
Proof.
  induction images as [|[ray planes] t IH]; intros last0 pts is f H; cbn [corr_images] in H.
  - injection H as <- <- <-. split; [intros p []|]. intros i. split; [intros []|]. intros (h & ray & pl & z & cp & _ & [] & _).
  - binds. destruct x as [[[[[ms xs] ys] zs] g] js]. binds. destruct x as [[pts' js'] l']. injection H as <- <- <-.
    destruct (IH _ _ _ _ H1) as (HP & HI). unfold corr_render in H0.
    destruct planes as [|pl0 plt] eqn:EP; [discriminate|]. rewrite <- EP in H0 |- *. binds.
    destruct x as [[[[[ms1 xs1] ys1] zs1] g1] js1]. injection H0 as <- <- <- <- <- <-.
    destruct (corr_loop_spec _ _ _ _ _ _ _ _ _ _ _ _ _ H) as ((hit & L & -> & -> & -> & HZ & _) & HJ).
    split.
    + intros p Hp. apply in_app_iff in Hp as [Hp|Hp]; [|now apply HP].
      apply zip_points_In in Hp as (A & _). rewrite !copies_map, combine_map_both in A. apply in_map_iff in A as (h & E & Hh).
      injection E as E1 E2. apply copies_In in Hh. exists h. auto.
    + intros i. rewrite in_app_iff, unique_nat_In, HJ, HI. split.
      * intros [(h & z & cp & N & I & P)|(h & ray' & pl & z & cp & N & I & I' & P)].
        -- exists h, ray, planes, z, cp. split; [exact N|]. split; [left; reflexivity|]. auto.
        -- exists h, ray', pl, z, cp. split; [exact N|]. split; [right; exact I|]. auto.
      * intros (h & ray' & pl & z & cp & N & [E|I] & I' & P).
        -- injection E as <- <-. left. exists h, z, cp. auto.
        -- right. exists h, ray', pl, z, cp. auto.
Qed.
Lemma corr_images_last halos c rmax app_ fr : has_fraction c fr -> forall images last0 pts is f,
  corr_images halos c rmax app_ images last0 = Ok (pts, is, f) ->
  match images with [] => f = last0 | _ => f = Some 1 \/ f = Some (1 - fr) end.
Proof.
  intros HC. induction images as [|[ray planes] t IH]; intros last0 pts is f H; cbn [corr_images] in H.
  - now injection H as <- <- <-.
  - binds. destruct x as [[[[[ms xs] ys] zs] g] js]. binds. destruct x as [[pts' js'] l']. injection H as <- <- <-.
    unfold corr_render in H0. destruct planes as [|pl0 plt] eqn:EP; [discriminate|]. rewrite <- EP in H0. binds.
    destruct x as [[[[[ms1 xs1] ys1] zs1] g1] js1]. injection H0 as <- <- <- <- <- <-.
    pose proof (corr_loop_last _ _ _ _ _ _ HC _ _ _ _ _ _ _ _ H (or_introl eq_refl)) as G.
    apply IH in H1. destruct t; [subst; destruct G as [->| ->]; auto|exact H1].
Qed.
Lemma corr_images_last_none halos c rmax app_ : forall images ray planes z cp last0 pts is f,
  corr_images halos c rmax app_ (app images [(ray, app planes [(z, cp)])]) last0 = Ok (pts, is, f) ->
  (forall h, In h halos -> ~ in_aperture rmax ray z h) -> f = Some 1.
Proof.
  induction images as [|[ray0 planes0] t IH]; intros ray planes z cp last0 pts is f H HN; cbn [app corr_images] in H.
  - binds. destruct x as [[[[[ms xs] ys] zs] g] js]. cbn in H. injection H as <- <- <-. f_equal.
    unfold corr_render in H0. destruct (app planes [(z, cp)]) as [|pl0 plt] eqn:EP; [now destruct planes|]. rewrite <- EP in H0. binds.
    destruct x as [[[[[ms1 xs1] ys1] zs1] g1] js1]. injection H0 as <- <- <- <- <- <-.
    eapply corr_loop_last_none; eauto.
  - binds. destruct x as [[[[[ms xs] ys] zs] g] js]. binds. destruct x as [[pts' js'] l']. injection H as <- <- <-.
    eapply IH; eauto.
Qed.
