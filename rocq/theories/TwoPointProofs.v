(** Proofs about Simpson's rule, the correlation estimator and the multipoles (TwoPointModel.v). *)
From Verif Require Import Prelude SpaceModel TwoPointModel TwoPointSpec.
From Coq Require Import Lra Psatz.

(* ---------- weights ---------- *)
(** strictly increasing list *)
Fixpoint incr (xs : list R) : Prop :=
  match xs with x0 :: ((x1 :: _) as t) => x0 < x1 /\ incr t | _ => True end.
(** equally spaced list *)
Fixpoint arith (h : R) (xs : list R) : Prop :=
  match xs with x0 :: ((x1 :: _) as t) => x1 - x0 = h /\ arith h t | _ => True end.

Lemma arith_incr h xs : 0 < h -> arith h xs -> incr xs.
Proof.
  intros P. induction xs as [|x0 t IH]; [easy|]. destruct t as [|x1 t]; [easy|].
  intros [E A]. split; [lra|apply IH, A].
Qed.
Lemma incr_app l1 l2 : incr (l1 ++ l2) -> incr l1 /\ incr l2.
Proof.
  induction l1 as [|x l1 IH]; [easy|]. destruct l1 as [|y l1].
  - cbn [app]. destruct l2; [easy|]. intros [_ H]. split; [easy|exact H].
  - cbn [app]. intros [A H]. destruct (IH H) as [H1 H2]. split; [split; assumption|exact H2].
Qed.
Lemma arith_app h l1 l2 : arith h (l1 ++ l2) -> arith h l1 /\ arith h l2.
Proof.
  induction l1 as [|x l1 IH]; [easy|]. destruct l1 as [|y l1].
  - cbn [app]. destruct l2; [easy|]. intros [_ H]. split; [easy|exact H].
  - cbn [app]. intros [A H]. destruct (IH H) as [H1 H2]. split; [split; assumption|exact H2].
Qed.

Lemma basic_step x0 x1 x2 r : basic_simpson (x0 :: x1 :: x2 :: r) =
  let h0 := x1 - x0 in let h1 := x2 - x1 in let hs := h0 + h1 in
  let w0 := hs / 6 * (2 - h1 / h0) in let w1 := hs / 6 * (hs * hs / (h0 * h1)) in let w2 := hs / 6 * (2 - h0 / h1) in
  match basic_simpson (x2 :: r) with v :: vs => w0 :: w1 :: (w2 + v) :: vs | [] => [w0; w1; w2] end.
Proof. reflexivity. Qed.

Lemma odd_list {A} (n : nat) (xs : list A) : List.length xs = (2 * S n + 1)%nat ->
  exists a b c r, xs = a :: b :: c :: r /\ List.length (c :: r) = (2 * n + 1)%nat.
Proof.
  intros L. destruct xs as [|a [|b [|c r]]]; cbn [List.length] in L; try lia.
  exists a, b, c, r. split; [reflexivity|]. cbn [List.length]. lia.
Qed.

Lemma basic_length n : forall xs, List.length xs = (2 * n + 1)%nat -> List.length (basic_simpson xs) = List.length xs.
Proof.
  induction n as [|n IH]; intros xs L.
  - destruct xs as [|a [|b xs]]; cbn [List.length] in L; try lia. reflexivity.
  - destruct (odd_list n xs L) as (a & b & c & r & -> & L'). specialize (IH _ L').
    rewrite basic_step. cbv zeta. destruct (basic_simpson (c :: r)) as [|v vs]; cbn [List.length] in *; lia.
Qed.

Lemma basic_sum n : forall xs, List.length xs = (2 * n + 1)%nat -> incr xs -> rsum (basic_simpson xs) = last xs 0 - hd 0 xs.
Proof.
  induction n as [|n IH]; intros xs L I.
  - destruct xs as [|a [|b xs]]; cbn [List.length] in L; try lia. cbn. lra.
  - destruct (odd_list n xs L) as (a & b & c & r & -> & L'). destruct I as [I1 [I2 I]]. fold (incr (c :: r)) in I.
    specialize (IH _ L' I). pose proof (basic_length n _ L') as BL. rewrite basic_step. cbv zeta.
    destruct (basic_simpson (c :: r)) as [|v vs]; [cbn in BL; lia|]. cbn [rsum] in *.
    change (last (a :: b :: c :: r) 0) with (last (c :: r) 0). cbn [hd] in *.
    assert (E : forall x y, 0 < x -> 0 < y -> (x + y) / 6 * (2 - y / x) + (x + y) / 6 * ((x + y) * (x + y) / (x * y)) + (x + y) / 6 * (2 - x / y) = x + y)
      by (intros; field; lra).
    specialize (E (b - a) (c - b) ltac:(lra) ltac:(lra)). lra.
Qed.

(** for equally spaced points the weights are non-negative, and the last two are 4h/3 and h/3 *)
Lemma basic_uniform h n : 0 < h -> forall xs, List.length xs = (2 * S n + 1)%nat -> arith h xs ->
  exists l, basic_simpson xs = l ++ [4 * h / 3; h / 3] /\ Forall (fun w => 0 <= w) l /\ 0 < hd 0 l.
Proof.
  intros P. induction n as [|n IH]; intros xs L Ar.
  - destruct (odd_list 0 xs L) as (a & b & c & r & -> & L'). destruct r; [|cbn [List.length] in L'; lia].
    destruct Ar as [A1 [A2 _]]. rewrite basic_step. cbn [basic_simpson map]. cbv zeta. rewrite A1, A2.
    exists [h / 3]. split; [|split].
    + assert (E1 : (h + h) / 6 * (2 - h / h) = h / 3) by (field; lra).
      assert (E2 : (h + h) / 6 * ((h + h) * (h + h) / (h * h)) = 4 * h / 3) by (field; lra).
      rewrite E1, E2. cbn [app]. rewrite Rplus_0_r. reflexivity.
    + constructor; [lra|constructor].
    + cbn. lra.
  - destruct (odd_list (S n) xs L) as (a & b & c & r & -> & L'). destruct Ar as [A1 [A2 Ar]]. fold (arith h (c :: r)) in Ar.
    destruct (IH _ L' Ar) as (l & E & F & PL). rewrite basic_step. rewrite E. cbv zeta. rewrite A1, A2.
    destruct l as [|v l]; [cbn in PL; lra|]. cbn [app]. pose proof (Forall_inv F) as F1. pose proof (Forall_inv_tail F) as F2. cbn beta in F1.
    exists ((h + h) / 6 * (2 - h / h) :: (h + h) / 6 * ((h + h) * (h + h) / (h * h)) :: ((h + h) / 6 * (2 - h / h) + v) :: l).
    assert (E1 : (h + h) / 6 * (2 - h / h) = h / 3) by (field; lra).
    assert (E2 : (h + h) / 6 * ((h + h) * (h + h) / (h * h)) = 4 * h / 3) by (field; lra).
    rewrite E1, E2. split; [reflexivity|split].
    + repeat (constructor; [lra|]). assumption.
    + cbn. lra.
Qed.

Lemma three_last {A} (xs : list A) : (3 <= List.length xs)%nat -> exists l a b c, xs = l ++ [a; b; c].
Proof.
  intros L. destruct (rev xs) as [|c [|b [|a r]]] eqn:E; try (apply (f_equal (@List.length A)) in E; rewrite rev_length in E; cbn in E; lia).
  exists (rev r), a, b, c. apply (f_equal (@rev A)) in E. rewrite rev_involutive in E. rewrite E. cbn [rev]. rewrite <- !app_assoc. reflexivity.
Qed.
Lemma two_last {A} (xs : list A) : (2 <= List.length xs)%nat -> exists l a b, xs = l ++ [a; b].
Proof.
  intros L. destruct (rev xs) as [|b [|a r]] eqn:E; try (apply (f_equal (@List.length A)) in E; rewrite rev_length in E; cbn in E; lia).
  exists (rev r), a, b. apply (f_equal (@rev A)) in E. rewrite rev_involutive in E. rewrite E. cbn [rev]. rewrite <- !app_assoc. reflexivity.
Qed.

Lemma even_weights l a b c v va vb : Nat.even (List.length (l ++ [a; b; c])) = true -> basic_simpson (l ++ [a; b]) = v ++ [va; vb] ->
  simpson_weights (l ++ [a; b; c]) = v ++ [va + fst (fst (cartwright a b c)); vb + snd (fst (cartwright a b c)); snd (cartwright a b c)].
Proof.
  intros E B. unfold simpson_weights. rewrite E. rewrite rev_app_distr. cbn [rev app].
  destruct (cartwright a b c) as [[wa wb] wc]. cbn [fst snd].
  rewrite rev_involutive, <- app_assoc. cbn [app].
  rewrite B, rev_app_distr. cbn [rev app]. rewrite rev_involutive, <- !app_assoc. reflexivity.
Qed.

Lemma odd_half n : Nat.even n = false -> exists k, n = (2 * k + 1)%nat.
Proof. intros E. assert (O : Nat.odd n = true) by (unfold Nat.odd; rewrite E; reflexivity). apply Nat.odd_spec in O as [k ->]. exists k. lia. Qed.

Lemma parity_case (xs : list R) :
  (exists k, List.length xs = (2 * k + 1)%nat /\ simpson_weights xs = basic_simpson xs) \/
  xs = [] \/ (exists a b, xs = [a; b]) \/
  exists l a b c k v va vb, xs = l ++ [a; b; c] /\ List.length (l ++ [a; b]) = (2 * S k + 1)%nat /\ basic_simpson (l ++ [a; b]) = v ++ [va; vb] /\
    simpson_weights xs = v ++ [va + fst (fst (cartwright a b c)); vb + snd (fst (cartwright a b c)); snd (cartwright a b c)].
Proof.
  destruct (Nat.even (List.length xs)) eqn:E.
  - right. destruct xs as [|a [|b [|c xs]]]; [now left|discriminate|right; left; eauto|]. right. right.
    destruct (three_last (a :: b :: c :: xs)) as (l & x & y & z & EQ); [cbn; lia|]. rewrite EQ in *.
    assert (Ev := E). rewrite app_length in E. cbn [List.length] in E.
    assert (EQL := f_equal (@List.length R) EQ). rewrite app_length in EQL. cbn [List.length] in EQL.
    apply Nat.even_spec in E as [m Em].
    assert (L : List.length (l ++ [x; y]) = (2 * S (m - 2) + 1)%nat) by (rewrite app_length; cbn [List.length]; lia).
    destruct (two_last (basic_simpson (l ++ [x; y]))) as (v & va & vb & B).
    { rewrite (basic_length _ _ L), L. lia. }
    exists l, x, y, z, (m - 2)%nat, v, va, vb. split; [reflexivity|split; [exact L|split; [exact B|]]].
    apply even_weights; assumption.
  - left. apply odd_half in E as E'. destruct E' as [k L]. exists k. split; [exact L|]. unfold simpson_weights. now rewrite E.
Qed.

Lemma simpson_weights_length xs : List.length (simpson_weights xs) = List.length xs.
Proof.
  destruct (parity_case xs) as [(k & L & ->)|[->|[(a & b & ->)|(l & a & b & c & k & v & va & vb & -> & L & B & ->)]]].
  - apply (basic_length _ _ L).
  - reflexivity.
  - reflexivity.
  - pose proof (basic_length _ _ L) as BL. rewrite B in BL. rewrite !app_length in *. cbn [List.length] in *. lia.
Qed.

(** Simpson's rule integrates constants exactly *)
Lemma simpson_weights_sum xs : incr xs -> rsum (simpson_weights xs) = last xs 0 - hd 0 xs.
Proof.
  intros I. destruct (parity_case xs) as [(k & L & ->)|[->|[(a & b & ->)|(l & a & b & c & k & v & va & vb & -> & L & B & ->)]]].
  - apply (basic_sum _ _ L I).
  - cbn. lra.
  - cbn. lra.
  - replace (l ++ [a; b; c]) with ((l ++ [a; b]) ++ [c]) in * by (rewrite <- app_assoc; reflexivity).
    destruct (incr_app _ _ I) as [I1 _]. pose proof (basic_sum _ _ L I1) as S. rewrite B in S.
    rewrite last_last. rewrite rsum_app in *. cbn [rsum] in *.
    assert (Hd : hd 0 ((l ++ [a; b]) ++ [c]) = hd 0 (l ++ [a; b])) by (destruct l; reflexivity). rewrite Hd.
    replace (l ++ [a; b]) with ((l ++ [a]) ++ [b]) in S by (rewrite <- app_assoc; reflexivity). rewrite last_last in S.
    replace (hd 0 ((l ++ [a]) ++ [b])) with (hd 0 (l ++ [a; b])) in S by (destruct l; reflexivity).
    replace ((l ++ [a; b]) ++ [c]) with (l ++ [a; b; c]) in I by (rewrite <- app_assoc; reflexivity).
    destruct (incr_app _ _ I) as [_ [Q1 [Q2 _]]].
    unfold cartwright. cbn [fst snd].
    assert (E : forall x y, 0 < x -> 0 < y -> - (y * y * y / (6 * x * (x + y))) + (y * y + 3 * x * y) / (6 * x) + (2 * (y * y) + 3 * x * y) / (6 * (y + x)) = y)
      by (intros; field; lra).
    specialize (E (b - a) (c - b) ltac:(lra) ltac:(lra)). lra.
Qed.

(** and its weights on an equally spaced grid are non-negative *)
Lemma simpson_weights_nonneg h xs : 0 < h -> arith h xs -> Forall (fun w => 0 <= w) (simpson_weights xs).
Proof.
  intros P Ar. destruct (parity_case xs) as [(k & L & ->)|[->|[(a & b & ->)|(l & a & b & c & k & v & va & vb & -> & L & B & ->)]]].
  - destruct k as [|k].
    + destruct xs as [|x [|y xs]]; cbn [List.length] in L; try lia. cbn. constructor; [lra|constructor].
    + destruct (basic_uniform h k P xs L Ar) as (l & -> & F & _). apply Forall_app. split; [exact F|].
      repeat (constructor; [lra|]). constructor.
  - constructor.
  - cbn. destruct Ar as [E _]. repeat (constructor; [lra|]). constructor.
  - replace (l ++ [a; b; c]) with ((l ++ [a; b]) ++ [c]) in * by (rewrite <- app_assoc; reflexivity).
    destruct (arith_app _ _ _ Ar) as [A1 _]. destruct (basic_uniform h k P _ L A1) as (l' & E & F & _).
    rewrite B in E. replace (v ++ [va; vb]) with ((v ++ [va]) ++ [vb]) in E by (rewrite <- app_assoc; reflexivity).
    replace (l' ++ [4 * h / 3; h / 3]) with ((l' ++ [4 * h / 3]) ++ [h / 3]) in E by (rewrite <- app_assoc; reflexivity).
    apply app_inj_tail in E as [E ->]. apply app_inj_tail in E as [-> ->].
    replace ((l ++ [a; b]) ++ [c]) with (l ++ [a; b; c]) in Ar by (rewrite <- app_assoc; reflexivity).
    destruct (arith_app _ _ _ Ar) as [_ [Q1 [Q2 _]]]. unfold cartwright. rewrite Q1, Q2. cbn [fst snd].
    assert (E1 : h * h * h / (6 * h * (h + h)) = h / 12) by (field; lra).
    assert (E2 : (h * h + 3 * h * h) / (6 * h) = 2 * h / 3) by (field; lra).
    assert (E3 : (2 * (h * h) + 3 * h * h) / (6 * (h + h)) = 5 * h / 12) by (field; lra).
    rewrite E1, E2, E3. apply Forall_app. split; [exact F|]. repeat (constructor; [lra|]). constructor.
Qed.

(* ---------- cells of the cubature ---------- *)
Lemma dot_combine ws (f : R -> R) xs : dot ws (map f xs) = rsum (map (fun p => fst p * f (snd p)) (combine ws xs)).
Proof.
  revert xs. induction ws as [|w ws IH]; intros [|x xs]; cbn; try reflexivity. now rewrite IH.
Qed.

Definition cells (axis : list R) : list (R * R * R) :=
  flat_map (fun px => map (fun py => (fst px * fst py, snd px, snd py)) (combine (simpson_weights axis) axis)) (combine (simpson_weights axis) axis).


Lemma rsum_flat_map {A} (f : A -> list R) l : rsum (flat_map f l) = rsum (map (fun a => rsum (f a)) l).
Proof. induction l as [|a l IH]; cbn; [reflexivity|]. now rewrite rsum_app, IH. Qed.
Lemma rsum_map_scale {A} (f : A -> R) k l : rsum (map (fun a => k * f a) l) = k * rsum (map f l).
Proof. induction l as [|a l IH]; cbn; [lra|]. rewrite IH. lra. Qed.
Lemma flat_map_map_comm {A B C} (g : B -> C) (f : A -> list B) l : map g (flat_map f l) = flat_map (fun a => map g (f a)) l.
Proof. induction l as [|a l IH]; cbn; [reflexivity|]. now rewrite map_app, IH. Qed.

Lemma simpson2_cells axis F : simpson2 axis F = total (cells axis) (fun x y => F y x).
Proof.
  unfold simpson2, simpson, total, cells. rewrite dot_combine.
  rewrite flat_map_map_comm, rsum_flat_map. f_equal. apply map_ext. intros [wx x]. cbn [fst snd].
  rewrite dot_combine, map_map, <- rsum_map_scale. f_equal. apply map_ext. intros [wy y]. cbn [fst snd]. lra.
Qed.

Lemma total_ext cs f g : (forall w x y, In (w, x, y) cs -> f x y = g x y) -> total cs f = total cs g.
Proof.
  intros H. unfold total. f_equal. apply map_ext_in. intros [[w x] y] I. cbn. now rewrite (H w x y I).
Qed.
Lemma total_plus cs f g : total cs (fun x y => f x y + g x y) = total cs f + total cs g.
Proof. unfold total. induction cs as [|c cs IH]; cbn; [lra|]. rewrite IH. lra. Qed.
Lemma total_scale cs k f : total cs (fun x y => k * f x y) = k * total cs f.
Proof. unfold total. induction cs as [|c cs IH]; cbn; [lra|]. rewrite IH. lra. Qed.
Lemma total_nonneg cs f : Forall (fun c => 0 <= fst (fst c)) cs -> (forall x y, 0 <= f x y) -> 0 <= total cs f.
Proof.
  intros F H. unfold total. induction F as [|[[w x] y] cs P F IH]; cbn in *; [lra|]. specialize (H x y).
  pose proof (Rmult_le_pos _ _ P H). lra.
Qed.

(** Cauchy-Schwarz for non-negative weights *)
Lemma total_cs cs f g : Forall (fun c => 0 <= fst (fst c)) cs ->
  total cs (fun x y => f x y * g x y) ^ 2 <= total cs (fun x y => f x y ^ 2) * total cs (fun x y => g x y ^ 2).
Proof.
  intros F. unfold total. induction F as [|[[w x] y] cs P F IH]; cbn [map rsum fst snd] in *; [lra|].
  set (S := rsum (map (fun c => fst (fst c) * (f (snd (fst c)) (snd c) * g (snd (fst c)) (snd c))) cs)) in *.
  set (A := rsum (map (fun c => fst (fst c) * f (snd (fst c)) (snd c) ^ 2) cs)) in *.
  set (B := rsum (map (fun c => fst (fst c) * g (snd (fst c)) (snd c) ^ 2) cs)) in *.
  assert (HA : 0 <= A) by (apply (total_nonneg cs (fun x y => f x y ^ 2) F); intros; nra).
  assert (HB : 0 <= B) by (apply (total_nonneg cs (fun x y => g x y ^ 2) F); intros; nra).
  clearbody S A B. set (a := f x y). set (b := g x y). clearbody a b.
  assert (K : 0 <= A * b ^ 2 - 2 * S * (a * b) + B * a ^ 2).
  { destruct (Req_dec A 0) as [Z|Z].
    - subst A. assert (S = 0) by nra. subst S. nra.
    - assert (0 < A) by lra. apply Rmult_le_reg_l with A; [assumption|].
      replace (A * (A * b ^ 2 - 2 * S * (a * b) + B * a ^ 2)) with ((A * b - S * a) ^ 2 + (A * B - S ^ 2) * a ^ 2) by ring.
      pose proof (pow2_ge_0 (A * b - S * a)). pose proof (pow2_ge_0 a). nra. }
  nra.
Qed.

Lemma Forall_combine_l {A B} (P : A -> Prop) (l : list A) (l' : list B) : Forall P l -> Forall (fun p => P (fst p)) (combine l l').
Proof. intros F. revert l'. induction F; intros [|b l']; cbn; constructor; auto. Qed.
Lemma cells_weights h axis : 0 < h -> arith h axis -> Forall (fun c => 0 <= fst (fst c)) (cells axis).
Proof.
  intros P Ar. pose proof (Forall_combine_l _ _ axis (simpson_weights_nonneg h axis P Ar)) as F.
  unfold cells. apply Forall_forall. intros c I. apply in_flat_map in I as (px & I1 & I2). apply in_map_iff in I2 as (py & <- & I2).
  rewrite Forall_forall in F. cbn. apply Rmult_le_pos; [apply (F _ I1)|apply (F _ I2)].
Qed.
Lemma cells_points axis w x y : In (w, x, y) (cells axis) -> In x axis /\ In y axis.
Proof.
  unfold cells. intros I. apply in_flat_map in I as ([wx x'] & I1 & I2). apply in_map_iff in I2 as ([wy y'] & E & I2).
  inversion E; subst. split; eapply in_combine_r; eassumption.
Qed.
Lemma cells_total axis : incr axis -> total (cells axis) (fun _ _ => 1) = (last axis 0 - hd 0 axis) ^ 2.
Proof.
  intros I. unfold total, cells. rewrite flat_map_map_comm, rsum_flat_map.
  assert (E : forall ws xs, List.length ws = List.length xs -> rsum (map fst (combine ws (xs : list R))) = rsum ws).
  { induction ws as [|w ws IH]; intros [|x xs]; cbn; intros L; try discriminate; [reflexivity|]. rewrite IH by (injection L; auto). reflexivity. }
  assert (E2 : forall l : list (R * R), rsum (map (fun a => rsum (map (fun c : R * R * R => fst (fst c) * 1) (map (fun py => (fst a * fst py, snd a, snd py))
     (combine (simpson_weights axis) axis)))) l) = rsum (map fst l) * rsum (simpson_weights axis)).
  { induction l as [|[w x] l IH]; cbn [map rsum fst snd]; [lra|]. rewrite IH, map_map. cbn [fst snd].
    replace (rsum (map (fun py : R * R => w * fst py * 1) (combine (simpson_weights axis) axis))) with (w * rsum (simpson_weights axis)); [lra|].
    rewrite <- (E (simpson_weights axis) axis) by apply simpson_weights_length. rewrite <- rsum_map_scale. f_equal. apply map_ext. intros; lra. }
  rewrite E2, E by apply simpson_weights_length. rewrite simpson_weights_sum by assumption. ring.
Qed.

(* ---------- equally spaced axes ---------- *)
Lemma arith_map_seq a h n k : arith h (map (fun i => a + INR i * h) (seq k n)).
Proof.
  revert k. induction n as [|n IH]; intros k; [easy|]. cbn [seq map]. specialize (IH (S k)).
  destruct n as [|n]; [easy|]. cbn [seq map] in *. split; [|exact IH]. rewrite S_INR. lra.
Qed.
Lemma linspace_arith a b n : arith ((b - a) / INR (n - 1)) (np_linspace a b n).
Proof. apply arith_map_seq. Qed.

Lemma linspace_in a b n x : (2 <= n)%nat -> a < b -> In x (np_linspace a b n) -> a <= x <= b.
Proof.
  intros N L I. unfold np_linspace in I. apply in_map_iff in I as (i & <- & I). apply in_seq in I.
  assert (0 < INR (n - 1)) by (apply lt_0_INR; lia).
  assert (0 <= INR i) by apply pos_INR. assert (INR i <= INR (n - 1)) by (apply le_INR; lia).
  assert (E : INR i * ((b - a) / INR (n - 1)) = (b - a) * (INR i / INR (n - 1))) by (field; lra). rewrite E.
  assert (0 <= INR i / INR (n - 1)) by (apply Rmult_le_pos; [assumption|left; now apply Rinv_0_lt_compat]).
  assert (INR i / INR (n - 1) <= 1) by (apply Rmult_le_reg_r with (INR (n - 1)); [assumption|]; unfold Rdiv; rewrite Rmult_assoc, Rinv_l by lra; lra).
  nra.
Qed.
Lemma linspace_hd a b n : (1 <= n)%nat -> hd 0 (np_linspace a b n) = a.
Proof. intros N. destruct n; [lia|]. cbn. lra. Qed.
Lemma linspace_last a b n : (2 <= n)%nat -> last (np_linspace a b n) 0 = b.
Proof.
  intros N. unfold np_linspace. replace (seq 0 n) with (seq 0 ((n - 1) + 1)) by (f_equal; lia). rewrite seq_app, map_app. cbn [seq map]. rewrite last_last.
  assert (0 < INR (n - 1)) by (apply lt_0_INR; lia). cbn [plus]. field. lra.
Qed.

Lemma inner_axis_inv S N rl axis : 0 < S -> inner_axis S N rl = Ok axis ->
  exists n, (1 <= n)%nat /\ rl < S / 2 /\ axis = np_linspace (- (S / 2 - rl)) (S / 2 - rl) n.
Proof.
  intros P. unfold inner_axis. set (v := INR N / (S / 2) * (S / 2 - rl)). cbv zeta.
  destruct (py_int v <? 0)%Z eqn:E1; [discriminate|]. destruct (py_int v =? 0)%Z eqn:E2; [discriminate|].
  apply Z.ltb_ge in E1. apply Z.eqb_neq in E2. intros H.
  assert (A : axis = np_linspace (- (S / 2 - rl)) (S / 2 - rl) (Z.to_nat (py_int v))) by congruence.
  exists (Z.to_nat (py_int v)). split; [lia|]. split; [|exact A].
  destruct (Rle_or_lt (S / 2 - rl) 0) as [C|C]; [exfalso|lra].
  assert (0 <= INR N / (S / 2)) by (apply Rmult_le_pos; [apply pos_INR|left; apply Rinv_0_lt_compat; lra]).
  assert (V : v <= 0) by (unfold v; nra). unfold py_int in *. revert E1 E2. rdec; intros E1 E2.
  - pose proof (base_Int_part (- v)) as [B1 B2]. assert (0 <= Int_part (- v))%Z; [|lia].
    assert (-1 < Int_part (- v))%Z; [|lia]. apply lt_IZR. simpl IZR. lra.
  - assert (v = 0) by lra. pose proof (base_Int_part v) as [B1 B2]. assert (Int_part v = 0)%Z; [|lia].
    assert (-1 < Int_part v < 1)%Z; [|lia]. split; apply lt_IZR; simpl IZR; lra.
Qed.

Lemma largest_ge rs rl r : largest rs = Ok rl -> In r rs -> r <= rl.
Proof.
  destruct rs as [|a t]; [discriminate|]. cbn. intros E. injection E as <-. intros [->|I].
  - induction t as [|b t IH]; cbn; [lra|]. eapply Rle_trans; [apply IH|apply Rmax_r].
  - induction t as [|b t IH]; [easy|]. cbn. destruct I as [->|I]; [apply Rmax_l|]. eapply Rle_trans; [apply IH, I|apply Rmax_r].
Qed.

(* ---------- the sampled points ---------- *)
Lemma phi_unit x y : cos_phi x y ^ 2 + sin_phi x y ^ 2 = 1.
Proof.
  unfold cos_phi, sin_phi. destruct (Reqb (x * x + y * y) 0) eqn:E; [lra|]. apply Reqb_false in E.
  assert (0 < x * x + y * y) by nra. assert (0 < sqrt (x * x + y * y)) by now apply sqrt_lt_R0.
  assert (Q : sqrt (x * x + y * y) * sqrt (x * x + y * y) = x * x + y * y) by (apply sqrt_sqrt; lra).
  set (q := sqrt (x * x + y * y)) in *. clearbody q. unfold Rdiv.
  replace ((x * / q) ^ 2 + (y * / q) ^ 2) with ((x * x + y * y) * / (q * q)) by (field; lra). rewrite Q. field. lra.
Qed.
Lemma phi_radial x y : sqrt (x * x + y * y) * cos_phi x y = x /\ sqrt (x * x + y * y) * sin_phi x y = y.
Proof.
  unfold cos_phi, sin_phi. destruct (Reqb (x * x + y * y) 0) eqn:E.
  - apply Reqb_true in E. assert (x = 0) by nra. assert (y = 0) by nra. subst. replace (0 * 0 + 0 * 0) with 0 by ring. rewrite sqrt_0. lra.
  - apply Reqb_false in E. assert (0 < x * x + y * y) by nra. assert (0 < sqrt (x * x + y * y)) by now apply sqrt_lt_R0. split; field; lra.
Qed.
Lemma one_minus_sq mu : -1 <= mu <= 1 -> 0 <= 1 - mu ^ 2 /\ sqrt (1 - mu ^ 2) * sqrt (1 - mu ^ 2) = 1 - mu ^ 2.
Proof. intros H. assert (0 <= 1 - mu ^ 2) by nra. split; [assumption|now apply sqrt_sqrt]. Qed.

(* ---------- covariances ---------- *)
Lemma total_minus cs f g : total cs (fun x y => f x y - g x y) = total cs f - total cs g.
Proof. unfold total. induction cs as [|c cs IH]; cbn; [lra|]. rewrite IH. lra. Qed.
Lemma wcov_expand cs b f g : total cs b <> 0 ->
  wcov cs b f g = total cs (fun x y => b x y * (f x y * g x y)) - total cs (fun x y => b x y * f x y) * total cs (fun x y => b x y * g x y) / total cs b.
Proof.
  intros N. unfold wcov. set (mf := wmean cs b f). set (mg := wmean cs b g).
  assert (E : total cs (fun x y => b x y * ((f x y - mf) * (g x y - mg))) =
    total cs (fun x y => b x y * (f x y * g x y)) - mg * total cs (fun x y => b x y * f x y) - mf * total cs (fun x y => b x y * g x y) + mf * mg * total cs b).
  { rewrite <- !total_scale, <- !total_minus, <- total_plus. apply total_ext. intros. ring. }
  rewrite E. unfold mf, mg, wmean. field. exact N.
Qed.
Lemma wcov_cs cs b f g : Forall (fun c => 0 <= fst (fst c)) cs -> (forall x y, b x y = 0 \/ b x y = 1) ->
  wcov cs b f g ^ 2 <= wcov cs b f f * wcov cs b g g /\ 0 <= wcov cs b f f.
Proof.
  intros F B. unfold wcov. set (mf := wmean cs b f). set (mg := wmean cs b g). split.
  - pose proof (total_cs cs (fun x y => b x y * (f x y - mf)) (fun x y => b x y * (g x y - mg)) F) as C. cbv beta in C.
    rewrite (total_ext cs (fun x y => b x y * (f x y - mf) * (b x y * (g x y - mg))) (fun x y => b x y * ((f x y - mf) * (g x y - mg)))) in C
      by (intros; destruct (B x y) as [-> | ->]; ring).
    rewrite (total_ext cs (fun x y => (b x y * (f x y - mf)) ^ 2) (fun x y => b x y * ((f x y - mf) * (f x y - mf)))) in C
      by (intros; destruct (B x y) as [-> | ->]; ring).
    rewrite (total_ext cs (fun x y => (b x y * (g x y - mg)) ^ 2) (fun x y => b x y * ((g x y - mg) * (g x y - mg)))) in C
      by (intros; destruct (B x y) as [-> | ->]; ring).
    exact C.
  - apply total_nonneg; [assumption|]. intros x y. pose proof (Rle_0_sqr (f x y - mf)) as Q. unfold Rsqr in Q. destruct (B x y) as [-> | ->]; lra.
Qed.

Definition first_point (r mu x y : R) : R * R := fst (pair_points r mu x y).
Definition second_point (r mu x y : R) : R * R := snd (pair_points r mu x y).

(** no sampled mask value lies exactly on the threshold *)
Definition no_tie (msk : R -> R -> R) : Prop := forall p, value msk p <> 9 / 10.

Lemma binarise_counted (ap : bool) msk p : no_tie msk -> binarise (if ap then value msk p else 1) = if counted ap msk p then 1 else 0.
Proof.
  intros T. specialize (T p). unfold binarise, counted. destruct ap; rdec; try reflexivity; try lra.
Qed.

Lemma both_binary ap msk p q x y : both ap msk p q x y = 0 \/ both ap msk p q x y = 1.
Proof. unfold both. destruct (andb _ _); auto. Qed.

Lemma corr_entry_cov kap msk ap nrm A axis r mu : no_tie msk ->
  let p := first_point r mu in let q := second_point r mu in
  let b := both ap msk p q in
  let f := fun x y => value kap (p x y) in
  let g := fun x y => value kap (q x y) in
  let cs := cells axis in
  corr_entry kap msk ap nrm A axis r mu =
    if Reqb (total cs b) 0 then None else if Reqb A 0 then None else
    if nrm then
      if Rltb (wcov cs b f f / A * (wcov cs b g g / A)) 0 then None
      else fdiv (wcov cs b f g / A) (sqrt (wcov cs b f f / A * (wcov cs b g g / A)))
    else Some (wcov cs b f g / A).
Proof.
  intros T p q b f g cs. unfold corr_entry. cbv zeta. rewrite !simpson2_cells. fold cs.
  set (m1 := fun x y => if counted ap msk (p x y) then 1 else 0).
  set (m2 := fun x y => if counted ap msk (q x y) then 1 else 0).
  assert (M1 : forall x y, (let '(p1, _) := pair_points r mu x y in binarise (if ap then msk (snd p1) (fst p1) else 1)) = m1 x y).
  { intros. unfold m1, p, first_point. rewrite <- (binarise_counted ap msk _ T). destruct (pair_points r mu x y); reflexivity. }
  assert (M2 : forall x y, (let '(_, p2) := pair_points r mu x y in binarise (if ap then msk (snd p2) (fst p2) else 1)) = m2 x y).
  { intros. unfold m2, q, second_point. rewrite <- (binarise_counted ap msk _ T). destruct (pair_points r mu x y); reflexivity. }
  assert (K1 : forall x y, (let '(p1, _) := pair_points r mu x y in kap (snd p1) (fst p1)) = f x y).
  { intros. unfold f, p, first_point, value. destruct (pair_points r mu x y); reflexivity. }
  assert (K2 : forall x y, (let '(_, p2) := pair_points r mu x y in kap (snd p2) (fst p2)) = g x y).
  { intros. unfold g, q, second_point, value. destruct (pair_points r mu x y); reflexivity. }
  assert (B : forall x y, b x y = m1 x y * m2 x y).
  { intros. unfold b, both, m1, m2. destruct (counted ap msk (p x y)), (counted ap msk (q x y)); cbn; lra. }
  assert (S1 : forall x y, m1 x y * m1 x y = m1 x y) by (intros; unfold m1; destruct (counted _ _ _); lra).
  assert (S2 : forall x y, m2 x y * m2 x y = m2 x y) by (intros; unfold m2; destruct (counted _ _ _); lra).
  clearbody m1 m2.
  replace (total cs (fun x y : R => (let '(p1, _) := pair_points r mu x y in kap (snd p1) (fst p1)) *
     (let '(p1, _) := pair_points r mu x y in binarise (if ap then msk (snd p1) (fst p1) else 1)) *
     ((let '(_, p2) := pair_points r mu x y in kap (snd p2) (fst p2)) *
     (let '(_, p2) := pair_points r mu x y in binarise (if ap then msk (snd p2) (fst p2) else 1)))))
    with (total cs (fun x y => b x y * (f x y * g x y))).
  2:{ apply total_ext. intros. rewrite M1, M2, K1, K2, B. ring. }
  replace (total cs (fun x y : R => (let '(p1, _) := pair_points r mu x y in kap (snd p1) (fst p1)) *
     (let '(p1, _) := pair_points r mu x y in binarise (if ap then msk (snd p1) (fst p1) else 1)) *
     (let '(_, p2) := pair_points r mu x y in binarise (if ap then msk (snd p2) (fst p2) else 1))))
    with (total cs (fun x y => b x y * f x y)).
  2:{ apply total_ext. intros. rewrite M1, M2, K1, B. ring. }
  replace (total cs (fun x y : R => (let '(p1, _) := pair_points r mu x y in binarise (if ap then msk (snd p1) (fst p1) else 1)) *
     ((let '(_, p2) := pair_points r mu x y in kap (snd p2) (fst p2)) *
     (let '(_, p2) := pair_points r mu x y in binarise (if ap then msk (snd p2) (fst p2) else 1)))))
    with (total cs (fun x y => b x y * g x y)).
  2:{ apply total_ext. intros. rewrite M1, M2, K2, B. ring. }
  replace (total cs (fun x y : R => (let '(p1, _) := pair_points r mu x y in binarise (if ap then msk (snd p1) (fst p1) else 1)) *
     (let '(_, p2) := pair_points r mu x y in binarise (if ap then msk (snd p2) (fst p2) else 1))))
    with (total cs b).
  2:{ apply total_ext. intros. rewrite M1, M2, B. ring. }
  replace (total cs (fun x y : R => ((let '(p1, _) := pair_points r mu x y in kap (snd p1) (fst p1)) *
     (let '(p1, _) := pair_points r mu x y in binarise (if ap then msk (snd p1) (fst p1) else 1))) ^ 2 *
     (let '(_, p2) := pair_points r mu x y in binarise (if ap then msk (snd p2) (fst p2) else 1))))
    with (total cs (fun x y => b x y * (f x y * f x y))).
  2:{ apply total_ext. intros. rewrite M1, M2, K1, B. rewrite <- (S1 x y) at 1. ring. }
  replace (total cs (fun x y : R => (let '(p1, _) := pair_points r mu x y in binarise (if ap then msk (snd p1) (fst p1) else 1)) *
     ((let '(_, p2) := pair_points r mu x y in kap (snd p2) (fst p2)) *
     (let '(_, p2) := pair_points r mu x y in binarise (if ap then msk (snd p2) (fst p2) else 1))) ^ 2))
    with (total cs (fun x y => b x y * (g x y * g x y))).
  2:{ apply total_ext. intros. rewrite M1, M2, K2, B. rewrite <- (S2 x y) at 1. ring. }
  unfold obind, fdiv. destruct (Reqb (total cs b) 0) eqn:EN; [reflexivity|]. apply Reqb_false in EN.
  destruct (Reqb A 0) eqn:EA; [reflexivity|]. rewrite !wcov_expand by assumption.
  replace (total cs (fun x y => b x y * f x y) ^ 2) with (total cs (fun x y => b x y * f x y) * total cs (fun x y => b x y * f x y)) by ring.
  replace (total cs (fun x y => b x y * g x y) ^ 2) with (total cs (fun x y => b x y * g x y) * total cs (fun x y => b x y * g x y)) by ring.
  reflexivity.
Qed.

Lemma wcov_ext cs b f f' g g' : (forall x y, f x y = f' x y) -> (forall x y, g x y = g' x y) -> wcov cs b f g = wcov cs b f' g'.
Proof.
  intros Hf Hg. assert (M : forall u u', (forall x y, u x y = u' x y) -> wmean cs b u = wmean cs b u').
  { intros u u' H. unfold wmean. f_equal. apply total_ext. intros. now rewrite H. }
  unfold wcov. rewrite (M f f' Hf), (M g g' Hg). apply total_ext. intros. now rewrite Hf, Hg.
Qed.
