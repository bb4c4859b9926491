(** C11, continued: rendering classes that were not specified. *)
From Coq Require Import Reals List String.
From Verif Require Import Prelude RealizationModel RealizationSpec RealizationProofs RealizationProps.
Import ListNotations.
Local Open Scope R_scope.
(** Without rendering classes the realization still gives its lens models, with no convergence sheet among them (outside the exact mode). *)
Theorem C11_classes_not_specified : forall zl DC sc area hp rz add a,
  rz_classes rz = set_rendering_classes None -> sa_exact a = false ->
  mass_sheet_correction zl DC sc area hp rz a = Ok ([], [], []) /\
  lensing_quantities zl DC sc area hp rz add a = lensing_quantities zl DC sc area hp rz false a.
Proof.
  intros zl DC sc area hp rz add a C X.
  assert (M : mass_sheet_correction zl DC sc area hp rz a = Ok ([], [], [])) by (unfold mass_sheet_correction; rewrite X, C; reflexivity).
  split; [exact M|]. unfold lensing_quantities. destruct (lq_loop hp (rz_halos rz)) as [[[ids zs] ks] ni].
  rewrite Bool.andb_false_r. destruct (rz_sheet rz && add); [|reflexivity]. rewrite M. cbn. now rewrite !app_nil_r.
Qed.
Example C11_classes_not_specified_nonvacuous :
  let rz := from_halos demo_heap [0; 1]%nat true (set_rendering_classes None) (fun _ => 0) (fun _ => 0) in
  rz_classes rz = set_rendering_classes None /\ rz_sheet rz = true /\ List.length (rz_halos rz) = 2%nat.
Proof. repeat split. Qed.
Print Assumptions C11_classes_not_specified.
