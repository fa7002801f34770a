(** * A determinate truss with its flags in the node table *)
From Coq Require Import Reals List Arith Lia Lra Bool ZArith.
From Verif Require Import Num LinAlg Assem Post Main Script DocTruss Spec SpecModel SpecElem SpecStatic SpecTruss SpecScript SpecDocTruss
  TrussProofs TrussCount ScriptFinal ExModel ExSolver ExTruss DocTrussProofs DocTrussCases.
Import ListNotations.
Local Open Scope R_scope.
Lemma br_ext : extends brm br_wide 5.
Proof. split; [lia|]. split; [unfold br_wide; all_forall; reflexivity|reflexivity]. Qed.
Lemma br_wide_case : wf_model brm /\ truss_model brm /\ extends brm br_wide 5 /\ determinate brm /\ balanced brm (fun m => nth m [-4; -3; 5] 0) /\
  soft brm br_wide 5 0 <> 1 /\ exists U, fem_sol elim_solver br_wide br_bars (md_mats brm) (md_loads brm) = Ok U.
Proof.
  split; [exact br_wf|]. split; [exact br_truss|]. split; [exact br_ext|]. split; [exact (count_determinate brm br_wf br_truss br_stable br_count)|]. split; [exact br_balanced|]. split.
  - intros X. apply (soft_one brm br_wide 5 0 br_wf br_truss br_ext ltac:(cbn; lia)) with (k := 3%nat) in X; [|lia]. cbv -[IZR] in X. lra.
  - destruct elim_both as [H1 H2]. exact (wide_answers elim_solver brm br_wide 5 br_wf br_truss br_ext H1 H2 br_stable).
Qed.
