(** * Properties C13, C70, C71 for any dofs per node and any elements: frames, solids, user elements *)
From Coq Require Import Reals List Arith ZArith Lia Lra.
From Verif Require Import Num LinAlg Main Script Spec SpecAssem SpecModel SpecElem SpecScript SpecStiff SpecCast ScriptProofs2 BeamFrame ScriptFinal ExSolver ExScript PrincipleProofs.
Import ListNotations.
Local Open Scope R_scope.

(** ** C13: superposition *)
Theorem C13_script : forall p l1 l2 l3 a b sv1 sv2 sv3 sp1 sp2 sp3 U1 U2 U3,
  solvers_ok sv1 -> solvers_ok sv2 -> solvers_ok sv3 -> p_stable p ->
  wf_problem (p_loaded p l1) -> wf_problem (p_loaded p l2) -> wf_problem (p_loaded p l3) ->
  (forall i d, p_dof p i d -> applied l3 i d = a * applied l1 i d + b * applied l2 i d) ->
  p_script sv1 (p_loaded p l1) sp1 = Ok U1 -> p_script sv2 (p_loaded p l2) sp2 = Ok U2 -> p_script sv3 (p_loaded p l3) sp3 = Ok U3 ->
  forall i d, p_dof p i d -> ent U3 i d = a * ent U1 i d + b * ent U2 i d.
Proof. exact script_superposition. Qed.
Print Assumptions C13_script.

(** ** C70: reciprocity *)
Theorem C70_script : forall p l1 l2 sv1 sv2 sp1 sp2 U1 U2,
  solvers_ok sv1 -> solvers_ok sv2 -> p_psd p -> wf_problem (p_loaded p l1) -> wf_problem (p_loaded p l2) ->
  p_script sv1 (p_loaded p l1) sp1 = Ok U1 -> p_script sv2 (p_loaded p l2) sp2 = Ok U2 ->
  p_load_work (p_loaded p l1) (ent U2) = p_load_work (p_loaded p l2) (ent U1).
Proof. exact script_reciprocity. Qed.
Print Assumptions C70_script.

(** ** C71: minimum of the potential, twice the energy is the work of the loads *)
Theorem C71_script : forall p sv sparse U, solvers_ok sv -> wf_problem p -> p_psd p -> p_script sv p sparse = Ok U ->
  p_admissible p (ent U) /\ p_energy p (ent U) (ent U) = p_load_work p (ent U) /\
  forall V, p_admissible p V -> 1 / 2 * p_energy p (ent U) (ent U) - p_load_work p (ent U) <= 1 / 2 * p_energy p V V - p_load_work p V.
Proof. exact script_minimum. Qed.
Print Assumptions C71_script.

Theorem C71_script_unique : forall p sv sparse U V, solvers_ok sv -> wf_problem p -> p_psd p -> p_stable p -> p_script sv p sparse = Ok U ->
  p_admissible p V -> 1 / 2 * p_energy p V V - p_load_work p V <= 1 / 2 * p_energy p (ent U) (ent U) - p_load_work p (ent U) ->
  forall i d, p_dof p i d -> V i d = ent U i d.
Proof. exact script_minimiser. Qed.
Print Assumptions C71_script_unique.

(** the frame of test_beams under any force and moment at its free node; a force and a moment together *)
Example C13_case_frame : solvers_ok elim_solver /\ p_psd tf /\ p_stable tf /\
  (forall x y m, wf_problem (p_loaded tf [[1; x; y; m]]) /\ exists U, p_script elim_solver (p_loaded tf [[1; x; y; m]]) true = Ok U) /\
  (forall i d, p_dof tf i d -> applied [[1; 2; 0; 3]] i d = 2 * applied [[1; 1; 0; 0]] i d + 3 * applied [[1; 0; 0; 1]] i d).
Proof.
  destruct elim_both as [O T]. pose proof (frame_stable tf tf_frame tf_connected tf_supported) as S.
  split; [exact O|]. split; [exact (frame_psd tf tf_frame)|]. split; [exact S|]. split.
  - intros x y m. assert (W : wf_problem (p_loaded tf [[1; x; y; m]])).
    { destruct (frame_wf tf tf_frame) as (H1 & H2 & H3 & H4 & _). split; [exact H1|]. split; [exact H2|]. split; [exact H3|]. split; [exact H4|].
      apply Forall_cons; [|apply Forall_nil]. split; [cbn; lia|]. exists 1%nat. split; [cbn; lia|reflexivity]. }
    split; [exact W|]. exact (p_runs elim_solver _ true W O T S).
  - intros i d [_ Hd]. cbn in Hd. unfold applied. cbn [fold_left nth]. destruct (Req_EM_T 1 (INR i)) as [_|_]; [|lra].
    destruct d as [|[|[|d]]]; cbn; (lra || lia).
Qed.
