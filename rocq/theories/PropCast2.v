(** * Property C117 for any dofs per node and any elements: frames, solids, user elements *)
From Coq Require Import Reals List Arith ZArith Lia Lra.
From Verif Require Import Num LinAlg Main Script Spec SpecAssem SpecModel SpecElem SpecScript SpecCast ScriptProofs2 BeamFrame ScriptFinal ExSolver ExScript CastScript.
Import ListNotations.
Local Open Scope R_scope.

(** the derivative by one generalized force is its generalized displacement (of a moment: the rotation) *)
Theorem C117_script : forall p L sv sparse U i d,
  (forall t, solvers_ok (sv t)) -> p_psd p -> (forall t, wf_problem (p_loaded p (L t))) ->
  (forall t, p_script (sv t) (p_loaded p (L t)) (sparse t) = Ok (U t)) -> p_dof p i d ->
  (forall t, applied (L t) i d = t) ->
  (forall t j e, p_dof p j e -> (j, e) <> (i, d) -> applied (L t) j e = applied (L 0) j e) ->
  forall t, derivable_pt_lim (fun x => 1 / 2 * p_energy p (ent (U x)) (ent (U x))) t (ent (U t) i d).
Proof. exact script_castigliano. Qed.
Print Assumptions C117_script.

(** the frame of test_beams with a varying moment at its free node *)
Example C117_case_frame : solvers_ok elim_solver /\ p_psd tf /\ (forall t, wf_problem (p_loaded tf [[1; -12000; -24000; t]])) /\
  (forall t, exists U, p_script elim_solver (p_loaded tf [[1; -12000; -24000; t]]) true = Ok U) /\ p_dof tf 1 2 /\
  (forall t, applied [[1; -12000; -24000; t]] 1 2 = t) /\
  (forall t j e, p_dof tf j e -> (j, e) <> (1, 2)%nat -> applied [[1; -12000; -24000; t]] j e = applied [[1; -12000; -24000; 0]] j e).
Proof.
  assert (W : forall t, wf_problem (p_loaded tf [[1; -12000; -24000; t]])).
  { intro t. destruct (frame_wf tf tf_frame) as (H1 & H2 & H3 & H4 & _). split; [exact H1|]. split; [exact H2|]. split; [exact H3|]. split; [exact H4|].
    apply Forall_cons; [|apply Forall_nil]. split; [cbn; lia|]. exists 1%nat. split; [cbn; lia|reflexivity]. }
  destruct elim_both as [O T]. split; [exact O|]. split; [exact (frame_psd tf tf_frame)|]. split; [exact W|]. split.
  { intro t. apply (p_runs elim_solver _ true (W t) O T). exact (frame_stable tf tf_frame tf_connected tf_supported). }
  split; [split; cbn; lia|]. split.
  - intro t. unfold applied. cbn [fold_left nth Nat.add]. destruct (Req_EM_T 1 (INR 1)) as [_|N]; [reflexivity|]. exfalso. apply N. reflexivity.
  - intros t j e [_ He] N. cbn in He. unfold applied. cbn [fold_left nth]. destruct (Req_EM_T 1 (INR j)) as [E|_]; [|reflexivity].
    assert (j = 1%nat) as ->. { apply INR_eq. rewrite <- E. reflexivity. }
    destruct e as [|[|[|e]]]; [reflexivity|reflexivity|exfalso; apply N; reflexivity|lia].
Qed.
