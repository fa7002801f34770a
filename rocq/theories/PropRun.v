(** * Property C96: from the four text files to equilibrium *)
From Coq Require Import String Reals List ZArith Arith Lra Lia.
From Verif Require Import Num LinAlg Assem Pre TextIO Main Spec SpecAssem SpecModel SpecStatic SpecPre SpecText SpecRun RunProofs ExModel ExModel2 ExSolver.
Import ListNotations.
Local Open Scope string_scope.

(** the folder is an argument *)
Theorem C96_argument : forall sv fs gui prompt plot strains folder md, files_show fs (fun f => folder ++ f) md ->
  solids_GUI sv fs gui prompt plot strains (Some folder) = auto sv md plot strains.
Proof. exact files_argument. Qed.
Print Assumptions C96_argument.

(** the folder is chosen in the dialog *)
Theorem C96_dialog : forall sv fs prompt plot strains folder md, folder <> "" -> files_show fs (inside folder) md ->
  solids_GUI sv fs (Some (Some folder)) prompt plot strains None = auto sv md plot strains.
Proof. exact files_dialog. Qed.
Print Assumptions C96_dialog.

Theorem C96_equilibrium : forall sv fs gui prompt plot strains folder md out, files_show fs (fun f => folder ++ f) md -> wf_model md -> solver_ok sv ->
  solids_GUI sv fs gui prompt plot strains (Some folder) = Ok out -> in_equilibrium md (table out).
Proof. exact files_equilibrium. Qed.
Print Assumptions C96_equilibrium.

Theorem C96_runs : forall sv fs gui prompt folder md, files_show fs (fun f => folder ++ f) md -> wf_model md -> accepted md -> stable md ->
  solver_ok sv -> solver_total sv -> (exists i d, free md i d) ->
  exists out, solids_GUI sv fs gui prompt false false (Some folder) = Ok out /\ in_equilibrium md (table out).
Proof. exact files_run. Qed.
Print Assumptions C96_runs.

(** no run without four readable files *)
Theorem C96_refused : forall sv fs gui prompt plot strains folder,
  (forall md, ~ exists nodes t1 t2 t3 t4,
     fs (folder ++ "nodes.txt") = Some t1 /\ fs (folder ++ "mater.txt") = Some t2 /\ fs (folder ++ "eles.txt") = Some t3 /\ fs (folder ++ "loads.txt") = Some t4 /\
     shows number_is t1 nodes /\ shows number_is t2 (md_mats md) /\ shows integer_is t3 (md_elements md) /\ shows number_is t4 (md_loads md)) ->
  exists e, solids_GUI (T := R) sv fs gui prompt plot strains (Some folder) = Err e.
Proof. exact files_refused. Qed.
Print Assumptions C96_refused.

(** the files of the two bars, with a comment in one of them *)
Example C96_case : files_show fs_bar (fun f => "m/" ++ f) (bar2 9) /\ files_show fs_bar (inside "m") (bar2 9) /\
  wf_model (bar2 9) /\ accepted (bar2 9) /\ stable (bar2 9) /\ solver_ok elim_solver /\ solver_total elim_solver /\ exists i d, free (bar2 9) i d.
Proof.
  exact (conj bar_shown (conj bar_shown (conj (bar2_wf 9) (conj (bar2_accepted 9) (conj (bar2_stable 9) (conj elim_ok (conj elim_total (bar2_free 9)))))))).
Qed.
Example C96_case_refused : forall sv gui prompt plot strains, exists e, solids_GUI (T := R) sv fs_bar gui prompt plot strains (Some "n/") = Err e.
Proof. intros. apply C96_refused. intros md (nodes & t1 & t2 & t3 & t4 & H & _). discriminate H. Qed.
