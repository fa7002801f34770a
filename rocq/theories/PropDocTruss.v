(** * Property C113: the worked examples of stress_truss; node tables with further columns *)
From Coq Require Import Reals List Arith Lra Lia ZArith Bool.
From Verif Require Import Num LinAlg Assem Post Main Script DocTruss Spec SpecModel SpecElem SpecStatic SpecTruss SpecScript SpecDocTruss
  TrussProofs ScriptFinal ExSolver ExTruss DocTrussProofs DocTrussCases ExDocTruss.
Import ListNotations.
Local Open Scope R_scope.

(** ** any truss, any number of columns after the coordinates *)
(** the stresses balance the loads only after each is multiplied by (length / distance in all the columns) cubed *)
Theorem C113_joints : forall sv md N c U, wf_model md -> truss_model md -> extends md N c -> solvers_ok sv -> truss_script sv md N = Ok U ->
  exists S, stress_truss N (md_elements md) (md_mats md) U = Ok S /\ length S = length (md_elements md) /\
    balanced md (fun m => nth m S 0 * b_area md (nth m (md_elements md) []) * soft md N c m).
Proof. exact wide_joints. Qed.
Print Assumptions C113_joints.

(** the factor is at most one, and one exactly for bars whose ends agree in all the further columns *)
Theorem C113_factor : forall md N c m, wf_model md -> truss_model md -> extends md N c -> (m < length (md_elements md))%nat ->
  0 < soft md N c m <= 1 /\
  (soft md N c m = 1 <-> forall k, (3 <= k < c)%nat -> ent N (e_node (nth m (md_elements md) []) 0) k = ent N (e_node (nth m (md_elements md) []) 1) k).
Proof. exact (fun md N c m Hwf Ht Hx Hm => conj (soft_pos md N c m Hwf Ht Hx Hm) (soft_one md N c m Hwf Ht Hx Hm)). Qed.
Print Assumptions C113_factor.

(** statically determinate: the true stress of each bar divided by its factor *)
Theorem C113_determinate : forall sv md N c U S F, wf_model md -> truss_model md -> extends md N c -> solvers_ok sv -> truss_script sv md N = Ok U ->
  stress_truss N (md_elements md) (md_mats md) U = Ok S -> determinate md -> balanced md F ->
  forall m, (m < length (md_elements md))%nat -> nth m S 0 = F m / b_area md (nth m (md_elements md) []) *
    (reach N c (nth m (md_elements md) []) / b_len (md_nodes md) (nth m (md_elements md) [])) ^ 3.
Proof. exact wide_determinate. Qed.
Print Assumptions C113_determinate.

(** no warning: every stable truss gets an answer *)
Theorem C113_answers : forall sv md N c, wf_model md -> truss_model md -> extends md N c -> solvers_ok sv -> solvers_total sv -> stable md ->
  exists U, truss_script sv md N = Ok U.
Proof. exact wide_answers. Qed.
Print Assumptions C113_answers.

Example C113_case : wf_model brm /\ truss_model brm /\ extends brm br_wide 5 /\ determinate brm /\ balanced brm (fun m => nth m [-4; -3; 5] 0) /\
  soft brm br_wide 5 0 <> 1 /\ exists U, fem_sol elim_solver br_wide br_bars (md_mats brm) (md_loads brm) = Ok U.
Proof. exact br_wide_case. Qed.

(** ** the three exercises of the documentation *)
(** the documented calls: the node table with the flags goes to the assembler *)
Theorem C113_18 : forall sv U, solvers_ok sv -> fem_sol sv ex18_nodes three_bars doc_mats ex18_loads = Ok U ->
  stress_truss ex18_nodes three_bars doc_mats U = Ok (map (fun x => 2 * sqrt 2 * x) ex18_exact).
Proof. exact wide18. Qed.
Print Assumptions C113_18.
Theorem C113_19 : forall sv U, solvers_ok sv -> fem_sol sv ex19_nodes three_bars doc_mats ex19_loads = Ok U ->
  stress_truss ex19_nodes three_bars doc_mats U = Ok (let w := 1 / (1 / 4 + 1 / (3 * sqrt 3)) in [w / 2; w; w / 2]).
Proof. exact wide19. Qed.
Print Assumptions C113_19.
Theorem C113_22 : forall sv U, solvers_ok sv -> fem_sol sv ex22_nodes five_bars doc_mats ex22_loads = Ok U ->
  stress_truss ex22_nodes five_bars doc_mats U = Ok (map (fun x => 3 * sqrt 3 * x) ex22_exact).
Proof. exact wide22. Qed.
Print Assumptions C113_22.
Example C113_runs : (exists U, fem_sol elim_solver ex18_nodes three_bars doc_mats ex18_loads = Ok U) /\
  (exists U, fem_sol elim_solver ex19_nodes three_bars doc_mats ex19_loads = Ok U) /\
  (exists U, fem_sol elim_solver ex22_nodes five_bars doc_mats ex22_loads = Ok U).
Proof. exact doc_runs. Qed.

(** so np.allclose(stress_exact, stress) (rtol 1e-5, atol 1e-8) is not the documented True *)
Theorem C113_18_refuted : exists sv U S, solvers_ok sv /\ fem_sol sv ex18_nodes three_bars doc_mats ex18_loads = Ok U /\
  stress_truss ex18_nodes three_bars doc_mats U = Ok S /\
  ~ (forall m, (m < 3)%nat -> Rabs (nth m ex18_exact 0 - nth m S 0) <= 1 / 10 ^ 8 + 1 / 10 ^ 5 * Rabs (nth m S 0)).
Proof. exact doc_refuted. Qed.
Print Assumptions C113_18_refuted.
Theorem C113_19_refuted : exists sv U S, solvers_ok sv /\ fem_sol sv ex19_nodes three_bars doc_mats ex19_loads = Ok U /\
  stress_truss ex19_nodes three_bars doc_mats U = Ok S /\
  ~ (forall m, (m < 3)%nat -> Rabs (nth m ex19_exact 0 - nth m S 0) <= 1 / 10 ^ 8 + 1 / 10 ^ 5 * Rabs (nth m S 0)).
Proof. exact doc_refuted19. Qed.
Print Assumptions C113_19_refuted.
Theorem C113_22_refuted : exists sv U S, solvers_ok sv /\ fem_sol sv ex22_nodes five_bars doc_mats ex22_loads = Ok U /\
  stress_truss ex22_nodes five_bars doc_mats U = Ok S /\
  ~ (forall m, (m < 5)%nat -> Rabs (nth m ex22_exact 0 - nth m S 0) <= 1 / 10 ^ 8 + 1 / 10 ^ 5 * Rabs (nth m S 0)).
Proof. exact doc_refuted22. Qed.
Print Assumptions C113_22_refuted.

(** with the first three columns given to the assembler the documented stresses come out exactly *)
Theorem C113_three_columns : forall sv, solvers_ok sv ->
  (forall U, truss_script sv doc18 (md_nodes doc18) = Ok U -> stress_truss ex18_nodes three_bars doc_mats U = Ok ex18_exact) /\
  (forall U, truss_script sv doc19 (md_nodes doc19) = Ok U -> stress_truss ex19_nodes three_bars doc_mats U = Ok ex19_exact) /\
  (forall U, truss_script sv doc22 (md_nodes doc22) = Ok U -> stress_truss ex22_nodes five_bars doc_mats U = Ok ex22_exact).
Proof. exact (fun sv H => conj (fun U => narrow18 sv U H) (conj (fun U => narrow19 sv U H) (fun U => narrow22 sv U H))). Qed.
Print Assumptions C113_three_columns.
Example C113_three_columns_case : (exists U, truss_script elim_solver doc18 (md_nodes doc18) = Ok U) /\
  (exists U, truss_script elim_solver doc19 (md_nodes doc19) = Ok U) /\ (exists U, truss_script elim_solver doc22 (md_nodes doc22) = Ok U).
Proof. exact narrow_runs. Qed.
