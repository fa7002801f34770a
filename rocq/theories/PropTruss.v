(** * Properties C80-C81: statics of trusses *)
From Coq Require Import Reals List Arith Lra Lia ZArith Bool.
From Verif Require Import Num LinAlg Assem Post Main Spec SpecModel SpecElem SpecStatic SpecTruss TrussProofs TrussCount ExSolver ExTruss.
Import ListNotations.
Local Open Scope R_scope.

(** ** C80: the stresses of stress_truss after a run *)
(** every free joint is in equilibrium under the bar forces (stress times area) and the loads *)
Theorem C80_joints : forall sv md plot strains out, wf_model md -> truss_model md -> solver_ok sv -> auto sv md plot strains = Ok out ->
  exists S, stress_truss (md_nodes md) (md_elements md) (md_mats md) (out_disp out) = Ok S /\ length S = length (md_elements md) /\
    balanced md (fun m => nth m S 0 * b_area md (nth m (md_elements md) [])).
Proof. exact truss_joints. Qed.
Print Assumptions C80_joints.

(** their energy is the strain energy, and the least among all bar forces in equilibrium with the loads *)
Theorem C80_least : forall sv md plot strains out S, wf_model md -> truss_model md -> solver_ok sv -> auto sv md plot strains = Ok out ->
  stress_truss (md_nodes md) (md_elements md) (md_mats md) (out_disp out) = Ok S ->
  let F := fun m => nth m S 0 * b_area md (nth m (md_elements md) []) in
  strain_energy md (table out) = complementary md F /\
  forall N, balanced md N -> complementary md F <= complementary md N /\
    (complementary md N = complementary md F -> forall m, (m < length (md_elements md))%nat -> N m = F m).
Proof. exact truss_castigliano. Qed.
Print Assumptions C80_least.

(** statically determinate: any bar forces found by equilibrium alone give the stresses, whatever the moduli *)
Theorem C80_determinate : forall sv md plot strains out S N, wf_model md -> truss_model md -> solver_ok sv -> auto sv md plot strains = Ok out ->
  stress_truss (md_nodes md) (md_elements md) (md_mats md) (out_disp out) = Ok S -> determinate md -> balanced md N ->
  forall m, (m < length (md_elements md))%nat -> nth m S 0 = N m / b_area md (nth m (md_elements md) []).
Proof. exact truss_determinate. Qed.
Print Assumptions C80_determinate.

(** a bracket with bars of lengths 4, 3, 5: forces -4, -3, 5; areas 2, 1, 5 *)
Example C80_case : wf_model brm /\ truss_model brm /\ determinate brm /\ balanced brm (fun m => nth m [-4; -3; 5] 0) /\
  exists out, auto elim_solver brm false false = Ok out /\ stress_truss (md_nodes brm) (md_elements brm) (md_mats brm) (out_disp out) = Ok [-2; -3; 1].
Proof. exact (conj br_wf (conj br_truss (conj (count_determinate brm br_wf br_truss br_stable br_count) (conj br_balanced br_stresses)))). Qed.

(** ** C81: which trusses are stable *)
(** exactly those that no motion of the free joints leaves unstretched *)
Theorem C81_mechanisms : forall md, wf_model md -> truss_model md -> (stable md <-> no_mechanism md).
Proof. exact truss_stable. Qed.
Print Assumptions C81_mechanisms.

(** trusses built by adding joints held in two directions are *)
Theorem C81_simple : forall md l, wf_model md -> truss_model md -> simple_truss md l -> (forall i, (i < length (md_nodes md))%nat -> In i l) -> stable md.
Proof. exact simple_stable. Qed.
Print Assumptions C81_simple.

(** Maxwell's rule: a stable truss has at least as many bars as free dofs; with as many it is determinate *)
Theorem C81_maxwell : forall md, wf_model md -> truss_model md -> stable md -> (length (free_dofs md) <= length (md_elements md))%nat.
Proof. exact maxwell. Qed.
Print Assumptions C81_maxwell.

Theorem C81_determinate : forall md, wf_model md -> truss_model md -> stable md -> length (md_elements md) = length (free_dofs md) -> determinate md.
Proof. exact count_determinate. Qed.
Print Assumptions C81_determinate.

(** the element routine accepts every bar, so C73 applies *)
Theorem C81_accepted : forall md, wf_model md -> truss_model md -> accepted md.
Proof. exact truss_accepted. Qed.
Print Assumptions C81_accepted.

Example C81_case : wf_model brm /\ truss_model brm /\ simple_truss brm [1; 2; 0]%nat /\ (forall i, (i < length (md_nodes brm))%nat -> In i [1; 2; 0]%nat) /\
  length (md_elements brm) = length (free_dofs brm).
Proof. exact (conj br_wf (conj br_truss (conj br_simple (conj br_all br_count)))). Qed.
