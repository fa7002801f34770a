(** * Properties C90, C95: meshes of tetrahedra and bricks *)
From Coq Require Import Reals List Arith Lra Lia ZArith Bool.
From Verif Require Import Num LinAlg Uel Assem Post Main Script Spec SpecAssem SpecModel SpecElem SpecModes SpecScript SpecSolid
  ScriptProofs2 SolidProofs TetPatch ScriptFinal ExSolver ExSolid.
Import ListNotations.
Local Open Scope R_scope.

(** ** C90: elements joined by faces, supports against rigid motions *)
Theorem C90_wf : forall p, solid_mesh p -> wf_problem p.
Proof. exact solid_wf. Qed.
Print Assumptions C90_wf.

Theorem C90_stable : forall p, solid_mesh p -> connected3 p -> supported3 p -> p_stable p.
Proof. exact solid_stable. Qed.
Print Assumptions C90_stable.

Theorem C90_pinned : forall p, solid_mesh p -> forall a b c,
  (a < length (p_nodes p))%nat -> (b < length (p_nodes p))%nat -> (c < length (p_nodes p))%nat -> not_collinear (p_nodes p) a b c ->
  (forall d, (d < 3)%nat -> ent (p_cons p) a d = -1 /\ ent (p_cons p) b d = -1 /\ ent (p_cons p) c d = -1) -> supported3 p.
Proof. exact solid_pinned. Qed.
Print Assumptions C90_pinned.

Theorem C90_runs : forall p, solid_mesh p -> forall sv sparse, connected3 p -> supported3 p -> solvers_ok sv -> solvers_total sv ->
  exists U, p_script sv p sparse = Ok U /\ p_equilibrium p (ent U).
Proof. exact solid_mesh_runs. Qed.
Print Assumptions C90_runs.

(** a brick with a tetrahedron on top *)
Example C90_case : solid_mesh mx /\ connected3 mx /\ not_collinear (p_nodes mx) 0 1 2 /\
  (forall d, (d < 3)%nat -> ent (p_cons mx) 0 d = -1 /\ ent (p_cons mx) 1 d = -1 /\ ent (p_cons mx) 2 d = -1) /\
  exists U, p_script elim_solver mx true = Ok U /\ p_equilibrium mx (ent U).
Proof.
  exact (conj mx_mesh (conj mx_connected (conj (proj1 mx_corners) (conj (proj2 mx_corners)
    (solid_mesh_runs mx mx_mesh elim_solver true mx_connected mx_supported (proj1 elim_both) (proj2 elim_both)))))).
Qed.

(** ** C95: the patch test for tetrahedra *)
Theorem C95_forces : forall p E nu, tets p E nu -> forall t A i d, (d < 3)%nat ->
  p_internal p (affine_at (p_nodes p) t A) i d = faces_force (p_nodes p) (p_elements p) (stress3 E nu A) i d.
Proof. exact tets_forces. Qed.
Print Assumptions C95_forces.

Theorem C95_interior : forall p E nu, tets p E nu -> forall t A i d, (d < 3)%nat -> surrounded3 (p_elements p) i ->
  p_internal p (affine_at (p_nodes p) t A) i d = 0.
Proof. exact tets_interior. Qed.
Print Assumptions C95_interior.

(** boundary loads of a uniform stress: the run returns the field *)
Theorem C95_run : forall p E nu, tets p E nu -> forall sv sparse U t A, solvers_ok sv -> p_stable p -> p_admissible p (affine_at (p_nodes p) t A) ->
  (forall i d, p_dof p i d -> ent (p_cons p) i d = 0 -> applied (p_loads p) i d = faces_force (p_nodes p) (p_elements p) (stress3 E nu A) i d) ->
  p_script sv p sparse = Ok U -> forall i d, p_dof p i d -> ent U i d = affine_at (p_nodes p) t A i d.
Proof. exact tets_run. Qed.
Print Assumptions C95_run.

(** four tetrahedra around node 4, pulled along x at node 1: u = x, v = - y / 4, w = - z / 4 *)
Example C95_case : tets tq 1 (1/4) /\ surrounded3 (p_elements tq) 4 /\ connected3 tq /\ supported3 tq /\
  p_admissible tq (affine_at (p_nodes tq) (fun _ => 0) tq_grad) /\
  (forall i d, p_dof tq i d -> ent (p_cons tq) i d = 0 -> applied (p_loads tq) i d = faces_force (p_nodes tq) (p_elements tq) (stress3 1 (1/4) tq_grad) i d) /\
  exists U, p_script elim_solver tq false = Ok U.
Proof. exact (conj tq_tets (conj tq_surrounded (conj tq_connected (conj tq_supported (conj tq_admissible (conj tq_loads tq_run)))))). Qed.
