(** * Property C108: cutting the elements of a mesh never makes it stiffer *)
From Coq Require Import Reals List Arith Lia Lra ZArith Bool.
From Verif Require Import Num LinAlg Gauss Fem Uel Assem Post Main Script Spec SpecAssem SpecModel SpecElem SpecStatic SpecScript SpecSolid SpecMass SpecStiff SpecRefine
  ScriptProofs2 ScriptFinal MassPos2 SolidProofs StiffProofs StiffProofs3 RefineProofs RefineProofs2 ExModel ExSolver ExStatic ExSolid ExRefine.
Import ListNotations.
Local Open Scope R_scope.

(** triangles cut into triangles, tetrahedra into tetrahedra: the fine mesh makes every motion of the coarse one, at the same energy *)
Theorem C108_triangles : forall p q W parent, wf_problem p -> wf_problem q -> nested 2 triangle triangle_area p q W parent ->
  (forall i d j, p_dof q i d -> ent (p_cons q) i d = -1 -> (j < length (p_nodes p))%nat -> W i j <> 0 -> ent (p_cons p) j d = -1) ->
  (forall j d, p_dof p j d -> ent (p_cons p) j d = 0 -> applied (p_loads p) j d = rsum (length (p_nodes q)) (fun i => W i j * applied (p_loads q) i d)) ->
  finer p q W.
Proof. exact triangles_finer. Qed.
Print Assumptions C108_triangles.
Theorem C108_tetrahedra : forall p q W parent, wf_problem p -> wf_problem q -> nested 3 tetrahedron tetrahedron_volume p q W parent ->
  (forall i d j, p_dof q i d -> ent (p_cons q) i d = -1 -> (j < length (p_nodes p))%nat -> W i j <> 0 -> ent (p_cons p) j d = -1) ->
  (forall j d, p_dof p j d -> ent (p_cons p) j d = 0 -> applied (p_loads p) j d = rsum (length (p_nodes q)) (fun i => W i j * applied (p_loads q) i d)) ->
  finer p q W.
Proof. exact tetrahedra_finer. Qed.
Print Assumptions C108_tetrahedra.

(** the work of the loads grows by the energy of the difference of the two answers *)
Theorem C108_work : forall p q W, finer p q W -> forall U V, wf_problem p -> wf_problem q -> p_psd q -> p_equilibrium p U -> p_equilibrium q V ->
  p_load_work q V = p_load_work p U + p_energy q (fun i d => V i d - follow p W U i d) (fun i d => V i d - follow p W U i d).
Proof. exact finer_work. Qed.
Print Assumptions C108_work.
(** of all the motions of the coarse mesh its answer is the nearest to the answer of the fine mesh, in energy *)
Theorem C108_best : forall p q W, finer p q W -> forall U V X, wf_problem p -> wf_problem q -> p_psd p -> p_psd q ->
  p_equilibrium p U -> p_equilibrium q V -> p_admissible p X ->
  p_energy q (fun i d => V i d - follow p W X i d) (fun i d => V i d - follow p W X i d) =
  p_energy q (fun i d => V i d - follow p W U i d) (fun i d => V i d - follow p W U i d) + p_energy p (fun i d => U i d - X i d) (fun i d => U i d - X i d).
Proof. exact finer_best. Qed.
Print Assumptions C108_best.
(** when a single dof is loaded, that dof moves further in the direction of its load *)
Theorem C108_point : forall p q W U V i0 j0 d0 F, wf_problem p -> wf_problem q -> p_psd q -> finer p q W -> p_equilibrium p U -> p_equilibrium q V ->
  p_dof p j0 d0 -> p_dof q i0 d0 -> (forall j d, p_dof p j d -> applied (p_loads p) j d = if ((j =? j0) && (d =? d0))%nat then F else 0) ->
  (forall i d, p_dof q i d -> applied (p_loads q) i d = if ((i =? i0) && (d =? d0))%nat then F else 0) -> F * U j0 d0 <= F * V i0 d0.
Proof. exact finer_point. Qed.
Print Assumptions C108_point.
(** a mesh that takes its loads takes them with larger elements too *)
Theorem C108_stable : forall p q W, finer p q W -> wf_problem p -> wf_problem q -> p_psd p -> p_psd q -> kept p q W -> p_stable q -> p_stable p.
Proof. exact finer_stable. Qed.
Print Assumptions C108_stable.

(** tables written by runs, whatever the solvers and the storage: scripts, then [solids_auto] *)
Theorem C108_runs : forall p q W, wf_problem p -> wf_problem q -> p_psd q -> finer p q W ->
  forall sv sv' sparse sparse' U V, solvers_ok sv -> solvers_ok sv' -> p_script sv p sparse = Ok U -> p_script sv' q sparse' = Ok V ->
  p_load_work p (ent U) <= p_load_work q (ent V).
Proof. exact finer_runs. Qed.
Print Assumptions C108_runs.
Theorem C108_auto : forall md md' W, wf_model md -> wf_model md' -> accepted md -> accepted md' -> materials_ok md' -> finer (plane_problem md) (plane_problem md') W ->
  forall sv sv' plot plot' strains strains' out out', solver_ok sv -> solver_ok sv' -> auto sv md plot strains = Ok out -> auto sv' md' plot' strains' = Ok out' ->
  load_work md (md_loads md) (table out) <= load_work md' (md_loads md') (table out').
Proof. exact finer_auto. Qed.
Print Assumptions C108_auto.

(** a square of two triangles and the eight made with the middles of their sides, loaded at a corner *)
Example C108_case : forall fx fy, nested 2 triangle triangle_area (plane_problem (sqm fx fy)) (plane_problem (fine fx fy)) fine_W fine_parent /\
  kept (plane_problem (sqm fx fy)) (plane_problem (fine fx fy)) fine_W /\ finer (plane_problem (sqm fx fy)) (plane_problem (fine fx fy)) fine_W /\
  (wf_model (sqm fx fy) /\ wf_model (fine fx fy) /\ accepted (sqm fx fy) /\ accepted (fine fx fy) /\ materials_ok (fine fx fy)) /\ stable (fine fx fy) /\
  (exists out, auto elim_solver (sqm fx fy) false false = Ok out) /\ exists out, auto elim_solver (fine fx fy) false false = Ok out.
Proof.
  intros fx fy. exact (conj (fine_nested fx fy) (conj (fine_kept fx fy) (conj (fine_finer fx fy) (conj (conj (sqm_wf fx fy) (conj (fine_wf fx fy) (conj (sqm_accepted fx fy)
    (conj (fine_accepted fx fy) (fine_materials fx fy))))) (conj (fine_stable fx fy) (conj (sqm_runs fx fy) (fine_runs fx fy))))))).
Qed.
(** a tetrahedron and the four made with its centre *)
Example C108_case_tetrahedron : nested 3 tetrahedron tetrahedron_volume tet1 tq tet_W (fun _ => 0%nat) /\ kept tet1 tq tet_W /\ finer tet1 tq tet_W /\
  (wf_problem tet1 /\ wf_problem tq /\ p_psd tet1 /\ p_psd tq) /\ (exists U, p_script elim_solver tet1 false = Ok U) /\ exists U, p_script elim_solver tq false = Ok U.
Proof.
  exact (conj tet_nested (conj tet_kept (conj tet_finer (conj (conj (solid_wf _ (proj1 tet1_tets)) (conj (solid_wf _ (proj1 tq_tets))
    (conj (solid_psd _ (proj1 tet1_tets)) (solid_psd _ (proj1 tq_tets))))) (conj tet1_run tq_run))))).
Qed.
