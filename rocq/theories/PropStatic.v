(** * Properties C70-C74: energy principles, stability, success of the driver, equilibrium warning *)
From Coq Require Import Reals List Arith ZArith Bool.
From Verif Require Import Num LinAlg Uel Assem Main Spec SpecAssem SpecModel SpecElem SpecStatic
  StaticProofs StaticProofs2 StaticProofs3 ExModel2 ExSolver ExStatic.
Import ListNotations.
Local Open Scope R_scope.

(** ** C70: reciprocity *)
Theorem C70_reciprocity : forall sv1 sv2 md l1 l2 p1 s1 p2 s2 o1 o2,
  solver_ok sv1 -> solver_ok sv2 -> materials_ok md ->
  wf_model (with_loads md l1) -> wf_model (with_loads md l2) ->
  auto sv1 (with_loads md l1) p1 s1 = Ok o1 -> auto sv2 (with_loads md l2) p2 s2 = Ok o2 ->
  load_work md l1 (table o2) = load_work md l2 (table o1).
Proof. exact reciprocity. Qed.
Print Assumptions C70_reciprocity.

Example C70_case : solver_ok elim_solver /\ materials_ok (sqm 0 0) /\
  forall fx fy, wf_model (with_loads (sqm 0 0) [[2; fx; fy]]) /\
    exists out, auto elim_solver (with_loads (sqm 0 0) [[2; fx; fy]]) false false = Ok out.
Proof. exact (conj elim_ok (conj (sqm_materials 0 0) (fun fx fy => conj (sqm_wf fx fy) (sqm_runs fx fy)))). Qed.

(** ** C71: minimum of the potential energy *)
Theorem C71_minimum : forall sv md plot strains out,
  solver_ok sv -> wf_model md -> materials_ok md -> auto sv md plot strains = Ok out ->
  admissible md (table out) /\
  (forall V, admissible md V -> potential md (table out) <= potential md V) /\
  (stable md -> forall V, admissible md V -> potential md V <= potential md (table out) ->
     forall i d, (i < length (md_nodes md))%nat -> (d < 2)%nat -> V i d = table out i d).
Proof. exact minimum. Qed.
Print Assumptions C71_minimum.

Theorem C71_clapeyron : forall sv md plot strains out,
  solver_ok sv -> wf_model md -> materials_ok md -> auto sv md plot strains = Ok out ->
  2 * strain_energy md (table out) = load_work md (md_loads md) (table out) /\
  0 <= load_work md (md_loads md) (table out).
Proof. exact clapeyron. Qed.
Print Assumptions C71_clapeyron.

Example C71_case : forall fx fy, solver_ok elim_solver /\ wf_model (sqm fx fy) /\ materials_ok (sqm fx fy) /\ stable (sqm fx fy) /\
  exists out, auto elim_solver (sqm fx fy) false false = Ok out.
Proof. exact (fun fx fy => conj elim_ok (conj (sqm_wf fx fy) (conj (sqm_materials fx fy) (conj (sqm_stable fx fy) (sqm_runs fx fy))))). Qed.
(** loads work on some admissible fields *)
Example C71_case_work : load_work (sqm 1 0) [[2; 1; 0]] (fun i d => if (i =? 2)%nat then 1 else 0) = 1.
Proof. exact sqm_load. Qed.

(** ** C72: connected and supported meshes of triangles and quadrilaterals are stable *)
Theorem C72_stable : forall md, wf_model md -> Forall (sound_plane md) (md_elements md) -> connected md -> supported md -> stable md.
Proof. exact supported_stable. Qed.
Print Assumptions C72_stable.

Example C72_case : forall fx fy, wf_model (sqm fx fy) /\ Forall (sound_plane (sqm fx fy)) (md_elements (sqm fx fy)) /\
  connected (sqm fx fy) /\ supported (sqm fx fy).
Proof. exact (fun fx fy => conj (sqm_wf fx fy) (conj (sqm_sound fx fy) (conj (sqm_connected fx fy) (sqm_supported fx fy)))). Qed.

(** ** C73: the driver succeeds on stable models *)
Theorem C73_runs : forall sv md, wf_model md -> accepted md -> stable md -> solver_ok sv -> solver_total sv ->
  (exists i d, free md i d) -> exists out, auto sv md false false = Ok out.
Proof. exact model_runs. Qed.
Print Assumptions C73_runs.

Example C73_case : forall fx fy, wf_model (sqm fx fy) /\ accepted (sqm fx fy) /\ stable (sqm fx fy) /\
  solver_ok elim_solver /\ solver_total elim_solver /\ exists i d, free (sqm fx fy) i d.
Proof.
  exact (fun fx fy => conj (sqm_wf fx fy) (conj (sqm_accepted fx fy) (conj (sqm_stable fx fy)
           (conj elim_ok (conj elim_total (sqm_free fx fy)))))).
Qed.

(** ** C74: the equilibrium warning *)
Theorem C74_meaning : forall sv md plot strains out, wf_model md -> auto sv md plot strains = Ok out ->
  exists m, largest_coupling md m /\ (m = 0 -> out_warn out = true) /\
    (m <> 0 -> (out_warn out = false <-> forall i d, free md i d ->
       Rabs (internal_force (md_mats md) (md_nodes md) (md_elements md) (table out) i d / m - applied (md_loads md) i d / m)
         <= 1 / 100000000 + 1 / 100000 * Rabs (applied (md_loads md) i d / m))).
Proof. exact warning_meaning. Qed.
Print Assumptions C74_meaning.

Theorem C74_no_warning : forall sv md plot strains out, wf_model md -> solver_ok sv -> materials_ok md -> stable md ->
  auto sv md plot strains = Ok out -> out_warn out = false.
Proof. exact no_warning. Qed.
Print Assumptions C74_no_warning.

Example C74_case : forall fx fy, wf_model (sqm fx fy) /\ materials_ok (sqm fx fy) /\ stable (sqm fx fy) /\
  exists out, auto elim_solver (sqm fx fy) false false = Ok out.
Proof. exact (fun fx fy => conj (sqm_wf fx fy) (conj (sqm_materials fx fy) (conj (sqm_stable fx fy) (sqm_runs fx fy)))). Qed.
