(** * Properties C105 - C107: the script of the tutorial that writes the input files *)
From Coq Require Import String Reals List ZArith Arith Bool Lia Lra.
From Verif Require Import Num LinAlg Gauss Fem Uel Assem Post Pre TextIO Template Main Spec SpecPre SpecText SpecPost SpecModel SpecStatic SpecRun SpecTemplate
  LinR ImportProofs TemplateProofs2 TemplateProofs3 ExSolver ExTemplate.
Import ListNotations.
Local Open Scope R_scope.

(** ** C105.  What the four files say *)
Theorem C105_written : forall s fs points cells cell_data eles maters lines bounds, set_order s -> template_mesh points cells cell_data eles maters lines bounds ->
  (exists i, on_line lines bounds 500 i) ->
  exists fs' nodes els ids, template s fs points cells cell_data = Ok fs' /\ node_table points lines bounds nodes /\ element_table eles maters els /\ loaded lines bounds ids /\
    (exists t, fs' "nodes.txt"%string = Some t /\ columns_text [whole_is; fixed_is 4; fixed_is 4; whole_is; whole_is] t nodes) /\
    (exists t, fs' "eles.txt"%string = Some t /\ file_text d_is t els) /\
    (exists t, fs' "loads.txt"%string = Some t /\ columns_text [whole_is; fixed_is 6; fixed_is 6] t (map (fun i => [INR i; 0; -2 / INR (length ids)]) ids)) /\
    (exists t, fs' "mater.txt"%string = Some t /\ file_text (fixed_is 6) t [[1; 3/10]; [5; 3/10]]) /\
    forall p, ~ In p ["nodes.txt"; "eles.txt"; "loads.txt"; "mater.txt"]%string -> fs' p = fs p.
Proof. exact script_written. Qed.
Print Assumptions C105_written.
Theorem C105_read : forall s fs points cells cell_data eles maters lines bounds, set_order s -> template_mesh points cells cell_data eles maters lines bounds ->
  (exists i, on_line lines bounds 500 i) ->
  exists fs' md ids, template s fs points cells cell_data = Ok fs' /\ files_show fs' (fun f => f) md /\ loaded lines bounds ids /\ template_model points eles maters lines bounds ids md.
Proof. exact script_read. Qed.
Print Assumptions C105_read.
Theorem C105_refused : forall s fs points (cells : list (string * list (list Z))) (cell_data : list (string * list (string * list Z))) eles maters lines bounds,
  set_order s -> template_mesh points cells cell_data eles maters lines bounds ->
  (forall i, ~ on_line lines bounds 500 i) -> template s fs points cells cell_data = Err ZeroDivisionError.
Proof. exact script_refused. Qed.
Print Assumptions C105_refused.
Theorem C105_loads : forall points eles maters lines bounds ids md, loaded lines bounds ids -> template_model points eles maters lines bounds ids md ->
  exists p, rounded_to 6 (-2 / INR (length ids)) p /\ forall i,
    applied (md_loads md) i 0 = 0 /\ (on_line lines bounds 500 i -> applied (md_loads md) i 1 = p) /\ (~ on_line lines bounds 500 i -> applied (md_loads md) i 1 = 0).
Proof. exact loads_applied. Qed.
Print Assumptions C105_loads.
(** a plate of four triangles; three of its nodes are loaded *)
Example C105_case : set_order uniq /\ template_mesh plate_points plate_cells plate_data plate_eles plate_maters plate_lines plate_bounds /\
  (exists i, on_line plate_lines plate_bounds 500 i) /\ loaded plate_lines plate_bounds [3; 4; 5]%nat.
Proof. exact (conj uniq_order (conj plate_mesh (conj plate_load plate_loaded))). Qed.

(** ** C106.  The loads of the files add up to -2: false, six decimals are written *)
Theorem C106_refuted : exists points cells cell_data eles maters lines bounds, template_mesh points cells cell_data eles maters lines bounds /\
  (exists i, on_line lines bounds 500 i) /\
  forall ids md, loaded lines bounds ids -> template_model points eles maters lines bounds ids md -> lsum (fun row => nth 2 row 0) (md_loads md) = -2000001 / 1000000.
Proof. exact (ex_intro _ _ (ex_intro _ _ (ex_intro _ _ (ex_intro _ _ (ex_intro _ _ (ex_intro _ _ (ex_intro _ _ (conj plate_mesh (conj plate_load plate_total))))))))). Qed.
Print Assumptions C106_refuted.
(** full statement: the sum is -2.  What is missing is the part lost in the last decimal of each load. *)
Theorem C106_near_partial : forall points eles maters lines bounds ids md, template_model points eles maters lines bounds ids md -> ids <> [] ->
  Rabs (lsum (fun row => nth 2 row 0) (md_loads md) + 2) <= INR (length ids) / 2000000.
Proof. exact total_near. Qed.
Print Assumptions C106_near_partial.
(** full statement: the sum is -2.  It is for a number of loaded nodes that divides 2000000. *)
Theorem C106_exact_partial : forall points eles maters lines bounds ids md, template_model points eles maters lines bounds ids md ->
  forall m, (m * Z.of_nat (length ids) = 2000000)%Z -> lsum (fun row => nth 2 row 0) (md_loads md) = -2.
Proof. exact total_exact. Qed.
Print Assumptions C106_exact_partial.
(** the hypotheses: every mesh gives such a model *)
Example C106_case : exists md ids, template_model plate_points plate_eles plate_maters plate_lines plate_bounds ids md /\ ids <> [].
Proof. exact plate_model. Qed.
Example C106_case_exact : (400000 * Z.of_nat (length [1; 2; 3; 4; 5]%nat) = 2000000)%Z.
Proof. exact eq_refl. Qed.

(** ** C107.  A mesh whose triangles the program accepts gives files that run: false for flat triangles *)
Theorem C107_refuted : exists points cells cell_data lines bounds a b c,
  template_mesh points cells cell_data [[0; 1; 2]]%Z [100]%Z lines bounds /\ points = [a ++ [0]; b ++ [0]; c ++ [0]] /\
  (exists K M, elast_tri3 [a; b; c] [1; 3/10] = Ok (K, M)) /\
  forall s fs sv gui prompt, set_order s -> solver_ok sv -> exists fs', template s fs points cells cell_data = Ok fs' /\
    forall plot strains out, solids_GUI sv fs' gui prompt plot strains (Some ""%string) <> Ok out.
Proof. exact flat_refutes. Qed.
Print Assumptions C107_refuted.
(** full statement: triangles accepted by elast_tri3.  What is missing are those that the rounding to four
    decimals may flatten: the ones here keep a positive area wherever the rounding moves their corners. *)
Theorem C107_runs_partial : forall sv s fs points cells cell_data eles maters lines bounds gui prompt, set_order s -> template_mesh points cells cell_data eles maters lines bounds ->
  (exists i, on_line lines bounds 500 i) -> Forall (sturdy points) eles -> mesh_connected points eles -> mesh_held points lines bounds ->
  (exists i, (i < length points)%nat /\ (~ on_line lines bounds 300 i \/ ~ on_line lines bounds 400 i)) -> solver_ok sv -> solver_total sv ->
  exists fs' ids md out, template s fs points cells cell_data = Ok fs' /\ loaded lines bounds ids /\ template_model points eles maters lines bounds ids md /\
    solids_GUI sv fs' gui prompt false false (Some ""%string) = Ok out /\ in_equilibrium md (table out) /\ out_warn out = false /\
    rsum (length points) (fun i => reaction md (table out) i 0) = 0 /\
    Rabs (rsum (length points) (fun i => reaction md (table out) i 1) - 2) <= INR (length ids) / 2000000.
Proof. exact script_run. Qed.
Print Assumptions C107_runs_partial.
Example C107_case : set_order uniq /\ template_mesh plate_points plate_cells plate_data plate_eles plate_maters plate_lines plate_bounds /\
  (exists i, on_line plate_lines plate_bounds 500 i) /\ Forall (sturdy plate_points) plate_eles /\ mesh_connected plate_points plate_eles /\
  mesh_held plate_points plate_lines plate_bounds /\
  (exists i, (i < length plate_points)%nat /\ (~ on_line plate_lines plate_bounds 300 i \/ ~ on_line plate_lines plate_bounds 400 i)) /\
  solver_ok elim_solver /\ solver_total elim_solver.
Proof. exact (conj uniq_order (conj plate_mesh (conj plate_load (conj plate_sturdy (conj plate_connected (conj plate_held (conj plate_free (conj elim_ok elim_total)))))))). Qed.
