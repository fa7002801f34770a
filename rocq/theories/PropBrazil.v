(** * Property C111: the script of the Brazilian test *)
From Coq Require Import String Reals List ZArith Arith Bool Lia Lra.
From Verif Require Import Num LinAlg Gauss Fem Uel Assem Post Pre TextIO Template Brazil Main Spec SpecPre SpecText SpecPost SpecModel SpecStatic SpecRun SpecTemplate SpecBrazil
  LinR ImportProofs BrazilProofs BrazilProofs2 ExSolver.
Import ListNotations.
Local Open Scope R_scope.

(** ** C111.  The files describe the mesh, with the materials as the text says: false, the triangles of the group 4 get 1 *)
Theorem C111_described : forall fs points cells cell_data eles maters lines bounds v e md fs', brazil_mesh points cells cell_data eles maters lines bounds [v] ->
  brazil fs points cells cell_data = Ok fs' -> (e < length eles)%nat -> nth e maters 0%Z = 4%Z -> brazil_model described points eles maters lines bounds [v] md -> ~ files_show fs' (fun f => f) md.
Proof. exact brazil_described. Qed.
Print Assumptions C111_described.
Theorem C111_refuted : exists points cells cell_data eles maters lines bounds v, brazil_mesh points cells cell_data eles maters lines bounds [v] /\
  forall fs, exists fs' md, brazil fs points cells cell_data = Ok fs' /\ brazil_model described points eles maters lines bounds [v] md /\ ~ files_show fs' (fun f => f) md.
Proof. exact (ex_intro _ _ (ex_intro _ _ (ex_intro _ _ (ex_intro _ _ (ex_intro _ _ (ex_intro _ _ (ex_intro _ _ (ex_intro _ _ (conj (quarter_mesh [4; 4]%Z eq_refl) quarter_described))))))))). Qed.
Print Assumptions C111_refuted.
(** full statement: the material numbers of the text and every mesh.  What holds: 1 for every triangle, when all triangles, or one, are in the group 4 *)
Theorem C111_read_partial : forall fs points cells cell_data eles maters lines bounds v, brazil_mesh points cells cell_data eles maters lines bounds [v] ->
  (count_occ Z.eq_dec maters 4%Z = length eles \/ count_occ Z.eq_dec maters 4%Z = 1%nat) ->
  exists fs' md, brazil fs points cells cell_data = Ok fs' /\ files_show fs' (fun f => f) md /\ brazil_model (fun _ => 1%Z) points eles maters lines bounds [v] md /\
    forall p, ~ In p ["nodes.txt"; "eles.txt"; "loads.txt"; "mater.txt"]%string -> fs' p = fs p.
Proof. exact brazil_read. Qed.
Print Assumptions C111_read_partial.
(** with another number of triangles in the group 4 the script stops *)
Theorem C111_groups : forall fs points cells cell_data eles maters lines bounds marked, brazil_mesh points cells cell_data eles maters lines bounds marked ->
  count_occ Z.eq_dec maters 4%Z <> length eles -> count_occ Z.eq_dec maters 4%Z <> 1%nat -> brazil fs points cells cell_data = Err (ValueError "could not broadcast input array").
Proof. exact brazil_groups. Qed.
Print Assumptions C111_groups.
(** as many rows as loads: with two or more marked vertices the script stops *)
Theorem C111_vertices : forall fs points cells cell_data eles maters lines bounds marked, brazil_mesh points cells cell_data eles maters lines bounds marked ->
  (2 <= length marked)%nat -> brazil fs points cells cell_data = Err (ValueError "could not broadcast input array").
Proof. exact brazil_vertices. Qed.
Print Assumptions C111_vertices.
(** the files run; the supports carry the load of the vertex *)
Theorem C111_runs : forall sv fs points cells cell_data eles maters lines bounds v gui prompt, brazil_mesh points cells cell_data eles maters lines bounds [v] ->
  (count_occ Z.eq_dec maters 4%Z = length eles \/ count_occ Z.eq_dec maters 4%Z = 1%nat) -> Forall (sturdy points) eles -> mesh_connected points eles -> held_on 1 2 points lines bounds ->
  (exists i, (i < length points)%nat /\ (~ on_line lines bounds 1 i \/ ~ on_line lines bounds 2 i)) -> solver_ok sv -> solver_total sv ->
  exists fs' md out, brazil fs points cells cell_data = Ok fs' /\ brazil_model (fun _ => 1%Z) points eles maters lines bounds [v] md /\
    solids_GUI sv fs' gui prompt false false (Some ""%string) = Ok out /\ in_equilibrium md (table out) /\ out_warn out = false /\
    rsum (length points) (fun i => reaction md (table out) i 0) = 0 /\ rsum (length points) (fun i => reaction md (table out) i 1) = 1000000000.
Proof. exact brazil_run. Qed.
Print Assumptions C111_runs.

(** a quarter of a disk in two triangles of the group 4 *)
Example C111_case : brazil_mesh quarter_points quarter_cells (quarter_data [4; 4]%Z) quarter_eles [4; 4]%Z quarter_lines [1; 2]%Z [2%nat] /\
  count_occ Z.eq_dec [4; 4]%Z 4%Z = length quarter_eles /\ Forall (sturdy quarter_points) quarter_eles /\ mesh_connected quarter_points quarter_eles /\ held_on 1 2 quarter_points quarter_lines [1; 2]%Z /\
  (exists i, (i < length quarter_points)%nat /\ (~ on_line quarter_lines [1; 2]%Z 1 i \/ ~ on_line quarter_lines [1; 2]%Z 2 i)) /\ solver_ok elim_solver /\ solver_total elim_solver.
Proof. exact (conj (quarter_mesh [4; 4]%Z eq_refl) (conj eq_refl (conj quarter_sturdy (conj quarter_connected (conj quarter_held (conj quarter_free (conj elim_ok elim_total))))))). Qed.
(** and a mesh of other groups: no triangle of the group 4 *)
Example C111_case_groups : brazil_mesh quarter_points quarter_cells (quarter_data [5; 6]%Z) quarter_eles [5; 6]%Z quarter_lines [1; 2]%Z [2%nat] /\
  count_occ Z.eq_dec [5; 6]%Z 4%Z <> length quarter_eles /\ count_occ Z.eq_dec [5; 6]%Z 4%Z <> 1%nat.
Proof. split; [exact (quarter_mesh [5; 6]%Z eq_refl)|]. split; discriminate. Qed.
Example C111_case_vertices : brazil_mesh quarter_points [("vertex", [[1]; [2]]%Z); ("line", quarter_lines); ("triangle", quarter_eles)]%string (quarter_data [4; 4]%Z) quarter_eles [4; 4]%Z quarter_lines [1; 2]%Z [1; 2]%nat.
Proof. exact quarter_two. Qed.
