(** * Cases for windows and drawings: one triangle *)
From Coq Require Import String Reals List ZArith Arith Bool Lia Lra.
From Verif Require Import Num LinAlg Post Draw Spec SpecReport SpecDraw SpecPost DrawProofs.
Import ListNotations.
Local Open Scope string_scope.

Definition dr_nodes : list (list R) := [[0; 0; 0]; [1; 1; 0]; [2; 0; 1]]%R.
Definition dr_elems : list (list Z) := [[0; 3; 0; 0; 1; 2]]%Z.
Definition dr_disp : list (list R) := [[0; 0]; [1; 2]; [3; 5]]%R.
Definition dr_column : list (list R) := [[0]; [1]; [3]]%R.

Lemma dr_tri_ok : exists tri, mesh2tri dr_nodes dr_elems = Ok tri.
Proof. eexists. reflexivity. Qed.
(** window 1 was closed, window 2 is open: it is drawn over *)
Lemma reuse : exists st field nodes elements st' ds d,
  plot_field (T := R) st field nodes elements "contourf" 12 false None None None = Ok (st', ds) /\ In d ds /\ In (dr_window d) (map fst st).
Proof.
  exists [(2%Z, "")], (TwoAxes dr_disp), dr_nodes, dr_elems. eexists _, _, _. split; [reflexivity|]. split; [left; reflexivity|]. left. reflexivity.
Qed.
(** a table of one column is handed over as a table *)
Lemma column_table : exists st m nodes elements st' ds d,
  length m = length nodes /\ Forall (fun r => length r = 1%nat) m /\
  plot_field (T := R) st (TwoAxes m) nodes elements "contourf" 12 false None None None = Ok (st', ds) /\ In d ds /\ forall v, dr_values d <> OneAxis v.
Proof.
  exists [], dr_column, dr_nodes, dr_elems. eexists _, _, _. split; [reflexivity|]. split; [repeat constructor|]. split; [reflexivity|]. split; [left; reflexivity|]. discriminate.
Qed.
Lemma dr_two : consecutive [(1%Z, "a"); (2%Z, "")] /\ exists st' ds, plot_field (T := R) [(1%Z, "a"); (2%Z, "")] (TwoAxes dr_disp) dr_nodes dr_elems "pcolor" 12 true None None None = Ok (st', ds).
Proof. split; [intros k; cbn; lia|]. eexists _, _. reflexivity. Qed.
Lemma dr_run : exists st1 ds1 st2 ds2, fields_draw [(3%Z, "Vertical displacement")] dr_elems dr_nodes dr_disp None None = Ok (st1, Some ds1) /\
  fields_draw st1 dr_elems dr_nodes dr_disp None None = Ok (st2, Some ds2).
Proof. eexists _, _, _, _. split; reflexivity. Qed.
