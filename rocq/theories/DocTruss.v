(** * Model of the worked examples in the documentation of stress_truss *)
From Coq Require Import Reals String ZArith Arith Bool List.
From Verif Require Import Num LinAlg Gauss Fem Uel Assem Post Main Script.
Import ListNotations.

Section DocTruss.
  Context {T : Type} `{Num T}.
  Local Notation mat := (@mat T).
  (* postprocesor.py:434-440 fem_sol: the flags are nodes[:, 3:]; assembler and complete_disp get the
     whole table [nodes].  Default arguments of DME, assembler, loadasem and complete_disp
     (assemutil.py:47, 149, 298; postprocesor.py:293). *)
  Definition fem_sol (sv : solvers T) (nodes : mat) (elements : list (list Z)) (mats loads : mat) : res mat :=
    script sv 2 18 None None true nodes (map (skipn 3) nodes) elements mats loads.
End DocTruss.

Local Open Scope R_scope.
(* postprocesor.py:455, 482, 516: mats of the three examples *)
Definition doc_mats : list (list R) := [[1; 1]].
(* postprocesor.py:450-454 *)
Definition ex18_nodes : list (list R) :=
  [[0; 0; 0; 0; -1];
   [1; -1; 0; -1; -1];
   [2; - cos (PI / 6); - sin (PI / 6); -1; -1];
   [3; - cos (PI / 3); - sin (PI / 3); -1; -1]].
(* postprocesor.py:456-459, 483-486: elements of the first two examples *)
Definition three_bars : list (list Z) := [[0; 6; 0; 1; 0]; [1; 6; 0; 2; 0]; [2; 6; 0; 3; 0]]%Z.
(* postprocesor.py:460 *)
Definition ex18_loads : list (list R) := [[0; 1; 0]].
(* postprocesor.py:477-481 *)
Definition ex19_nodes : list (list R) :=
  [[0; 0; 0; 0; 0];
   [1; -1; -1; -1; -1];
   [2; 0; -1; -1; -1];
   [3; 1; -1; -1; -1]].
(* postprocesor.py:487 *)
Definition ex19_loads : list (list R) := [[0; 0; 1]].
(* postprocesor.py:508 *)
Definition cathetus : R := cos (PI / 4).
(* postprocesor.py:509-515 *)
Definition ex22_nodes : list (list R) :=
  [[0; 0; 0; 0; 0];
   [1; -1; 0; -1; -1];
   [2; - cathetus; cathetus; -1; -1];
   [3; 0; 1; -1; -1];
   [4; cathetus; cathetus; -1; -1];
   [5; 1; 0; -1; -1]].
(* postprocesor.py:517-522 *)
Definition five_bars : list (list Z) := [[0; 6; 0; 1; 0]; [1; 6; 0; 2; 0]; [2; 6; 0; 3; 0]; [3; 6; 0; 4; 0]; [4; 6; 0; 5; 0]]%Z.
(* postprocesor.py:523 *)
Definition ex22_loads : list (list R) := [[0; cathetus; - cathetus]].
(* postprocesor.py:463 *)
Definition ex18_exact : list R := [1 / 2; sqrt 3 / 4; 1 / 4].
(* postprocesor.py:490-493 *)
Definition ex19_exact : list R := [1 / (sqrt 2 + 2); sqrt 2 / (sqrt 2 + 1); 1 / (sqrt 2 + 2)].
(* postprocesor.py:526-531; 2**(3/2) is written 2 * sqrt 2 *)
Definition ex22_exact : list R := [1 / (3 * sqrt 2); 5 / 12; 1 / (2 * sqrt 2); 1 / 12; - (1 / (3 * sqrt 2))].
