(** * Vocabulary for the plate of the first tutorial *)
From Coq Require Import String Reals List ZArith.
From Coq Require Import QArith Qreals.
From Verif Require Import Num TextIO Main Spec SpecModel Square.
Import ListNotations.
Local Open Scope R_scope.

(** plate of width [2 a] and height [2 b] cut into four equal quadrilaterals: the bottom side on rollers, its
    middle node fixed, the top side pulled by [P], [2 P] and [P].  The tutorial has a = b = 1, E = 1, nu = 0.3, P = 1 *)
Definition plate (a b E nu P : R) : model :=
  mkModel [[0; 0; 0]; [1; 2 * a; 0]; [2; 2 * a; 2 * b]; [3; 0; 2 * b]; [4; a; 0]; [5; 2 * a; b]; [6; a; 2 * b]; [7; 0; b]; [8; a; b]]
          [[0; -1]; [0; -1]; [0; 0]; [0; 0]; [-1; -1]; [0; 0]; [0; 0]; [0; 0]; [0; 0]]
          [[0; 1; 0; 0; 4; 8; 7]; [1; 1; 0; 4; 1; 5; 8]; [2; 1; 0; 7; 8; 6; 3]; [3; 1; 0; 8; 5; 2; 6]]%Z
          [[E; nu]] [[3; 0; P]; [6; 0; 2 * P]; [2; 0; P]].

(** the four files of the example are found at [path "nodes.txt"], ... *)
Definition square_files (fs : fsys) (path : string -> string) : Prop :=
  fs (path "nodes.txt"%string) = Some square_nodes /\ fs (path "mater.txt"%string) = Some square_mater /\
  fs (path "eles.txt"%string) = Some square_eles /\ fs (path "loads.txt"%string) = Some square_loads.

(** values of a table at the dofs that are not restrained, node by node *)
Definition free_values (cons disp : list (list R)) : list R :=
  concat (map (fun p => map snd (filter (fun q => if Req_EM_T (fst q) 0 then true else false) (combine (fst p) (snd p)))) (combine cons disp)).

(** length of the displacement of node [i] *)
Definition magnitude (disp : list (list R)) (i : nat) : R := sqrt (ent disp i 0 ^ 2 + ent disp i 1 ^ 2).
(** a number shown with three decimals *)
Definition shown_as (x y : R) : Prop := Rabs (x - y) <= 5 / 10000.

(** what the tutorial shows of a run, in numbers: 9 nodes, 4 elements, 14 equations, no complaint; the printed
    array is the displacements at the free dofs *)
Definition tutorial_run (strains : bool) (out : outcome R) : Prop :=
  out_nnodes out = 9%nat /\ out_nels out = 4%nat /\ out_neq out = 14%Z /\ out_warn out = false /\
  out_disp out = [[6/10; 0]; [-6/10; 0]; [-6/10; 4]; [6/10; 4]; [0; 0]; [-6/10; 2]; [0; 4]; [6/10; 2]; [0; 2]] /\
  free_values (md_cons (plate 1 1 1 (3/10) 1)) (out_disp out) = map Q2R tutorial_UC /\
  (strains = true -> out_strains out = Some (repeat [-6/10; 2; 0] 9, repeat [0; 2; 0] 9)).
