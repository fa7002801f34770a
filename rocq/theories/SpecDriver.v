(** * Vocabulary for the runs of the driver with strain recovery and plots *)
From Coq Require Import Reals List ZArith.
From Verif Require Import Num Spec SpecModel SpecPost.
Import ListNotations.
Local Open Scope R_scope.

(** the mesh has one plane type, materials have two columns, every node is in an element *)
Definition recoverable (md : model) : Prop :=
  (exists t n, In (t, n) [(1%Z, 4%nat); (2%Z, 6%nat); (3%Z, 3%nat)] /\ mesh_of t n (length (md_nodes md)) (md_elements md)) /\
  md_elements md <> [] /\
  Forall (fun row => (2 < length row)%nat) (md_nodes md) /\
  Forall (fun row => length row = 2%nat) (md_mats md) /\
  forall i, (i < length (md_nodes md))%nat -> exists e, In e (md_elements md) /\ touches e i.

(** some spring, truss or beam (nothing is drawn), or plane elements only *)
Definition plottable (md : model) : Prop :=
  (exists e, In e (md_elements md) /\ In (nth 1 e 0%Z) [5%Z; 6%Z; 7%Z]) \/
  (md_elements md <> [] /\ Forall (fun row => (2 < length row)%nat) (md_nodes md) /\
   Forall (fun e => (1 <= nth 1 e 0 <= 4)%Z /\ length e = (3 + nodes_of_type (nth 1 e 0%Z))%nat) (md_elements md)).
