(** * Vocabulary for trusses analysed with a node table that has further columns *)
From Coq Require Import Reals List Arith ZArith.
From Verif Require Import Num LinAlg Assem Main Script DocTruss Spec SpecModel SpecElem SpecStatic SpecTruss.
Import ListNotations.
Local Open Scope R_scope.

(** the table [N] is the node table of [md] followed by further columns ([c] columns in all) *)
Definition extends (md : model) (N : list (list R)) (c : nat) : Prop :=
  (3 <= c)%nat /\ Forall (fun row => length row = c) N /\ md_nodes md = map (firstn 3) N.
(** distance between the ends of a bar in the space of all [c - 1] columns after the number *)
Definition reach (N : list (list R)) (c : nat) (e : list Z) : R :=
  sqrt (rsum (c - 1) (fun k => (ent N (e_node e 1) (S k) - ent N (e_node e 0) (S k)) * (ent N (e_node e 1) (S k) - ent N (e_node e 0) (S k)))).
(** cube of true length over that distance, for the bar in position [m] *)
Definition soft (md : model) (N : list (list R)) (c m : nat) : R :=
  let e := nth m (md_elements md) [] in (b_len (md_nodes md) e / reach N c e) ^ 3.
(** the five calls with the table [N] where the assembler takes the nodes *)
Definition truss_script (sv : solvers R) (md : model) (N : list (list R)) : res (list (list R)) :=
  script sv 2 18 None None true N (md_cons md) (md_elements md) (md_mats md) (md_loads md).
(** the truss meant by the tables of the documentation: coordinates in columns 1, 2; flags in columns 3, 4 *)
Definition doc_truss (N : list (list R)) (elements : list (list Z)) (mats loads : list (list R)) : model :=
  mkModel (map (firstn 3) N) (map (skipn 3) N) elements mats loads.
Definition doc18 : model := doc_truss ex18_nodes three_bars doc_mats ex18_loads.
Definition doc19 : model := doc_truss ex19_nodes three_bars doc_mats ex19_loads.
Definition doc22 : model := doc_truss ex22_nodes five_bars doc_mats ex22_loads.
