(** * Vocabulary for a run that starts from the four text files *)
From Coq Require Import String Reals List ZArith.
From Verif Require Import Num TextIO Spec SpecModel SpecText.
Import ListNotations.
Local Open Scope string_scope.

(** the files at the paths [path "nodes.txt"], ... show the model: node rows (number, x, y, flag, flag) *)
Definition files_show (fs : fsys) (path : string -> string) (md : model) : Prop :=
  exists t1 t2 t3 t4 nodes,
    fs (path "nodes.txt") = Some t1 /\ fs (path "mater.txt") = Some t2 /\ fs (path "eles.txt") = Some t3 /\ fs (path "loads.txt") = Some t4 /\
    shows number_is t1 nodes /\ shows number_is t2 (md_mats md) /\ shows integer_is t3 (md_elements md) /\ shows number_is t4 (md_loads md) /\
    Forall (fun row => length row = 5%nat) nodes /\ md_nodes md = map (firstn 3) nodes /\ md_cons md = map (skipn 3) nodes.
