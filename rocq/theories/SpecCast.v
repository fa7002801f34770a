(** * Vocabulary: the same problem under other loads *)
From Coq Require Import Reals List.
From Verif Require Import Num LinAlg Spec SpecScript.
Definition p_loaded (p : problem) (loads : list (list R)) : problem :=
  mkProblem (p_dofs p) (p_max p) (p_ndof p) (p_uel p) (p_nodes p) (p_cons p) (p_elements p) (p_mats p) loads.
