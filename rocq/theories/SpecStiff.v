(** * Vocabulary for comparing two structures *)
From Coq Require Import Reals List ZArith.
From Verif Require Import Num LinAlg Uel Assem Main Script Spec SpecAssem SpecModel SpecElem SpecStatic SpecScript.
Import ListNotations.
Local Open Scope R_scope.

(** [q] holds every dof that [p] holds and needs at least the energy of [p] for every motion it allows *)
Record stiffer (p q : problem) : Prop := {
  st_dofs : p_dofs q = p_dofs p;
  st_nodes : length (p_nodes q) = length (p_nodes p);
  st_cons : forall i d, p_dof p i d -> ent (p_cons p) i d = -1 -> ent (p_cons q) i d = -1;
  st_energy : forall U, p_admissible q U -> p_energy p U U <= p_energy q U U
}.
(** work of the loads of [p] on a displacement table *)
Definition p_load_work (p : problem) (U : nat -> nat -> R) : R :=
  rsum (length (p_nodes p)) (fun i => rsum (p_dofs p) (fun d => applied (p_loads p) i d * U i d)).
(** how many of the first [n] numbers are below [t] *)
Definition below (lam : nat -> R) (n : nat) (t : R) : nat :=
  length (filter (fun k => if Rlt_dec (lam k) t then true else false) (seq 0 n)).

(** the first parameter multiplies the stiffness and leaves the mass alone *)
Definition proportional (f : uel_fun R) : Prop :=
  forall coord E rest K M c, f coord (E :: rest) = Ok (K, M2 M) -> f coord (c * E :: rest) = Ok (map (map (Rmult c)) K, M2 M).
(** material rows with the first parameter multiplied by numbers not below one *)
Definition harder (row row' : list R) : Prop :=
  row' = row \/ exists c E rest, 1 <= c /\ row = E :: rest /\ row' = c * E :: rest.
(** [p] with other supports, harder materials and additional elements *)
Definition reinforced (p : problem) (cons : list (list R)) (mats : list (list R)) (extra : list (list Z)) : problem :=
  mkProblem (p_dofs p) (p_max p) (p_ndof p) (p_uel p) (p_nodes p) cons (p_elements p ++ extra) mats (p_loads p).
