(** * Vocabulary for the plot of a truss *)
From Coq Require Import Reals List ZArith.
From Verif Require Import Num LinAlg Spec SpecModel.
Import ListNotations.
Local Open Scope R_scope.

(** largest absolute value of a list *)
Definition peak (s : list R) (m : R) : Prop :=
  (forall x, In x s -> Rabs x <= m) /\ exists x, In x s /\ Rabs x = m.
(** least and largest entries *)
Definition least (s : list R) (m : R) : Prop := (forall x, In x s -> m <= x) /\ In m s.
Definition greatest (s : list R) (m : R) : Prop := (forall x, In x s -> x <= m) /\ In m s.
(** the row of a bar: [id; type; material; first node; last node], all in range *)
Definition drawable (nodes mats : list (list R)) (e : list Z) : Prop :=
  length e = 5%nat /\ (forall k, (k < 2)%nat -> (0 <= nth (3 + k) e 0 < Z.of_nat (length nodes))%Z) /\
  (0 <= nth 2 e 0 < Z.of_nat (length mats))%Z.
(** areas of the materials *)
Definition areas (mats : list (list R)) : list R := map (fun row => nth 1 row 0) mats.
