(** * Vocabulary: fields along a bar or a beam, as functions of the distance to its first end *)
From Coq Require Import Reals List.
From Verif Require Import Spec SpecElem SpecQuad.
Import ListNotations.
Local Open Scope R_scope.

Definition affine (f : R -> R) : Prop := exists a b, forall s, f s = a + b * s.
Definition cubic (f : R -> R) : Prop := exists a b c d, forall s, f s = a + b * s + c * s ^ 2 + d * s ^ 3.
(** [g] is the derivative of [f] *)
Definition slope (f g : R -> R) : Prop := forall s, derivable_pt_lim f s (g s).

(** nodal values of the displacements (X, Y) of a bar of length [L] *)
Definition bar_ends (L : R) (X Y : R -> R) : nat -> R := fun k => nth k [X 0; Y 0; X L; Y L] 0.
(** nodal values of a beam of length [L] with direction (cx, cy): displacement [a] along, [w] across, rotation [w'] *)
Definition beam_ends (cx cy L : R) (a w w' : R -> R) : nat -> R := fun k =>
  nth k [cx * a 0 - cy * w 0; cy * a 0 + cx * w 0; w' 0; cx * a L - cy * w L; cy * a L + cx * w L; w' L] 0.

(** the integral of [f] over the length is [I], and nothing else *)
Definition along (L : R) (f : R -> R) (I : R) : Prop := integral f 0 L I /\ forall J, integral f 0 L J -> J = I.
