(** * Vocabulary for the beam example: partial derivatives, tables given separately *)
From Coq Require Import Reals List Arith ZArith.
From Verif Require Import Num Spec SpecModel.
Import ListNotations.
Local Open Scope R_scope.

(** partial derivatives of a function of the plane at a point *)
Definition dx (f : R -> R -> R) (x y a : R) : Prop := derivable_pt_lim (fun t => f t y) x a.
Definition dy (f : R -> R -> R) (x y a : R) : Prop := derivable_pt_lim (fun t => f x t) y a.

(** the field (u, v) has the strain (exx, eyy, gxy) at a point *)
Definition strain_of (u v : R -> R -> R) (x y exx eyy gxy : R) : Prop :=
  dx u x y exx /\ dy v x y eyy /\ exists uy vx, dy u x y uy /\ dx v x y vx /\ gxy = uy + vx.

(** the stress (sx, sy, t) is in equilibrium without body forces at a point *)
Definition stress_balanced (sx sy t : R -> R -> R) (x y : R) : Prop :=
  exists sxx ty tx syy, dx sx x y sxx /\ dy t x y ty /\ dx t x y tx /\ dy sy x y syy /\ sxx + ty = 0 /\ tx + syy = 0.

(** a five-column node table (number, x, y, two flags) given as the two tables of this version *)
Definition split_model (E nu : R) (nodes : list (list R)) (els : list (list Z)) (loads : list (list R)) : model :=
  mkModel (map (firstn 3) nodes) (map (skipn 3) nodes) els [[E; nu]] loads.
