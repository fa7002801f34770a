(** * Specification: straight-sided quadrilaterals with 8 or 9 nodes *)
From Coq Require Import Reals List.
From Verif Require Import Num LinAlg Spec SpecElem.
Import ListNotations.
Local Open Scope R_scope.

(** in both coordinates, node k lies halfway between the nodes i and j *)
Definition halfway (coord : list (list R)) (i j k : nat) : Prop :=
  node_x coord k = (node_x coord i + node_x coord j) / 2 /\ node_y coord k = (node_y coord i + node_y coord j) / 2.
(** the nodes 4 to 7 are the middles of the sides 0-1, 1-2, 2-3, 3-0 *)
Definition straight8 (coord : list (list R)) : Prop :=
  halfway coord 0 1 4 /\ halfway coord 1 2 5 /\ halfway coord 2 3 6 /\ halfway coord 3 0 7.
(** and node 8 is halfway between the middles of two opposite sides *)
Definition straight9 (coord : list (list R)) : Prop := straight8 coord /\ halfway coord 4 6 8.

(** in the three coordinates, the edges from i to j and from k to l are equal and parallel *)
Definition same_edge (coord : list (list R)) (i j k l : nat) : Prop :=
  forall c, (c < 3)%nat -> ent coord j c - ent coord i c = ent coord l c - ent coord k c.
(** a brick whose opposite edges are equal and parallel: 0-1-2-3 bottom, 4-5-6-7 above it *)
Definition parallelepiped (coord : list (list R)) : Prop :=
  same_edge coord 0 1 3 2 /\ same_edge coord 0 1 4 5 /\ same_edge coord 0 1 7 6 /\ same_edge coord 0 3 4 7 /\ same_edge coord 0 3 1 2.

(** ** bricks of any shape *)
(** the corner k of the reference cube, in the order of [parallelepiped] *)
Definition corner8 (k i : nat) : R :=
  nth i (nth k [[-1; -1; -1]; [1; -1; -1]; [1; 1; -1]; [-1; 1; -1]; [-1; -1; 1]; [1; -1; 1]; [1; 1; 1]; [-1; 1; 1]] []) 0.
(** derivative along the reference direction i, at the point (r, s, t) of the cube, of the position interpolated trilinearly *)
Definition brick_edge (coord : list (list R)) (r s t : R) (i a : nat) : R :=
  rsum 8 (fun k =>
    match i with
    | 0%nat => corner8 k 0 * (1 + corner8 k 1 * s) * (1 + corner8 k 2 * t)
    | 1%nat => corner8 k 1 * (1 + corner8 k 0 * r) * (1 + corner8 k 2 * t)
    | _ => corner8 k 2 * (1 + corner8 k 0 * r) * (1 + corner8 k 1 * s)
    end * ent coord k a) / 8.
(** the volume vanishes nowhere in the brick *)
Definition regular_brick (coord : list (list R)) : Prop :=
  forall r s t, -1 <= r <= 1 -> -1 <= s <= 1 -> -1 <= t <= 1 -> J3det (brick_edge coord r s t) <> 0.
