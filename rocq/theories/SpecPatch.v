(** * Vocabulary for uniform stress fields on meshes of straight-sided elements *)
From Coq Require Import Reals List Arith ZArith Permutation.
From Verif Require Import Num LinAlg Assem Spec SpecModel SpecElem SpecPost.
Import ListNotations.
Local Open Scope R_scope.

(** force of a uniform stress (xx, yy, xy) on the side from (xa, ya) to (xb, yb) of a region kept
    on the left: stress times length times outward normal *)
Definition side_force (s : nat -> R) (xa ya xb yb : R) (d : nat) : R :=
  if (d =? 0)%nat then s 0%nat * (yb - ya) - s 2%nat * (xb - xa) else s 2%nat * (yb - ya) - s 1%nat * (xb - xa).
(** the same for the side between two nodes *)
Definition side (nodes : list (list R)) (s : nat -> R) (i j d : nat) : R :=
  side_force s (ent nodes i 1) (ent nodes i 2) (ent nodes j 1) (ent nodes j 2) d.

(** walking around the elements: nodes met just after and just before node [i] *)
Definition after (elements : list (list Z)) (i : nat) : list nat :=
  flat_map (fun e => map (fun k => e_node e ((k + 1) mod e_n e)) (filter (fun k => e_node e k =? i)%nat (seq 0 (e_n e)))) elements.
Definition before (elements : list (list Z)) (i : nat) : list nat :=
  flat_map (fun e => map (fun k => e_node e ((k + e_n e - 1) mod e_n e)) (filter (fun k => e_node e k =? i)%nat (seq 0 (e_n e)))) elements.
(** half the force of the uniform stress [s] on the sides walked at node [i]; a side walked in both
    directions counts for nothing *)
Definition sides_at (nodes : list (list R)) (elements : list (list Z)) (s : nat -> R) (i d : nat) : R :=
  (lsum (fun j => side nodes s i j d) (after elements i) + lsum (fun j => side nodes s j i d) (before elements i)) / 2.
(** every side at node [i] is walked in both directions: the elements close up around the node *)
Definition surrounded (elements : list (list Z)) (i : nat) : Prop := Permutation (after elements i) (before elements i).

(** nodal values of the field (a0 + a1 x + a2 y, b0 + b1 x + b2 y), and its strain *)
Definition affine_table (nodes : list (list R)) (a0 a1 a2 b0 b1 b2 : R) (i d : nat) : R :=
  if (d =? 0)%nat then a0 + a1 * ent nodes i 1 + a2 * ent nodes i 2 else b0 + b1 * ent nodes i 1 + b2 * ent nodes i 2.
Definition affine_strain (a1 a2 b1 b2 : R) (c : nat) : R := nth c [a1; b2; a2 + b1] 0.

(** elements of one type and material whose routine returns: four-node quadrilaterals, or three-node
    triangles; [c] is the sum of the Gauss weights of the code over the area of the reference element *)
Definition patch_mesh (md : model) (E nu c : R) : Prop :=
  exists t n, In (t, n, c) [(1%Z, 4%nat, 1); (3%Z, 3%nat, 999999999999 / 1000000000000)] /\
  mesh_of t n (length (md_nodes md)) (md_elements md) /\
  Forall (fun e => (exists im rest, nth_error e 2 = Some im /\ np_get (md_mats md) im = Ok (E :: nu :: rest)) /\
                   exists k m, retriever e (md_mats md) (md_nodes md) None = Ok (k, m)) (md_elements md).

(** twice the area of the triangle of corner [k] of a polygon of [n] corners and its two neighbours,
    positive where the boundary turns left *)
Definition turn (n : nat) (coord : list (list R)) (k : nat) : R :=
  let q := ((k + 1) mod n)%nat in let o := ((k + n - 1) mod n)%nat in
  (ent coord q 0 - ent coord k 0) * (ent coord o 1 - ent coord k 1)
  - (ent coord o 0 - ent coord k 0) * (ent coord q 1 - ent coord k 1).
