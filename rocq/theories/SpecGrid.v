(** * Vocabulary for models on rectangular grids *)
From Coq Require Import Reals List Arith ZArith.
From Verif Require Import Num Pre Spec SpecModel.
Import ListNotations.
Local Open Scope R_scope.

(** node in column [i], row [j] *)
Definition node (nx i j : nat) : nat := (j * (nx + 1) + i)%nat.
(** node table (number, x, y) of two coordinate lists *)
Definition grid_table (x y : list R) : list (list R) := map (fun k => [INR k; nth k x 0; nth k y 0]) (seq 0 (length x)).

(** the model on the grid of an L x H rectangle with nx x ny cells of one material: E > 0,
    -1 < nu < 1, cells above the tolerance of the Jacobian test *)
Definition grid_model (L H : R) (nx ny : nat) (E nu : R) (md : model) : Prop :=
  (1 <= nx)%nat /\ (1 <= ny)%nat /\ 0 < L /\ 0 < H /\ 1 / 100000000 < L * H / (4 * INR nx * INR ny) /\ 0 < E /\ -1 < nu < 1 /\
  md_mats md = [[E; nu]] /\
  exists x y, rect_grid L H nx ny = (x, y, md_elements md) /\ md_nodes md = grid_table x y.

(** on n intervals: 1 at the last point, -1 at the first, 0 between *)
Definition outward (n i : nat) : R := (if (1 <=? i)%nat then 1 else 0) - (if (i <? n)%nat then 1 else 0).
(** 1/2 at the two end points, 1 between *)
Definition tributary (n i : nat) : R := ((if (1 <=? i)%nat then 1 else 0) + (if (i <? n)%nat then 1 else 0)) / 2.
(** force at node (i, j) of the uniform stress [s] (xx, yy, xy) acting on the boundary of the rectangle *)
Definition grid_load (L H : R) (nx ny : nat) (s : nat -> R) (i j d : nat) : R :=
  let onx := H / INR ny * outward nx i * tributary ny j in
  let ony := L / INR nx * outward ny j * tributary nx i in
  if (d =? 0)%nat then s 0%nat * onx + s 2%nat * ony else s 2%nat * onx + s 1%nat * ony.
