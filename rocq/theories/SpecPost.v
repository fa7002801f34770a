(** * Vocabulary for the post-processing properties *)
From Coq Require Import Reals List ZArith Bool.
From Verif Require Import Num Fem Spec SpecElem SpecModel.
Import ListNotations.
Local Open Scope R_scope.

(** coordinates of the nodes of an element row, nodal values of a table of displacements *)
Definition e_coords (nodes : list (list R)) (e : list Z) : list (list R) :=
  map (fun z => [ent nodes (Z.to_nat z) 1; ent nodes (Z.to_nat z) 2]) (skipn 3 e).
Definition e_field (sol : list (list R)) (e : list Z) : nat -> R :=
  field2 (fun k => ent sol (e_node e k) 0) (fun k => ent sol (e_node e k) 1).

(** [eps] is the strain (xx, yy, engineering xy) of the nodal field [u] at the point [p] of the
    reference element *)
Definition strain_at (sh : R -> R -> list R * list (list R)) (coord : list (list R)) (u : nat -> R)
           (p : list R) (eps : nat -> R) : Prop :=
  exists H B det, elast_diff_2d (nth 0 p 0) (nth 1 p 0) coord sh = Ok (H, B, det) /\
    forall c, (c < 3)%nat -> eps c = act (2 * length coord) B u c.

(** plane stress of a strain *)
Definition hooke2 (E nu : R) (eps : nat -> R) (c : nat) : R :=
  match c with
  | 0%nat => E / (1 - nu * nu) * (eps 0%nat + nu * eps 1%nat)
  | 1%nat => E / (1 - nu * nu) * (nu * eps 0%nat + eps 1%nat)
  | _ => E / (2 * (1 + nu)) * eps 2%nat
  end.

(** sum of [g e k] over the occurrences (node [k] of element [e]) of node [i] in the element
    rows, and the number of occurrences *)
Definition gathered (elements : list (list Z)) (i : nat) (g : list Z -> nat -> R) : R :=
  lsum (fun e => rsum (e_n e) (fun k => if (e_node e k =? i)%nat then g e k else 0)) elements.
Definition occurs (elements : list (list Z)) (i : nat) : R := gathered elements i (fun _ _ => 1).
Definition touches (e : list Z) (i : nat) : Prop := exists k, (k < e_n e)%nat /\ e_node e k = i.

(** material of an element row *)
Definition e_young (mats : list (list R)) (e : list Z) : R := ent mats (Z.to_nat (nth 2 e 0%Z)) 0.
Definition e_nu (mats : list (list R)) (e : list Z) : R := ent mats (Z.to_nat (nth 2 e 0%Z)) 1.

(** rows of a mesh of [N] nodes and elements of [n] nodes of type [t] *)
Definition mesh_of (t : Z) (n N : nat) (elements : list (list Z)) : Prop :=
  Forall (fun e => length e = (3 + n)%nat /\ nth 1 e 0%Z = t /\ (0 <= nth 2 e 0)%Z /\
                   Forall (fun z => (0 <= z < Z.of_nat N)%Z) (skipn 3 e)) elements.

(** nodal values of the field (a0 + a1 x + a2 y, b0 + b1 x + b2 y) *)
Definition affine_sol (nodes sol : list (list R)) (a0 a1 a2 b0 b1 b2 : R) : Prop :=
  forall i, (i < length nodes)%nat ->
    ent sol i 0 = a0 + a1 * ent nodes i 1 + a2 * ent nodes i 2 /\
    ent sol i 1 = b0 + b1 * ent nodes i 1 + b2 * ent nodes i 2.

(** number of elements having node [i] as their first node *)
Definition firsts (elements : list (list Z)) (i : nat) : R :=
  lsum (fun e => if (e_node e 0 =? i)%nat then 1 else 0) elements.

(** ** trusses *)
(** end nodes of a bar row, its stress: Young's modulus times elongation over length *)
Definition bar_disp (disp : list (list R)) (e : list Z) (j : nat) : R :=
  ent disp (e_node e (j / 2)) (j mod 2).
Definition bar_stress (nodes mats disp : list (list R)) (e : list Z) : R :=
  let a := e_node e 0 in let b := e_node e 1 in
  let xa := ent nodes a 1 in let ya := ent nodes a 2 in let xb := ent nodes b 1 in let yb := ent nodes b 2 in
  e_young mats e * bar_elong xa ya xb yb (bar_disp disp e) / bar_len xa ya xb yb.
(** bars whose tables are complete: ends at different points, non-zero area *)
Definition bar_row (nodes mats disp : list (list R)) (e : list Z) : Prop :=
  (5 <= length e)%nat /\
  (forall k, (k < 2)%nat -> (0 <= nth (3 + k) e 0)%Z /\ (e_node e k < length nodes)%nat /\ (e_node e k < length disp)%nat /\
     (2 < length (nth (e_node e k) nodes []))%nat /\ length (nth (e_node e k) disp []) = 2%nat) /\
  (0 <= nth 2 e 0)%Z /\ (Z.to_nat (nth 2 e 0%Z) < length mats)%nat /\
  (1 < length (nth (Z.to_nat (nth 2 e 0%Z)) mats []))%nat /\ ent mats (Z.to_nat (nth 2 e 0%Z)) 1 <> 0 /\
  (ent nodes (e_node e 0) 1 <> ent nodes (e_node e 1) 1 \/ ent nodes (e_node e 0) 2 <> ent nodes (e_node e 1) 2).
Definition swap_bar (e : list Z) : list Z :=
  [nth 0 e 0; nth 1 e 0; nth 2 e 0; nth 4 e 0; nth 3 e 0]%Z.

(** ** symmetric 2x2 tensors with entries a, d and off-diagonal b *)
Definition tmul (a b d : R) (v : list R) : R * R :=
  (a * nth 0 v 0 + b * nth 1 v 0, b * nth 0 v 0 + d * nth 1 v 0).
Definition dot2 (v w : list R) : R := nth 0 v 0 * nth 0 w 0 + nth 1 v 0 * nth 1 w 0.
Definition largest (a b d : R) : R := Rmax (Rmax (Rabs a) (Rabs b)) (Rabs d).

(** principal values multiplied by [k], same directions *)
Definition scale_res (k : R) (r : R * R * option (list R) * option (list R)) : R * R * option (list R) * option (list R) :=
  let '(l1, l2, v1, v2) := r in (k * l1, k * l2, v1, v2).

(** ** triangulations *)
Definition tri_area (X Y : Z -> R) (t : list Z) : R :=
  let i := nth 0 t 0%Z in let j := nth 1 t 0%Z in let k := nth 2 t 0%Z in
  ((X j - X i) * (Y k - Y i) - (X k - X i) * (Y j - Y i)) / 2.
(** shoelace formula *)
Definition polygon (X Y : Z -> R) (l : list Z) : R :=
  lsum (fun ij => (X (fst ij) * Y (snd ij) - X (snd ij) * Y (fst ij)) / 2) (combine l (tl l ++ firstn 1 l)).
(** local numbers of the nodes met when walking along the boundary of an element *)
Definition boundary (t : Z) : list nat :=
  match t with
  | 1%Z => [0; 1; 2; 3]%nat
  | 2%Z => [0; 3; 1; 4; 2; 5]%nat
  | 3%Z => [0; 1; 2]%nat
  | 4%Z => [0; 4; 1; 5; 2; 6; 3; 7]%nat
  | _ => []
  end.
Definition e_boundary (e : list Z) : list Z := map (fun k => nth (3 + k) e 0%Z) (boundary (nth 1 e 0%Z)).
Definition e_area (X Y : Z -> R) (e : list Z) : R := polygon X Y (e_boundary e).
(** reference positions of the nodes *)
Definition reference (t : Z) : list (R * R) :=
  match t with
  | 1%Z => [(-1, -1); (1, -1); (1, 1); (-1, 1)]
  | 2%Z => [(0, 0); (1, 0); (0, 1); (1/2, 0); (1/2, 1/2); (0, 1/2)]
  | 3%Z => [(0, 0); (1, 0); (0, 1)]
  | _ => [(-1, -1); (1, -1); (1, 1); (-1, 1); (0, -1); (1, 0); (0, 1); (-1, 0); (0, 0)]
  end.
Definition nodes_of_type (t : Z) : nat := match t with 1%Z => 4 | 2%Z => 6 | 3%Z => 3 | _ => 9 end.
