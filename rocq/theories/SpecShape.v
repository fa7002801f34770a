(** * Vocabulary for shape functions: reference elements and their polynomials *)
From Coq Require Import Reals List.
From Verif Require Import Spec.
Import ListNotations.
Local Open Scope R_scope.

Definition total (l : list R) : R := lsum (fun x => x) l.

(** nodes of the reference elements, in connectivity order: corners counterclockwise,
    then the middles of the sides in the same order, then the centre *)
Definition ref_tri3 : list (R * R) := [(0, 0); (1, 0); (0, 1)].
Definition ref_tri6 : list (R * R) := ref_tri3 ++ [(1/2, 0); (1/2, 1/2); (0, 1/2)].
Definition ref_quad4 : list (R * R) := [(-1, -1); (1, -1); (1, 1); (-1, 1)].
Definition ref_quad8 : list (R * R) := ref_quad4 ++ [(0, -1); (1, 0); (0, 1); (-1, 0)].
Definition ref_quad9 : list (R * R) := ref_quad8 ++ [(0, 0)].
Definition ref_tet4 : list (R * R * R) := [(0, 0, 0); (1, 0, 0); (0, 1, 0); (0, 0, 1)].
Definition ref_hex8 : list (R * R * R) :=
  [(-1, -1, -1); (1, -1, -1); (1, 1, -1); (-1, 1, -1);
   (-1, -1, 1); (1, -1, 1); (1, 1, 1); (-1, 1, 1)].

(** value at (r, s) of the interpolant of the nodal values of [p] *)
Definition interp2 (N : list R) (nodes : list (R * R)) (p : R -> R -> R) : R :=
  lsum (fun nx => fst nx * p (fst (snd nx)) (snd (snd nx))) (combine N nodes).
Definition interp3 (N : list R) (nodes : list (R * R * R)) (p : R -> R -> R -> R) : R :=
  lsum (fun nx => let '(n, (x, y, z)) := nx in n * p x y z) (combine N nodes).

(** polynomial spaces: all combinations of the listed monomials r^i s^j (t^k) *)
Definition monos2 (es : list (nat * nat)) (c : nat -> R) (r s : R) : R :=
  lsum (fun ke => c (fst ke) * (r ^ fst (snd ke) * s ^ snd (snd ke)))
       (combine (seq 0 (length es)) es).
Definition monos3 (es : list (nat * nat * nat)) (c : nat -> R) (r s t : R) : R :=
  lsum (fun ke => let '(m, (i, j, k)) := ke in c m * (r ^ i * s ^ j * t ^ k))
       (combine (seq 0 (length es)) es).

Definition linear2 : list (nat * nat) := [(0, 0); (1, 0); (0, 1)]%nat.
Definition bilinear2 : list (nat * nat) := [(0, 0); (1, 0); (0, 1); (1, 1)]%nat.
Definition quadratic2 : list (nat * nat) := [(0, 0); (1, 0); (0, 1); (2, 0); (1, 1); (0, 2)]%nat.
(** full quadratics and the two cubics r^2 s, r s^2 *)
Definition serendipity2 : list (nat * nat) :=
  [(0, 0); (1, 0); (0, 1); (2, 0); (1, 1); (0, 2); (2, 1); (1, 2)]%nat.
Definition biquadratic2 : list (nat * nat) :=
  [(0, 0); (1, 0); (0, 1); (2, 0); (1, 1); (0, 2); (2, 1); (1, 2); (2, 2)]%nat.
Definition linear3 : list (nat * nat * nat) :=
  [(0, 0, 0); (1, 0, 0); (0, 1, 0); (0, 0, 1)]%nat.
Definition trilinear3 : list (nat * nat * nat) :=
  [(0, 0, 0); (1, 0, 0); (0, 1, 0); (0, 0, 1); (1, 1, 0); (0, 1, 1); (1, 0, 1); (1, 1, 1)]%nat.

(** shape function i is 1 at node i and 0 at the other nodes *)
Definition kronecker2 (sh : R -> R -> list R * list (list R)) (nodes : list (R * R)) : Prop :=
  forall i j, (i < length nodes)%nat -> (j < length nodes)%nat ->
    nth i (fst (sh (fst (nth j nodes (0, 0))) (snd (nth j nodes (0, 0))))) 0 =
    (if Nat.eqb i j then 1 else 0).
Definition kronecker3 (sh : R -> R -> R -> list R * list (list R)) (nodes : list (R * R * R)) : Prop :=
  forall i j, (i < length nodes)%nat -> (j < length nodes)%nat ->
    let '(x, y, z) := nth j nodes (0, 0, 0) in
    nth i (fst (sh x y z)) 0 = (if Nat.eqb i j then 1 else 0).

(** row a of the second component is the partial derivative of the first along axis a *)
Definition gradient2 (sh : R -> R -> list R * list (list R)) : Prop :=
  forall r s k, (k < length (fst (sh r s)))%nat ->
    derivable_pt_lim (fun x => nth k (fst (sh x s)) 0) r (ent (snd (sh r s)) 0 k) /\
    derivable_pt_lim (fun y => nth k (fst (sh r y)) 0) s (ent (snd (sh r s)) 1 k).
Definition gradient3 (sh : R -> R -> R -> list R * list (list R)) : Prop :=
  forall r s t k, (k < length (fst (sh r s t)))%nat ->
    derivable_pt_lim (fun x => nth k (fst (sh x s t)) 0) r (ent (snd (sh r s t)) 0 k) /\
    derivable_pt_lim (fun y => nth k (fst (sh r y t)) 0) s (ent (snd (sh r s t)) 1 k) /\
    derivable_pt_lim (fun z => nth k (fst (sh r s z)) 0) t (ent (snd (sh r s t)) 2 k).
