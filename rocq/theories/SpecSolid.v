(** * Vocabulary for meshes of tetrahedra and bricks, three dofs (x, y, z) per node *)
From Coq Require Import Reals List ZArith Bool Relations Permutation.
From Verif Require Import Num LinAlg Fem Uel Assem Main Script Spec SpecAssem SpecModel SpecElem SpecModes SpecScript.
Import ListNotations.
Local Open Scope R_scope.

(** coordinates of the nodes of an element *)
Definition p_coords (p : problem) (e : list Z) : list (list R) := map (fun z => tl (nth (Z.to_nat z) (p_nodes p) [])) (skipn 3 e).
(** the user's routine is the one of the tetrahedron or of the brick; E > 0, -1 < nu < 1/2; the routine
    accepts the shape; bricks have volume everywhere *)
Definition solid_elem (p : problem) (e : list Z) : Prop :=
  good_row 3 (p_max p) (p_ndof p) (p_cons p) e /\
  exists im f E nu rho k m, nth_error e 2 = Some im /\ np_get (p_mats p) im = Ok [E; nu; rho] /\ 0 < E /\ -1 < nu < 1 / 2 /\
    p_uel p = Some f /\ f (p_coords p e) [E; nu; rho] = Ok (k, m) /\
    (e_n e = 4%nat /\ f (p_coords p e) [E; nu; rho] = elast_tet4 (p_coords p e) [E; nu; rho] \/
     e_n e = 8%nat /\ f (p_coords p e) [E; nu; rho] = elast_hex8 (p_coords p e) [E; nu; rho] /\ regular_brick (p_coords p e)).
Definition solid_mesh (p : problem) : Prop :=
  p_dofs p = 3%nat /\ Forall (fun row => length row = 4%nat) (p_nodes p) /\ flags01 3 (p_cons p) /\ length (p_cons p) = length (p_nodes p) /\
  Forall (solid_elem p) (p_elements p) /\
  Forall (fun row => (3 < length row)%nat /\ exists n, (n < length (p_nodes p))%nat /\ nth 0 row 0 = INR n) (p_loads p).
(** displacement of node [i] in a rigid motion: t + w x position *)
Definition solid_motion (nodes : list (list R)) (t w : nat -> R) (i d : nat) : R := t d + rsum 3 (fun c => skew3 w d c * ent nodes i (S c)).
(** double area of the triangle of three nodes, by components *)
Definition area3 (nodes : list (list R)) (a b c : nat) (d : nat) : R :=
  let u := fun d => ent nodes b (S d) - ent nodes a (S d) in let v := fun d => ent nodes c (S d) - ent nodes a (S d) in
  match d with
  | 0%nat => u 1%nat * v 2%nat - u 2%nat * v 1%nat
  | 1%nat => u 2%nat * v 0%nat - u 0%nat * v 2%nat
  | _ => u 0%nat * v 1%nat - u 1%nat * v 0%nat
  end.
Definition not_collinear (nodes : list (list R)) (a b c : nat) : Prop := exists d, (d < 3)%nat /\ area3 nodes a b c d <> 0.
Definition has_node (e : list Z) (a : nat) : Prop := exists k, (k < e_n e)%nat /\ e_node e k = a.
(** the two elements share three nodes that are not collinear *)
Definition linked3 (p : problem) (e e' : list Z) : Prop :=
  exists a b c, has_node e a /\ has_node e b /\ has_node e c /\ has_node e' a /\ has_node e' b /\ has_node e' c /\ not_collinear (p_nodes p) a b c.
(** any two elements are joined by a chain of linked elements; every node is in an element *)
Definition connected3 (p : problem) : Prop :=
  (forall e e', In e (p_elements p) -> In e' (p_elements p) -> clos_refl_trans _ (fun x y => In y (p_elements p) /\ linked3 p x y) e e') /\
  (forall i, (i < length (p_nodes p))%nat -> exists e, In e (p_elements p) /\ has_node e i).
(** the supports block every rigid motion *)
Definition supported3 (p : problem) : Prop :=
  forall t w, (forall i d, p_dof p i d -> ent (p_cons p) i d = -1 -> solid_motion (p_nodes p) t w i d = 0) -> forall d, (d < 3)%nat -> t d = 0 /\ w d = 0.

(** ** uniform stress in meshes of tetrahedra *)
(** isotropic stress of the displacement gradient A *)
Definition stress3 (E nu : R) (A : nat -> nat -> R) (d c : nat) : R :=
  (if (d =? c)%nat then lam E nu * (A 0%nat 0%nat + A 1%nat 1%nat + A 2%nat 2%nat) else 0) + mu E nu * (A d c + A c d).
(** a third of the force of a uniform stress on the triangle (i, j, l) *)
Definition face_force (nodes : list (list R)) (s : nat -> nat -> R) (i j l d : nat) : R := rsum 3 (fun c => s d c * area3 nodes i j l c) / 6.
(** the triangles of a tetrahedron that meet at its corner [k], seen from outside counterclockwise, without [k] *)
Definition faces4 (k : nat) : list (nat * nat) :=
  nth k [[(2, 1); (1, 3); (3, 2)]; [(0, 2); (3, 0); (2, 3)]; [(1, 0); (0, 3); (3, 1)]; [(0, 1); (2, 0); (1, 2)]]%nat [].
Definition faces_at (elements : list (list Z)) (i : nat) : list (nat * nat) :=
  flat_map (fun e => flat_map (fun k => map (fun ab => (e_node e (fst ab), e_node e (snd ab))) (faces4 k))
                              (filter (fun k => e_node e k =? i)%nat (seq 0 4))) elements.
Definition faces_force (nodes : list (list R)) (elements : list (list Z)) (s : nat -> nat -> R) (i d : nat) : R :=
  lsum (fun jl => face_force nodes s i (fst jl) (snd jl) d) (faces_at elements i).
(** every triangle at node [i] is seen from both sides: the tetrahedra close up around the node *)
Definition surrounded3 (elements : list (list Z)) (i : nat) : Prop :=
  Permutation (faces_at elements i) (map (fun jl => (snd jl, fst jl)) (faces_at elements i)).
(** nodal values of the field t + A x *)
Definition affine_at (nodes : list (list R)) (t : nat -> R) (A : nat -> nat -> R) (i d : nat) : R := t d + rsum 3 (fun c => A d c * ent nodes i (S c)).
(** tetrahedra of one material *)
Definition tets (p : problem) (E nu : R) : Prop :=
  solid_mesh p /\ Forall (fun e => e_n e = 4%nat /\ exists im rho, nth_error e 2 = Some im /\ np_get (p_mats p) im = Ok [E; nu; rho]) (p_elements p).
