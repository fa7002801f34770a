(** * Vocabulary for refined meshes *)
From Coq Require Import Reals List ZArith.
From Verif Require Import Num LinAlg Uel Assem Main Script Spec SpecAssem SpecModel SpecElem SpecStatic SpecScript SpecSolid.
Import ListNotations.
Local Open Scope R_scope.

(** the motion [U] of the mesh [p] seen at the nodes of a finer mesh: node [i] moves with the weights [W i] *)
Definition follow (p : problem) (W : nat -> nat -> R) (U : nat -> nat -> R) (i d : nat) : R :=
  rsum (length (p_nodes p)) (fun j => W i j * U j d).
(** [q] can make every motion of [p], at the same energy; its loads do the same work on them *)
Record finer (p q : problem) (W : nat -> nat -> R) : Prop := {
  fn_dofs : p_dofs q = p_dofs p;
  fn_cons : forall i d j, p_dof q i d -> ent (p_cons q) i d = -1 -> (j < length (p_nodes p))%nat -> W i j <> 0 -> ent (p_cons p) j d = -1;
  fn_loads : forall j d, p_dof p j d -> ent (p_cons p) j d = 0 ->
    applied (p_loads p) j d = rsum (length (p_nodes q)) (fun i => W i j * applied (p_loads q) i d);
  fn_energy : forall U V, p_energy q (follow p W U) (follow p W V) = p_energy p U V
}.
(** every node of [p] is one of the nodes of [q] *)
Definition kept (p q : problem) (W : nat -> nat -> R) : Prop :=
  forall j, (j < length (p_nodes p))%nat -> exists i, (i < length (p_nodes q))%nat /\ forall j', (j' < length (p_nodes p))%nat -> W i j' = if (j' =? j)%nat then 1 else 0.

(** ** triangles and tetrahedra cut into smaller ones *)
(** node [i] of [q] is in the element [e'] of [p]: weights of the nodes of [e'] that add up to 1 and give its place *)
Definition placed (dim : nat) (p q : problem) (W : nat -> nat -> R) (i : nat) (e' : list Z) : Prop :=
  let n := length (p_nodes p) in
  rsum n (W i) = 1 /\ (forall c, (c < dim)%nat -> rsum n (fun j => W i j * ent (p_nodes p) j (S c)) = ent (p_nodes q) i (S c)) /\
  forall j, (j < n)%nat -> W i j <> 0 -> has_node e' j.
(** a three-node triangle with moduli E, nu *)
Definition triangle (p : problem) (e : list Z) (E nu : R) : Prop :=
  p_uel p = None /\ exists id im a b c rest, e = [id; 3; im; a; b; c]%Z /\ np_get (p_mats p) im = Ok (E :: nu :: rest).
Definition triangle_area (nodes : list (list R)) (e : list Z) : R :=
  let x k c := ent nodes (e_node e k) c in
  ((x 1%nat 1%nat - x 0%nat 1%nat) * (x 2%nat 2%nat - x 0%nat 2%nat) - (x 2%nat 1%nat - x 0%nat 1%nat) * (x 1%nat 2%nat - x 0%nat 2%nat)) / 2.
(** a four-node tetrahedron with moduli E, nu; the user's routine is the one of the tetrahedron *)
Definition tetrahedron (p : problem) (e : list Z) (E nu : R) : Prop :=
  exists id ty im a b c d rho f, e = [id; ty; im; a; b; c; d]%Z /\ np_get (p_mats p) im = Ok [E; nu; rho] /\
    p_uel p = Some f /\ f (p_coords p e) [E; nu; rho] = elast_tet4 (p_coords p e) [E; nu; rho].
Definition tetrahedron_volume (nodes : list (list R)) (e : list Z) : R :=
  J3det (fun a c => ent nodes (e_node e (S a)) (S c) - ent nodes (e_node e 0) (S c)) / 6.
(** every element of [q] is a piece of its parent, with the same material; the pieces fill the parent *)
Definition nested (dim : nat) (elem : problem -> list Z -> R -> R -> Prop) (size : list (list R) -> list Z -> R)
           (p q : problem) (W : nat -> nat -> R) (parent : nat -> nat) : Prop :=
  p_dofs p = dim /\ p_dofs q = dim /\
  Forall (fun row => length row = S dim) (p_nodes p) /\ Forall (fun row => length row = S dim) (p_nodes q) /\
  Forall (fun e => exists E nu, elem p e E nu) (p_elements p) /\
  (forall k, (k < length (p_elements q))%nat -> let e := nth k (p_elements q) [] in let e' := nth (parent k) (p_elements p) [] in
     (parent k < length (p_elements p))%nat /\ (exists E nu, elem q e E nu /\ elem p e' E nu) /\
     forall m, (m < S dim)%nat -> placed dim p q W (e_node e m) e') /\
  forall n, (n < length (p_elements p))%nat ->
    rsum (length (p_elements q)) (fun k => if (parent k =? n)%nat then size (p_nodes q) (nth k (p_elements q) []) else 0) = size (p_nodes p) (nth n (p_elements p) []).
