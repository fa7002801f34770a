(** * Vocabulary for energy principles and stability of whole models *)
From Coq Require Import Reals List ZArith Bool Relations.
From Verif Require Import Num LinAlg Uel Assem Main Spec SpecAssem SpecModel SpecElem SpecPost SpecModes.
Import ListNotations.
Local Open Scope R_scope.

(** every material used by an element is admissible for its type *)
Definition materials_ok (md : model) : Prop :=
  forall e t im params, In e (md_elements md) -> nth_error e 1 = Some t -> nth_error e 2 = Some im ->
    np_get (md_mats md) im = Ok params -> material_ok t params.

(** work of a load table on a displacement table *)
Definition load_work (md : model) (loads : list (list R)) (U : nat -> nat -> R) : R :=
  rsum (length (md_nodes md)) (fun i => rsum 2 (fun d => applied loads i d * U i d)).
(** strain energy of a displacement table: half the sum of u' K u over the elements *)
Definition strain_energy (md : model) (U : nat -> nat -> R) : R :=
  1 / 2 * lsum (fun e => form (2 * e_n e) (e_stiff (md_mats md) (md_nodes md) e) (e_disp U e) (e_disp U e)) (md_elements md).
Definition potential (md : model) (U : nat -> nat -> R) : R := strain_energy md U - load_work md (md_loads md) U.
(** zero at the restrained dofs *)
Definition admissible (md : model) (U : nat -> nat -> R) : Prop :=
  forall i d, (i < length (md_nodes md))%nat -> (d < 2)%nat -> ent (md_cons md) i d = -1 -> U i d = 0.

(** ** stability of meshes of triangles (three or six nodes) and quadrilaterals (four nodes, or
    nine nodes with straight sides) *)
(** the element is accepted, with E > 0 and -1 < nu < 1 *)
Definition sound_plane (md : model) (e : list Z) : Prop :=
  (exists t, nth_error e 1 = Some t /\ (t = 1%Z /\ e_n e = 4%nat \/ t = 3%Z /\ e_n e = 3%nat \/ t = 2%Z /\ e_n e = 6%nat \/
     t = 4%Z /\ e_n e = 9%nat /\ straight9 (e_coords (md_nodes md) e))) /\
  (exists im E nu rest, nth_error e 2 = Some im /\ np_get (md_mats md) im = Ok (E :: nu :: rest) /\ 0 < E /\ -1 < nu < 1) /\
  exists k m, retriever e (md_mats md) (md_nodes md) None = Ok (k, m).
(** two elements share two nodes at different places *)
Definition linked (md : model) (e e' : list Z) : Prop :=
  exists k1 k2 k1' k2', (k1 < e_n e)%nat /\ (k2 < e_n e)%nat /\ (k1' < e_n e')%nat /\ (k2' < e_n e')%nat /\
    e_node e k1 = e_node e' k1' /\ e_node e k2 = e_node e' k2' /\
    (ent (md_nodes md) (e_node e k1) 1 <> ent (md_nodes md) (e_node e k2) 1 \/
     ent (md_nodes md) (e_node e k1) 2 <> ent (md_nodes md) (e_node e k2) 2).
(** any two elements are joined by a chain of linked elements, every node is in an element *)
Definition connected (md : model) : Prop :=
  (forall e e', In e (md_elements md) -> In e' (md_elements md) ->
     clos_refl_trans _ (fun a b => In b (md_elements md) /\ linked md a b) e e') /\
  forall i, (i < length (md_nodes md))%nat -> exists e k, In e (md_elements md) /\ (k < e_n e)%nat /\ e_node e k = i.
(** the supports block every rigid motion *)
Definition supported (md : model) : Prop :=
  forall a b w, (forall i d, (i < length (md_nodes md))%nat -> (d < 2)%nat -> ent (md_cons md) i d = -1 ->
                   node_rigid (md_nodes md) a b w i d = 0) -> a = 0 /\ b = 0 /\ w = 0.

(** ** runs *)
(** the sparse solver answers for every regular system *)
Definition solver_total (sv : solvers R) : Prop :=
  forall n A f, shape n n A -> length f = n -> regular n A -> exists x, spsolve sv A f = Ok x.
(** every element row is a known type with the right number of nodes, and its routine returns two matrices *)
Definition accepted (md : model) : Prop :=
  Forall (fun e => good_row 2 18 None (md_cons md) e /\
                   exists k m, retriever e (md_mats md) (md_nodes md) None = Ok (k, M2 m)) (md_elements md).
(** a dof of a node that is not restrained *)
Definition free (md : model) (i d : nat) : Prop :=
  (i < length (md_nodes md))%nat /\ (d < 2)%nat /\ ent (md_cons md) i d = 0.
(** force at (i, d) when (j, b) moves by one and everything else stays *)
Definition coupling (md : model) (i d j b : nat) : R :=
  internal_force (md_mats md) (md_nodes md) (md_elements md)
    (fun a c => if ((a =? j) && (c =? b))%nat then 1 else 0) i d.
Definition largest_coupling (md : model) (m : R) : Prop :=
  (forall i d j b, free md i d -> free md j b -> coupling md i d j b <= m) /\
  exists i d j b, free md i d /\ free md j b /\ coupling md i d j b = m.
