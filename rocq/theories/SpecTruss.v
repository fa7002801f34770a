(** * Vocabulary for the statics of trusses *)
From Coq Require Import Reals List Arith ZArith.
From Verif Require Import Num LinAlg Assem Spec SpecModel SpecElem SpecStatic.
Import ListNotations.
Local Open Scope R_scope.

(** a bar: type 6, two ends at different points, E > 0 and area > 0 *)
Definition truss_bar (md : model) (e : list Z) : Prop :=
  exists id im a b E A rest, e = [id; 6; im; a; b]%Z /\ np_get (md_mats md) im = Ok (E :: A :: rest) /\ (0 <= im)%Z /\ 0 < E /\ 0 < A /\
    (ent (md_nodes md) (Z.to_nat a) 1 <> ent (md_nodes md) (Z.to_nat b) 1 \/ ent (md_nodes md) (Z.to_nat a) 2 <> ent (md_nodes md) (Z.to_nat b) 2).
(** a plane truss: node rows (number, x, y), all elements bars *)
Definition truss_model (md : model) : Prop :=
  Forall (fun row => length row = 3%nat) (md_nodes md) /\ Forall (truss_bar md) (md_elements md).

Definition b_young (md : model) (e : list Z) : R := ent (md_mats md) (Z.to_nat (nth 2 e 0%Z)) 0.
Definition b_area (md : model) (e : list Z) : R := ent (md_mats md) (Z.to_nat (nth 2 e 0%Z)) 1.
Definition b_len (nodes : list (list R)) (e : list Z) : R :=
  bar_len (ent nodes (e_node e 0) 1) (ent nodes (e_node e 0) 2) (ent nodes (e_node e 1) 1) (ent nodes (e_node e 1) 2).
(** unit vector from the first end to the second *)
Definition b_dir (nodes : list (list R)) (e : list Z) (d : nat) : R :=
  (ent nodes (e_node e 1) (S d) - ent nodes (e_node e 0) (S d)) / b_len nodes e.
(** change of length to first order *)
Definition stretch (nodes : list (list R)) (U : nat -> nat -> R) (e : list Z) : R :=
  b_dir nodes e 0 * (U (e_node e 1) 0%nat - U (e_node e 0) 0%nat) + b_dir nodes e 1 * (U (e_node e 1) 1%nat - U (e_node e 0) 1%nat).
(** force on node [i] of a bar pulled by one *)
Definition pull (nodes : list (list R)) (e : list Z) (i d : nat) : R :=
  (if (e_node e 0 =? i)%nat then b_dir nodes e d else 0) - (if (e_node e 1 =? i)%nat then b_dir nodes e d else 0).
(** force on node [i] of bars carrying the axial forces [N] (by position in the element table) *)
Definition joint (md : model) (N : nat -> R) (i d : nat) : R :=
  rsum (length (md_elements md)) (fun m => N m * pull (md_nodes md) (nth m (md_elements md) []) i d).
(** the axial forces [N] balance the loads at every free dof *)
Definition balanced (md : model) (N : nat -> R) : Prop :=
  forall i d, free md i d -> joint md N i d + applied (md_loads md) i d = 0.
(** no axial forces without loads other than zero *)
Definition determinate (md : model) : Prop :=
  forall N, (forall i d, free md i d -> joint md N i d = 0) -> forall m, (m < length (md_elements md))%nat -> N m = 0.
(** no infinitesimal motion that keeps every length *)
Definition no_mechanism (md : model) : Prop :=
  forall U, admissible md U -> (forall e, In e (md_elements md) -> stretch (md_nodes md) U e = 0) ->
    forall i d, (i < length (md_nodes md))%nat -> (d < 2)%nat -> U i d = 0.
(** complementary energy of axial forces *)
Definition complementary (md : model) (N : nat -> R) : R :=
  rsum (length (md_elements md)) (fun m => let e := nth m (md_elements md) [] in
    N m * N m * b_len (md_nodes md) e / (2 * b_young md e * b_area md e)).
(** number of free dofs *)
Definition free_dofs (md : model) : list (nat * nat) :=
  filter (fun p => if Req_EM_T (ent (md_cons md) (fst p) (snd p)) 0 then true else false)
         (list_prod (seq 0 (length (md_nodes md))) [0; 1]%nat).

(** (p, q): a direction in which node [i] is held by a support, or by a bar to a node of [seen] *)
Definition held (md : model) (seen : list nat) (i : nat) (p q : R) : Prop :=
  (ent (md_cons md) i 0 = -1 /\ p = 1 /\ q = 0) \/ (ent (md_cons md) i 1 = -1 /\ p = 0 /\ q = 1) \/
  exists e j, In e (md_elements md) /\ In j seen /\ (e_node e 0 = i /\ e_node e 1 = j \/ e_node e 0 = j /\ e_node e 1 = i) /\
    p = ent (md_nodes md) j 1 - ent (md_nodes md) i 1 /\ q = ent (md_nodes md) j 2 - ent (md_nodes md) i 2.
(** simple trusses: joints added one by one, each held in two directions *)
Inductive simple_truss (md : model) : list nat -> Prop :=
| simple_nil : simple_truss md []
| simple_add seen i p q p' q' : simple_truss md seen -> (i < length (md_nodes md))%nat ->
    held md seen i p q -> held md seen i p' q' -> p * q' - p' * q <> 0 -> simple_truss md (i :: seen).
