(** * Vocabulary for the assembly properties (no reference to the assembly code) *)
From Coq Require Import Reals List ZArith Bool.
From Verif Require Import Num LinAlg Fem Uel Assem Spec.
Import ListNotations.
Local Open Scope R_scope.

(** entry of an integer table *)
Definition zent (A : list (list Z)) (i j : nat) : Z := nth j (nth i A []) (-1)%Z.

(** A constraint table: [d] flags per node, each 0 (free) or -1 (restrained). *)
Definition flags01 (d : nat) (cons : list (list R)) : Prop :=
  Forall (fun row => length row = d /\ Forall (fun c => c = 0 \/ c = -1) row) cons.

(** [bc] numbers the free entries of [cons] in reading order. *)
Definition numbering (cons : list (list R)) (bc : list (list Z)) (neq : nat) : Prop :=
  Forall2 (Forall2 (fun c b => (c = -1 -> b = (-1)%Z) /\ (c = 0 -> (0 <= b)%Z))) cons bc /\
  filter (fun b => (0 <=? b)%Z) (concat bc) = map Z.of_nat (seq 0 neq).

Definition count_free (cons : list (list R)) : nat :=
  length (filter (fun c => if Req_EM_T c 0 then true else false) (concat cons)).

(** One element as the assembler sees it: its row of the assembly operator and its
    local stiffness and mass matrices. *)
Record local := mkLocal { l_op : list Z; l_K : list (list R); l_M : list (list R) }.

Definition l_n (l : local) : nat := length (l_K l).
Definition l_eq (l : local) (r : nat) : Z := nth r (l_op l) (-1)%Z.

Definition local_ok (neq : nat) (l : local) : Prop :=
  shape (l_n l) (l_n l) (l_K l) /\ shape (l_n l) (l_n l) (l_M l) /\
  (l_n l <= length (l_op l))%nat /\
  forall r, (r < l_n l)%nat -> (-1 <= l_eq l r < Z.of_nat neq)%Z.

(** what an element adds to entry (p, q) of a global matrix *)
Definition scatter (l : local) (k : list (list R)) (p q : nat) : R :=
  rsum (l_n l) (fun r => rsum (l_n l) (fun c =>
    if (l_eq l r =? Z.of_nat p)%Z && (l_eq l c =? Z.of_nat q)%Z then ent k r c else 0)).

(** values of a global vector at the dofs of an element, zero at restrained dofs *)
Definition gather (l : local) (u : nat -> R) (r : nat) : R :=
  if (l_eq l r =? -1)%Z then 0 else u (Z.to_nat (l_eq l r)).

(** [locs] are the local data of the mesh: one entry per element row, in order *)
Definition locals_of (elements : list (list Z)) (mats nodes : list (list R))
           (assem_op : list (list Z)) (uel : option (uel_fun R)) (locs : list local) : Prop :=
  Forall2 (fun elem l => retriever elem mats nodes uel = Ok (l_K l, M2 (l_M l))) elements locs /\
  assem_op = map l_op locs.

(** assembly operator in range on the entries that are used *)
Definition op_in_range (elements : list (list Z)) (mats nodes : list (list R)) (neq : nat)
           (assem_op : list (list Z)) (uel : option (uel_fun R)) : Prop :=
  forall i elem k m arow b, nth_error elements i = Some elem ->
    nth_error assem_op i = Some arow ->
    retriever elem mats nodes uel = Ok (k, m) ->
    In b (firstn (length k) arow) -> (-1 <= b < Z.of_nat neq)%Z.

(** number of dofs declared for an element type, by the table or by the user callable *)
Definition dofs_of (ndof_el : option (Z -> res nat)) (t : Z) : res nat :=
  match ndof_el with
  | None => '(nd, _, _) <- eletype t ;; Ok nd
  | Some f => f t
  end.

(** An element row is [id; type; material; node_0; node_1; ...]. *)
Definition node_of (elem : list Z) (k : nat) : nat := Z.to_nat (nth (3 + k) elem 0%Z).

(** a row of the assembly operator: equation of (node k, direction dir) at position k*d+dir, zeros after *)
Definition row_spec (bc : list (list Z)) (d max : nat) (elem row : list Z) : Prop :=
  length row = max /\
  (forall k dir, (k < length elem - 3)%nat -> (dir < d)%nat ->
     nth (k * d + dir) row (-1)%Z = zent bc (node_of elem k) dir) /\
  (forall j, ((length elem - 3) * d <= j < max)%nat -> nth j row (-1)%Z = 0%Z).

(** element row with a declared type, the right number of nodes, nodes in range *)
Definition good_row (d max : nat) (ndof_el : option (Z -> res nat)) (cons : list (list R)) (elem : list Z) : Prop :=
  exists t, nth_error elem 1 = Some t /\
    dofs_of ndof_el t = Ok ((length elem - 3) * d)%nat /\ ((length elem - 3) * d <= max)%nat /\
    Forall (fun z => (0 <= z < Z.of_nat (length cons))%Z) (skipn 3 elem).

(** entries of the two matrices returned by the assembler, whatever their storage *)
Definition mats_of (km : gmat R * gmat R) : list (list R) * list (list R) :=
  (match fst km with Dense a | Csr a | OtherMat a => a end,
   match snd km with Dense a | Csr a | OtherMat a => a end).
