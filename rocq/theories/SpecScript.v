(** * Vocabulary for analyses with any number of dofs per node and user elements
      (no equation numbers, no global matrices) *)
From Coq Require Import Reals List ZArith Bool Relations.
From Verif Require Import Num LinAlg Fem Uel Assem Main Script Spec SpecAssem SpecModel SpecElem SpecModes.
Import ListNotations.
Local Open Scope R_scope.

Record problem := mkProblem {
  p_dofs : nat;                              (* dofs per node *)
  p_max : nat;                               (* columns of the assembly operator *)
  p_ndof : option (Z -> res nat);            (* dofs of a user element *)
  p_uel : option (uel_fun R);                (* user element *)
  p_nodes : list (list R);
  p_cons : list (list R);
  p_elements : list (list Z);
  p_mats : list (list R);
  p_loads : list (list R)
}.
Definition p_script (sv : solvers R) (p : problem) (sparse : bool) : res (list (list R)) :=
  script sv (p_dofs p) (p_max p) (p_ndof p) (p_uel p) sparse (p_nodes p) (p_cons p) (p_elements p) (p_mats p) (p_loads p).
Definition p_matrices (p : problem) (sparse : bool) : res (gmat R * gmat R) :=
  matrices (p_dofs p) (p_max p) (p_ndof p) (p_uel p) sparse (p_nodes p) (p_cons p) (p_elements p) (p_mats p).

(** matrices returned by the element routine for this row *)
Definition p_stiff (p : problem) (e : list Z) : list (list R) :=
  match retriever e (p_mats p) (p_nodes p) (p_uel p) with Ok (k, _) => k | Err _ => [] end.
Definition p_mass (p : problem) (e : list Z) : list (list R) :=
  match retriever e (p_mats p) (p_nodes p) (p_uel p) with Ok (_, M2 m) => m | _ => [] end.
(** value of a nodal table at local dof [j] *)
Definition p_disp (p : problem) (U : nat -> nat -> R) (e : list Z) (j : nat) : R :=
  U (e_node e (j / p_dofs p)) (j mod p_dofs p)%nat.
(** sum of the element forces on node [i] in direction [d] *)
Definition p_internal (p : problem) (U : nat -> nat -> R) (i d : nat) : R :=
  lsum (fun e => rsum (e_n e) (fun k =>
    if (e_node e k =? i)%nat then act (p_dofs p * e_n e) (p_stiff p e) (p_disp p U e) (p_dofs p * k + d) else 0)) (p_elements p).
(** twice the strain energy and the kinetic energy of a table *)
Definition p_energy (p : problem) (U V : nat -> nat -> R) : R :=
  lsum (fun e => form (p_dofs p * e_n e) (p_stiff p e) (p_disp p U e) (p_disp p V e)) (p_elements p).
Definition p_kinetic (p : problem) (U V : nat -> nat -> R) : R :=
  lsum (fun e => form (p_dofs p * e_n e) (p_mass p e) (p_disp p U e) (p_disp p V e)) (p_elements p).

(** 0/-1 flags for every node; element rows with the declared number of nodes, all of them in range,
    and an element routine that returns two square matrices; load rows (node, f_0, ..., f_(d-1)) *)
Definition wf_problem (p : problem) : Prop :=
  (0 < p_dofs p)%nat /\ flags01 (p_dofs p) (p_cons p) /\ length (p_cons p) = length (p_nodes p) /\
  Forall (fun e => good_row (p_dofs p) (p_max p) (p_ndof p) (p_cons p) e /\
     exists k m, retriever e (p_mats p) (p_nodes p) (p_uel p) = Ok (k, M2 m) /\
       shape (p_dofs p * e_n e) (p_dofs p * e_n e) k /\ shape (p_dofs p * e_n e) (p_dofs p * e_n e) m) (p_elements p) /\
  Forall (fun row => (p_dofs p < length row)%nat /\ exists n, (n < length (p_nodes p))%nat /\ nth 0 row 0 = INR n) (p_loads p).

Definition p_dof (p : problem) (i d : nat) : Prop := (i < length (p_nodes p))%nat /\ (d < p_dofs p)%nat.
Definition p_equilibrium (p : problem) (U : nat -> nat -> R) : Prop :=
  forall i d, p_dof p i d ->
    (ent (p_cons p) i d = -1 -> U i d = 0) /\ (ent (p_cons p) i d = 0 -> p_internal p U i d = applied (p_loads p) i d).
Definition p_stable (p : problem) : Prop :=
  forall U, (forall i d, p_dof p i d -> (ent (p_cons p) i d = -1 -> U i d = 0) /\ (ent (p_cons p) i d = 0 -> p_internal p U i d = 0)) ->
    forall i d, p_dof p i d -> U i d = 0.
Definition p_admissible (p : problem) (U : nat -> nat -> R) : Prop :=
  forall i d, p_dof p i d -> ent (p_cons p) i d = -1 -> U i d = 0.

(** both library solvers only return solutions; both answer for every regular system *)
Definition solvers_ok (sv : solvers R) : Prop := sound (spsolve sv) /\ sound (npsolve sv).
Definition solvers_total (sv : solvers R) : Prop :=
  forall n A f, shape n n A -> length f = n -> regular n A -> (exists x, spsolve sv A f = Ok x) /\ exists x, npsolve sv A f = Ok x.

(** every element stiffness is symmetric and does no negative work *)
Definition p_psd (p : problem) : Prop :=
  forall e, In e (p_elements p) -> symmetric (p_dofs p * e_n e) (p_stiff p e) /\ psd (p_dofs p * e_n e) (p_stiff p e).
(** the motion [U] sin (w t), w^2 = lam, moves the mesh freely: weak form over all admissible tables *)
Definition p_mode (p : problem) (lam : R) (U : nat -> nat -> R) : Prop :=
  p_admissible p U /\ (exists i d, p_dof p i d /\ U i d <> 0) /\ forall V, p_admissible p V -> p_energy p V U = lam * p_kinetic p V U.

(** ** plane frames: beams with axial force (type 8), three dofs (x, y, rotation) per node *)
(** two ends at different points; E, I, A > 0; density optional *)
Definition frame_beam (p : problem) (e : list Z) : Prop :=
  exists id im a b E I A rest, e = [id; 8; im; a; b]%Z /\ np_get (p_mats p) im = Ok (E :: I :: A :: rest) /\ 0 < E /\ 0 < I /\ 0 < A /\
    (rest = [] \/ exists rho, rest = [rho] /\ 0 < rho) /\
    (0 <= a < Z.of_nat (length (p_nodes p)))%Z /\ (0 <= b < Z.of_nat (length (p_nodes p)))%Z /\
    (ent (p_nodes p) (Z.to_nat a) 1 <> ent (p_nodes p) (Z.to_nat b) 1 \/ ent (p_nodes p) (Z.to_nat a) 2 <> ent (p_nodes p) (Z.to_nat b) 2).
Definition frame (p : problem) : Prop :=
  p_dofs p = 3%nat /\ (6 <= p_max p)%nat /\ p_ndof p = None /\ p_uel p = None /\
  Forall (fun row => length row = 3%nat) (p_nodes p) /\ flags01 3 (p_cons p) /\ length (p_cons p) = length (p_nodes p) /\
  Forall (frame_beam p) (p_elements p) /\
  Forall (fun row => (3 < length row)%nat /\ exists n, (n < length (p_nodes p))%nat /\ nth 0 row 0 = INR n) (p_loads p).
(** any two nodes are joined by a chain of beams *)
Definition frame_connected (p : problem) : Prop :=
  forall i j, (i < length (p_nodes p))%nat -> (j < length (p_nodes p))%nat ->
    clos_refl_trans _ (fun a b => exists e, In e (p_elements p) /\ (e_node e 0 = a /\ e_node e 1 = b \/ e_node e 0 = b /\ e_node e 1 = a)) i j.
(** rigid motion of node [i]: translation (a, b), rotation w *)
Definition frame_rigid (nodes : list (list R)) (a b w : R) (i d : nat) : R :=
  match d with 0%nat => a - w * ent nodes i 2 | 1%nat => b + w * ent nodes i 1 | _ => w end.
(** the supports block every rigid motion *)
Definition frame_supported (p : problem) : Prop :=
  forall a b w, (forall i d, p_dof p i d -> ent (p_cons p) i d = -1 -> frame_rigid (p_nodes p) a b w i d = 0) -> a = 0 /\ b = 0 /\ w = 0.
