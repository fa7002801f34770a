(** * Vocabulary for constraint flags other than 0 and -1 *)
From Coq Require Import Reals List ZArith Bool.
From Verif Require Import Num LinAlg Uel Assem Main Script Spec SpecAssem SpecModel SpecScript.
Import ListNotations.
Local Open Scope R_scope.

(** free dofs that come before place [(i, j)] in reading order *)
Definition rank (cons : list (list R)) (i j : nat) : nat := count_free (firstn i cons ++ [firstn j (nth i cons [])]).
(** dof [(i, j)] has equation [q]: it is the [q]-th free dof, or its flag is the number [q] *)
Definition shareb (cons : list (list R)) (i j q : nat) : bool :=
  if Req_EM_T (ent cons i j) 0 then (rank cons i j =? q)%nat else if Req_EM_T (ent cons i j) (INR q) then true else false.
(** 0, -1, or a whole number less than the number of free dofs *)
Definition tied_flags (d : nat) (cons : list (list R)) : Prop :=
  Forall (fun row => length row = d /\ Forall (fun c => c = 0 \/ c = -1 \/ exists k, (1 <= k < count_free cons)%nat /\ c = INR k) row) cons.
(** as [wf_problem], with these flags *)
Definition wf_tied (p : problem) : Prop :=
  (0 < p_dofs p)%nat /\ tied_flags (p_dofs p) (p_cons p) /\ length (p_cons p) = length (p_nodes p) /\
  Forall (fun e => good_row (p_dofs p) (p_max p) (p_ndof p) (p_cons p) e /\
     exists k m, retriever e (p_mats p) (p_nodes p) (p_uel p) = Ok (k, M2 m) /\
       shape (p_dofs p * e_n e) (p_dofs p * e_n e) k /\ shape (p_dofs p * e_n e) (p_dofs p * e_n e) m) (p_elements p) /\
  Forall (fun row => (p_dofs p < length row)%nat /\ exists n, (n < length (p_nodes p))%nat /\ nth 0 row 0 = INR n) (p_loads p).

(** sum of a nodal table over the dofs of equation [q] *)
Definition over (p : problem) (q : nat) (f : nat -> nat -> R) : R :=
  rsum (length (p_nodes p)) (fun i => rsum (p_dofs p) (fun d => if shareb (p_cons p) i d q then f i d else 0)).
(** load of equation [q]: the last one written on any of its dofs *)
Definition tied_load (p : problem) (q : nat) : R :=
  fold_left (fun v row => fold_left (fun v d =>
    if existsb (fun i => (if Req_EM_T (nth 0 row 0) (INR i) then true else false) && shareb (p_cons p) i d q) (seq 0 (length (p_nodes p)))
    then nth (d + 1) row 0 else v) (seq 0 (p_dofs p)) v) (p_loads p) 0.
(** restrained dofs do not move, dofs of one equation move together *)
Definition tied (p : problem) (U : nat -> nat -> R) : Prop :=
  p_admissible p U /\
  forall q i d i' d', p_dof p i d -> p_dof p i' d' -> shareb (p_cons p) i d q = true -> shareb (p_cons p) i' d' q = true -> U i d = U i' d'.
Definition tied_equilibrium (p : problem) (U : nat -> nat -> R) : Prop :=
  tied p U /\ forall q, (q < count_free (p_cons p))%nat -> over p q (p_internal p U) = tied_load p q.
Definition tied_stable (p : problem) : Prop :=
  forall U, tied p U -> (forall q, (q < count_free (p_cons p))%nat -> over p q (p_internal p U) = 0) -> forall i d, p_dof p i d -> U i d = 0.
(** the same problem with its ties cut *)
Definition untied (p : problem) : problem :=
  {| p_dofs := p_dofs p; p_max := p_max p; p_ndof := p_ndof p; p_uel := p_uel p; p_nodes := p_nodes p;
     p_cons := map (map (fun c => if Req_EM_T c (-1) then -1 else 0)) (p_cons p);
     p_elements := p_elements p; p_mats := p_mats p; p_loads := p_loads p |}.
(** flags are whole numbers, one row of them per node *)
Definition whole_flags (d : nat) (cons : list (list R)) : Prop := Forall (fun row => length row = d /\ Forall (fun c => exists z, c = IZR z) row) cons.
(** the same problem with the flags below -1 counted from the end *)
Definition wrapped (p : problem) : problem :=
  {| p_dofs := p_dofs p; p_max := p_max p; p_ndof := p_ndof p; p_uel := p_uel p; p_nodes := p_nodes p;
     p_cons := map (map (fun c => if Rlt_dec c (-1) then c + INR (count_free (p_cons p)) else c)) (p_cons p);
     p_elements := p_elements p; p_mats := p_mats p; p_loads := p_loads p |}.
