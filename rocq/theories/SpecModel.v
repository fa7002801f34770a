(** * Vocabulary for whole models: equilibrium of a displacement table
      (no equation numbers, no global matrices) *)
From Coq Require Import Reals List ZArith Bool.
From Verif Require Import Num LinAlg Uel Assem Main Spec SpecAssem.
Import ListNotations.
Local Open Scope R_scope.

Record model := mkModel {
  md_nodes : list (list R);
  md_cons : list (list R);
  md_elements : list (list Z);
  md_mats : list (list R);
  md_loads : list (list R)
}.

(** An element row is [id; type; material; node_0; node_1; ...]. *)
Definition e_n (e : list Z) : nat := (length e - 3)%nat.
Definition e_node (e : list Z) (k : nat) : nat := Z.to_nat (nth (3 + k) e 0%Z).

(** value of a nodal table at local dof [j] (two dofs per node) *)
Definition e_disp (U : nat -> nat -> R) (e : list Z) (j : nat) : R :=
  U (e_node e (j / 2)) (j mod 2)%nat.

(** stiffness returned by the element routine for this row *)
Definition e_stiff (mats nodes : list (list R)) (e : list Z) : list (list R) :=
  match retriever e mats nodes None with
  | Ok (k, _) => k
  | Err _ => []
  end.

(** nodal force of an element at local dof [j], and the sum of the element forces
    on node [i] in direction [d] *)
Definition e_force (mats nodes : list (list R)) (U : nat -> nat -> R) (e : list Z) (j : nat) : R :=
  act (2 * e_n e) (e_stiff mats nodes e) (e_disp U e) j.
Definition internal_force (mats nodes : list (list R)) (elements : list (list Z))
           (U : nat -> nat -> R) (i d : nat) : R :=
  lsum (fun e => rsum (e_n e) (fun k =>
    if (e_node e k =? i)%nat then e_force mats nodes U e (2 * k + d) else 0)) elements.

(** load table: the last row given for node [i] counts *)
Definition applied (loads : list (list R)) (i d : nat) : R :=
  fold_left (fun v row => if Req_EM_T (nth 0 row 0) (INR i) then nth (d + 1) row 0 else v) loads 0.

(** well-formed input: 0/-1 flags, node numbers in range, load rows (node, fx, fy) *)
Definition wf_model (md : model) : Prop :=
  flags01 2 (md_cons md) /\
  length (md_cons md) = length (md_nodes md) /\
  Forall (fun e => Forall (fun z => (0 <= z < Z.of_nat (length (md_nodes md)))%Z) (skipn 3 e))
         (md_elements md) /\
  Forall (fun row => (2 < length row)%nat /\
                     exists n, (n < length (md_nodes md))%nat /\ nth 0 row 0 = INR n) (md_loads md).

(** [U] (a table of nodal displacements) is in equilibrium *)
Definition in_equilibrium (md : model) (U : nat -> nat -> R) : Prop :=
  forall i d, (i < length (md_nodes md))%nat -> (d < 2)%nat ->
    (ent (md_cons md) i d = -1 -> U i d = 0) /\
    (ent (md_cons md) i d = 0 ->
       internal_force (md_mats md) (md_nodes md) (md_elements md) U i d = applied (md_loads md) i d).

(** the structure is stable: only the zero field is in equilibrium without loads *)
Definition stable (md : model) : Prop :=
  forall U,
    (forall i d, (i < length (md_nodes md))%nat -> (d < 2)%nat ->
       (ent (md_cons md) i d = -1 -> U i d = 0) /\
       (ent (md_cons md) i d = 0 ->
          internal_force (md_mats md) (md_nodes md) (md_elements md) U i d = 0)) ->
    forall i d, (i < length (md_nodes md))%nat -> (d < 2)%nat -> U i d = 0.

(** the sparse solver only returns solutions of its system *)
Definition solver_ok (sv : solvers R) : Prop :=
  forall A f x, spsolve sv A f = Ok x ->
    length x = length f /\
    forall p, (p < length f)%nat -> act (length f) A (fun q => nth q x 0) p = nth p f 0.

Definition auto (sv : solvers R) (md : model) (plot strains : bool) : res (outcome R) :=
  solids_auto sv (md_nodes md) (md_cons md) (md_elements md) (md_mats md) (md_loads md) plot strains.

(** the displacement table of a run *)
Definition table (out : outcome R) (i d : nat) : R := ent (out_disp out) i d.

(** same model, other load table *)
Definition with_loads (md : model) (loads : list (list R)) : model :=
  mkModel (md_nodes md) (md_cons md) (md_elements md) (md_mats md) loads.

(** row-wise combination of two load tables on the same nodes *)
Definition comb_loads (a b : R) (l1 l2 : list (list R)) : list (list R) :=
  map (fun rr => [nth 0 (fst rr) 0; a * nth 1 (fst rr) 0 + b * nth 1 (snd rr) 0;
                  a * nth 2 (fst rr) 0 + b * nth 2 (snd rr) 0]) (combine l1 l2).

(** [md'] is [md] with node [i] renamed [s i]: coordinates, flags, connectivity and loads follow *)
Record relabelling (s t : nat -> nat) (md md' : model) : Prop := {
  rl_len : length (md_nodes md') = length (md_nodes md);
  rl_s : forall i, (i < length (md_nodes md))%nat -> (s i < length (md_nodes md))%nat /\ t (s i) = i;
  rl_t : forall i, (i < length (md_nodes md))%nat -> (t i < length (md_nodes md))%nat /\ s (t i) = i;
  rl_nodes : forall i, (i < length (md_nodes md))%nat ->
    tl (nth (s i) (md_nodes md') []) = tl (nth i (md_nodes md) []);
  rl_cons : forall i, (i < length (md_nodes md))%nat ->
    nth (s i) (md_cons md') [] = nth i (md_cons md) [];
  rl_mats : md_mats md' = md_mats md;
  rl_elems : Forall2 (fun e e' => firstn 3 e' = firstn 3 e /\
      skipn 3 e' = map (fun z => Z.of_nat (s (Z.to_nat z))) (skipn 3 e)) (md_elements md) (md_elements md');
  rl_loads : Forall2 (fun r r' => tl r' = tl r /\
      exists n, (n < length (md_nodes md))%nat /\ nth 0 r 0 = INR n /\ nth 0 r' 0 = INR (s n))
      (md_loads md) (md_loads md')
}.

(** rigid motion of the nodes of a model (node rows are id, x, y) *)
Definition node_rows_ok (md : model) : Prop := Forall (fun r => length r = 3%nat) (md_nodes md).
Definition node_rigid (nodes : list (list R)) (a b w : R) (i d : nat) : R :=
  if (d =? 0)%nat then a - w * ent nodes i 2 else b + w * ent nodes i 1.
(** node counts of the continuum and truss element types *)
Definition type_nodes (t : Z) : option nat :=
  match t with
  | 1%Z => Some 4%nat | 2%Z => Some 6%nat | 3%Z => Some 3%nat | 4%Z => Some 9%nat | 6%Z => Some 2%nat
  | _ => None
  end.
Definition continuum_or_truss (md : model) : Prop :=
  Forall (fun e => exists t, nth_error e 1 = Some t /\ type_nodes t = Some (e_n e)) (md_elements md).
(** force of the support on node [i] in direction [d] *)
Definition reaction (md : model) (U : nat -> nat -> R) (i d : nat) : R :=
  if Req_EM_T (ent (md_cons md) i d) (-1)
  then internal_force (md_mats md) (md_nodes md) (md_elements md) U i d - applied (md_loads md) i d
  else 0.
(** the system has no other solution than zero for zero loads *)
Definition regular (n : nat) (K : list (list R)) : Prop :=
  forall u, (forall p, (p < n)%nat -> act n K u p = 0) -> forall p, (p < n)%nat -> u p = 0.
(** a solver that only returns solutions *)
Definition sound (solve : list (list R) -> list R -> res (list R)) : Prop :=
  forall A f x, solve A f = Ok x ->
    length x = length f /\
    forall p, (p < length f)%nat -> act (length f) A (fun q => nth q x 0) p = nth p f 0.
