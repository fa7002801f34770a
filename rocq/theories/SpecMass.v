(** * Vocabulary for positive masses and natural frequencies of meshes *)
From Coq Require Import Reals List ZArith.
From Verif Require Import Num LinAlg Uel Assem Main Script Spec SpecAssem SpecModel SpecElem SpecStatic SpecScript SpecSolid.
Import ListNotations.
Local Open Scope R_scope.

(** u' M u > 0 unless u = 0 *)
Definition positive_definite (n : nat) (M : list (list R)) : Prop :=
  forall u, (exists j, (j < n)%nat /\ u j <> 0) -> 0 < form n M u u.
(** continuum elements with E, nu and a positive density (1 if the row has none); bars with E, A > 0 *)
Definition heavy (t : Z) (params : list R) : Prop :=
  match t with
  | 1%Z | 2%Z | 3%Z | 4%Z => exists E nu rest, params = E :: nu :: rest /\ 0 <= E /\ -1 < nu < 1 /\ (rest = [] \/ 0 < last rest 0)
  | 6%Z => exists E A rest, params = E :: A :: rest /\ 0 <= E /\ 0 < A /\ (rest = [] \/ 0 < last rest 0)
  | _ => False
  end.
Definition heavy_model (md : model) : Prop :=
  (forall e t im params, In e (md_elements md) -> nth_error e 1 = Some t -> nth_error e 2 = Some im ->
     np_get (md_mats md) im = Ok params -> heavy t params) /\
  forall i, (i < length (md_nodes md))%nat -> exists e k, In e (md_elements md) /\ (k < e_n e)%nat /\ e_node e k = i.
Definition heavy_solids (p : problem) : Prop :=
  forall e im E nu rho, In e (p_elements p) -> nth_error e 2 = Some im -> np_get (p_mats p) im = Ok [E; nu; rho] -> 0 < rho.
(** a model of main.solids_auto (/repo/solidspy/main.py:105-121) as an analysis with two dofs per node and no user element *)
Definition plane_problem (md : model) : problem :=
  mkProblem 2 18 None None (md_nodes md) (md_cons md) (md_elements md) (md_mats md) (md_loads md).
(** as many natural motions as free dofs, orthogonal and with unit kinetic energy; every admissible table is a sum of
    them; no other values of w^2 occur; the strain energy is the sum of the energies of the parts *)
Definition modal_basis (p : problem) (lam : nat -> R) (U : nat -> nat -> nat -> R) : Prop :=
  let n := count_free (p_cons p) in
  (forall k, (k < n)%nat -> p_mode p (lam k) (U k)) /\
  (forall k l, (k < n)%nat -> (l < n)%nat -> p_kinetic p (U k) (U l) = if (k =? l)%nat then 1 else 0) /\
  (forall V, p_admissible p V ->
     (forall i d, p_dof p i d -> V i d = rsum n (fun k => p_kinetic p (U k) V * U k i d)) /\
     p_energy p V V = rsum n (fun k => lam k * (p_kinetic p (U k) V * p_kinetic p (U k) V))) /\
  forall l V, p_mode p l V -> exists k, (k < n)%nat /\ l = lam k.
