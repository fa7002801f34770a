(** * Vocabulary of the property statements (independent of the model) *)
From Coq Require Import Reals List ZArith Lra.
Import ListNotations.
Local Open Scope R_scope.

(** f 0 + ... + f (n-1) *)
Fixpoint rsum (n : nat) (f : nat -> R) : R :=
  match n with
  | O => 0
  | S m => rsum m f + f m
  end.

(** sum over a list *)
Definition lsum {A} (f : A -> R) (l : list A) : R :=
  fold_right (fun a s => f a + s) 0 l.

(** entry of an array, row by row *)
Definition ent (M : list (list R)) (i j : nat) : R := nth j (nth i M []) 0.

Definition shape (p q : nat) (M : list (list R)) : Prop :=
  length M = p /\ Forall (fun r => length r = q) M.

(** (K u)_i, u' K v for K of size n; displacement vectors are functions of the dof *)
Definition act (n : nat) (K : list (list R)) (u : nat -> R) (i : nat) : R :=
  rsum n (fun j => ent K i j * u j).
Definition form (n : nat) (K : list (list R)) (u v : nat -> R) : R :=
  rsum n (fun i => u i * act n K v i).

Definition symmetric (n : nat) (K : list (list R)) : Prop :=
  forall i j, (i < n)%nat -> (j < n)%nat -> ent K i j = ent K j i.
Definition psd (n : nat) (K : list (list R)) : Prop :=
  forall u, 0 <= form n K u u.
