(** * Vocabulary for the Bloch properties *)
From Coq Require Import Reals List ZArith Arith Bool.
From Verif Require Import Num Spec.
Import ListNotations.
Local Open Scope R_scope.

(** ** numbering: independent dofs (not images) below [k], in increasing order *)
Definition independent (images : list Z) (k : nat) : list nat :=
  filter (fun j => negb (existsb (Z.eqb (Z.of_nat j)) images)) (seq 0 k).
(** reference of an image: the entry at its first position *)
Definition reference_of (images refs : list Z) (d r : Z) : Prop :=
  exists m, nth_error images m = Some d /\ nth_error refs m = Some r /\ forall m', (m' < m)%nat -> nth_error images m' <> Some d.

(** ** complex numbers *)
Definition cmul (a b : R * R) : R * R := (fst a * fst b - snd a * snd b, fst a * snd b + snd a * fst b).
Definition cplus (a b : R * R) : R * R := (fst a + fst b, snd a + snd b).
Fixpoint csum (n : nat) (f : nat -> R * R) : R * R :=
  match n with O => (0, 0) | S n => cplus (csum n f) (f n) end.
Definition cis (x : R) : R * R := (cos x, sin x).
Definition cnorm2 (a : R * R) : R := fst a * fst a + snd a * snd a.
(** matrix times vector *)
Definition cact (n : nat) (T : list (list (R * R))) (q : nat -> R * R) (i : nat) : R * R :=
  csum n (fun j => cmul (nth j (nth i T []) (0, 0)) (q j)).

(** ** pairs *)
Fixpoint lookup (d : list (Z * list Z)) (k : Z) : list Z :=
  match d with [] => [] | (k', v) :: d => if Z.eqb k k' then v else lookup d k end.
(** image dof, its reference dof, and their nodes *)
Record bpair := BP { b_ima : Z; b_ref : Z; b_nima : Z; b_nref : Z }.
Definition pairing (nodes_ref nodes_ima : list Z) (ref_dof ima_dof : list (Z * list Z)) : list bpair :=
  flat_map (fun n => map (fun d => BP (snd d) (fst d) (fst n) (snd n)) (combine (lookup ref_dof (snd n)) (lookup ima_dof (fst n))))
           (combine nodes_ima nodes_ref).
(** wave vector times the position of the image relative to the reference *)
Definition shift (k : list R) (coords : list (list R)) (p : bpair) : R :=
  rsum (length k) (fun a => nth a k 0 * (ent coords (Z.to_nat (b_nima p)) a - ent coords (Z.to_nat (b_nref p)) a)).
