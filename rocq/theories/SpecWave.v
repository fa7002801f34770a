(** * Vocabulary for waves in periodic media *)
From Coq Require Import Reals List ZArith Arith.
From Verif Require Import Num Spec SpecBloch.
Import ListNotations.
Local Open Scope R_scope.

(** complete tables: distinct image dofs, each of them in exactly one pair, references that are no images *)
Record lattice (dim : nat) (coords : list (list R)) (n : nat) (nref nima dref dima : list Z) (rd id : list (Z * list Z)) : Prop := {
  la_nodup : NoDup dima;
  la_range : Forall (fun z => (0 <= z < Z.of_nat n)%Z) dima;
  la_length : length dref = length dima;
  la_nima : Forall (fun z => (0 <= z < Z.of_nat (length coords))%Z) nima;
  la_nref : Forall (fun z => (0 <= z < Z.of_nat (length coords))%Z) nref;
  la_coords : Forall (fun row => length row = dim) coords;
  la_rd : forall m, In m nref -> In m (map fst rd);
  la_id : forall m, In m nima -> In m (map fst id);
  la_refs : forall m, In m nref -> Forall (fun z => (0 <= z)%Z) (lookup rd m);
  la_pairs : forall p, In p (pairing nref nima rd id) -> (0 <= b_ref p < Z.of_nat n)%Z /\ ~ In (b_ref p) dima;
  la_once : NoDup (map b_ima (pairing nref nima rd id));
  la_images : forall z, In z dima <-> In z (map b_ima (pairing nref nima rd id))
}.
(** [u] takes at every image the value at the reference times the phase of the wave *)
Definition bloch_wave (k : list R) (coords : list (list R)) (pairs : list bpair) (u : nat -> R * R) : Prop :=
  forall p, In p pairs -> u (Z.to_nat (b_ima p)) = cmul (cis (shift k coords p)) (u (Z.to_nat (b_ref p))).
(** images whose reference has the new number [j] *)
Definition images_of (new : list Z) (pairs : list bpair) (j : nat) : nat :=
  length (filter (fun p => Z.eqb (nth (Z.to_nat (b_ref p)) new 0%Z) (Z.of_nat j)) pairs).
Definition cconj (a : R * R) : R * R := (fst a, - snd a).
(** phase between two nodes *)
Definition node_shift (k : list R) (coords : list (list R)) (a b : Z) : R :=
  rsum (length k) (fun c => nth c k 0 * (ent coords (Z.to_nat a) c - ent coords (Z.to_nat b) c)).
