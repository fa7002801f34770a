(** * Vocabulary: energy and kinetic densities of polynomial fields on solid elements *)
From Coq Require Import Reals List ZArith.
From Verif Require Import Spec SpecElem SpecQuad SpecEnergy.
Import ListNotations.
Local Open Scope R_scope.

Notation pol3 := (list (R * (nat * nat * nat))).

(** arithmetic of polynomials in r, s, t given as lists of terms *)
Definition pscale3 (k : R) (p : pol3) : pol3 := map (fun '(c, e) => (k * c, e)) p.
Definition pmul3 (p q : pol3) : pol3 :=
  flat_map (fun '(c, (i, j, k)) => map (fun '(d, (i', j', k')) => (c * d, (i + i', j + j', k + k')%nat)) q) p.
(** derivative along axis [a] *)
Definition d_ref (a : nat) (p : pol3) : pol3 :=
  flat_map (fun '(c, (i, j, k)) =>
    match a with
    | 0%nat => match i with O => [] | S i' => [(INR i * c, (i', j, k))] end
    | 1%nat => match j with O => [] | S j' => [(INR j * c, (i, j', k))] end
    | _ => match k with O => [] | S k' => [(INR k * c, (i, j, k'))] end
    end) p.
Definition within3 (es : list (nat * nat * nat)) (p : pol3) : Prop := Forall (fun t => In (snd t) es) p.

(** affine map: coordinate [b] of the image of (r, s, t) is o b + J 0 b r + J 1 b s + J 2 b t *)
Record frame3 := mkFrame3 { org : nat -> R; edge : nat -> nat -> R }.
Definition coord3 (m : frame3) (b : nat) : pol3 :=
  [(org m b, (0, 0, 0)%nat); (edge m 0 b, (1, 0, 0)%nat); (edge m 1 b, (0, 1, 0)%nat); (edge m 2 b, (0, 0, 1)%nat)].
Definition image3 (m : frame3) (nodes : list (R * R * R)) : list (list R) :=
  map (fun '(r, s, t) => [poly3 (coord3 m 0) r s t; poly3 (coord3 m 1) r s t; poly3 (coord3 m 2) r s t]) nodes.
Definition volume3 (m : frame3) : R := J3det (edge m).

(** derivative along x_a: sum over b of (inverse of J) a b times the derivative along axis b *)
Definition adjug (J : nat -> nat -> R) (a b : nat) : R :=
  let n k := Nat.modulo (k + 1) 3 in let p k := Nat.modulo (k + 2) 3 in
  J (n b) (n a) * J (p b) (p a) - J (n b) (p a) * J (p b) (n a).
Definition d_phys (m : frame3) (a : nat) (p : pol3) : pol3 :=
  flat_map (fun b => pscale3 (adjug (edge m) a b / volume3 m) (d_ref b p)) [0; 1; 2]%nat.

(** nodal values of the field with components U 0, U 1, U 2 *)
Definition nodal3 (U : nat -> pol3) (nodes : list (R * R * R)) (j : nat) : R :=
  let '(r, s, t) := nth (Nat.div j 3) nodes (0, 0, 0) in poly3 (U (Nat.modulo j 3)) r s t.

(** isotropic solid: lambda tr e tr e' + 2 mu e : e' *)
Definition energy3 (E nu : R) (m : frame3) (U V : nat -> pol3) : pol3 :=
  let e a := d_phys m a (U a) in let g a b := d_phys m a (U b) ++ d_phys m b (U a) in
  let e' a := d_phys m a (V a) in let g' a b := d_phys m a (V b) ++ d_phys m b (V a) in
  let tr := e 0%nat ++ e 1%nat ++ e 2%nat in let tr' := e' 0%nat ++ e' 1%nat ++ e' 2%nat in
  pscale3 (E * nu / ((1 + nu) * (1 - 2 * nu))) (pmul3 tr tr') ++
  pscale3 (E / (1 + nu)) (pmul3 (e 0%nat) (e' 0%nat) ++ pmul3 (e 1%nat) (e' 1%nat) ++ pmul3 (e 2%nat) (e' 2%nat)) ++
  pscale3 (E / (2 * (1 + nu))) (pmul3 (g 1 2)%nat (g' 1 2)%nat ++ pmul3 (g 0 2)%nat (g' 0 2)%nat ++ pmul3 (g 0 1)%nat (g' 0 1)%nat).
Definition kinetic3 (rho : R) (U V : nat -> pol3) : pol3 :=
  pscale3 rho (pmul3 (U 0%nat) (V 0%nat) ++ pmul3 (U 1%nat) (V 1%nat) ++ pmul3 (U 2%nat) (V 2%nat)).

(** over the cube, by iteration *)
Definition integral_cube (f : R -> R -> R -> R) (I : R) : Prop :=
  exists h, (forall x y, integral (f x y) (-1) 1 (h x y)) /\ integral_sq h I.
Definition the_integral3 (over : (R -> R -> R -> R) -> R -> Prop) (p : pol3) (I : R) : Prop :=
  over (poly3 p) I /\ forall J, over (poly3 p) J -> J = I.
