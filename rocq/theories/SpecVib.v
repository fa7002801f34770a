(** * Vocabulary for the vibrations of a bar and the deflection of a cantilever *)
From Coq Require Import Reals List ZArith Bool.
From Verif Require Import Num LinAlg Uel Assem Spec SpecScript.
Import ListNotations.
Local Open Scope R_scope.

(** the bar of tests/test_integration.py:129-152: n equal bars (type 6) along x, both ends fixed, no motion across *)
Definition fixed_bar (n : nat) (l E A rho : R) : problem := {|
  p_dofs := 2; p_max := 18; p_ndof := None; p_uel := None;
  p_nodes := map (fun i => [INR i; l * INR i / INR n; 0]) (seq 0 (S n));
  p_cons := map (fun i => [if ((i =? 0) || (i =? n))%nat then -1 else 0; -1]) (seq 0 (S n));
  p_elements := map (fun i => [Z.of_nat i; 6; 0; Z.of_nat i; Z.of_nat (S i)]%Z) (seq 0 n);
  p_mats := [[E; A; rho]]; p_loads := [] |}.
(** square of the m-th natural frequency of the continuous bar *)
Definition bar_frequency2 (l E rho : R) (m : nat) : R := (INR m * PI / l) * (INR m * PI / l) * (E / rho).
(** the same of n equal linear elements with consistent mass *)
Definition mesh_frequency2 (n : nat) (l E rho : R) (m : nat) : R :=
  let h := l / INR n in let c := cos (INR m * PI / INR n) in 6 * E / (rho * (h * h)) * ((1 - c) / (2 + c)).
(** m half waves *)
Definition half_waves (n m : nat) (c : R) (i d : nat) : R :=
  match d with 0%nat => c * sin (INR m * PI / INR n * INR i) | _ => 0 end.

(** a beam (type 8) from the clamped origin to (x, y), with forces (fx, fy) and a moment at the tip *)
Definition cantilever (x y E I A fx fy mz : R) : problem := {|
  p_dofs := 3; p_max := 18; p_ndof := None; p_uel := None;
  p_nodes := [[0; 0; 0]; [1; x; y]]; p_cons := [[-1; -1; -1]; [0; 0; 0]];
  p_elements := [[0; 8; 0; 0; 1]%Z]; p_mats := [[E; I; A]]; p_loads := [[1; fx; fy; mz]] |}.
(** displacements and rotation of the tip of an elastic beam *)
Definition tip (x y E I A fx fy mz : R) (d : nat) : R :=
  let l := sqrt (x * x + y * y) in let cx := x / l in let cy := y / l in
  let fa := cx * fx + cy * fy in let ft := - cy * fx + cx * fy in
  let ua := fa * l / (E * A) in let ut := ft * (l * l * l) / (3 * E * I) + mz * (l * l) / (2 * E * I) in
  match d with
  | 0%nat => ua * cx - ut * cy
  | 1%nat => ua * cy + ut * cx
  | _ => ft * (l * l) / (2 * E * I) + mz * l / (E * I)
  end.
