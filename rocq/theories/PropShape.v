(** * Properties C21-C24: shape functions *)
From Coq Require Import Reals List Arith Lra ZArith QArith Qreals.
From Verif Require Import Num LinAlg Fem Spec SpecShape LinR ShapeProofs.
Import ListNotations.
Local Open Scope R_scope.

(** ** C21 *)
Theorem C21_unity_plane : forall sh,
  In sh [shape_tri3; shape_tri6; shape_quad4; shape_quad8; shape_quad9] -> forall r s,
  total (fst (sh r s)) = 1 /\ length (snd (sh r s)) = 2%nat /\
  Forall (fun row => total row = 0 /\ length row = length (fst (sh r s))) (snd (sh r s)).
Proof. exact unity2. Qed.
Print Assumptions C21_unity_plane.

Theorem C21_unity_solid : forall sh, In sh [shape_tet4; shape_hex8] -> forall r s t,
  total (fst (sh r s t)) = 1 /\ length (snd (sh r s t)) = 3%nat /\
  Forall (fun row => total row = 0 /\ length row = length (fst (sh r s t))) (snd (sh r s t)).
Proof. exact unity3. Qed.
Print Assumptions C21_unity_solid.

Example C21_case : In shape_quad8 [shape_tri3; shape_tri6; shape_quad4; shape_quad8; shape_quad9] /\
  nth 0 (fst (shape_quad8 (1/2) (1/3))) 0 = - (11/72).
Proof. split; [cbn; tauto|]. shp. cbn [nth]. lra. Qed.

(** ** C22 *)
Theorem C22_kronecker :
  kronecker2 shape_tri3 ref_tri3 /\ kronecker2 shape_tri6 ref_tri6 /\ kronecker2 shape_quad4 ref_quad4 /\
  kronecker2 shape_quad8 ref_quad8 /\ kronecker2 shape_quad9 ref_quad9 /\
  kronecker3 shape_tet4 ref_tet4 /\ kronecker3 shape_hex8 ref_hex8.
Proof.
  exact (conj kron_tri3 (conj kron_tri6 (conj kron_quad4 (conj kron_quad8 (conj kron_quad9
    (conj kron_tet4 kron_hex8)))))).
Qed.
Print Assumptions C22_kronecker.

Example C22_case : nth 5 ref_quad8 (0, 0) = (1, 0) /\ (5 < length ref_quad8)%nat.
Proof. split; [reflexivity|cbn; auto with arith]. Qed.

(** ** C23 *)
Theorem C23_gradient_plane : forall sh,
  In sh [shape_tri3; shape_tri6; shape_quad4; shape_quad8; shape_quad9] -> gradient2 sh.
Proof. exact grad2. Qed.
Print Assumptions C23_gradient_plane.

Theorem C23_gradient_solid : forall sh, In sh [shape_tet4; shape_hex8] -> gradient3 sh.
Proof. exact grad3. Qed.
Print Assumptions C23_gradient_solid.

Example C23_case : Nat.lt 3 (length (fst (shape_tri6 (1/2) (1/3)))) /\
  ent (snd (shape_tri6 (1/2) (1/3))) 0 3 = - (4/3).
Proof. split; [cbn; auto with arith|]. unfold ent. shp. cbn [nth]. lra. Qed.

(** ** C24 *)
Theorem C24_completeness : forall c,
  (forall r s, interp2 (fst (shape_tri3 r s)) ref_tri3 (monos2 linear2 c) = monos2 linear2 c r s) /\
  (forall r s, interp2 (fst (shape_tri6 r s)) ref_tri6 (monos2 quadratic2 c) = monos2 quadratic2 c r s) /\
  (forall r s, interp2 (fst (shape_quad4 r s)) ref_quad4 (monos2 bilinear2 c) = monos2 bilinear2 c r s) /\
  (forall r s, interp2 (fst (shape_quad8 r s)) ref_quad8 (monos2 serendipity2 c) = monos2 serendipity2 c r s) /\
  (forall r s, interp2 (fst (shape_quad9 r s)) ref_quad9 (monos2 biquadratic2 c) = monos2 biquadratic2 c r s) /\
  (forall r s t, interp3 (fst (shape_tet4 r s t)) ref_tet4 (monos3 linear3 c) = monos3 linear3 c r s t) /\
  (forall r s t, interp3 (fst (shape_hex8 r s t)) ref_hex8 (monos3 trilinear3 c) = monos3 trilinear3 c r s t).
Proof.
  exact (fun c => conj (complete_tri3 c) (conj (complete_tri6 c) (conj (complete_quad4 c) (conj (complete_quad8 c)
    (conj (complete_quad9 c) (conj (complete_tet4 c) (complete_hex8 c))))))).
Qed.
Print Assumptions C24_completeness.

Example C24_case : monos2 quadratic2 (fun k => nth k [1; 0; 0; 2; 0; 3] 0) (1/2) (1/3) = 11/6.
Proof. unfold monos2, quadratic2, lsum. cbn. lra. Qed.
