(** * Properties C25-C30: Jacobian, strain matrices, material laws *)
From Coq Require Import String Reals List Arith Lra ZArith.
From Verif Require Import Num LinAlg Fem Spec LinR SpecElem SpecShape ShapeProofs ElemCore MatProofs ElemFinal ElemFinal3 PropJacCases.
Import ListNotations.
Local Open Scope R_scope.

(** ** C25.  [D] is the derivative table (one row per direction, one column per node). *)
Theorem C25_accepted : forall d n D coord det Ji, (d = 2 \/ d = 3)%nat -> shape d n D ->
  jacoper D coord = Ok (det, Ji) ->
  length coord = n /\ det = Jdet d (Jac n D coord) /\ 1 / 100000000 < det /\
  forall a b, (a < d)%nat -> (b < d)%nat ->
    rsum d (fun i => ent Ji a i * Jac n D coord i b) = (if Nat.eq_dec a b then 1 else 0) /\
    rsum d (fun i => Jac n D coord a i * ent Ji i b) = (if Nat.eq_dec a b then 1 else 0).
Proof. exact jacobian_accept. Qed.
Print Assumptions C25_accepted.

Theorem C25_decision : forall d n D coord, (d = 2 \/ d = 3)%nat -> shape d n D ->
  length coord = n -> length (hd [] coord) = d ->
  (1 / 100000000 < Jdet d (Jac n D coord) -> exists Ji, jacoper D coord = Ok (Jdet d (Jac n D coord), Ji)) /\
  (Rabs (Jdet d (Jac n D coord)) <= 1 / 100000000 -> jacoper D coord = Err (ValueError "Jacobian close to zero. Check the shape of your elements!")) /\
  (Jdet d (Jac n D coord) < - (1 / 100000000) -> jacoper D coord = Err (ValueError "Jacobian is negative. Check your elements orientation!")).
Proof. exact jacobian_iff. Qed.
Print Assumptions C25_decision.

Theorem C25_shapes : forall d n D coord, (d = 2 \/ d = 3)%nat -> shape d n D ->
  length coord <> n \/ length (hd [] coord) <> d -> exists e, jacoper D coord = Err e.
Proof. exact jacobian_shapes. Qed.
Print Assumptions C25_shapes.

(** a distorted quadrilateral is accepted, its mirror image (clockwise nodes) is rejected *)
Example C25_case : let D := snd (shape_quad4 (1/2) (-1/2)) in shape 2 4 D /\
  Jdet 2 (Jac 4 D [[0; 0]; [3; 1]; [4; 5]; [1; 2]]) = 9/4 /\
  Jdet 2 (Jac 4 D [[0; 0]; [1; 3]; [5; 4]; [2; 1]]) = -9/4.
Proof. exact case25. Qed.

(** ** C26: false of the code.  Full statement: for all D, coord and t > 0, if
    jacoper D coord = Ok _ then jacoper D (rescale t coord) = Ok _. *)
Theorem C26_units_refuted :
  let D := snd (shape_quad4 0 0) in let square := [[0; 0]; [1; 0]; [1; 1]; [0; 1]] in
  (exists Ji, jacoper D square = Ok (1/4, Ji)) /\
  jacoper D (rescale (1/10000) square) = Err (ValueError "Jacobian close to zero. Check the shape of your elements!").
Proof. exact unit_dependence. Qed.
Print Assumptions C26_units_refuted.

(** what holds: the scaled element is accepted exactly when t^d det > 1e-8, in particular when
    t >= 1 (missing: the shrunk elements with t^d det <= 1e-8) *)
Theorem C26_units_partial : forall d n D coord det Ji t, (d = 2 \/ d = 3)%nat -> shape d n D -> 0 < t ->
  jacoper D coord = Ok (det, Ji) ->
  (1 / 100000000 < t ^ d * det -> exists Ji', jacoper D (rescale t coord) = Ok (t ^ d * det, Ji') /\
     forall a b, (a < d)%nat -> (b < d)%nat -> ent Ji' a b = ent Ji a b / t) /\
  (t ^ d * det <= 1 / 100000000 -> jacoper D (rescale t coord) = Err (ValueError "Jacobian close to zero. Check the shape of your elements!")).
Proof. exact jacobian_rescale. Qed.
Print Assumptions C26_units_partial.

Theorem C26_enlarged_partial : forall d t det, (d = 2 \/ d = 3)%nat -> 1 <= t ->
  1 / 100000000 < det -> 1 / 100000000 < t ^ d * det.
Proof. exact grow_accept. Qed.
Print Assumptions C26_enlarged_partial.

Example C26_case : let D := snd (shape_quad4 0 0) in shape 2 4 D /\
  exists Ji, jacoper D [[0; 0]; [1; 0]; [1; 1]; [0; 1]] = Ok (1/4, Ji).
Proof. exact case26. Qed.

(** ** C27 *)
Theorem C27_plane : forall sh r s coord H B det,
  In sh [shape_tri3; shape_tri6; shape_quad4; shape_quad8; shape_quad9] ->
  elast_diff_2d r s coord sh = Ok (H, B, det) ->
  let n := length (fst (sh r s)) in let pos := position n (fst (sh r s)) coord in
  forall a0 a1 a2 b0 b1 b2, let u := affine2 coord a0 a1 a2 b0 b1 b2 in
  act (2 * n) B u 0 = a1 /\ act (2 * n) B u 1 = b2 /\ act (2 * n) B u 2 = a2 + b1 /\
  act (2 * n) H u 0 = a0 + a1 * pos 0%nat + a2 * pos 1%nat /\
  act (2 * n) H u 1 = b0 + b1 * pos 0%nat + b2 * pos 1%nat.
Proof. exact plane_differentiates. Qed.
Print Assumptions C27_plane.

Theorem C27_axisymmetric : forall sh r s coord H B det,
  In sh [shape_tri3; shape_tri6; shape_quad4; shape_quad8; shape_quad9] ->
  elast_diff_axi r s coord sh = Ok (H, B, det) ->
  let n := length (fst (sh r s)) in let pos := position n (fst (sh r s)) coord in
  0 < pos 0%nat /\
  forall a0 a1 a2 b0 b1 b2, let u := affine2 coord a0 a1 a2 b0 b1 b2 in
  act (2 * n) B u 0 = a1 /\ act (2 * n) B u 1 = b2 /\ act (2 * n) B u 2 = a2 + b1 /\
  act (2 * n) B u 3 = (a0 + a1 * pos 0%nat + a2 * pos 1%nat) / pos 0%nat /\
  act (2 * n) H u 0 = a0 + a1 * pos 0%nat + a2 * pos 1%nat /\
  act (2 * n) H u 1 = b0 + b1 * pos 0%nat + b2 * pos 1%nat.
Proof. exact axi_differentiates. Qed.
Print Assumptions C27_axisymmetric.

Theorem C27_solid : forall sh r s t coord H B det, In sh [shape_tet4; shape_hex8] ->
  elast_diff_3d r s t coord sh = Ok (H, B, det) ->
  let n := length (fst (sh r s t)) in let pos := position n (fst (sh r s t)) coord in
  forall c A, let u := affine3 coord c A in
  (forall a, (a < 6)%nat -> act (3 * n) B u a = voigt3 A a) /\
  (forall a, (a < 3)%nat -> act (3 * n) H u a = c a + rsum 3 (fun i => A a i * pos i)).
Proof. exact solid_differentiates. Qed.
Print Assumptions C27_solid.

Example C27_case :
  (exists H B det, elast_diff_2d (1/2) (-1/2) [[0; 0]; [3; 1]; [4; 5]; [1; 2]] shape_quad4 = Ok (H, B, det)) /\
  (exists H B det, elast_diff_axi (1/2) (-1/2) [[0; 0]; [3; 1]; [4; 5]; [1; 2]] shape_quad4 = Ok (H, B, det)) /\
  (exists H B det, elast_diff_3d (1/2) (-1/2) 0 (pts3 ref_hex8) shape_hex8 = Ok (H, B, det)).
Proof. exact case27. Qed.

(** ** C28.  Components of the 3D law: x, y, z, yz, xz, xy. *)
Theorem C28_plane_stress : forall E nu, 0 < E -> -1 < nu < 1/2 -> exists C2 C3,
  umat [E; nu] = Ok C2 /\ elast_mat [E; nu] = Ok C3 /\
  forall ex ey gxy, let e := fun ez => plane_strain3 ex ey ez gxy in
  (exists! ez, act 6 C3 (e ez) 2 = 0) /\
  forall ez, act 6 C3 (e ez) 2 = 0 ->
    let s := act 3 C2 (fun a => nth a [ex; ey; gxy] 0) in
    s 0%nat = act 6 C3 (e ez) 0 /\ s 1%nat = act 6 C3 (e ez) 1 /\ s 2%nat = act 6 C3 (e ez) 5 /\
    act 6 C3 (e ez) 3 = 0 /\ act 6 C3 (e ez) 4 = 0.
Proof. exact plane_stress. Qed.
Print Assumptions C28_plane_stress.

Theorem C28_positive : forall E nu, 0 < E -> -1 < nu < 1 -> exists C, umat [E; nu] = Ok C /\ symmetric 3 C /\
  forall e, (exists i, (i < 3)%nat /\ e i <> 0) -> 0 < form 3 C e e.
Proof. exact plane_stress_pd. Qed.
Print Assumptions C28_positive.

Example C28_case : 0 < 200 /\ -1 < 3/10 < 1/2.
Proof. lra. Qed.

(** ** C29 *)
Theorem C29_compliance : forall E nu, E <> 0 -> 1 + nu <> 0 -> 1 - 2 * nu <> 0 ->
  exists C, elast_mat [E; nu] = Ok C /\ symmetric 6 C /\
  (0 < E -> -1 < nu < 1/2 -> forall e, (exists i, (i < 6)%nat /\ e i <> 0) -> 0 < form 6 C e e) /\
  forall s e, (forall i, (i < 6)%nat -> s i = act 6 C e i) <->
    (e 0%nat = (s 0%nat - nu * (s 1%nat + s 2%nat)) / E /\
     e 1%nat = (s 1%nat - nu * (s 0%nat + s 2%nat)) / E /\
     e 2%nat = (s 2%nat - nu * (s 0%nat + s 1%nat)) / E /\
     e 3%nat = 2 * (1 + nu) / E * s 3%nat /\ e 4%nat = 2 * (1 + nu) / E * s 4%nat /\ e 5%nat = 2 * (1 + nu) / E * s 5%nat).
Proof. exact hooke_compliance. Qed.
Print Assumptions C29_compliance.

Example C29_case : 200 <> 0 /\ 1 + 3/10 <> 0 /\ 1 - 2 * (3/10) <> 0.
Proof. lra. Qed.

(** ** C30: false of the code.  Full statement: for all E, nu and axisymmetric strains
    (er, ez, g, et) the axisymmetric law gives the stresses of the 3D law (z of the 3D law is
    the hoop direction).  Witness: a pure hoop strain gives no radial stress. *)
Theorem C30_axisymmetric_law_refuted :
  exists C4 C6, elast_mat_axi [1; 1/4] = Ok C4 /\ elast_mat_2d [1; 1/4] = Ok C4 /\ elast_mat [1; 1/4] = Ok C6 /\
  act 4 C4 (fun a => nth a [0; 0; 0; 1] 0) 0 = 0 /\ act 6 C6 (plane_strain3 0 0 1 0) 0 = 2 / 5.
Proof. exact axi_law_wrong. Qed.
Print Assumptions C30_axisymmetric_law_refuted.

(** what holds: the laws agree exactly for E nu = 0 or for strains without coupling (missing: all
    other strains) *)
Theorem C30_axisymmetric_law_partial : forall E nu, 1 + nu <> 0 -> 1 - 2 * nu <> 0 -> exists C4 C6,
  elast_mat_axi [E; nu] = Ok C4 /\ elast_mat_2d [E; nu] = Ok C4 /\ elast_mat [E; nu] = Ok C6 /\
  forall er ez g et,
    let s4 := act 4 C4 (fun a => nth a [er; ez; g; et] 0) in
    let s6 := act 6 C6 (plane_strain3 er ez et g) in
    (s4 0%nat = s6 0%nat /\ s4 1%nat = s6 1%nat /\ s4 3%nat = s6 2%nat /\ s4 2%nat = s6 5%nat) <->
    (E * nu = 0 \/ (et = 0 /\ er + ez = 0)).
Proof. exact axi_agrees_iff. Qed.
Print Assumptions C30_axisymmetric_law_partial.

Theorem C30_defect_partial : forall E nu, 1 + nu <> 0 -> 1 - 2 * nu <> 0 -> exists C4 C6,
  elast_mat_axi [E; nu] = Ok C4 /\ elast_mat_2d [E; nu] = Ok C4 /\ elast_mat [E; nu] = Ok C6 /\
  forall er ez g et,
    let s4 := act 4 C4 (fun a => nth a [er; ez; g; et] 0) in
    let s6 := act 6 C6 (plane_strain3 er ez et g) in
    s6 0%nat = s4 0%nat + lam E nu * et /\ s6 1%nat = s4 1%nat + lam E nu * et /\
    s6 2%nat = s4 3%nat + lam E nu * (er + ez) /\ s6 5%nat = s4 2%nat.
Proof. exact axi_defect. Qed.
Print Assumptions C30_defect_partial.

Example C30_case : 1 + 1/4 <> 0 /\ 1 - 2 * (1/4) <> 0.
Proof. lra. Qed.
