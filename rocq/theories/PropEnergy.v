(** * Property C114: the matrices of straight elements are the integrals that define them *)
From Coq Require Import String Reals List Arith Lra ZArith QArith.
From Verif Require Import Num LinAlg Gauss Fem Uel Spec LinR SpecElem SpecShape SpecQuad QuadFinal SpecEnergy EnergyProofs EnergyPull.
Import ListNotations.
Local Open Scope R_scope.

(** the lists of terms are polynomials with their arithmetic and their derivatives *)
Theorem C114_arithmetic : forall p q k r s,
  poly2 (pmul p q) r s = poly2 p r s * poly2 q r s /\ poly2 (pscale k p) r s = k * poly2 p r s /\
  poly2 (p ++ q) r s = poly2 p r s + poly2 q r s.
Proof. exact pol_arithmetic. Qed.
Print Assumptions C114_arithmetic.

Theorem C114_derivatives : forall p r s,
  derivable_pt_lim (fun x => poly2 p x s) r (poly2 (d_r p) r s) /\
  derivable_pt_lim (fun y => poly2 p r y) s (poly2 (d_s p) r s).
Proof. exact pol_derivatives. Qed.
Print Assumptions C114_derivatives.

(** [d_x] and [d_y] are the derivatives along x and y *)
Theorem C114_gradient : forall m P F, fdet m <> 0 ->
  (forall r s, poly2 P r s = poly2 F (poly2 (fX m) r s) (poly2 (fY m) r s)) ->
  forall r s, poly2 (d_x m P) r s = poly2 (d_r F) (poly2 (fX m) r s) (poly2 (fY m) r s) /\
              poly2 (d_y m P) r s = poly2 (d_s F) (poly2 (fX m) r s) (poly2 (fY m) r s).
Proof. exact gradient_physical. Qed.
Print Assumptions C114_gradient.

(** every quadratic in x and y is one of the fields of the six, eight and nine node elements *)
Theorem C114_quadratics : forall m F, within quadratic2 F ->
  exists P, within quadratic2 P /\ within serendipity2 P /\ within biquadratic2 P /\
    forall r s, poly2 P r s = poly2 F (poly2 (fX m) r s) (poly2 (fY m) r s).
Proof. exact quadratic_pulls. Qed.
Print Assumptions C114_quadratics.

(** every vector of nodal displacements is that of a field of the element *)
Theorem C114_every_vector : forall nodes basis,
  In (nodes, basis) [(ref_tri3, linear2); (ref_tri6, quadratic2); (ref_quad4, bilinear2); (ref_quad8, serendipity2); (ref_quad9, biquadratic2)] ->
  forall u, exists P Q, within basis P /\ within basis Q /\ forall j, (j < 2 * length nodes)%nat -> nodal P Q nodes j = u j.
Proof. exact every_field. Qed.
Print Assumptions C114_every_vector.

(** which straight elements the routines accept *)
Theorem C114_accepted : forall f nodes,
  In (f, nodes) [(elast_tri3, ref_tri3); (elast_tri6, ref_tri6); (elast_quad4, ref_quad4); (elast_quad8, ref_quad8); (elast_quad9, ref_quad9)] ->
  forall m E nu rho,
  (exists K M, f (image (fX m) (fY m) nodes) [E; nu; rho] = Ok (K, M2 M)) <-> 1 / 100000000 < fdet m /\ nu * nu <> 1.
Proof. exact plane_frames. Qed.
Print Assumptions C114_accepted.

(** stiffness: triangles with straight sides, parallelograms *)
Theorem C114_stiffness : forall f nodes basis over,
  In (f, nodes, basis, over)
    [(elast_tri3, ref_tri3, linear2, integral_tri); (elast_tri6, ref_tri6, quadratic2, integral_tri);
     (elast_quad4, ref_quad4, bilinear2, integral_sq); (elast_quad8, ref_quad8, serendipity2, integral_sq);
     (elast_quad9, ref_quad9, biquadratic2, integral_sq)] ->
  forall m P Q P' Q' E nu rho K M,
  within basis P -> within basis Q -> within basis P' -> within basis Q' ->
  f (image (fX m) (fY m) nodes) [E; nu; rho] = Ok (K, M) ->
  exists I, the_integral over (energy E nu m P Q P' Q') I /\
    Rabs (form (2 * length nodes) K (nodal P Q nodes) (nodal P' Q' nodes) - fdet m * I)
      <= fdet m * (1 / 1000000000000 * size (energy E nu m P Q P' Q')).
Proof. exact plane_energy. Qed.
Print Assumptions C114_stiffness.

(** mass: triangles with straight sides, every quadrilateral with straight sides *)
Theorem C114_mass : forall f nodes basis geo over,
  In (f, nodes, basis, geo, over)
    [(elast_tri3, ref_tri3, linear2, linear2, integral_tri); (elast_tri6, ref_tri6, quadratic2, linear2, integral_tri);
     (elast_quad4, ref_quad4, bilinear2, bilinear2, integral_sq); (elast_quad8, ref_quad8, serendipity2, bilinear2, integral_sq);
     (elast_quad9, ref_quad9, biquadratic2, bilinear2, integral_sq)] ->
  forall X Y P Q P' Q' E nu rho K M,
  within geo X -> within geo Y -> within basis P -> within basis Q -> within basis P' -> within basis Q' ->
  f (image X Y nodes) [E; nu; rho] = Ok (K, M2 M) ->
  exists I, the_integral over (pmul (kinetic rho P Q P' Q') (jac X Y)) I /\
    Rabs (form (2 * length nodes) M (nodal P Q nodes) (nodal P' Q' nodes) - I)
      <= 1 / 1000000000000 * size (pmul (kinetic rho P Q P' Q') (jac X Y)).
Proof. exact plane_kinetic. Qed.
Print Assumptions C114_mass.

(** the bending field (x y, - x^2 / 2) on the rectangle [0, 4] x [-1, 1], E = 3, nu = 0: with r, s the
    fields are 2 s + 2 r s and - 2 - 4 r - 2 r^2, the strain energy density is 3 s^2 and its integral 8 *)
Example C114_case :
  let m := mkFrame 2 2 0 0 0 1 in
  let P := [(2, (0, 1)%nat); (2, (1, 1)%nat)] in let Q := [(-2, (0, 0)%nat); (-4, (1, 0)%nat); (-2, (2, 0)%nat)] in
  within serendipity2 P /\ within serendipity2 Q /\
  (forall r s, poly2 (energy 3 0 m P Q P Q) r s = 3 * s * s) /\
  the_integral integral_sq (energy 3 0 m P Q P Q) 4 /\ fdet m * 4 = 8 /\
  exists K M, elast_quad8 (image (fX m) (fY m) ref_quad8) [3; 0; 1] = Ok (K, M2 M).
Proof.
  cbn zeta. split; [repeat constructor; cbn; tauto|]. split; [repeat constructor; cbn; tauto|]. split.
  { intros r s. cbn. unfold poly2, fdet. cbn. field. }
  split.
  { match goal with |- the_integral _ ?q _ => assert (S := poly2_sq q) end.
    match type of S with integral_sq _ ?v => replace v with 4 in S by (cbn; unfold pow_int, fdet; cbn; field) end.
    split; [exact S|]. intros J HJ. exact (sq_unique _ _ _ HJ S). }
  split; [unfold fdet; cbn; lra|].
  apply (C114_accepted elast_quad8 ref_quad8 ltac:(cbn; tauto)). unfold fdet; cbn. split; lra.
Qed.

(** a trapezoid, and the mass of its unit translation: the area 3/2 times the density 2 *)
Example C114_case_mass :
  let X := [(3/4, (0, 0)%nat); (3/4, (1, 0)%nat); (-1/4, (0, 1)%nat); (-1/4, (1, 1)%nat)] in
  let Y := [(1/2, (0, 0)%nat); (1/2, (0, 1)%nat)] in
  let one := [(1, (0, 0)%nat)] in
  image X Y ref_quad4 = [[0; 0]; [2; 0]; [1; 1]; [0; 1]] /\ within bilinear2 X /\ within bilinear2 Y /\
  the_integral integral_sq (pmul (kinetic 2 one [] one []) (jac X Y)) 3.
Proof.
  cbn zeta. split; [unfold image, ref_quad4, poly2; cbn; repeat f_equal; field|].
  split; [repeat constructor; cbn; tauto|]. split; [repeat constructor; cbn; tauto|].
  match goal with |- the_integral _ ?q _ => assert (S := poly2_sq q) end.
  match type of S with integral_sq _ ?v => replace v with 3 in S by (cbn; unfold pow_int; cbn; field) end.
  split; [exact S|]. intros J HJ. exact (sq_unique _ _ _ HJ S).
Qed.
