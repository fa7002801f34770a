(** * Property C114, solid elements *)
From Coq Require Import String Reals List Arith Lra ZArith QArith.
From Verif Require Import Num LinAlg Gauss Fem Uel Spec LinR SpecElem SpecShape SpecQuad QuadFinal SpecEnergy SpecEnergy3 Energy3Proofs Energy3Final.
Import ListNotations.
Local Open Scope R_scope.

Theorem C114_solid_arithmetic : forall p q k r s t,
  poly3 (pmul3 p q) r s t = poly3 p r s t * poly3 q r s t /\ poly3 (pscale3 k p) r s t = k * poly3 p r s t /\
  poly3 (p ++ q) r s t = poly3 p r s t + poly3 q r s t.
Proof. exact pol3_arithmetic. Qed.
Print Assumptions C114_solid_arithmetic.

Theorem C114_solid_derivatives : forall p r s t,
  derivable_pt_lim (fun x => poly3 p x s t) r (poly3 (d_ref 0 p) r s t) /\
  derivable_pt_lim (fun y => poly3 p r y t) s (poly3 (d_ref 1 p) r s t) /\
  derivable_pt_lim (fun z => poly3 p r s z) t (poly3 (d_ref 2 p) r s t).
Proof. exact pol3_derivatives. Qed.
Print Assumptions C114_solid_derivatives.

(** [d_phys a] is the derivative along coordinate a of space *)
Theorem C114_solid_gradient : forall m P F, volume3 m <> 0 ->
  (forall r s t, poly3 P r s t = poly3 F (poly3 (coord3 m 0) r s t) (poly3 (coord3 m 1) r s t) (poly3 (coord3 m 2) r s t)) ->
  forall a r s t, (a < 3)%nat -> poly3 (d_phys m a P) r s t =
    poly3 (d_ref a F) (poly3 (coord3 m 0) r s t) (poly3 (coord3 m 1) r s t) (poly3 (coord3 m 2) r s t).
Proof. exact gradient_physical3. Qed.
Print Assumptions C114_solid_gradient.

Theorem C114_solid_every_vector : forall nodes basis, In (nodes, basis) [(ref_tet4, linear3); (ref_hex8, trilinear3)] ->
  forall u, exists U, (forall x, (x < 3)%nat -> within3 basis (U x)) /\ forall j, (j < 3 * length nodes)%nat -> nodal3 U nodes j = u j.
Proof. exact every_field3. Qed.
Print Assumptions C114_solid_every_vector.

Theorem C114_solid_accepted : forall f nodes, In (f, nodes) [(elast_tet4, ref_tet4); (elast_hex8, ref_hex8)] -> forall m E nu rho,
  (exists K M, f (image3 m nodes) [E; nu; rho] = Ok (K, M2 M)) <-> 1 / 100000000 < volume3 m /\ nu <> -1 /\ nu <> 1 / 2.
Proof. exact solid_frames. Qed.
Print Assumptions C114_solid_accepted.

(** stiffness and mass: all tetrahedra, all parallelepipeds *)
Theorem C114_solid : forall f nodes basis over,
  In (f, nodes, basis, over) [(elast_tet4, ref_tet4, linear3, integral_tet); (elast_hex8, ref_hex8, trilinear3, integral_cube)] ->
  forall m U V E nu rho K M,
  (forall x, (x < 3)%nat -> within3 basis (U x)) -> (forall x, (x < 3)%nat -> within3 basis (V x)) ->
  f (image3 m nodes) [E; nu; rho] = Ok (K, M2 M) ->
  (exists I, the_integral3 over (energy3 E nu m U V) I /\
     Rabs (form (3 * length nodes) K (nodal3 U nodes) (nodal3 V nodes) - volume3 m * I)
       <= volume3 m * (1 / 1000000000000000 * size (energy3 E nu m U V))) /\
  (exists I, the_integral3 over (kinetic3 rho U V) I /\
     Rabs (form (3 * length nodes) M (nodal3 U nodes) (nodal3 V nodes) - volume3 m * I)
       <= volume3 m * (1 / 1000000000000000 * size (kinetic3 rho U V))).
Proof. exact solid_energy. Qed.
Print Assumptions C114_solid.

(** the brick [0, 2] x [0, 1] x [0, 1] with the displacement r s along x, E = 2, nu = 0:
    density 2 s^2 + 4 r^2, integral 16 over the cube, energy 4 *)
Example C114_solid_case :
  let m := mkFrame3 (fun b => nth b [1; 1/2; 1/2] 0) (fun a b => if Nat.eqb a b then nth b [1; 1/2; 1/2] 0 else 0) in
  let U := fun x => match x with O => [(1, (1, 1, 0)%nat)] | _ => [] end in
  (forall x, within3 trilinear3 (U x)) /\
  (forall r s t, poly3 (energy3 2 0 m U U) r s t = 2 * s * s + 4 * r * r) /\
  the_integral3 integral_cube (energy3 2 0 m U U) 16 /\ volume3 m * 16 = 4 /\
  exists K M, elast_hex8 (image3 m ref_hex8) [2; 0; 1] = Ok (K, M2 M).
Proof.
  cbn zeta. split; [intros [|x]; repeat constructor; cbn; tauto|]. split.
  { intros r s t. unfold energy3, d_phys, volume3, J3det, adjug, poly3. cbn. field. }
  split.
  { match goal with |- the_integral3 _ ?q _ => assert (S := poly3_cube q) end.
    match type of S with integral_cube _ ?v => replace v with 16 in S
      by (unfold cube_int, energy3, d_phys, volume3, J3det, adjug, pow_int; cbn; field) end.
    split; [exact S|]. intros J HJ. exact (cube_unique _ _ _ HJ S). }
  split; [unfold volume3, J3det; cbn; lra|].
  apply (C114_solid_accepted elast_hex8 ref_hex8 ltac:(cbn; tauto)). unfold volume3, J3det; cbn. repeat split; lra.
Qed.
