(** * Properties C43-C46: quadrature rules *)
From Coq Require Import String Reals List Arith Lra ZArith QArith.
From Verif Require Import Num Gauss Spec SpecQuad QuadProofs QuadFinal.
Import ListNotations.
Local Open Scope R_scope.

(** every polynomial has exactly one integral in the sense of [SpecQuad] *)
Theorem C43_integral_defined : forall p a b,
  exists I, integral (poly1 p) a b I /\ forall J, integral (poly1 p) a b J -> J = I.
Proof. exact poly1_integrable. Qed.
Print Assumptions C43_integral_defined.

Theorem C43_degree : forall n pts wts p I, @gauss_1d R Num_R n = Ok (pts, wts) ->
  Forall (fun t => (Z.of_nat (snd t) <= 2 * n - 1)%Z) p -> integral (poly1 p) (-1) 1 I ->
  Rabs (rule1 pts wts (poly1 p) - I) <= 1 / 100000000000000000 * size p.
Proof. exact gauss_1d_degree. Qed.
Print Assumptions C43_degree.

Theorem C43_range : forall n,
  ((2 <= n <= 10)%Z -> exists pts wts, @gauss_1d R Num_R n = Ok (pts, wts) /\
     length pts = Z.to_nat n /\ length wts = Z.to_nat n) /\
  (~ (2 <= n <= 10)%Z -> @gauss_1d R Num_R n = Err (ValueError "The number of points should be in [2, 10]")).
Proof. exact gauss_1d_range. Qed.
Print Assumptions C43_range.

(** 3 x^2 - x^3 / 2 with the two-point rule: integral 2 *)
Example C43_case : Forall (fun t : R * nat => (Z.of_nat (snd t) <= 2 * 2 - 1)%Z) [(3, 2%nat); (-1/2, 3%nat)] /\
  integral (poly1 [(3, 2%nat); (-1/2, 3%nat)]) (-1) 1 2.
Proof.
  split; [repeat constructor; discriminate|].
  assert (H := poly1_integral [(3, 2%nat); (-1/2, 3%nat)] (-1) 1). cbn in H.
  match type of H with integral _ _ _ ?v => refine (eq_ind v (fun w => integral _ (-1) 1 w) H 2 _); field end.
Qed.

(** ** C44 *)
Theorem C44_sizes : forall n d pts wts, @gauss_nd R Num_R n d = Ok (pts, wts) ->
  length pts = (Z.to_nat n ^ d)%nat /\ length wts = (Z.to_nat n ^ d)%nat /\ Forall (fun x => length x = d) pts.
Proof. exact gauss_nd_sizes. Qed.
Print Assumptions C44_sizes.

Theorem C44_range : forall n d,
  ((2 <= n <= 10)%Z -> exists pts wts, @gauss_nd R Num_R n d = Ok (pts, wts)) /\
  (~ (2 <= n <= 10)%Z -> @gauss_nd R Num_R n d = Err (ValueError "The number of points should be in [2, 10]")).
Proof. exact gauss_nd_runs. Qed.
Print Assumptions C44_range.

Theorem C44_tensor : forall n d pts wts p w fs, @gauss_nd R Num_R n d = Ok (pts, wts) ->
  @gauss_1d R Num_R n = Ok (p, w) -> length fs = d ->
  rule pts wts (tensor fs) = prodl (map (rule1 p w) fs).
Proof. exact gauss_nd_tensor. Qed.
Print Assumptions C44_tensor.

Theorem C44_monomials : forall n d pts wts es Is, @gauss_nd R Num_R n d = Ok (pts, wts) -> length es = d ->
  Forall2 (fun e I => (Z.of_nat e <= 2 * n - 1)%Z /\ integral (fun x => x ^ e) (-1) 1 I) es Is ->
  Rabs (rule pts wts (tensor (map (fun e x => x ^ e) es)) - prodl Is) <= INR d * 3 ^ d * (1 / 100000000000000000).
Proof. exact gauss_nd_monomials. Qed.
Print Assumptions C44_monomials.

(** x^2 y^0 z^3 over the cube with the 2 x 2 x 2 rule *)
Example C44_case :
  Forall2 (fun e I => (Z.of_nat e <= 2 * 2 - 1)%Z /\ integral (fun x => x ^ e) (-1) 1 I) [2; 0; 3]%nat [2/3; 2; 0].
Proof.
  repeat constructor; try discriminate;
    match goal with |- integral (fun x => x ^ ?e) _ _ ?v =>
      assert (H := integral_pow e (-1) 1); cbn [pow INR Nat.add] in H;
      match type of H with integral _ _ _ ?w => replace v with w; [exact H|cbn; field] end end.
Qed.

(** ** C45 *)
Theorem C45_integral_defined : forall p,
  exists I, integral_tri (poly2 p) I /\ forall J, integral_tri (poly2 p) J -> J = I.
Proof. exact poly2_integrable. Qed.
Print Assumptions C45_integral_defined.

Theorem C45_degree : forall n pts wts p I, @gauss_tri R Num_R n = Ok (pts, wts) ->
  Forall (fun '(_, (i, j)) => (Z.of_nat (i + j) <= n)%Z) p -> integral_tri (poly2 p) I ->
  Rabs (rule2 pts wts (poly2 p) / 2 - I) <= 1 / 1000000000000 * size p.
Proof. exact gauss_tri_degree. Qed.
Print Assumptions C45_degree.

Theorem C45_range : forall n,
  ((1 <= n <= 7)%Z -> exists pts wts, @gauss_tri R Num_R n = Ok (pts, wts) /\ length pts = length wts /\
     Forall (fun x => length x = 2%nat) pts) /\
  (~ (1 <= n <= 7)%Z -> @gauss_tri R Num_R n = Err (ValueError "The order should be in [1, 7]")).
Proof. exact gauss_tri_range. Qed.
Print Assumptions C45_range.

(** x y^2 over the triangle: 1! 2! / 5! = 1/60 *)
Example C45_case : integral_tri (poly2 [(1, (1, 2)%nat)]) (1/60).
Proof.
  assert (H := poly2_integral [(1, (1, 2)%nat)]). cbn -[fac] in H.
  match type of H with integral_tri _ ?v => replace (1/60) with v; [exact H|unfold fac; cbn; field] end.
Qed.

(** ** C46 *)
Theorem C46_integral_defined : forall p,
  exists I, integral_tet (poly3 p) I /\ forall J, integral_tet (poly3 p) J -> J = I.
Proof. exact poly3_integrable. Qed.
Print Assumptions C46_integral_defined.

Theorem C46_degree : forall n pts wts p I, @gauss_tet R Num_R n = Ok (pts, wts) ->
  Forall (fun '(_, (i, j, k)) => (Z.of_nat (i + j + k) <= n)%Z) p -> integral_tet (poly3 p) I ->
  Rabs (rule3 pts wts (poly3 p) / 6 - I) <= 1 / 1000000000000000 * size p.
Proof. exact gauss_tet_degree. Qed.
Print Assumptions C46_degree.

Theorem C46_range : forall n,
  ((1 <= n <= 10)%Z -> exists pts wts, @gauss_tet R Num_R n = Ok (pts, wts) /\ length pts = length wts /\
     Forall (fun x => length x = 3%nat) pts) /\
  (~ (1 <= n <= 10)%Z -> @gauss_tet R Num_R n = Err (ValueError "The order should be in [1, 10]")).
Proof. exact gauss_tet_range. Qed.
Print Assumptions C46_range.

(** x y z over the tetrahedron: 1 / 6! *)
Example C46_case : integral_tet (poly3 [(1, (1, 1, 1)%nat)]) (1/720).
Proof.
  assert (H := poly3_integral [(1, (1, 1, 1)%nat)]). cbn -[fac] in H.
  match type of H with integral_tet _ ?v => replace (1/720) with v; [exact H|] end.
  rewrite Rplus_0_r, Rmult_1_l. change (fac 6) with (INR (fact 6)). rewrite INR_IZR_INZ.
  replace (fac 1) with 1 by reflexivity. cbn. field.
Qed.
