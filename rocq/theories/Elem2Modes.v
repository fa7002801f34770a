(** * Proofs: no spurious modes of tri3 and quad4 *)
From Coq Require Import String Reals List Arith Lia Lra Bool ZArith QArith Qreals.
From Verif Require Import Num LinAlg Gauss Fem Uel Spec LinR Base ElemShape BarProofs SpecElem SpecShape ShapeProofs ElemCore Sampled Elem2 MatProofs Elem2Props Elem2Mass.
Import ListNotations.
Local Open Scope R_scope.

Lemma tri3_area coord : wdet pl_tri3 coord = area3 coord * (999999999999 / 1000000000000).
Proof.
  unfold wdet, pl_tri3, area3, node_x, node_y. cbn [pl_c pl_gq pl_n pl_sh].
  unfold det_at, J2det, Jac.
  unfold lsum. cbn -[ent Rmult Rplus Rminus Rdiv Q2R].
  unfold ent. cbn [nth]. numR. q2r. field.
Qed.

Lemma plane_strain_zero p coord params K m E nu rho u : In p planes -> pl_f p coord params = Ok (K, m) ->
  pl_par p params = Some (E, nu, rho) -> 0 < E -> -1 < nu < 1 ->
  form (2 * pl_n p) K u u = 0 ->
  forall r s w, In (r, s, w) (pl_gq p) ->
    det_at (pl_n p) (pl_sh p) coord r s <> 0 /\
    forall a, (a < 3)%nat -> strain2 (pl_n p) (snd (pl_sh p r s)) coord u a = 0.
Proof.
  intros Hp Hrun Hpar HE Hnu H0 r s w Hin.
  destruct (plane_summary p coord params K m Hp Hrun) as [E' [nu' [rho' [M [Hpar' [_ [Ha [_ HS]]]]]]]].
  rewrite Hpar in Hpar'. injection Hpar' as <- <- <-.
  split; [destruct Ha as [_ [_ Ha]]; specialize (Ha r s w Hin); lra|].
  assert (HZ := sampled_zero_energy _ _ _ _ _ _ _ _ HS u (fun g Hg => gs_weights p coord g Hp Ha Hg)
                  (umat_psd E nu (Rlt_le _ _ HE) Hnu) H0).
  specialize (HZ (gdat2 (pl_n p) (pl_sh p) coord (pl_c p) (r, s, w))).
  assert (Hg : In (gdat2 (pl_n p) (pl_sh p) coord (pl_c p) (r, s, w)) (gs_of p coord)) by (apply in_map; exact Hin).
  specialize (HZ Hg). cbn [gdat2 g_eps] in HZ. apply umat_pd in HZ; auto. destruct HZ as [Z0 [Z1 Z2]].
  intros a Ha3. destruct a as [|[|[|]]]; [exact Z0|exact Z1|exact Z2|lia].
Qed.

Lemma rigid2_even coord a b w k : rigid2 coord a b w (2 * k)%nat = a - w * node_y coord k.
Proof. unfold rigid2, affine2. rewrite field2_even. ring. Qed.
Lemma rigid2_odd coord a b w k : rigid2 coord a b w (2 * k + 1)%nat = b + w * node_x coord k.
Proof. unfold rigid2, affine2. rewrite field2_odd. ring. Qed.

Lemma tri3_dr r s v : rsum 3 (fun k => ent (snd (shape_tri3 r s)) 0 k * v k) = v 1%nat - v 0%nat.
Proof. unfold ent. shp. cbn [rsum nth]. ring. Qed.
Lemma tri3_ds r s v : rsum 3 (fun k => ent (snd (shape_tri3 r s)) 1 k * v k) = v 2%nat - v 0%nat.
Proof. unfold ent. shp. cbn [rsum nth]. ring. Qed.
Lemma rsum_grad0 n D coord v : J2det (Jac n D coord) <> 0 ->
  rsum n (fun k => grad2 n D coord 0 k * v k) * J2det (Jac n D coord) =
  Jac n D coord 1 1 * rsum n (fun k => ent D 0 k * v k) - Jac n D coord 0 1 * rsum n (fun k => ent D 1 k * v k).
Proof. intros Hd. unfold grad2. rewrite rsum_lin2. field. exact Hd. Qed.
Lemma rsum_grad1 n D coord v : J2det (Jac n D coord) <> 0 ->
  rsum n (fun k => grad2 n D coord 1 k * v k) * J2det (Jac n D coord) =
  Jac n D coord 0 0 * rsum n (fun k => ent D 1 k * v k) - Jac n D coord 1 0 * rsum n (fun k => ent D 0 k * v k).
Proof. intros Hd. unfold grad2. rewrite rsum_lin2. field. exact Hd. Qed.

Definition ux (u : nat -> R) (k : nat) : R := u (2 * k)%nat.
Definition uy (u : nat -> R) (k : nat) : R := u (2 * k + 1)%nat.

Lemma tri3_modes coord params K m E nu rho u : elast_tri3 coord params = Ok (K, m) ->
  par_opt params = Some (E, nu, rho) -> 0 < E -> -1 < nu < 1 -> form 6 K u u = 0 ->
  exists a b w, forall j, (j < 6)%nat -> u j = rigid2 coord a b w j.
Proof.
  intros Hrun Hpar HE Hnu H0.
  assert (Hp : In pl_tri3 planes) by (cbn; tauto).
  destruct (pl_gq pl_tri3) as [|[[r s] w0] gq] eqn:Egq; [discriminate|].
  destruct (plane_strain_zero pl_tri3 coord params K m E nu rho u Hp Hrun Hpar HE Hnu H0 r s w0) as [Hdet Hs];
    [rewrite Egq; left; reflexivity|]. clear Egq.
  cbn [pl_n pl_sh pl_tri3] in *. unfold det_at in Hdet.
  pose proof (Hs 0%nat ltac:(lia)) as S0. pose proof (Hs 1%nat ltac:(lia)) as S1. pose proof (Hs 2%nat ltac:(lia)) as S2.
  clear Hs.
  set (D := snd (shape_tri3 r s)) in *.
  change (strain2 3 D coord u 0 = 0) in S0. change (strain2 3 D coord u 1 = 0) in S1. change (strain2 3 D coord u 2 = 0) in S2.
  change (J2det (Jac 3 D coord) <> 0) in Hdet. set (det := J2det (Jac 3 D coord)) in *.
  set (x0 := ent coord 0 0) in *. set (y0 := ent coord 0 1) in *. set (x1 := ent coord 1 0) in *.
  set (y1 := ent coord 1 1) in *. set (x2 := ent coord 2 0) in *. set (y2 := ent coord 2 1) in *.
  assert (J00 : Jac 3 D coord 0 0 = x1 - x0) by apply (tri3_dr r s (fun k => ent coord k 0)).
  assert (J01 : Jac 3 D coord 0 1 = y1 - y0) by apply (tri3_dr r s (fun k => ent coord k 1)).
  assert (J10 : Jac 3 D coord 1 0 = x2 - x0) by apply (tri3_ds r s (fun k => ent coord k 0)).
  assert (J11 : Jac 3 D coord 1 1 = y2 - y0) by apply (tri3_ds r s (fun k => ent coord k 1)).
  assert (Hdetv : det = (x1 - x0) * (y2 - y0) - (y1 - y0) * (x2 - x0)) by (unfold det, J2det; rewrite J00, J01, J10, J11; ring).
  assert (T0 : (y2 - y0) * (u 2%nat - u 0%nat) - (y1 - y0) * (u 4%nat - u 0%nat) = 0).
  { apply eq_trans with (strain2 3 D coord u 0 * det); [symmetry|rewrite S0; ring]. unfold strain2, det.
    etransitivity; [apply (rsum_grad0 3 D coord (ux u) Hdet)|]. first [rewrite J11, J01|rewrite J00, J10]. unfold D. rewrite tri3_dr, tri3_ds. unfold ux, uy. cbn [Nat.mul Nat.add]. ring. }
  assert (T1 : (x1 - x0) * (u 5%nat - u 1%nat) - (x2 - x0) * (u 3%nat - u 1%nat) = 0).
  { apply eq_trans with (strain2 3 D coord u 1 * det); [symmetry|rewrite S1; ring]. unfold strain2, det.
    etransitivity; [apply (rsum_grad1 3 D coord (uy u) Hdet)|]. first [rewrite J11, J01|rewrite J00, J10]. unfold D. rewrite tri3_dr, tri3_ds. unfold ux, uy. cbn [Nat.mul Nat.add]. ring. }
  assert (T2 : (x1 - x0) * (u 4%nat - u 0%nat) - (x2 - x0) * (u 2%nat - u 0%nat)
     + (y2 - y0) * (u 3%nat - u 1%nat) - (y1 - y0) * (u 5%nat - u 1%nat) = 0).
  { apply eq_trans with (strain2 3 D coord u 2 * det); [symmetry|rewrite S2; ring]. unfold strain2, det.
    rewrite rsum_plus, Rmult_plus_distr_r.
    etransitivity; [apply (f_equal2 Rplus (rsum_grad1 3 D coord (ux u) Hdet) (rsum_grad0 3 D coord (uy u) Hdet))|]. rewrite J00, J01, J10, J11. unfold D.
    rewrite !tri3_dr, !tri3_ds. unfold ux, uy. cbn [Nat.mul Nat.add]. ring. }
  set (w := ((y2 - y0) * (u 3%nat - u 1%nat) - (y1 - y0) * (u 5%nat - u 1%nat)) / det).
  assert (Hw : w * det = (y2 - y0) * (u 3%nat - u 1%nat) - (y1 - y0) * (u 5%nat - u 1%nat)) by (unfold w; field; exact Hdet).
  clearbody w.
  assert (Hcancel : forall a b, a * det = b * det -> a = b) by (intros a b H; apply Rmult_eq_reg_r with det; assumption).
  assert (V1 : u 3%nat - u 1%nat = w * (x1 - x0)).
  { apply Hcancel. transitivity ((w * det) * (x1 - x0)); [rewrite Hw|ring]. rewrite Hdetv.
    assert (X : (x1 - x0) * (u 5%nat - u 1%nat) = (x2 - x0) * (u 3%nat - u 1%nat)) by lra.
    transitivity ((y2 - y0) * (u 3%nat - u 1%nat) * (x1 - x0) - (y1 - y0) * ((x1 - x0) * (u 5%nat - u 1%nat))); [rewrite X; ring|ring]. }
  assert (V2 : u 5%nat - u 1%nat = w * (x2 - x0)).
  { apply Hcancel. transitivity ((w * det) * (x2 - x0)); [rewrite Hw|ring]. rewrite Hdetv.
    assert (X : (x1 - x0) * (u 5%nat - u 1%nat) = (x2 - x0) * (u 3%nat - u 1%nat)) by lra.
    transitivity ((y2 - y0) * ((x1 - x0) * (u 5%nat - u 1%nat)) - (y1 - y0) * (x2 - x0) * (u 5%nat - u 1%nat)); [ring|rewrite X; ring]. }
  assert (Hw2 : w * det = - ((x1 - x0) * (u 4%nat - u 0%nat) - (x2 - x0) * (u 2%nat - u 0%nat))) by lra.
  assert (U1 : u 2%nat - u 0%nat = - w * (y1 - y0)).
  { apply Hcancel. transitivity (- (w * det) * (y1 - y0)); [rewrite Hw2|ring]. rewrite Hdetv.
    assert (X : (y2 - y0) * (u 2%nat - u 0%nat) = (y1 - y0) * (u 4%nat - u 0%nat)) by lra.
    transitivity ((x1 - x0) * ((y2 - y0) * (u 2%nat - u 0%nat)) - (y1 - y0) * (x2 - x0) * (u 2%nat - u 0%nat)); [ring|rewrite X; ring]. }
  assert (U2 : u 4%nat - u 0%nat = - w * (y2 - y0)).
  { apply Hcancel. transitivity (- (w * det) * (y2 - y0)); [rewrite Hw2|ring]. rewrite Hdetv.
    assert (X : (y2 - y0) * (u 2%nat - u 0%nat) = (y1 - y0) * (u 4%nat - u 0%nat)) by lra.
    transitivity ((x1 - x0) * (y2 - y0) * (u 4%nat - u 0%nat) - (x2 - x0) * ((y1 - y0) * (u 4%nat - u 0%nat))); [ring|rewrite <- X; ring]. }
  exists (u 0%nat + w * y0), (u 1%nat - w * x0), w.
  intros j Hj.
  destruct j as [|[|[|[|[|[|]]]]]]; [| | | | | |lia].
  - rewrite (rigid2_even _ _ _ _ 0). unfold node_y. fold y0. ring.
  - rewrite (rigid2_odd _ _ _ _ 0). unfold node_x. fold x0. ring.
  - rewrite (rigid2_even _ _ _ _ 1). unfold node_y. fold y1. lra.
  - rewrite (rigid2_odd _ _ _ _ 1). unfold node_x. fold x1. lra.
  - rewrite (rigid2_even _ _ _ _ 2). unfold node_y. fold y2. lra.
  - rewrite (rigid2_odd _ _ _ _ 2). unfold node_x. fold x2. lra.
Qed.

(** ** quad4 *)
Lemma parallel x1 x2 x3 y1 y2 y3 a1 a2 a3 b1 b2 b3 :
  a1 * y2 = a2 * y1 -> a1 * y3 = a3 * y1 -> a2 * y3 = a3 * y2 ->
  b1 * x2 = b2 * x1 -> b1 * x3 = b3 * x1 -> b2 * x3 = b3 * x2 ->
  (x1 * a2 - x2 * a1) + (y2 * b1 - y1 * b2) = 0 ->
  x1 * y2 - x2 * y1 <> 0 ->
  exists w, a1 = - w * y1 /\ a2 = - w * y2 /\ a3 = - w * y3 /\ b1 = w * x1 /\ b2 = w * x2 /\ b3 = w * x3.
Proof.
  intros A12 A13 A23 B12 B13 B23 G Z. set (z := x1 * y2 - x2 * y1) in *.
  set (w := (b1 * y2 - b2 * y1) / z).
  assert (Hw : w * z = b1 * y2 - b2 * y1) by (unfold w; field; exact Z). clearbody w.
  assert (Hw2 : w * z = - (x1 * a2 - x2 * a1)) by lra.
  assert (Hc : forall a b, a * z = b * z -> a = b) by (intros a b H; apply Rmult_eq_reg_r with z; assumption).
  exists w. repeat split; apply Hc.
  - transitivity (- (w * z) * y1); [rewrite Hw2|ring]. unfold z.
    transitivity (x1 * (a1 * y2) - x2 * y1 * a1); [ring|rewrite A12; ring].
  - transitivity (- (w * z) * y2); [rewrite Hw2|ring]. unfold z.
    transitivity (x1 * y2 * a2 - x2 * (a2 * y1)); [ring|rewrite <- A12; ring].
  - transitivity (- (w * z) * y3); [rewrite Hw2|ring]. unfold z.
    transitivity (x1 * (a3 * y2) - x2 * (a3 * y1)); [ring|rewrite <- A23, <- A13; ring].
  - transitivity ((w * z) * x1); [rewrite Hw|ring]. unfold z.
    transitivity (x1 * y2 * b1 - y1 * (b1 * x2)); [ring|rewrite B12; ring].
  - transitivity ((w * z) * x2); [rewrite Hw|ring]. unfold z.
    transitivity (y2 * (b2 * x1) - y1 * x2 * b2); [ring|rewrite <- B12; ring].
  - transitivity ((w * z) * x3); [rewrite Hw|ring]. unfold z.
    transitivity (y2 * (b3 * x1) - y1 * (b3 * x2)); [ring|rewrite <- B13, <- B23; ring].
Qed.

(** bilinear coefficients of four nodal values *)
Definition bl1 (v : nat -> R) : R := (- v 0%nat + v 1%nat + v 2%nat - v 3%nat) / 4.
Definition bl2 (v : nat -> R) : R := (- v 0%nat - v 1%nat + v 2%nat + v 3%nat) / 4.
Definition bl3 (v : nat -> R) : R := (v 0%nat - v 1%nat + v 2%nat - v 3%nat) / 4.

Lemma quad4_dr r s v : rsum 4 (fun k => ent (snd (shape_quad4 r s)) 0 k * v k) = bl1 v + bl3 v * s.
Proof. unfold ent. shp. cbn [rsum nth]. unfold bl1, bl3. field. Qed.
Lemma quad4_ds r s v : rsum 4 (fun k => ent (snd (shape_quad4 r s)) 1 k * v k) = bl2 v + bl3 v * r.
Proof. unfold ent. shp. cbn [rsum nth]. unfold bl2, bl3. field. Qed.

Lemma quad4_strain coord u r s :
  let X := fun k => ent coord k 0 in let Y := fun k => ent coord k 1 in
  let det := det_at 4 shape_quad4 coord r s in
  det <> 0 ->
  det = (bl1 X * bl2 Y - bl2 X * bl1 Y) + (bl1 X * bl3 Y - bl3 X * bl1 Y) * r + (bl3 X * bl2 Y - bl2 X * bl3 Y) * s /\
  strain2 4 (snd (shape_quad4 r s)) coord u 0 * det =
    (bl1 (ux u) * bl2 Y - bl2 (ux u) * bl1 Y) + (bl1 (ux u) * bl3 Y - bl3 (ux u) * bl1 Y) * r + (bl3 (ux u) * bl2 Y - bl2 (ux u) * bl3 Y) * s /\
  strain2 4 (snd (shape_quad4 r s)) coord u 1 * det =
    (bl1 X * bl2 (uy u) - bl2 X * bl1 (uy u)) + (bl1 X * bl3 (uy u) - bl3 X * bl1 (uy u)) * r + (bl3 X * bl2 (uy u) - bl2 X * bl3 (uy u)) * s /\
  strain2 4 (snd (shape_quad4 r s)) coord u 2 * det =
    (bl1 X * bl2 (ux u) - bl2 X * bl1 (ux u)) + (bl1 X * bl3 (ux u) - bl3 X * bl1 (ux u)) * r + (bl3 X * bl2 (ux u) - bl2 X * bl3 (ux u)) * s +
    ((bl1 (uy u) * bl2 Y - bl2 (uy u) * bl1 Y) + (bl1 (uy u) * bl3 Y - bl3 (uy u) * bl1 Y) * r + (bl3 (uy u) * bl2 Y - bl2 (uy u) * bl3 Y) * s).
Proof.
  cbv zeta. intros Hd. unfold det_at in *.
  set (D := snd (shape_quad4 r s)) in *.
  assert (J00 : Jac 4 D coord 0 0 = bl1 (fun k => ent coord k 0) + bl3 (fun k => ent coord k 0) * s) by apply quad4_dr.
  assert (J01 : Jac 4 D coord 0 1 = bl1 (fun k => ent coord k 1) + bl3 (fun k => ent coord k 1) * s) by apply quad4_dr.
  assert (J10 : Jac 4 D coord 1 0 = bl2 (fun k => ent coord k 0) + bl3 (fun k => ent coord k 0) * r) by apply quad4_ds.
  assert (J11 : Jac 4 D coord 1 1 = bl2 (fun k => ent coord k 1) + bl3 (fun k => ent coord k 1) * r) by apply quad4_ds.
  split; [|split; [|split]].
  - change (J2det (Jac 4 D coord) = (bl1 (fun k => ent coord k 0) * bl2 (fun k => ent coord k 1) - bl2 (fun k => ent coord k 0) * bl1 (fun k => ent coord k 1))
      + (bl1 (fun k => ent coord k 0) * bl3 (fun k => ent coord k 1) - bl3 (fun k => ent coord k 0) * bl1 (fun k => ent coord k 1)) * r
      + (bl3 (fun k => ent coord k 0) * bl2 (fun k => ent coord k 1) - bl2 (fun k => ent coord k 0) * bl3 (fun k => ent coord k 1)) * s).
    unfold J2det. rewrite J00, J01, J10, J11. ring.
  - unfold strain2. etransitivity; [apply (rsum_grad0 4 D coord (ux u) Hd)|]. rewrite J11, J01. unfold D.
    rewrite quad4_dr, quad4_ds. ring.
  - unfold strain2. etransitivity; [apply (rsum_grad1 4 D coord (uy u) Hd)|]. rewrite J00, J10. unfold D.
    rewrite quad4_dr, quad4_ds. ring.
  - unfold strain2. rewrite rsum_plus, Rmult_plus_distr_r.
    etransitivity; [apply (f_equal2 Rplus (rsum_grad1 4 D coord (ux u) Hd) (rsum_grad0 4 D coord (uy u) Hd))|]. rewrite J00, J01, J10, J11. unfold D.
    rewrite !quad4_dr, !quad4_ds. ring.
Qed.

Lemma affine4 p q t g : g <> 0 ->
  p + q * - g + t * - g = 0 -> p + q * - g + t * g = 0 -> p + q * g + t * - g = 0 -> p + q * g + t * g = 0 ->
  p = 0 /\ q = 0 /\ t = 0.
Proof.
  intros Hg H1 H2 H3 H4. assert (Hp : p = 0) by lra. assert (Hq : q * g = 0) by lra. assert (Ht : t * g = 0) by lra.
  apply Rmult_integral in Hq. apply Rmult_integral in Ht. repeat split; tauto.
Qed.

Lemma quad4_points : exists g, g <> 0 /\ pl_gq pl_quad4 = [(- g, - g, 1); (- g, g, 1); (g, - g, 1); (g, g, 1)].
Proof.
  exists (Q2R 0.577350269189625764). split; [q2r; lra|].
  cbn. assert (E : Q2R (-0.577350269189625764) = - Q2R 0.577350269189625764) by (q2r; lra).
  assert (E1 : Q2R 1.00000000000000000 * (Q2R 1.00000000000000000 * 1) = 1) by (q2r; lra).
  rewrite E, E1. reflexivity.
Qed.

Lemma quad4_modes coord params K m E nu rho u : elast_quad4 coord params = Ok (K, m) ->
  par_opt params = Some (E, nu, rho) -> 0 < E -> -1 < nu < 1 -> form 8 K u u = 0 ->
  exists a b w, forall j, (j < 8)%nat -> u j = rigid2 coord a b w j.
Proof.
  intros Hrun Hpar HE Hnu H0.
  assert (Hp : In pl_quad4 planes) by (cbn; tauto).
  pose proof (plane_strain_zero pl_quad4 coord params K m E nu rho u Hp Hrun Hpar HE Hnu H0) as HZ.
  destruct quad4_points as [g [Hg Hgq]]. rewrite Hgq in HZ. clear Hgq Hrun Hpar H0 HE Hnu K m E nu rho Hp.
  cbn [pl_n pl_sh pl_quad4] in HZ.
  set (X := fun k => ent coord k 0). set (Y := fun k => ent coord k 1).
  assert (HA : forall r s, In (r, s, 1) [(- g, - g, 1); (- g, g, 1); (g, - g, 1); (g, g, 1)] ->
    (bl1 X * bl2 Y - bl2 X * bl1 Y) + (bl1 X * bl3 Y - bl3 X * bl1 Y) * r + (bl3 X * bl2 Y - bl2 X * bl3 Y) * s <> 0 /\
    (bl1 (ux u) * bl2 Y - bl2 (ux u) * bl1 Y) + (bl1 (ux u) * bl3 Y - bl3 (ux u) * bl1 Y) * r + (bl3 (ux u) * bl2 Y - bl2 (ux u) * bl3 Y) * s = 0 /\
    (bl1 X * bl2 (uy u) - bl2 X * bl1 (uy u)) + (bl1 X * bl3 (uy u) - bl3 X * bl1 (uy u)) * r + (bl3 X * bl2 (uy u) - bl2 X * bl3 (uy u)) * s = 0 /\
    ((bl1 X * bl2 (ux u) - bl2 X * bl1 (ux u)) + (bl1 (uy u) * bl2 Y - bl2 (uy u) * bl1 Y)) +
    ((bl1 X * bl3 (ux u) - bl3 X * bl1 (ux u)) + (bl1 (uy u) * bl3 Y - bl3 (uy u) * bl1 Y)) * r +
    ((bl3 X * bl2 (ux u) - bl2 X * bl3 (ux u)) + (bl3 (uy u) * bl2 Y - bl2 (uy u) * bl3 Y)) * s = 0).
  { intros r s Hin. destruct (HZ r s 1 Hin) as [Hd Hs].
    destruct (quad4_strain coord u r s Hd) as [E0 [E1 [E2 E3]]]. fold X in E0, E2, E3. fold Y in E0, E1, E3.
    apply (eq_trans (eq_sym (Rmult_eq_compat_r _ _ _ (Hs 0%nat ltac:(lia))))) in E1.
    apply (eq_trans (eq_sym (Rmult_eq_compat_r _ _ _ (Hs 1%nat ltac:(lia))))) in E2.
    apply (eq_trans (eq_sym (Rmult_eq_compat_r _ _ _ (Hs 2%nat ltac:(lia))))) in E3.
    rewrite Rmult_0_l in E1, E2, E3. split; [rewrite <- E0; exact Hd|]. split; [symmetry; exact E1|]. split; [symmetry; exact E2|].
    rewrite E3. ring. }
  clear HZ.
  destruct (HA (- g) (- g) ltac:(cbn; tauto)) as [Z [A1 [B1 C1]]].
  destruct (HA (- g) g ltac:(cbn; tauto)) as [_ [A2 [B2 C2]]].
  destruct (HA g (- g) ltac:(cbn; tauto)) as [_ [A3 [B3 C3]]].
  destruct (HA g g ltac:(cbn; tauto)) as [_ [A4 [B4 C4]]]. clear HA.
  destruct (affine4 _ _ _ g Hg A1 A2 A3 A4) as [Ap [Aq At]].
  destruct (affine4 _ _ _ g Hg B1 B2 B3 B4) as [Bp [Bq Bt]].
  destruct (affine4 _ _ _ g Hg C1 C2 C3 C4) as [Cp [Cq Ct]].
  clear A1 A2 A3 A4 B1 B2 B3 B4 C1 C2 C3 C4.
  assert (HW : exists w, bl1 (ux u) = - w * bl1 Y /\ bl2 (ux u) = - w * bl2 Y /\ bl3 (ux u) = - w * bl3 Y /\
                         bl1 (uy u) = w * bl1 X /\ bl2 (uy u) = w * bl2 X /\ bl3 (uy u) = w * bl3 X).
  { destruct (Req_EM_T (bl1 X * bl2 Y - bl2 X * bl1 Y) 0) as [Z0|Z0].
    2:{ apply parallel; try lra. }
    destruct (Req_EM_T (bl1 X * bl3 Y - bl3 X * bl1 Y) 0) as [Z1|Z1].
    2:{ destruct (parallel (bl1 X) (bl3 X) (bl2 X) (bl1 Y) (bl3 Y) (bl2 Y)
          (bl1 (ux u)) (bl3 (ux u)) (bl2 (ux u)) (bl1 (uy u)) (bl3 (uy u)) (bl2 (uy u))) as [w Hw]; try lra.
        exists w. tauto. }
    destruct (Req_EM_T (bl3 X * bl2 Y - bl2 X * bl3 Y) 0) as [Z2|Z2].
    2:{ destruct (parallel (bl3 X) (bl2 X) (bl1 X) (bl3 Y) (bl2 Y) (bl1 Y)
          (bl3 (ux u)) (bl2 (ux u)) (bl1 (ux u)) (bl3 (uy u)) (bl2 (uy u)) (bl1 (uy u))) as [w Hw]; try lra.
        exists w. tauto. }
    exfalso. apply Z. rewrite Z0, Z1, Z2. ring. }
  destruct HW as [w [W1 [W2 [W3 [W4 [W5 W6]]]]]].
  exists ((ux u 0 + ux u 1 + ux u 2 + ux u 3) / 4 + w * ((Y 0%nat + Y 1%nat + Y 2%nat + Y 3%nat) / 4)),
         ((uy u 0 + uy u 1 + uy u 2 + uy u 3) / 4 - w * ((X 0%nat + X 1%nat + X 2%nat + X 3%nat) / 4)), w.
  unfold bl1, bl2, bl3 in W1, W2, W3, W4, W5, W6.
  assert (Hgoal : forall k, (k < 4)%nat -> u (2 * k)%nat = rigid2 coord
     ((ux u 0 + ux u 1 + ux u 2 + ux u 3) / 4 + w * ((Y 0%nat + Y 1%nat + Y 2%nat + Y 3%nat) / 4))
     ((uy u 0 + uy u 1 + uy u 2 + uy u 3) / 4 - w * ((X 0%nat + X 1%nat + X 2%nat + X 3%nat) / 4)) w (2 * k)%nat /\
     u (2 * k + 1)%nat = rigid2 coord
     ((ux u 0 + ux u 1 + ux u 2 + ux u 3) / 4 + w * ((Y 0%nat + Y 1%nat + Y 2%nat + Y 3%nat) / 4))
     ((uy u 0 + uy u 1 + uy u 2 + uy u 3) / 4 - w * ((X 0%nat + X 1%nat + X 2%nat + X 3%nat) / 4)) w (2 * k + 1)%nat).
  { intros k Hk. rewrite rigid2_even, rigid2_odd. unfold node_x, node_y.
    change (ent coord k 0) with (X k). change (ent coord k 1) with (Y k).
    change (u (2 * k)%nat) with (ux u k). change (u (2 * k + 1)%nat) with (uy u k).
    do 4 (destruct k as [|k]; [split; lra|]). lia. }
  intros j Hj. destruct (Nat.Even_or_Odd j) as [[k ->]|[k ->]]; apply Hgoal; lia.
Qed.
