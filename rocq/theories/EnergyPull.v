(** * Proofs: fields given in the coordinates x, y *)
From Coq Require Import String Reals List Arith Lia Lra Bool ZArith QArith Qreals.
From Verif Require Import Num LinAlg Gauss Fem Uel Spec LinR Base SpecElem SpecShape Elem2.
From Verif Require Import SpecQuad SpecEnergy Areas Elem2Modes2 EnergyProofs EnergyElem EnergyFinal.
Import ListNotations.
Local Open Scope R_scope.

Lemma flat_value a b c r s : poly2 (flat a b c) r s = a + b * r + c * s.
Proof. unfold flat, poly2; cbn; ring. Qed.

(** chain rule *)
Lemma lin_derives a b x : derivable_pt_lim (fun t => a + b * t) x b.
Proof.
  assert (H : derivable_pt_lim (fun t => a + b * t) x (0 + b * 1)); [|replace (0 + b * 1) with b in H by ring; exact H].
  apply (derivable_pt_lim_plus (fun _ => a) (fun t => b * t)); [apply derivable_pt_lim_const|].
  apply (derivable_pt_lim_scal (fun t => t)). apply derivable_pt_lim_id.
Qed.
Lemma pow_lin_derives a b n x : derivable_pt_lim (fun t => (a + b * t) ^ n) x (INR n * (a + b * x) ^ pred n * b).
Proof.
  apply (derivable_pt_lim_comp (fun t => a + b * t) (fun y => y ^ n)); [apply lin_derives|apply derivable_pt_lim_pow].
Qed.
Lemma chain F a b c d t : derivable_pt_lim (fun t => poly2 F (a + b * t) (c + d * t)) t
  (poly2 (d_r F) (a + b * t) (c + d * t) * b + poly2 (d_s F) (a + b * t) (c + d * t) * d).
Proof.
  induction F as [|[k [i j]] F IH].
  - unfold poly2. cbn. replace (0 * b + 0 * d) with 0 by ring. apply derivable_pt_lim_const.
  - rewrite poly2_dr_cons, poly2_ds_cons.
    match goal with |- derivable_pt_lim _ _ ((k * ?A + ?B) * b + (k * ?C + ?E) * d) =>
      replace ((k * A + B) * b + (k * C + E) * d) with (k * (A * b + C * d) + (B * b + E * d)) by ring end.
    apply (derivable_pt_lim_plus (fun t => k * ((a + b * t) ^ i * (c + d * t) ^ j)) (fun t => poly2 F (a + b * t) (c + d * t))); [|exact IH].
    apply (derivable_pt_lim_scal (fun t => (a + b * t) ^ i * (c + d * t) ^ j)).
    match goal with |- derivable_pt_lim _ _ (INR i * ?A * ?B * b + ?C * (INR j * ?E) * d) =>
      replace (INR i * A * B * b + C * (INR j * E) * d) with ((INR i * A * b) * B + C * (INR j * E * d)) by ring end.
    apply (derivable_pt_lim_mult (fun t => (a + b * t) ^ i) (fun t => (c + d * t) ^ j)); apply pow_lin_derives.
Qed.

Lemma gradient_physical m P F : fdet m <> 0 ->
  (forall r s, poly2 P r s = poly2 F (poly2 (fX m) r s) (poly2 (fY m) r s)) ->
  forall r s, poly2 (d_x m P) r s = poly2 (d_r F) (poly2 (fX m) r s) (poly2 (fY m) r s) /\
              poly2 (d_y m P) r s = poly2 (d_s F) (poly2 (fX m) r s) (poly2 (fY m) r s).
Proof.
  intros Hd HP r s. set (x := poly2 (fX m) r s). set (y := poly2 (fY m) r s).
  assert (Hr : poly2 (d_r P) r s = poly2 (d_r F) x y * xr m + poly2 (d_s F) x y * yr m).
  { apply (uniqueness_limite (fun t => poly2 P t s) r); [apply d_r_derives|].
    assert (C := chain F (x0 m + xs m * s) (xr m) (y0 m + ys m * s) (yr m) r).
    replace (x0 m + xs m * s + xr m * r) with x in C by (unfold x, fX; rewrite flat_value; ring).
    replace (y0 m + ys m * s + yr m * r) with y in C by (unfold y, fY; rewrite flat_value; ring).
    intros eps He. destruct (C eps He) as [del HD]. exists del. intros h Hh Hl. specialize (HD h Hh Hl). cbn beta in HD.
    rewrite !HP. unfold fX, fY. rewrite !flat_value.
    replace (x0 m + xr m * (r + h) + xs m * s) with (x0 m + xs m * s + xr m * (r + h)) by ring.
    replace (y0 m + yr m * (r + h) + ys m * s) with (y0 m + ys m * s + yr m * (r + h)) by ring.
    replace (x0 m + xr m * r + xs m * s) with (x0 m + xs m * s + xr m * r) by ring.
    replace (y0 m + yr m * r + ys m * s) with (y0 m + ys m * s + yr m * r) by ring. exact HD. }
  assert (Hs : poly2 (d_s P) r s = poly2 (d_r F) x y * xs m + poly2 (d_s F) x y * ys m).
  { apply (uniqueness_limite (fun t => poly2 P r t) s); [apply d_s_derives|].
    assert (C := chain F (x0 m + xr m * r) (xs m) (y0 m + yr m * r) (ys m) s).
    replace (x0 m + xr m * r + xs m * s) with x in C by (unfold x, fX; rewrite flat_value; ring).
    replace (y0 m + yr m * r + ys m * s) with y in C by (unfold y, fY; rewrite flat_value; ring).
    intros eps He. destruct (C eps He) as [del HD]. exists del. intros h Hh Hl. specialize (HD h Hh Hl). cbn beta in HD.
    rewrite !HP. unfold fX, fY. rewrite !flat_value. exact HD. }
  unfold d_x, d_y. rewrite !poly2_app, !poly2_scale, Hr, Hs. unfold fdet in *. split; field; exact Hd.
Qed.

(** quadratics in x, y are quadratics in r, s *)
Definition pull (m : frame) (F : pol) : pol :=
  flat_map (fun '(c, (i, j)) => pscale c (pmul (Nat.iter i (pmul (fX m)) [(1, (0, 0)%nat)]) (Nat.iter j (pmul (fY m)) [(1, (0, 0)%nat)]))) F.

Lemma iter_value n q r s : poly2 (Nat.iter n (pmul q) [(1, (0, 0)%nat)]) r s = poly2 q r s ^ n.
Proof.
  induction n; cbn [Nat.iter nat_rect pow]; [unfold poly2; cbn; ring|]. unfold Nat.iter in *. cbn [nat_rect]. rewrite poly2_mul, IHn. reflexivity.
Qed.
Lemma pull_value m F r s : poly2 (pull m F) r s = poly2 F (poly2 (fX m) r s) (poly2 (fY m) r s).
Proof.
  induction F as [|[c [i j]] F IH]; [reflexivity|]. cbn [pull flat_map]. rewrite poly2_app, poly2_cons. fold (pull m F).
  rewrite IH, poly2_scale, poly2_mul, !iter_value. reflexivity.
Qed.
Lemma iter_upto n q : upto 1 q -> upto n (Nat.iter n (pmul q) [(1, (0, 0)%nat)]).
Proof.
  intros H. induction n; [repeat constructor|]. unfold Nat.iter in *. cbn [nat_rect]. eapply upto_mul; [exact H|exact IHn|lia].
Qed.
Lemma flat_upto a b c : upto 1 (flat a b c).
Proof. repeat constructor. Qed.
Lemma upto_quadratic q : upto 2 q -> within quadratic2 q.
Proof.
  unfold upto, within. apply Forall_impl. intros [c [i j]] H. cbn in *.
  destruct i as [|[|[|i]]], j as [|[|[|j]]]; cbn in *; try lia; tauto.
Qed.
Lemma pull_within m F : within quadratic2 F -> within quadratic2 (pull m F).
Proof.
  intros H. apply upto_quadratic. unfold within, upto, pull in *. rewrite Forall_flat_map. revert H. apply Forall_impl.
  intros [c [i j]] H. apply upto_scale. eapply upto_mul; [apply iter_upto, flat_upto|apply iter_upto, flat_upto|].
  cbn in H. repeat (destruct H as [H|H]; [injection H as <- <-; lia|]). destruct H.
Qed.

Lemma quadratic_pulls m F : within quadratic2 F ->
  exists P, within quadratic2 P /\ within serendipity2 P /\ within biquadratic2 P /\
    forall r s, poly2 P r s = poly2 F (poly2 (fX m) r s) (poly2 (fY m) r s).
Proof.
  intros H. exists (pull m F). assert (W := pull_within m F H). split; [exact W|].
  split; [|split]; [| |apply pull_value]; revert W; apply Forall_impl; intros t; cbn; tauto.
Qed.

(** theorems in terms of the routines *)
Lemma plane_energy f nodes basis over :
  In (f, nodes, basis, over)
    [(elast_tri3, ref_tri3, linear2, integral_tri); (elast_tri6, ref_tri6, quadratic2, integral_tri);
     (elast_quad4, ref_quad4, bilinear2, integral_sq); (elast_quad8, ref_quad8, serendipity2, integral_sq);
     (elast_quad9, ref_quad9, biquadratic2, integral_sq)] ->
  forall m P Q P' Q' E nu rho K M,
  within basis P -> within basis Q -> within basis P' -> within basis Q' ->
  f (image (fX m) (fY m) nodes) [E; nu; rho] = Ok (K, M) ->
  exists I, the_integral over (energy E nu m P Q P' Q') I /\
    Rabs (form (2 * length nodes) K (nodal P Q nodes) (nodal P' Q' nodes) - fdet m * I)
      <= fdet m * (1 / 1000000000000 * size (energy E nu m P Q P' Q')).
Proof.
  intros H m P Q P' Q' E nu rho K M. repeat (destruct H as [H|H]; [injection H as <- <- <- <-|]); [| | | | |destruct H].
  - apply (stiffness_integral pl_tri3 ref_tri3 linear2 linear2 true 1 0 2); cbn; tauto.
  - apply (stiffness_integral pl_tri6 ref_tri6 quadratic2 linear2 true 2 0 5); cbn; tauto.
  - apply (stiffness_integral pl_quad4 ref_quad4 bilinear2 bilinear2 false 1 1 3); cbn; tauto.
  - apply (stiffness_integral pl_quad8 ref_quad8 serendipity2 bilinear2 false 2 1 5); cbn; tauto.
  - apply (stiffness_integral pl_quad9 ref_quad9 biquadratic2 bilinear2 false 2 1 5); cbn; tauto.
Qed.
Lemma plane_kinetic f nodes basis geo over :
  In (f, nodes, basis, geo, over)
    [(elast_tri3, ref_tri3, linear2, linear2, integral_tri); (elast_tri6, ref_tri6, quadratic2, linear2, integral_tri);
     (elast_quad4, ref_quad4, bilinear2, bilinear2, integral_sq); (elast_quad8, ref_quad8, serendipity2, bilinear2, integral_sq);
     (elast_quad9, ref_quad9, biquadratic2, bilinear2, integral_sq)] ->
  forall X Y P Q P' Q' E nu rho K M,
  within geo X -> within geo Y -> within basis P -> within basis Q -> within basis P' -> within basis Q' ->
  f (image X Y nodes) [E; nu; rho] = Ok (K, M2 M) ->
  exists I, the_integral over (pmul (kinetic rho P Q P' Q') (jac X Y)) I /\
    Rabs (form (2 * length nodes) M (nodal P Q nodes) (nodal P' Q' nodes) - I)
      <= 1 / 1000000000000 * size (pmul (kinetic rho P Q P' Q') (jac X Y)).
Proof.
  intros H X Y P Q P' Q' E nu rho K M. repeat (destruct H as [H|H]; [injection H as <- <- <- <- <-|]); [| | | | |destruct H].
  - apply (mass_integral pl_tri3 ref_tri3 linear2 linear2 true 1 0 2); cbn; tauto.
  - apply (mass_integral pl_tri6 ref_tri6 quadratic2 linear2 true 2 0 5); cbn; tauto.
  - apply (mass_integral pl_quad4 ref_quad4 bilinear2 bilinear2 false 1 1 3); cbn; tauto.
  - apply (mass_integral pl_quad8 ref_quad8 serendipity2 bilinear2 false 2 1 5); cbn; tauto.
  - apply (mass_integral pl_quad9 ref_quad9 biquadratic2 bilinear2 false 2 1 5); cbn; tauto.
Qed.
Lemma plane_frames f nodes :
  In (f, nodes) [(elast_tri3, ref_tri3); (elast_tri6, ref_tri6); (elast_quad4, ref_quad4); (elast_quad8, ref_quad8); (elast_quad9, ref_quad9)] ->
  forall m E nu rho,
  (exists K M, f (image (fX m) (fY m) nodes) [E; nu; rho] = Ok (K, M2 M)) <-> 1 / 100000000 < fdet m /\ nu * nu <> 1.
Proof.
  intros H m E nu rho. repeat (destruct H as [H|H]; [injection H as <- <-|]); [| | | | |destruct H].
  - apply (frame_runs pl_tri3 ref_tri3 linear2 linear2 true 1 0 2); cbn; tauto.
  - apply (frame_runs pl_tri6 ref_tri6 quadratic2 linear2 true 2 0 5); cbn; tauto.
  - apply (frame_runs pl_quad4 ref_quad4 bilinear2 bilinear2 false 1 1 3); cbn; tauto.
  - apply (frame_runs pl_quad8 ref_quad8 serendipity2 bilinear2 false 2 1 5); cbn; tauto.
  - apply (frame_runs pl_quad9 ref_quad9 biquadratic2 bilinear2 false 2 1 5); cbn; tauto.
Qed.

(** every vector of nodal values is that of a field *)
Definition interp (basis : list (nat * nat)) (c : nat -> nat -> R) : pol := map (fun e => (c (fst e) (snd e), e)) basis.
Lemma interp_within basis c : within basis (interp basis c).
Proof. unfold within, interp. rewrite Forall_map. apply Forall_forall. auto. Qed.
Definition c3 (v : nat -> R) (i j : nat) : R :=
  match i, j with 0%nat, 0%nat => v 0%nat | 1%nat, 0%nat => v 1%nat - v 0%nat | 0%nat, 1%nat => v 2%nat - v 0%nat | _, _ => 0 end.
Definition c4 (v : nat -> R) (i j : nat) : R :=
  match i, j with
  | 0%nat, 0%nat => (v 0%nat + v 1%nat + v 2%nat + v 3%nat) / 4
  | 1%nat, 0%nat => (- v 0%nat + v 1%nat + v 2%nat - v 3%nat) / 4
  | 0%nat, 1%nat => (- v 0%nat - v 1%nat + v 2%nat + v 3%nat) / 4
  | 1%nat, 1%nat => (v 0%nat - v 1%nat + v 2%nat - v 3%nat) / 4
  | _, _ => 0 end.

Lemma every_scalar nodes basis :
  In (nodes, basis) [(ref_tri3, linear2); (ref_tri6, quadratic2); (ref_quad4, bilinear2); (ref_quad8, serendipity2); (ref_quad9, biquadratic2)] ->
  forall v, exists P, within basis P /\ forall k, (k < length nodes)%nat -> poly2 P (fst (nth k nodes (0, 0))) (snd (nth k nodes (0, 0))) = v k.
Proof.
  intros H v. repeat (destruct H as [H|H]; [injection H as <- <-|]); [| | | | |destruct H].
  - exists (interp linear2 (c3 v)). split; [apply interp_within|]. intros k Hk. cbn in Hk.
    do 3 (destruct k as [|k]; [unfold poly2, interp; cbn; field|]). lia.
  - exists (interp quadratic2 (c6 v)). split; [apply interp_within|]. intros k Hk. cbn in Hk.
    do 6 (destruct k as [|k]; [unfold poly2, interp; cbn; field|]). lia.
  - exists (interp bilinear2 (c4 v)). split; [apply interp_within|]. intros k Hk. cbn in Hk.
    do 4 (destruct k as [|k]; [unfold poly2, interp; cbn; field|]). lia.
  - exists (interp serendipity2 (c8 v)). split; [apply interp_within|]. intros k Hk. cbn in Hk.
    do 8 (destruct k as [|k]; [unfold poly2, interp; cbn; unfold n22, q10, q01, q11, q21, q12, e20, e02, n20, n02; field|]). lia.
  - exists (interp biquadratic2 (c9 v)). split; [apply interp_within|]. intros k Hk. cbn in Hk.
    do 9 (destruct k as [|k]; [unfold poly2, interp; cbn; unfold n22, q10, q01, q11, q21, q12, e20, e02, n20, n02; field|]). lia.
Qed.

Lemma every_field nodes basis :
  In (nodes, basis) [(ref_tri3, linear2); (ref_tri6, quadratic2); (ref_quad4, bilinear2); (ref_quad8, serendipity2); (ref_quad9, biquadratic2)] ->
  forall u, exists P Q, within basis P /\ within basis Q /\ forall j, (j < 2 * length nodes)%nat -> nodal P Q nodes j = u j.
Proof.
  intros H u. destruct (every_scalar nodes basis H (fun k => u (2 * k)%nat)) as (P & WP & EP).
  destruct (every_scalar nodes basis H (fun k => u (2 * k + 1)%nat)) as (Q & WQ & EQ).
  exists P, Q. split; [exact WP|]. split; [exact WQ|]. intros j Hj. unfold nodal.
  destruct (Nat.Even_or_Odd j) as [[k ->]|[k ->]].
  - rewrite Elem2Props.field2_even. apply EP. lia.
  - rewrite Elem2Props.field2_odd. apply EQ. lia.
Qed.

Lemma pol_derivatives : forall p r s,
  derivable_pt_lim (fun x => poly2 p x s) r (poly2 (d_r p) r s) /\
  derivable_pt_lim (fun y => poly2 p r y) s (poly2 (d_s p) r s).
Proof. intros. split; [apply d_r_derives|apply d_s_derives]. Qed.
Lemma pol_arithmetic : forall p q k r s,
  poly2 (pmul p q) r s = poly2 p r s * poly2 q r s /\ poly2 (pscale k p) r s = k * poly2 p r s /\
  poly2 (p ++ q) r s = poly2 p r s + poly2 q r s.
Proof. intros. split; [apply poly2_mul|]. split; [apply poly2_scale|apply poly2_app]. Qed.
