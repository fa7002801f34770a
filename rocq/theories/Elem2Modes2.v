(** * Proofs: no spurious modes of tri6, and of straight-sided quad8 and quad9 *)
From Coq Require Import String Reals List Arith Lia Lra Bool ZArith QArith Qreals.
From Verif Require Import Num LinAlg Gauss Fem Uel Spec LinR Base ElemShape BarProofs SpecElem SpecShape ShapeProofs ElemCore Sampled Elem2 MatProofs Elem2Props Elem2Mass Elem2Modes Areas SpecModes Rigid2D.
Import ListNotations.
Local Open Scope R_scope.

(** the 2x2 determinant of two gradients *)
Definition wedge (c d : nat -> nat -> R) (r s : R) : R := bq_r c r s * bq_s d r s - bq_s c r s * bq_r d r s.

Section Interp.
  Variable n : nat.
  Variable sh : R -> R -> list R * list (list R).
  Variable C : (nat -> R) -> nat -> nat -> R.
  Hypothesis Cr : forall r s v, rsum n (fun k => ent (snd (sh r s)) 0 k * v k) = bq_r (C v) r s.
  Hypothesis Cs : forall r s v, rsum n (fun k => ent (snd (sh r s)) 1 k * v k) = bq_s (C v) r s.
  Hypothesis Cn : forall k, (k < n)%nat -> exists r s, forall v, bq (C v) r s = v k.
  Variable coord : list (list R).
  Variable u : nat -> R.
  Let X k := ent coord k 0.
  Let Y k := ent coord k 1.

  Lemma strain_wedge r s : det_at n sh coord r s <> 0 -> (forall a, (a < 3)%nat -> strain2 n (snd (sh r s)) coord u a = 0) ->
    wedge (C X) (C Y) r s <> 0 /\ wedge (C (ux u)) (C Y) r s = 0 /\ wedge (C X) (C (uy u)) r s = 0 /\
    wedge (C X) (C (ux u)) r s + wedge (C (uy u)) (C Y) r s = 0.
  Proof.
    intros Hd HS. unfold det_at in Hd. unfold wedge.
    pose proof (HS 0%nat ltac:(lia)) as S0. pose proof (HS 1%nat ltac:(lia)) as S1. pose proof (HS 2%nat ltac:(lia)) as S2. clear HS.
    pose proof (Cr r s) as Dr. pose proof (Cs r s) as Ds. set (D := snd (sh r s)) in *.
    assert (J00 : Jac n D coord 0 0 = bq_r (C X) r s) by apply Dr.
    assert (J01 : Jac n D coord 0 1 = bq_r (C Y) r s) by apply Dr.
    assert (J10 : Jac n D coord 1 0 = bq_s (C X) r s) by apply Ds.
    assert (J11 : Jac n D coord 1 1 = bq_s (C Y) r s) by apply Ds.
    assert (Hd' : J2det (Jac n D coord) <> 0) by exact Hd. clear Hd.
    split; [|split; [|split]].
    - intros E. apply Hd'. unfold J2det. rewrite J00, J01, J10, J11, <- E. ring.
    - transitivity (strain2 n D coord u 0 * J2det (Jac n D coord)); [|rewrite S0; ring]. unfold strain2.
      symmetry. etransitivity; [apply (rsum_grad0 n D coord (ux u) Hd')|]. rewrite J11, J01, Dr, Ds. ring.
    - transitivity (strain2 n D coord u 1 * J2det (Jac n D coord)); [|rewrite S1; ring]. unfold strain2.
      symmetry. etransitivity; [apply (rsum_grad1 n D coord (uy u) Hd')|]. rewrite J00, J10, Dr, Ds. ring.
    - transitivity (strain2 n D coord u 2 * J2det (Jac n D coord)); [|rewrite S2; ring]. unfold strain2. rewrite rsum_plus, Rmult_plus_distr_r.
      symmetry. etransitivity; [apply (f_equal2 Rplus (rsum_grad1 n D coord (ux u) Hd') (rsum_grad0 n D coord (uy u) Hd'))|].
      rewrite J00, J01, J10, J11, !Dr, !Ds. ring.
  Qed.

  Lemma wedge_rigid r0 s0 : wedge (C X) (C Y) r0 s0 <> 0 ->
    (forall r s, wedge (C (ux u)) (C Y) r s = 0) -> (forall r s, wedge (C X) (C (uy u)) r s = 0) ->
    (forall r s, wedge (C X) (C (ux u)) r s + wedge (C (uy u)) (C Y) r s = 0) ->
    exists a b w, forall j, (j < 2 * n)%nat -> u j = rigid2 coord a b w j.
  Proof.
    intros H0 HA HB HC. destruct (bq_rigid (C X) (C Y) (C (ux u)) (C (uy u)) r0 s0 HA HB HC H0) as (a & b & w & F).
    exists a, b, w. assert (G : forall k, (k < n)%nat -> u (2 * k)%nat = rigid2 coord a b w (2 * k)%nat /\ u (2 * k + 1)%nat = rigid2 coord a b w (2 * k + 1)%nat).
    { intros k Hk. destruct (Cn k Hk) as (r & s & E). destruct (F r s) as [F1 F2]. rewrite !E in F1, F2.
      rewrite rigid2_even, rigid2_odd. unfold node_x, node_y. split; [exact F1|exact F2]. }
    intros j Hj. destruct (Nat.Even_or_Odd j) as [[k ->]|[k ->]]; apply G; lia.
  Qed.
End Interp.

(** ** tri6 *)
Definition c6 (v : nat -> R) (i j : nat) : R :=
  match i, j with
  | 0%nat, 0%nat => v 0%nat
  | 1%nat, 0%nat => - 3 * v 0%nat - v 1%nat + 4 * v 3%nat
  | 0%nat, 1%nat => - 3 * v 0%nat - v 2%nat + 4 * v 5%nat
  | 2%nat, 0%nat => 2 * v 0%nat + 2 * v 1%nat - 4 * v 3%nat
  | 0%nat, 2%nat => 2 * v 0%nat + 2 * v 2%nat - 4 * v 5%nat
  | 1%nat, 1%nat => 4 * v 0%nat - 4 * v 3%nat + 4 * v 4%nat - 4 * v 5%nat
  | _, _ => 0
  end.
Lemma c6_r r s v : rsum 6 (fun k => ent (snd (shape_tri6 r s)) 0 k * v k) = bq_r (c6 v) r s.
Proof. unfold bq_r, c6, ent. shp. cbn [rsum nth]. ring. Qed.
Lemma c6_s r s v : rsum 6 (fun k => ent (snd (shape_tri6 r s)) 1 k * v k) = bq_s (c6 v) r s.
Proof. unfold bq_s, c6, ent. shp. cbn [rsum nth]. ring. Qed.
Lemma c6_n k : (k < 6)%nat -> exists r s, forall v, bq (c6 v) r s = v k.
Proof.
  intros Hk. destruct k as [|[|[|[|[|[|]]]]]]; [exists 0, 0|exists 1, 0|exists 0, 1|exists (1/2), 0|exists (1/2), (1/2)|exists 0, (1/2)|lia];
    intros v; unfold bq, c6; field.
Qed.

Definition quad2 (a b c d e f r s : R) : R := a + b * r + c * s + d * r * r + e * r * s + f * s * s.
Lemma wedge_c6 v v' z z' : exists a b c d e f, forall r s, wedge (c6 v) (c6 v') r s + wedge (c6 z) (c6 z') r s = quad2 a b c d e f r s.
Proof.
  set (k v i j := c6 v i j).
  exists (k v 1%nat 0%nat * k v' 0%nat 1%nat - k v 0%nat 1%nat * k v' 1%nat 0%nat + (k z 1%nat 0%nat * k z' 0%nat 1%nat - k z 0%nat 1%nat * k z' 1%nat 0%nat)),
   (k v 1%nat 0%nat * k v' 1%nat 1%nat + 2 * k v 2%nat 0%nat * k v' 0%nat 1%nat - k v 0%nat 1%nat * (2 * k v' 2%nat 0%nat) - k v 1%nat 1%nat * k v' 1%nat 0%nat
    + (k z 1%nat 0%nat * k z' 1%nat 1%nat + 2 * k z 2%nat 0%nat * k z' 0%nat 1%nat - k z 0%nat 1%nat * (2 * k z' 2%nat 0%nat) - k z 1%nat 1%nat * k z' 1%nat 0%nat)),
   (k v 1%nat 0%nat * (2 * k v' 0%nat 2%nat) + k v 1%nat 1%nat * k v' 0%nat 1%nat - k v 0%nat 1%nat * k v' 1%nat 1%nat - 2 * k v 0%nat 2%nat * k v' 1%nat 0%nat
    + (k z 1%nat 0%nat * (2 * k z' 0%nat 2%nat) + k z 1%nat 1%nat * k z' 0%nat 1%nat - k z 0%nat 1%nat * k z' 1%nat 1%nat - 2 * k z 0%nat 2%nat * k z' 1%nat 0%nat)),
   (2 * k v 2%nat 0%nat * k v' 1%nat 1%nat - k v 1%nat 1%nat * (2 * k v' 2%nat 0%nat) + (2 * k z 2%nat 0%nat * k z' 1%nat 1%nat - k z 1%nat 1%nat * (2 * k z' 2%nat 0%nat))),
   (4 * k v 2%nat 0%nat * k v' 0%nat 2%nat - 4 * k v 0%nat 2%nat * k v' 2%nat 0%nat + (4 * k z 2%nat 0%nat * k z' 0%nat 2%nat - 4 * k z 0%nat 2%nat * k z' 2%nat 0%nat)),
   (k v 1%nat 1%nat * (2 * k v' 0%nat 2%nat) - 2 * k v 0%nat 2%nat * k v' 1%nat 1%nat + (k z 1%nat 1%nat * (2 * k z' 0%nat 2%nat) - 2 * k z 0%nat 2%nat * k z' 1%nat 1%nat)).
  intros r' s'. unfold quad2, wedge, bq_r, bq_s, k. 
  change (c6 v 1 2) with 0. change (c6 v 2 1) with 0. change (c6 v 2 2) with 0.
  change (c6 v' 1 2) with 0. change (c6 v' 2 1) with 0. change (c6 v' 2 2) with 0.
  change (c6 z 1 2) with 0. change (c6 z 2 1) with 0. change (c6 z 2 2) with 0.
  change (c6 z' 1 2) with 0. change (c6 z' 2 1) with 0. change (c6 z' 2 2) with 0. 
  ring.
Qed.
Lemma quad2_zero a b c d e f : (forall r s w, In (r, s, w) (pl_gq pl_tri6) -> quad2 a b c d e f r s = 0) -> forall r s, quad2 a b c d e f r s = 0.
Proof.
  unfold pl_tri6. cbn [pl_gq]. unfold triples, gauss_tri. cbn [GaussTab.gauss_tri_tab].
  unfold GaussTab.gauss_tri_3_4_5_pts, GaussTab.gauss_tri_3_4_5_wts, quad2. cbn [map combine fst snd nth]. numR. intros H.
  pose proof (H _ _ _ (or_introl eq_refl)) as H1. pose proof (H _ _ _ (or_intror (or_introl eq_refl))) as H2.
  pose proof (H _ _ _ (or_intror (or_intror (or_introl eq_refl)))) as H3.
  pose proof (H _ _ _ (or_intror (or_intror (or_intror (or_introl eq_refl))))) as H4.
  pose proof (H _ _ _ (or_intror (or_intror (or_intror (or_intror (or_introl eq_refl)))))) as H5.
  pose proof (H _ _ _ (or_intror (or_intror (or_intror (or_intror (or_intror (or_introl eq_refl))))))) as H6. clear H.
  revert H1 H2 H3 H4 H5 H6. q2r. intros.
  assert (a = 0 /\ b = 0 /\ c = 0 /\ d = 0 /\ e = 0 /\ f = 0) as (-> & -> & -> & -> & -> & ->) by (repeat split; lra).
  intros. ring.
Qed.

Lemma tri6_modes coord params K m E nu rho u : elast_tri6 coord params = Ok (K, m) ->
  par_opt params = Some (E, nu, rho) -> 0 < E -> -1 < nu < 1 -> form 12 K u u = 0 ->
  exists a b w, forall j, (j < 12)%nat -> u j = rigid2 coord a b w j.
Proof.
  intros Hrun Hpar HE Hnu H0. assert (Hp : In pl_tri6 planes) by (cbn; tauto).
  pose proof (plane_strain_zero pl_tri6 coord params K m E nu rho u Hp Hrun Hpar HE Hnu H0) as HZ.
  assert (HW : forall r s w, In (r, s, w) (pl_gq pl_tri6) -> _) by
    exact (fun r s w Hin => strain_wedge 6 shape_tri6 c6 c6_r c6_s coord u r s (proj1 (HZ r s w Hin)) (proj2 (HZ r s w Hin))).
  cbv beta in HW. clear HZ. set (X := fun k => ent coord k 0) in HW. set (Y := fun k => ent coord k 1) in HW.
  assert (G : exists r s w, In (r, s, w) (pl_gq pl_tri6)) by (do 3 eexists; left; reflexivity). destruct G as (r0 & s0 & w0 & G).
  set (O := fun _ : nat => 0). assert (WO : forall r s, wedge (c6 O) (c6 O) r s = 0) by (intros r s; unfold wedge, bq_r, bq_s, c6, O; ring).
  apply (wedge_rigid 6 c6 c6_n coord u r0 s0 (proj1 (HW r0 s0 w0 G))).
  - intros r s. destruct (wedge_c6 (ux u) Y O O) as (a & b & c & d & e & f & E0).
    transitivity (wedge (c6 (ux u)) (c6 Y) r s + wedge (c6 O) (c6 O) r s); [rewrite WO; symmetry; apply Rplus_0_r|]. rewrite E0.
    apply quad2_zero. intros r' s' w' H. rewrite <- E0, WO, Rplus_0_r. apply (HW r' s' w' H).
  - intros r s. destruct (wedge_c6 X (uy u) O O) as (a & b & c & d & e & f & E0).
    transitivity (wedge (c6 X) (c6 (uy u)) r s + wedge (c6 O) (c6 O) r s); [rewrite WO; symmetry; apply Rplus_0_r|]. rewrite E0.
    apply quad2_zero. intros r' s' w' H. rewrite <- E0, WO, Rplus_0_r. apply (HW r' s' w' H).
  - intros r s. destruct (wedge_c6 X (ux u) (uy u) Y) as (a & b & c & d & e & f & E0). transitivity (quad2 a b c d e f r s); [exact (E0 r s)|].
    apply quad2_zero. intros r' s' w' H. rewrite <- E0. apply (HW r' s' w' H).
Qed.

(** ** quad8 and quad9 *)
Definition c8 (v : nat -> R) (i j : nat) : R :=
  match i, j with
  | 0%nat, 0%nat => (v 4%nat + v 5%nat + v 6%nat + v 7%nat) / 2 - (v 0%nat + v 1%nat + v 2%nat + v 3%nat) / 4
  | 1%nat, 0%nat => q10 v
  | 0%nat, 1%nat => q01 v
  | 2%nat, 0%nat => e20 v
  | 0%nat, 2%nat => e02 v
  | 1%nat, 1%nat => q11 v
  | 2%nat, 1%nat => q21 v
  | 1%nat, 2%nat => q12 v
  | _, _ => 0
  end.
Definition c9 (v : nat -> R) (i j : nat) : R :=
  match i, j with
  | 0%nat, 0%nat => v 8%nat
  | 1%nat, 0%nat => q10 v
  | 0%nat, 1%nat => q01 v
  | 2%nat, 0%nat => n20 v
  | 0%nat, 2%nat => n02 v
  | 1%nat, 1%nat => q11 v
  | 2%nat, 1%nat => q21 v
  | 1%nat, 2%nat => q12 v
  | 2%nat, 2%nat => n22 v
  | _, _ => 0
  end.
Lemma c8_r r s v : rsum 8 (fun k => ent (snd (shape_quad8 r s)) 0 k * v k) = bq_r (c8 v) r s.
Proof. rewrite quad8_dr. unfold bq_r, c8. ring. Qed.
Lemma c8_s r s v : rsum 8 (fun k => ent (snd (shape_quad8 r s)) 1 k * v k) = bq_s (c8 v) r s.
Proof. rewrite quad8_ds. unfold bq_s, c8. ring. Qed.
Lemma c9_r r s v : rsum 9 (fun k => ent (snd (shape_quad9 r s)) 0 k * v k) = bq_r (c9 v) r s.
Proof. rewrite quad9_dr. unfold bq_r, c9. ring. Qed.
Lemma c9_s r s v : rsum 9 (fun k => ent (snd (shape_quad9 r s)) 1 k * v k) = bq_s (c9 v) r s.
Proof. rewrite quad9_ds. unfold bq_s, c9. ring. Qed.
Lemma c8_n k : (k < 8)%nat -> exists r s, forall v, bq (c8 v) r s = v k.
Proof.
  intros Hk. do 8 (destruct k as [|k]; [
    first [exists (-1), (-1); intros v; unfold bq, c8, q10, q01, q11, q21, q12, e20, e02; field
          |exists 1, (-1); intros v; unfold bq, c8, q10, q01, q11, q21, q12, e20, e02; field
          |exists 1, 1; intros v; unfold bq, c8, q10, q01, q11, q21, q12, e20, e02; field
          |exists (-1), 1; intros v; unfold bq, c8, q10, q01, q11, q21, q12, e20, e02; field
          |exists 0, (-1); intros v; unfold bq, c8, q10, q01, q11, q21, q12, e20, e02; field
          |exists 1, 0; intros v; unfold bq, c8, q10, q01, q11, q21, q12, e20, e02; field
          |exists 0, 1; intros v; unfold bq, c8, q10, q01, q11, q21, q12, e20, e02; field
          |exists (-1), 0; intros v; unfold bq, c8, q10, q01, q11, q21, q12, e20, e02; field]|]). lia.
Qed.
Lemma c9_n k : (k < 9)%nat -> exists r s, forall v, bq (c9 v) r s = v k.
Proof.
  intros Hk. do 9 (destruct k as [|k]; [
    first [exists (-1), (-1); intros v; unfold bq, c9, n22, e20, q10, q01, q11, q21, q12, n20, n02; field
          |exists 1, (-1); intros v; unfold bq, c9, n22, e20, q10, q01, q11, q21, q12, n20, n02; field
          |exists 1, 1; intros v; unfold bq, c9, n22, e20, q10, q01, q11, q21, q12, n20, n02; field
          |exists (-1), 1; intros v; unfold bq, c9, n22, e20, q10, q01, q11, q21, q12, n20, n02; field
          |exists 0, (-1); intros v; unfold bq, c9, n22, e20, q10, q01, q11, q21, q12, n20, n02; field
          |exists 1, 0; intros v; unfold bq, c9, n22, e20, q10, q01, q11, q21, q12, n20, n02; field
          |exists 0, 1; intros v; unfold bq, c9, n22, e20, q10, q01, q11, q21, q12, n20, n02; field
          |exists (-1), 0; intros v; unfold bq, c9, n22, e20, q10, q01, q11, q21, q12, n20, n02; field
          |exists 0, 0; intros v; unfold bq, c9, n22, e20, q10, q01, q11, q21, q12, n20, n02; field]|]). lia.
Qed.

(** the determinant with a bilinear polynomial has degree two in each variable *)
Definition bilin (d : nat -> nat -> R) : Prop := d 2%nat 0%nat = 0 /\ d 0%nat 2%nat = 0 /\ d 2%nat 1%nat = 0 /\ d 1%nat 2%nat = 0 /\ d 2%nat 2%nat = 0.
Definition wc (c d : nat -> nat -> R) (i j : nat) : R :=
  match i, j with
  | 0%nat, 0%nat => c 1%nat 0%nat * d 0%nat 1%nat - c 0%nat 1%nat * d 1%nat 0%nat
  | 0%nat, 1%nat => c 1%nat 1%nat * d 0%nat 1%nat - c 0%nat 1%nat * d 1%nat 1%nat - 2 * c 0%nat 2%nat * d 1%nat 0%nat
  | 0%nat, 2%nat => c 1%nat 2%nat * d 0%nat 1%nat - 2 * c 0%nat 2%nat * d 1%nat 1%nat
  | 1%nat, 0%nat => c 1%nat 0%nat * d 1%nat 1%nat + 2 * c 2%nat 0%nat * d 0%nat 1%nat - c 1%nat 1%nat * d 1%nat 0%nat
  | 1%nat, 1%nat => 2 * c 2%nat 1%nat * d 0%nat 1%nat - 2 * c 1%nat 2%nat * d 1%nat 0%nat
  | 1%nat, 2%nat => c 1%nat 2%nat * d 1%nat 1%nat + 2 * c 2%nat 2%nat * d 0%nat 1%nat - 2 * c 1%nat 2%nat * d 1%nat 1%nat
  | 2%nat, 0%nat => 2 * c 2%nat 0%nat * d 1%nat 1%nat - c 2%nat 1%nat * d 1%nat 0%nat
  | 2%nat, 1%nat => 2 * c 2%nat 1%nat * d 1%nat 1%nat - c 2%nat 1%nat * d 1%nat 1%nat - 2 * c 2%nat 2%nat * d 1%nat 0%nat
  | 2%nat, 2%nat => 2 * c 2%nat 2%nat * d 1%nat 1%nat - 2 * c 2%nat 2%nat * d 1%nat 1%nat
  | _, _ => 0
  end.
Lemma wedge_wc c d r s : bilin d -> wedge c d r s = bq (wc c d) r s.
Proof. intros (A & B & E & F & G). unfold wedge, bq_r, bq_s, bq, wc. rewrite A, B, E, F, G. ring. Qed.
Lemma wedge_anti c d r s : wedge c d r s = - wedge d c r s.
Proof. unfold wedge. ring. Qed.

(** zero at the points of the 3 x 3 rule, hence everywhere *)
Lemma grid_zero c : (forall r s w, In (r, s, w) (triples (gauss_nd 3 2)) -> bq c r s = 0) -> forall r s, bq c r s = 0.
Proof.
  destruct gauss33 as (g & w0 & w1 & Hg & _ & _ & E). rewrite E. clear E. intros H.
  assert (G0 : g <> 0) by (rewrite Hg; lra).
  assert (Q : forall s, (s = - g \/ s = 0 \/ s = g) -> c 0%nat 0%nat + c 0%nat 1%nat * s + c 0%nat 2%nat * s * s = 0 /\ c 1%nat 0%nat + c 1%nat 1%nat * s + c 1%nat 2%nat * s * s = 0 /\
     c 2%nat 0%nat + c 2%nat 1%nat * s + c 2%nat 2%nat * s * s = 0).
  { intros s Hs. apply (quad_zero _ _ _ 0 g G0); [replace (0 - g) with (- g) by ring| |replace (0 + g) with g by ring].
    - destruct Hs as [E|[E|E]]; rewrite E; eapply (H (- g)); cbn; tauto.
    - destruct Hs as [E|[E|E]]; rewrite E; eapply (H 0); cbn; tauto.
    - destruct Hs as [E|[E|E]]; rewrite E; eapply (H g); cbn; tauto. }
  clear H. destruct (Q (- g) ltac:(tauto)) as (A1 & B1 & C1). destruct (Q 0 ltac:(tauto)) as (A2 & B2 & C2). destruct (Q g ltac:(tauto)) as (A3 & B3 & C3).
  assert (QZ : forall a b e, a + b * - g + e * - g * - g = 0 -> a + b * 0 + e * 0 * 0 = 0 -> a + b * g + e * g * g = 0 -> a = 0 /\ b = 0 /\ e = 0).
  { intros a b e H1 H2 H3. apply (quad_zero a b e 0 g G0); [replace (0 - g) with (- g) by ring; exact H1|exact H2|replace (0 + g) with g by ring; exact H3]. }
  destruct (QZ _ _ _ A1 A2 A3) as (Z1 & Z2 & Z3). destruct (QZ _ _ _ B1 B2 B3) as (Z4 & Z5 & Z6). destruct (QZ _ _ _ C1 C2 C3) as (Z7 & Z8 & Z9).
  intros r s. unfold bq. rewrite Z1, Z2, Z3, Z4, Z5, Z6, Z7, Z8, Z9. ring.
Qed.

Lemma quad_modes n sh C : (forall r s v, rsum n (fun k => ent (snd (sh r s)) 0 k * v k) = bq_r (C v) r s) ->
  (forall r s v, rsum n (fun k => ent (snd (sh r s)) 1 k * v k) = bq_s (C v) r s) ->
  (forall k, (k < n)%nat -> exists r s, forall v, bq (C v) r s = v k) ->
  forall coord u, bilin (C (fun k => ent coord k 0)) -> bilin (C (fun k => ent coord k 1)) ->
  (forall r s w, In (r, s, w) (triples (gauss_nd 3 2)) ->
    det_at n sh coord r s <> 0 /\ forall a, (a < 3)%nat -> strain2 n (snd (sh r s)) coord u a = 0) ->
  exists a b w, forall j, (j < 2 * n)%nat -> u j = rigid2 coord a b w j.
Proof.
  intros Cr Cs Cn coord u BX BY HZ.
  assert (HW : forall r s w, In (r, s, w) (triples (gauss_nd 3 2)) -> _) by
    exact (fun r s w Hin => strain_wedge n sh C Cr Cs coord u r s (proj1 (HZ r s w Hin)) (proj2 (HZ r s w Hin))).
  cbv beta in HW. clear HZ. set (X := fun k => ent coord k 0) in *. set (Y := fun k => ent coord k 1) in *.
  assert (G : exists r s w, In (r, s, w) (triples (@gauss_nd R Num_R 3 2))) by (do 3 eexists; left; reflexivity). destruct G as (r0 & s0 & w0 & G).
  apply (wedge_rigid n C Cn coord u r0 s0 (proj1 (HW r0 s0 w0 G))).
  - intros r s. rewrite (wedge_wc _ _ r s BY). apply grid_zero. intros r' s' w' H. rewrite <- (wedge_wc _ _ r' s' BY). apply (HW r' s' w' H).
  - intros r s. rewrite wedge_anti, (wedge_wc _ _ r s BX). rewrite (grid_zero _); [apply Ropp_0|]. intros r' s' w' H. rewrite <- (wedge_wc _ _ r' s' BX), wedge_anti.
    destruct (HW r' s' w' H) as (_ & _ & E & _). rewrite E. apply Ropp_0.
  - intros r s. assert (E : forall r s, wedge (C X) (C (ux u)) r s + wedge (C (uy u)) (C Y) r s = bq (fun i j => wc (C (uy u)) (C Y) i j - wc (C (ux u)) (C X) i j) r s).
    { intros r' s'. rewrite (wedge_anti (C X)), (wedge_wc _ _ r' s' BX), (wedge_wc _ _ r' s' BY). unfold bq. ring. }
    transitivity (bq (fun i j => wc (C (uy u)) (C Y) i j - wc (C (ux u)) (C X) i j) r s); [exact (E r s)|].
    apply grid_zero. intros r' s' w' H. rewrite <- E. apply (HW r' s' w' H).
Qed.

Lemma straight8_bilin coord : straight8 coord -> bilin (c8 (fun k => ent coord k 0)) /\ bilin (c8 (fun k => ent coord k 1)).
Proof.
  unfold straight8, halfway, node_x, node_y. intros ((A0 & B0) & (A1 & B1) & (A2 & B2) & (A3 & B3)).
  split; unfold bilin, c8, q21, q12, e20, e02; [rewrite A0, A1, A2, A3|rewrite B0, B1, B2, B3]; repeat split; field.
Qed.
Lemma straight9_bilin coord : straight9 coord -> bilin (c9 (fun k => ent coord k 0)) /\ bilin (c9 (fun k => ent coord k 1)).
Proof.
  unfold straight9, straight8, halfway, node_x, node_y. intros (((A0 & B0) & (A1 & B1) & (A2 & B2) & (A3 & B3)) & (A4 & B4)).
  split; unfold bilin, c9, n22, q21, q12, e20, n20, n02; [rewrite A4, A0, A1, A2, A3|rewrite B4, B0, B1, B2, B3]; repeat split; field.
Qed.
Lemma quad8_modes coord params K m E nu rho u : elast_quad8 coord params = Ok (K, m) ->
  par3 params = Some (E, nu, rho) -> 0 < E -> -1 < nu < 1 -> straight8 coord -> form 16 K u u = 0 ->
  exists a b w, forall j, (j < 16)%nat -> u j = rigid2 coord a b w j.
Proof.
  intros Hrun Hpar HE Hnu Hst H0. assert (Hp : In pl_quad8 planes) by (cbn; tauto).
  destruct (straight8_bilin coord Hst) as [BX BY].
  exact (quad_modes 8 shape_quad8 c8 c8_r c8_s c8_n coord u BX BY (plane_strain_zero pl_quad8 coord params K m E nu rho u Hp Hrun Hpar HE Hnu H0)).
Qed.
Lemma quad9_modes coord params K m E nu rho u : elast_quad9 coord params = Ok (K, m) ->
  par_opt params = Some (E, nu, rho) -> 0 < E -> -1 < nu < 1 -> straight9 coord -> form 18 K u u = 0 ->
  exists a b w, forall j, (j < 18)%nat -> u j = rigid2 coord a b w j.
Proof.
  intros Hrun Hpar HE Hnu Hst H0. assert (Hp : In pl_quad9 planes) by (cbn; tauto).
  destruct (straight9_bilin coord Hst) as [BX BY].
  exact (quad_modes 9 shape_quad9 c9 c9_r c9_s c9_n coord u BX BY (plane_strain_zero pl_quad9 coord params K m E nu rho u Hp Hrun Hpar HE Hnu H0)).
Qed.
