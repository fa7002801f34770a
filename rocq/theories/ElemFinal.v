(** * Proofs: element properties in their final form *)
From Coq Require Import String Reals List Arith Lia Lra Bool ZArith QArith Qreals.
From Verif Require Import Num LinAlg Gauss Fem Uel Spec LinR Base ElemShape BarProofs SpecElem SpecShape ShapeProofs ElemCore Sampled Elem2 MatProofs Elem2Props Elem2Mass Elem2Modes Elem3 Elem3Props Areas Volumes ElemAxi BeamProofs.
Import ListNotations.
Local Open Scope R_scope.

(** ** C25, C26 *)
Lemma delta_eq (a b : nat) : (if (a =? b)%nat then 1 else 0) = (if Nat.eq_dec a b then 1 else 0).
Proof. destruct (Nat.eq_dec a b); [subst; rewrite Nat.eqb_refl; reflexivity|]. apply Nat.eqb_neq in n. rewrite n. reflexivity. Qed.

Lemma jacobian_accept d n D coord det Ji : (d = 2 \/ d = 3)%nat -> shape d n D -> jacoper D coord = Ok (det, Ji) ->
  length coord = n /\ det = Jdet d (Jac n D coord) /\ 1 / 100000000 < det /\
  forall a b, (a < d)%nat -> (b < d)%nat ->
    rsum d (fun i => ent Ji a i * Jac n D coord i b) = (if Nat.eq_dec a b then 1 else 0) /\
    rsum d (fun i => Jac n D coord a i * ent Ji i b) = (if Nat.eq_dec a b then 1 else 0).
Proof.
  intros Hd HD H. apply (jacoper_inv d n) in H; auto. destruct H as [H1 [H2 [H3 [H4 ->]]]].
  split; [exact H1|]. split; [exact H3|]. split; [exact H4|]. intros a b Ha Hb. subst det.
  destruct Hd as [-> | ->]; cbn [Jdet] in *.
  - cbn [rsum]. rewrite !minv2_ent by lia. unfold J2det in *.
    destruct a as [|[|]]; try lia; destruct b as [|[|]]; try lia; cbn [Nat.eq_dec];
      split; (destruct (Nat.eq_dec _ _) as [E|E]; [try discriminate|try (exfalso; apply E; reflexivity)]); field; lra.
  - rewrite <- !delta_eq.
    split.
    + rewrite <- (cof3_left (Jac n D coord) a b) by (try assumption; lra). apply rsum_ext; intros i Hi. rewrite minv3_ent by assumption. reflexivity.
    + rewrite <- (cof3_right (Jac n D coord) a b) by (try assumption; lra). apply rsum_ext; intros i Hi. rewrite minv3_ent by assumption. reflexivity.
Qed.

Lemma jacobian_iff d n D coord : (d = 2 \/ d = 3)%nat -> shape d n D -> length coord = n -> ncols coord = d ->
  (1 / 100000000 < Jdet d (Jac n D coord) -> exists Ji, jacoper D coord = Ok (Jdet d (Jac n D coord), Ji)) /\
  (Rabs (Jdet d (Jac n D coord)) <= 1 / 100000000 -> jacoper D coord = Err (ValueError "Jacobian close to zero. Check the shape of your elements!")) /\
  (Jdet d (Jac n D coord) < - (1 / 100000000) -> jacoper D coord = Err (ValueError "Jacobian is negative. Check your elements orientation!")).
Proof.
  intros Hd HD H1 H2. rewrite (jacoper_spec d n) by assumption. rewrite H1, H2, !Nat.eqb_refl. cbv zeta.
  set (det := Jdet d (Jac n D coord)). split; [|split]; intros H.
  - destruct (Rle_dec _ _) as [Hle|Hle]; [rewrite Rabs_pos_eq in Hle by lra; lra|].
    destruct (Rlt_dec _ _); [lra|]. eexists. reflexivity.
  - destruct (Rle_dec _ _) as [Hle|Hle]; [reflexivity|contradiction].
  - destruct (Rle_dec _ _) as [Hle|Hle]; [rewrite Rabs_left in Hle by lra; lra|].
    destruct (Rlt_dec _ _) as [Hlt|Hlt]; [reflexivity|lra].
Qed.

Lemma jacobian_shapes d n D coord : (d = 2 \/ d = 3)%nat -> shape d n D -> length coord <> n \/ ncols coord <> d ->
  exists e, jacoper D coord = Err e.
Proof.
  intros Hd HD H. rewrite (jacoper_spec d n) by assumption.
  destruct (length coord =? n)%nat eqn:E1; [|eexists; reflexivity]. apply Nat.eqb_eq in E1.
  destruct (ncols coord =? d)%nat eqn:E2; [|eexists; reflexivity]. apply Nat.eqb_eq in E2. tauto.
Qed.

Lemma ent_rescale t coord k b : ent (rescale t coord) k b = t * ent coord k b.
Proof.
  unfold ent, rescale. rewrite <- (map_nth (Rmult t)) at 1. 
  change (@nil R) with (map (Rmult t) []) at 1. rewrite map_nth.
  rewrite <- (Rmult_0_r t) at 1. rewrite !map_nth. reflexivity.
Qed.
Lemma Jac_rescale t n D coord a b : Jac n D (rescale t coord) a b = t * Jac n D coord a b.
Proof. unfold Jac. rewrite <- rsum_scal. apply rsum_ext; intros. rewrite ent_rescale. ring. Qed.
Lemma Jdet_rescale t d n D coord : (d = 2 \/ d = 3)%nat -> Jdet d (Jac n D (rescale t coord)) = t ^ d * Jdet d (Jac n D coord).
Proof. intros [-> | ->]; cbn [Jdet]; unfold J2det, J3det; rewrite !Jac_rescale; ring. Qed.

Lemma jacobian_rescale d n D coord det Ji t : (d = 2 \/ d = 3)%nat -> shape d n D -> 0 < t ->
  jacoper D coord = Ok (det, Ji) ->
  (1 / 100000000 < t ^ d * det -> exists Ji', jacoper D (rescale t coord) = Ok (t ^ d * det, Ji') /\
     forall a b, (a < d)%nat -> (b < d)%nat -> ent Ji' a b = ent Ji a b / t) /\
  (t ^ d * det <= 1 / 100000000 -> jacoper D (rescale t coord) = Err (ValueError "Jacobian close to zero. Check the shape of your elements!")).
Proof.
  intros Hd HD Ht H. apply (jacoper_inv d n) in H; auto. destruct H as [H1 [H2 [H3 [H4 H5]]]].
  assert (L1 : length (rescale t coord) = n) by (unfold rescale; rewrite map_length; exact H1).
  assert (L2 : ncols (rescale t coord) = d).
  { destruct coord as [|r0 c]; cbn in *; [exact H2|]. rewrite map_length. exact H2. }
  destruct (jacobian_iff d n D (rescale t coord) Hd HD L1 L2) as [A [B _]].
  rewrite Jdet_rescale, <- H3 in A, B by exact Hd. split; intros Hc.
  - destruct (A Hc) as [Ji' HJ]. exists Ji'. split; [exact HJ|]. intros a b Ha Hb.
    apply (jacoper_inv d n) in HJ; auto. destruct HJ as [_ [_ [_ [_ ->]]]]. subst Ji.
    destruct Hd as [-> | ->].
    + rewrite !minv2_ent by assumption. rewrite !Jac_rescale.
      destruct a as [|[|]]; try lia; destruct b as [|[|]]; try lia; field; split; lra.
    + rewrite !minv3_ent by assumption. unfold cof3.
      do 3 (destruct a as [|a]; [do 3 (destruct b as [|b]; [rewrite !Jac_rescale; field; split; lra|]); lia|]). lia.
  - apply B. rewrite Rabs_pos_eq; [exact Hc|]. assert (0 < t ^ d) by (apply pow_lt; exact Ht). assert (0 < t ^ d * det) by (apply Rmult_lt_0_compat; lra). lra.
Qed.

Lemma grow_accept d (t det : R) : (d = 2 \/ d = 3)%nat -> 1 <= t -> 1 / 100000000 < det -> 1 / 100000000 < t ^ d * det.
Proof.
  intros Hd Ht Hdet. assert (1 <= t ^ d) by (apply pow_R1_Rle; exact Ht).
  assert (1 * det <= t ^ d * det) by (apply Rmult_le_compat_r; lra). lra.
Qed.

Lemma unit_dependence :
  let D := snd (shape_quad4 0 0) in let square := [[0; 0]; [1; 0]; [1; 1]; [0; 1]] in
  (exists Ji, jacoper D square = Ok (1/4, Ji)) /\
  jacoper D (rescale (1/10000) square) = Err (ValueError "Jacobian close to zero. Check the shape of your elements!").
Proof.
  cbv zeta. assert (HD : shape 2 4 (snd (@shape_quad4 R Num_R 0 0))) by (split; [reflexivity|repeat constructor]).
  assert (E : Jdet 2 (Jac 4 (snd (shape_quad4 0 0)) [[0; 0]; [1; 0]; [1; 1]; [0; 1]]) = 1 / 4).
  { cbn [Jdet]. unfold J2det, Jac, ent. shp. cbn [rsum nth]. field. }
  destruct (jacobian_iff 2 4 _ [[0; 0]; [1; 0]; [1; 1]; [0; 1]] (or_introl eq_refl) HD eq_refl eq_refl) as [A _].
  rewrite E in A. destruct A as [Ji A]; [lra|]. split; [exists Ji; exact A|].
  destruct (jacobian_rescale 2 4 _ _ _ _ (1/10000) (or_introl eq_refl) HD ltac:(lra) A) as [_ B].
  apply B. cbn [pow]. lra.
Qed.

(** ** C27 *)
Definition plane_shapes : list (R -> R -> list R * list (list R)) := [shape_tri3; shape_tri6; shape_quad4; shape_quad8; shape_quad9].

Lemma shapes_plane sh : In sh plane_shapes -> exists p, In p planes /\ pl_sh p = sh.
Proof.
  intros H. repeat (destruct H as [<-|H]; [|]); [exists pl_tri3|exists pl_tri6|exists pl_quad4|exists pl_quad8|exists pl_quad9|destruct H]; split; cbn; tauto.
Qed.

Lemma plane_differentiates sh r s coord Hm B det : In sh plane_shapes ->
  elast_diff_2d r s coord sh = Ok (Hm, B, det) ->
  let n := length (fst (sh r s)) in let pos := position n (fst (sh r s)) coord in
  forall a0 a1 a2 b0 b1 b2, let u := affine2 coord a0 a1 a2 b0 b1 b2 in
  act (2 * n) B u 0 = a1 /\ act (2 * n) B u 1 = b2 /\ act (2 * n) B u 2 = a2 + b1 /\
  act (2 * n) Hm u 0 = a0 + a1 * pos 0%nat + a2 * pos 1%nat /\
  act (2 * n) Hm u 1 = b0 + b1 * pos 0%nat + b2 * pos 1%nat.
Proof.
  intros Hin H. destruct (shapes_plane sh Hin) as [p [Hp <-]]. pose proof (good2_all p Hp) as Hg.
  cbv zeta. rewrite (proj1 (Hg r s)). intros.
  apply (diff2_inv (pl_n p)) in H; [|exact Hg]. cbv zeta in H.
  destruct H as [_ [_ [Hd [Hdet [B0 [B1 [B2 [V0 V1]]]]]]]].
  pose proof (strain2_affine (pl_n p) (snd (pl_sh p r s)) coord a0 a1 a2 b0 b1 b2) as HS.
  assert (HD0 : rsum (pl_n p) (ent (snd (pl_sh p r s)) 0) = 0) by (apply plane_D0; auto).
  assert (HD1 : rsum (pl_n p) (ent (snd (pl_sh p r s)) 1) = 0) by (apply plane_D0; auto).
  assert (HJ : J2det (Jac (pl_n p) (snd (pl_sh p r s)) coord) <> 0) by lra.
  destruct (value2_affine p r s coord a0 a1 a2 b0 b1 b2 Hp) as [W0 W1].
  rewrite B0, B1, B2, V0, V1. unfold position.
  split; [exact (HS 0%nat ltac:(lia) HD0 HD1 HJ)|].
  split; [exact (HS 1%nat ltac:(lia) HD0 HD1 HJ)|].
  split; [exact (HS 2%nat ltac:(lia) HD0 HD1 HJ)|].
  split; [exact W0|exact W1].
Qed.

Lemma axi_differentiates sh r s coord Hm B det : In sh plane_shapes ->
  elast_diff_axi r s coord sh = Ok (Hm, B, det) ->
  let n := length (fst (sh r s)) in let pos := position n (fst (sh r s)) coord in
  0 < pos 0%nat /\
  forall a0 a1 a2 b0 b1 b2, let u := affine2 coord a0 a1 a2 b0 b1 b2 in
  act (2 * n) B u 0 = a1 /\ act (2 * n) B u 1 = b2 /\ act (2 * n) B u 2 = a2 + b1 /\
  act (2 * n) B u 3 = (a0 + a1 * pos 0%nat + a2 * pos 1%nat) / pos 0%nat /\
  act (2 * n) Hm u 0 = a0 + a1 * pos 0%nat + a2 * pos 1%nat /\
  act (2 * n) Hm u 1 = b0 + b1 * pos 0%nat + b2 * pos 1%nat.
Proof.
  intros Hin H. destruct (shapes_plane sh Hin) as [p [Hp <-]]. pose proof (good2_all p Hp) as Hg.
  cbv zeta. rewrite (proj1 (Hg r s)).
  apply (diffA_inv (pl_n p)) in H; [|exact Hg]. cbv zeta in H.
  destruct H as [_ [_ [Hd [Hdet [Hr [HB HV]]]]]]. split; [exact Hr|]. intros.
  pose proof (strain2_affine (pl_n p) (snd (pl_sh p r s)) coord a0 a1 a2 b0 b1 b2) as HS.
  assert (HD0 : rsum (pl_n p) (ent (snd (pl_sh p r s)) 0) = 0) by (apply plane_D0; auto).
  assert (HD1 : rsum (pl_n p) (ent (snd (pl_sh p r s)) 1) = 0) by (apply plane_D0; auto).
  assert (HJ : J2det (Jac (pl_n p) (snd (pl_sh p r s)) coord) <> 0) by lra.
  destruct (value2_affine p r s coord a0 a1 a2 b0 b1 b2 Hp) as [W0 W1].
  rewrite !HB, !HV by lia. unfold position, strainA.
  split; [exact (HS 0%nat ltac:(lia) HD0 HD1 HJ)|].
  split; [exact (HS 1%nat ltac:(lia) HD0 HD1 HJ)|].
  split; [exact (HS 2%nat ltac:(lia) HD0 HD1 HJ)|].
  split; [rewrite W0; reflexivity|].
  split; [exact W0|exact W1].
Qed.

Definition solid_shapes : list (R -> R -> R -> list R * list (list R)) := [shape_tet4; shape_hex8].
Lemma solid_differentiates sh r s t coord Hm B det : In sh solid_shapes ->
  elast_diff_3d r s t coord sh = Ok (Hm, B, det) ->
  let n := length (fst (sh r s t)) in let pos := position n (fst (sh r s t)) coord in
  forall c A, let u := affine3 coord c A in
  (forall a, (a < 6)%nat -> act (3 * n) B u a = voigt3 A a) /\
  (forall a, (a < 3)%nat -> act (3 * n) Hm u a = c a + rsum 3 (fun i => A a i * pos i)).
Proof.
  intros Hin H.
  assert (Hp : exists p, In p solids /\ so_sh p = sh).
  { destruct Hin as [<-|[<-|[]]]; [exists so_tet4|exists so_hex8]; split; cbn; tauto. }
  destruct Hp as [p [Hp <-]]. pose proof (good3_all p Hp) as Hg.
  cbv zeta. rewrite (proj1 (Hg r s t)). intros.
  apply (diff3_inv (so_n p)) in H; [|exact Hg]. cbv zeta in H.
  destruct H as [_ [_ [Hd [Hdet [HB HV]]]]]. split.
  - intros a Ha. rewrite HB by exact Ha. apply strain3_affine; [exact Ha|intros; apply solid_D0; auto|lra].
  - intros a Ha. rewrite HV by exact Ha. unfold value3, affine3, position.
    transitivity (c a * rsum (so_n p) (fun k => nth k (fst (so_sh p r s t)) 0)
                  + rsum 3 (fun i => A a i * rsum (so_n p) (fun k => nth k (fst (so_sh p r s t)) 0 * ent coord k i))).
    + cbn [rsum]. rewrite <- !rsum_scal, Rplus_0_l, <- !rsum_plus. apply rsum_ext; intros k _.
      rewrite mod3, div3 by exact Ha. cbn [rsum]. ring.
    + rewrite solid_N1 by exact Hp. ring.
Qed.

(** ** C28-C30 *)
Lemma plane_stress E nu : 0 < E -> -1 < nu < 1/2 -> exists C2 C3,
  umat [E; nu] = Ok C2 /\ elast_mat [E; nu] = Ok C3 /\
  forall ex ey gxy, let e := fun ez => plane_strain3 ex ey ez gxy in
  (exists! ez, act 6 C3 (e ez) 2 = 0) /\
  forall ez, act 6 C3 (e ez) 2 = 0 ->
    let s := act 3 C2 (fun a => nth a [ex; ey; gxy] 0) in
    s 0%nat = act 6 C3 (e ez) 0 /\ s 1%nat = act 6 C3 (e ez) 1 /\ s 2%nat = act 6 C3 (e ez) 5 /\
    act 6 C3 (e ez) 3 = 0 /\ act 6 C3 (e ez) 4 = 0.
Proof.
  intros HE Hn. exists (umat_R E nu), (hooke E nu). split; [|split].
  - rewrite umat_eq. destruct (Req_EM_T _ _) as [H|H]; [|reflexivity]. pose proof (one_minus_sq nu ltac:(lra)). lra.
  - rewrite elast_mat_eq. destruct (Req_EM_T _ _); [lra|]. destruct (Req_EM_T _ _); [lra|]. reflexivity.
  - intros ex ey gxy. cbv zeta.
    assert (E2 : forall ez, act 6 (hooke E nu) (plane_strain3 ex ey ez gxy) 2 =
       E / (1 + nu) / (1 - 2 * nu) * (nu * (ex + ey) + (1 - nu) * ez)).
    { intros ez. unfold act, plane_strain3, hooke, ent, lam, mu. cbn [rsum nth]. field. lra. }
    assert (Hk : E / (1 + nu) / (1 - 2 * nu) <> 0).
    { unfold Rdiv. repeat apply Rmult_integral_contrapositive_currified; try lra; apply Rinv_neq_0_compat; lra. }
    assert (HZ : forall ez, act 6 (hooke E nu) (plane_strain3 ex ey ez gxy) 2 = 0 <-> ez = - (nu / (1 - nu) * (ex + ey))).
    { intros ez. rewrite E2. split; intros H.
      - apply Rmult_integral in H. destruct H as [H|H]; [contradiction|].
        apply (Rmult_eq_reg_l (1 - nu)); [|lra]. transitivity (- (nu * (ex + ey))); [lra|field; lra].
      - subst ez. field. lra. }
    split.
    + exists (- (nu / (1 - nu) * (ex + ey))). split; [apply HZ; reflexivity|]. intros x Hx. symmetry. apply HZ. exact Hx.
    + intros ez H. apply HZ in H. subst ez. pose proof (one_minus_sq nu ltac:(lra)).
      unfold act, plane_strain3, hooke, umat_R, ent, lam, mu. cbn [rsum nth].
      repeat split; field; repeat split; lra.
Qed.

Lemma plane_stress_pd E nu : 0 < E -> -1 < nu < 1 -> exists C, umat [E; nu] = Ok C /\ symmetric 3 C /\
  forall e, (exists i, (i < 3)%nat /\ e i <> 0) -> 0 < form 3 C e e.
Proof.
  intros HE Hn. exists (umat_R E nu). split; [|split].
  - rewrite umat_eq. destruct (Req_EM_T _ _) as [H|H]; [|reflexivity]. pose proof (one_minus_sq nu Hn). lra.
  - apply umat_sym.
  - intros e [i [Hi He]]. destruct (umat_psd E nu ltac:(lra) Hn e) as [H|H]; [exact H|].
    symmetry in H. apply umat_pd in H; auto. exfalso. destruct H as [H0 [H1 H2]].
    destruct i as [|[|[|]]]; try lia; contradiction.
Qed.

Lemma hooke_compliance E nu : E <> 0 -> 1 + nu <> 0 -> 1 - 2 * nu <> 0 -> exists C, elast_mat [E; nu] = Ok C /\ symmetric 6 C /\
  (0 < E -> -1 < nu < 1/2 -> forall e, (exists i, (i < 6)%nat /\ e i <> 0) -> 0 < form 6 C e e) /\
  forall s e, (forall i, (i < 6)%nat -> s i = act 6 C e i) <->
    (e 0%nat = (s 0%nat - nu * (s 1%nat + s 2%nat)) / E /\
     e 1%nat = (s 1%nat - nu * (s 0%nat + s 2%nat)) / E /\
     e 2%nat = (s 2%nat - nu * (s 0%nat + s 1%nat)) / E /\
     e 3%nat = 2 * (1 + nu) / E * s 3%nat /\ e 4%nat = 2 * (1 + nu) / E * s 4%nat /\ e 5%nat = 2 * (1 + nu) / E * s 5%nat).
Proof.
  intros HE H1 H2. exists (hooke E nu). split; [|split; [|split]].
  - rewrite elast_mat_eq. destruct (Req_EM_T _ _); [contradiction|]. destruct (Req_EM_T _ _); [contradiction|]. reflexivity.
  - apply hooke_sym.
  - intros HE' Hn e [i [Hi He]]. destruct (hooke_psd E nu HE' Hn e) as [H|H]; [exact H|].
    symmetry in H. apply hooke_pd with (i := i) in H; auto. contradiction.
  - intros s e. split.
    + intros H. rewrite (H 0%nat), (H 1%nat), (H 2%nat), (H 3%nat), (H 4%nat), (H 5%nat) by lia.
      unfold act, hooke, ent, lam, mu. cbn [rsum nth]. repeat split; field; repeat split; assumption.
    + intros [E0 [E1 [E2 [E3 [E4 E5]]]]] i Hi. unfold act, hooke, ent, lam, mu. cbn [rsum].
      rewrite E0, E1, E2, E3, E4, E5.
      do 6 (destruct i as [|i]; [cbn [nth]; field; repeat split; assumption|]). lia.
Qed.

(** the axisymmetric law misses the coupling of the hoop direction with the others *)
Lemma axi_defect E nu : 1 + nu <> 0 -> 1 - 2 * nu <> 0 -> exists C4 C6,
  elast_mat_axi [E; nu] = Ok C4 /\ elast_mat_2d [E; nu] = Ok C4 /\ elast_mat [E; nu] = Ok C6 /\
  forall er ez g et,
    let s4 := act 4 C4 (fun a => nth a [er; ez; g; et] 0) in
    let s6 := act 6 C6 (plane_strain3 er ez et g) in
    s6 0%nat = s4 0%nat + lam E nu * et /\ s6 1%nat = s4 1%nat + lam E nu * et /\
    s6 2%nat = s4 3%nat + lam E nu * (er + ez) /\ s6 5%nat = s4 2%nat.
Proof.
  intros H1 H2. exists (axi_R E nu), (hooke E nu).
  assert (HA : elast_mat_axi [E; nu] = Ok (axi_R E nu)).
  { rewrite elast_mat_axi_eq. destruct (Req_EM_T _ _); [contradiction|]. destruct (Req_EM_T _ _); [contradiction|]. reflexivity. }
  split; [exact HA|]. split; [rewrite elast_mat_2d_eq; exact HA|]. split.
  - rewrite elast_mat_eq. destruct (Req_EM_T _ _); [contradiction|]. destruct (Req_EM_T _ _); [contradiction|]. reflexivity.
  - intros er ez g et. cbv zeta. unfold act, plane_strain3, hooke, axi_R, ent. cbv zeta. cbn [rsum nth]. repeat split; ring.
Qed.

Lemma axi_agrees_iff E nu : 1 + nu <> 0 -> 1 - 2 * nu <> 0 -> exists C4 C6,
  elast_mat_axi [E; nu] = Ok C4 /\ elast_mat_2d [E; nu] = Ok C4 /\ elast_mat [E; nu] = Ok C6 /\
  forall er ez g et,
    let s4 := act 4 C4 (fun a => nth a [er; ez; g; et] 0) in
    let s6 := act 6 C6 (plane_strain3 er ez et g) in
    (s4 0%nat = s6 0%nat /\ s4 1%nat = s6 1%nat /\ s4 3%nat = s6 2%nat /\ s4 2%nat = s6 5%nat) <->
    (E * nu = 0 \/ (et = 0 /\ er + ez = 0)).
Proof.
  intros H1 H2. destruct (axi_defect E nu H1 H2) as [C4 [C6 [A [B [C D]]]]]. exists C4, C6.
  do 3 (split; [assumption|]). intros er ez g et. cbv zeta. specialize (D er ez g et). cbv zeta in D.
  destruct D as [D0 [D1 [D2 D3]]]. rewrite D0, D1, D2, D3.
  assert (HL : lam E nu = 0 <-> E * nu = 0).
  { unfold lam. split; intros H.
    - apply (Rmult_eq_reg_r (/ (1 + nu) * / (1 - 2 * nu))); [|apply Rmult_integral_contrapositive_currified; apply Rinv_neq_0_compat; assumption].
      rewrite Rmult_0_l. rewrite <- H. unfold Rdiv. ring.
    - rewrite H. unfold Rdiv. ring. }
  split.
  - intros [K0 [K1 [K2 _]]]. destruct (Req_dec (lam E nu) 0) as [Hz|Hz]; [left; apply HL; exact Hz|right].
    assert (lam E nu * et = 0) by lra. assert (lam E nu * (er + ez) = 0) by lra.
    apply Rmult_integral in H, H0. destruct H, H0; try contradiction. split; assumption.
  - intros [Hz|[-> ->]]; [apply HL in Hz; rewrite Hz|]; repeat split; ring.
Qed.

Lemma axi_law_wrong : exists C4 C6, elast_mat_axi [1; 1/4] = Ok C4 /\ elast_mat_2d [1; 1/4] = Ok C4 /\ elast_mat [1; 1/4] = Ok C6 /\
  act 4 C4 (fun a => nth a [0; 0; 0; 1] 0) 0 = 0 /\ act 6 C6 (plane_strain3 0 0 1 0) 0 = 2 / 5.
Proof.
  destruct (axi_defect 1 (1/4) ltac:(lra) ltac:(lra)) as [C4 [C6 [A [B [C D]]]]]. exists C4, C6.
  do 3 (split; [assumption|]). specialize (D 0 0 0 1). cbv zeta in D. destruct D as [D0 _].
  assert (Z : act 4 C4 (fun a => nth a [0; 0; 0; 1] 0) 0 = 0).
  { apply axi_inv in A. destruct A as [_ [_ ->]]. unfold act, axi_R, ent. cbn [rsum nth]. ring. }
  split; [exact Z|]. rewrite D0, Z. unfold lam. field.
Qed.
