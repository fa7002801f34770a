(** * Lemmas: which straight-sided elements the Jacobian test accepts *)
From Coq Require Import Reals List Arith Lia Lra Bool ZArith QArith Qreals.
From Verif Require Import Num LinAlg Gauss Fem Uel Assem Spec LinR Base ElemCore Sampled Elem2 MatProofs Elem2Props SpecElem SpecPatch ShapeProofs.
Import ListNotations.
Local Open Scope R_scope.

(** the determinant of a quadrilateral interpolates its corner values *)
Lemma quad4_det coord r s : det_at 4 shape_quad4 coord r s =
  (1 - r) * (1 - s) / 4 * (turn 4 coord 0 / 4) + (1 + r) * (1 - s) / 4 * (turn 4 coord 1 / 4) +
  (1 + r) * (1 + s) / 4 * (turn 4 coord 2 / 4) + (1 - r) * (1 + s) / 4 * (turn 4 coord 3 / 4).
Proof. unfold det_at, J2det, Jac, turn, ent. shp. cbn [rsum nth Nat.add Nat.sub Nat.modulo Nat.divmod fst snd]. field. Qed.

Lemma quad4_det_bound coord c r s : (forall k, (k < 4)%nat -> c < turn 4 coord k / 4) -> -1 <= r <= 1 -> -1 <= s <= 1 -> c < det_at 4 shape_quad4 coord r s.
Proof.
  intros Ht Hr Hs. rewrite quad4_det.
  pose proof (Ht 0%nat ltac:(lia)) as T0. pose proof (Ht 1%nat ltac:(lia)) as T1. pose proof (Ht 2%nat ltac:(lia)) as T2. pose proof (Ht 3%nat ltac:(lia)) as T3.
  set (t0 := turn 4 coord 0 / 4) in *. set (t1 := turn 4 coord 1 / 4) in *. set (t2 := turn 4 coord 2 / 4) in *. set (t3 := turn 4 coord 3 / 4) in *.
  assert (A0 : 0 <= (1 - r) * (1 - s)) by (apply Rmult_le_pos; lra). assert (A1 : 0 <= (1 + r) * (1 - s)) by (apply Rmult_le_pos; lra).
  assert (A2 : 0 <= (1 + r) * (1 + s)) by (apply Rmult_le_pos; lra). assert (A3 : 0 <= (1 - r) * (1 + s)) by (apply Rmult_le_pos; lra).
  assert (S : (1 - r) * (1 - s) + (1 + r) * (1 - s) + (1 + r) * (1 + s) + (1 - r) * (1 + s) = 4) by ring.
  set (a0 := (1 - r) * (1 - s)) in *. set (a1 := (1 + r) * (1 - s)) in *. set (a2 := (1 + r) * (1 + s)) in *. set (a3 := (1 - r) * (1 + s)) in *.
  assert (B : exists m, c < m /\ m <= t0 /\ m <= t1 /\ m <= t2 /\ m <= t3).
  { exists (Rmin (Rmin t0 t1) (Rmin t2 t3)). repeat split.
    - repeat apply Rmin_glb_lt; assumption.
    - eapply Rle_trans; [apply Rmin_l|apply Rmin_l].
    - eapply Rle_trans; [apply Rmin_l|apply Rmin_r].
    - eapply Rle_trans; [apply Rmin_r|apply Rmin_l].
    - eapply Rle_trans; [apply Rmin_r|apply Rmin_r]. }
  destruct B as (m & Hm & M0 & M1 & M2 & M3).
  assert (0 <= a0 * (t0 - m)) by (apply Rmult_le_pos; lra). assert (0 <= a1 * (t1 - m)) by (apply Rmult_le_pos; lra).
  assert (0 <= a2 * (t2 - m)) by (apply Rmult_le_pos; lra). assert (0 <= a3 * (t3 - m)) by (apply Rmult_le_pos; lra).
  assert (a0 / 4 * t0 + a1 / 4 * t1 + a2 / 4 * t2 + a3 / 4 * t3 - m = (a0 * (t0 - m) + a1 * (t1 - m) + a2 * (t2 - m) + a3 * (t3 - m)) / 4).
  { replace m with (m * (a0 + a1 + a2 + a3) / 4) at 1 by (rewrite S; field). field. }
  lra.
Qed.

Lemma quad4_points r s w : In (r, s, w) (pl_gq pl_quad4) -> -1 <= r <= 1 /\ -1 <= s <= 1.
Proof.
  intros H. cbn in H.
  repeat (destruct H as [H|H]; [apply pair_equal_spec in H as [H _]; apply pair_equal_spec in H as [<- <-]; numR; unfold Q2R; cbn; split; lra|]).
  destruct H.
Qed.

Theorem convex_accepted coord E nu rest : length coord = 4%nat -> ncols coord = 2%nat -> 1 - nu * nu <> 0 ->
  (forall k, (k < 4)%nat -> 4 / 100000000 < turn 4 coord k) ->
  exists K M, elast_quad4 coord (E :: nu :: rest) = Ok (K, M2 M).
Proof.
  intros HL HC Hnu Ht. apply (plane_runs pl_quad4 coord (E :: nu :: rest) E nu (opt_dens (E :: nu :: rest)) ltac:(cbn; tauto) eq_refl Hnu).
  split; [exact HL|]. split; [exact HC|]. intros r s w Hin. apply quad4_points in Hin as [Hr Hs]. cbn [pl_n pl_sh pl_quad4].
  apply quad4_det_bound; [|assumption..]. intros k Hk. specialize (Ht k Hk). lra.
Qed.

Lemma tri3_det coord r s k : (k < 3)%nat -> det_at 3 shape_tri3 coord r s = turn 3 coord k.
Proof.
  intros Hk. unfold det_at, J2det, Jac, turn, ent. shp.
  assert (E : (k = 0 \/ k = 1 \/ k = 2)%nat) by lia. destruct E as [->|[->| ->]];
    cbn [rsum nth Nat.add Nat.sub Nat.modulo Nat.divmod fst snd]; ring.
Qed.

Lemma plane_accepts p coord params K m : In p planes -> pl_f p coord params = Ok (K, m) -> accepted2 (pl_n p) (pl_sh p) (pl_gq p) coord.
Proof.
  intros Hin HK. destruct (plane_eq p _ _ _ _ Hin HK) as (E & nu & rho & C & sK & sM & M' & _ & _ & HsK & HsM & Hint & _).
  assert (Hgq : pl_gq p <> []).
  { intros Hn. clear -Hin Hn. repeat (destruct Hin as [<-|Hin]; [discriminate|]). destruct Hin. }
  exact (proj1 (plane_inv _ _ _ _ _ _ _ _ _ _ _ (good2_all p Hin) Hgq HsK HsM Hint)).
Qed.

Theorem tri3_accepted coord E nu rest k : length coord = 3%nat -> ncols coord = 2%nat -> 1 - nu * nu <> 0 -> (k < 3)%nat ->
  ((exists K M, elast_tri3 coord (E :: nu :: rest) = Ok (K, M)) <-> 1 / 100000000 < turn 3 coord k).
Proof.
  intros HL HC Hnu Hk. split.
  - intros (K & M & H). pose proof (plane_accepts pl_tri3 coord _ K M ltac:(cbn; tauto) H) as (_ & _ & Hd).
    assert (G : exists r s w, In (r, s, w) (pl_gq pl_tri3)) by (do 3 eexists; left; reflexivity).
    destruct G as (r & s & w & Hin). specialize (Hd r s w Hin). cbn [pl_n pl_sh pl_tri3] in Hd. rewrite (tri3_det _ _ _ k Hk) in Hd. exact Hd.
  - intros Ht. destruct (plane_runs pl_tri3 coord (E :: nu :: rest) E nu (opt_dens (E :: nu :: rest)) ltac:(cbn; tauto) eq_refl Hnu) as (K & M & H).
    + split; [exact HL|]. split; [exact HC|]. intros r s w _. cbn [pl_n pl_sh pl_tri3]. rewrite (tri3_det _ _ _ k Hk). exact Ht.
    + exists K, (M2 M). exact H.
Qed.

(** area of an accepted quadrilateral *)
Theorem quad4_area coord params K m : elast_quad4 coord params = Ok (K, m) ->
  4 / 100000000 < (turn 4 coord 0 + turn 4 coord 1 + turn 4 coord 2 + turn 4 coord 3) / 4.
Proof.
  intros H. pose proof (plane_accepts pl_quad4 coord _ K m ltac:(cbn; tauto) H) as (_ & _ & Hd).
  assert (P : forall r s w, In (r, s, w) (pl_gq pl_quad4) -> 1 / 100000000 < det_at 4 shape_quad4 coord r s) by exact Hd. clear Hd H.
  eassert (P0 : _ < det_at 4 shape_quad4 coord _ _) by (eapply P; left; reflexivity).
  eassert (P1 : _ < det_at 4 shape_quad4 coord _ _) by (eapply P; right; left; reflexivity).
  eassert (P2 : _ < det_at 4 shape_quad4 coord _ _) by (eapply P; right; right; left; reflexivity).
  eassert (P3 : _ < det_at 4 shape_quad4 coord _ _) by (eapply P; right; right; right; left; reflexivity).
  cbn [fst snd nth] in P0, P1, P2, P3. change (@nofQ R Num_R) with Q2R in P0, P1, P2, P3.
  rewrite quad4_det in P0, P1, P2, P3. unfold Q2R in P0, P1, P2, P3. cbn [QArith_base.Qnum QArith_base.Qden] in P0, P1, P2, P3. lra.
Qed.

(** a reflex quadrilateral *)
Definition dart : list (list R) := [[0; 0]; [4; 0]; [19/10; 19/10]; [0; 4]].
Lemma dart_turns : turn 4 dart 0 = 16 /\ turn 4 dart 1 = 76/10 /\ turn 4 dart 2 = -8/10 /\ turn 4 dart 3 = 76/10.
Proof. unfold turn, ent, dart. cbn [nth Nat.add Nat.sub Nat.modulo Nat.divmod fst snd]. repeat split; lra. Qed.
Theorem reflex_accepted : exists coord K M, elast_quad4 coord [1; 1/4] = Ok (K, M2 M) /\ length coord = 4%nat /\ turn 4 coord 2 < 0 /\
  det_at 4 shape_quad4 coord 1 1 < 0.
Proof.
  destruct dart_turns as (T0 & T1 & T2 & T3).
  destruct (plane_runs pl_quad4 dart [1; 1/4] 1 (1/4) (opt_dens [1; 1/4]) ltac:(cbn; tauto) eq_refl ltac:(lra)) as (K & M & H).
  - split; [reflexivity|]. split; [reflexivity|]. intros r s w Hin. cbn [pl_n pl_sh pl_quad4].
    rewrite quad4_det, T0, T1, T2, T3. cbn in Hin.
    repeat (destruct Hin as [Hin|Hin]; [apply pair_equal_spec in Hin as [Hin _]; apply pair_equal_spec in Hin as [<- <-]; change (@nofQ R Num_R) with Q2R; unfold Q2R; cbn; lra|]).
    destruct Hin.
  - exists dart, K, M. split; [exact H|]. split; [reflexivity|]. rewrite quad4_det, T0, T1, T2, T3. split; lra.
Qed.
