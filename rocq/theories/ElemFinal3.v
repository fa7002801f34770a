(** * Proofs: beams, springs, axisymmetric element, assembled built-in elements, concrete runs *)
From Coq Require Import String Reals List Arith Lia Lra Bool ZArith QArith Qreals.
From Verif Require Import Num LinAlg Gauss Fem Uel Assem Spec LinR Base SpecAssem AssemProofs AssemProofs2 AssemProofs3 AssemProofs4 ElemShape BarProofs SpecElem SpecShape ShapeProofs ElemCore Sampled Elem2 MatProofs Elem2Props Elem2Mass Elem2Modes Elem3 Elem3Props ElemAxi BeamProofs ElemFinal ElemFinal2.
Import ListNotations.
Local Open Scope R_scope.

(** ** concrete runs *)
Definition pts2 (l : list (R * R)) : list (list R) := map (fun p => [fst p; snd p]) l.
Definition pts3 (l : list (R * R * R)) : list (list R) := map (fun p => [fst (fst p); snd (fst p); snd p]) l.
Definition ref_list : list (uel_fun R * nat * list (R * R)) :=
  [(elast_quad4, 4%nat, ref_quad4); (elast_tri6, 6%nat, ref_tri6); (elast_tri3, 3%nat, ref_tri3);
   (elast_quad9, 9%nat, ref_quad9); (elast_quad8, 8%nat, ref_quad8)].

Ltac unit_det :=
  intros; unfold det_at, J2det, Jac, ent; shp; cbn [rsum nth pts2 map fst snd ref_quad4 ref_tri3 ref_tri6 ref_quad8 ref_quad9 app]; field.

Lemma det_ref_quad4 r s : det_at 4 shape_quad4 (pts2 ref_quad4) r s = 1. Proof. unit_det. Qed.
Lemma det_ref_tri3 r s : det_at 3 shape_tri3 (pts2 ref_tri3) r s = 1. Proof. unit_det. Qed.
Lemma det_ref_tri6 r s : det_at 6 shape_tri6 (pts2 ref_tri6) r s = 1. Proof. unit_det. Qed.
Lemma det_ref_quad8 r s : det_at 8 shape_quad8 (pts2 ref_quad8) r s = 1. Proof. unit_det. Qed.
Lemma det_ref_quad9 r s : det_at 9 shape_quad9 (pts2 ref_quad9) r s = 1. Proof. unit_det. Qed.

Lemma ref_runs f n ref : In (f, n, ref) ref_list -> forall E nu rho, 1 - nu * nu <> 0 ->
  exists K M, f (pts2 ref) [E; nu; rho] = Ok (K, M2 M).
Proof.
  intros H E nu rho Hnu.
  destruct H as [H|[H|[H|[H|[H|[]]]]]]; apply pair_equal_spec in H; destruct H as [H <-]; apply pair_equal_spec in H; destruct H as [<- <-].
  - apply (plane_runs pl_quad4 (pts2 ref_quad4) [E; nu; rho] E nu rho ltac:(cbn; tauto) eq_refl Hnu).
    split; [reflexivity|]. split; [reflexivity|]. intros. change (1 / 100000000 < det_at 4 shape_quad4 (pts2 ref_quad4) r s). rewrite det_ref_quad4. lra.
  - apply (plane_runs pl_tri6 (pts2 ref_tri6) [E; nu; rho] E nu rho ltac:(cbn; tauto) eq_refl Hnu).
    split; [reflexivity|]. split; [reflexivity|]. intros. change (1 / 100000000 < det_at 6 shape_tri6 (pts2 ref_tri6) r s). rewrite det_ref_tri6. lra.
  - apply (plane_runs pl_tri3 (pts2 ref_tri3) [E; nu; rho] E nu rho ltac:(cbn; tauto) eq_refl Hnu).
    split; [reflexivity|]. split; [reflexivity|]. intros. change (1 / 100000000 < det_at 3 shape_tri3 (pts2 ref_tri3) r s). rewrite det_ref_tri3. lra.
  - apply (plane_runs pl_quad9 (pts2 ref_quad9) [E; nu; rho] E nu rho ltac:(cbn; tauto) eq_refl Hnu).
    split; [reflexivity|]. split; [reflexivity|]. intros. change (1 / 100000000 < det_at 9 shape_quad9 (pts2 ref_quad9) r s). rewrite det_ref_quad9. lra.
  - apply (plane_runs pl_quad8 (pts2 ref_quad8) [E; nu; rho] E nu rho ltac:(cbn; tauto) eq_refl Hnu).
    split; [reflexivity|]. split; [reflexivity|]. intros. change (1 / 100000000 < det_at 8 shape_quad8 (pts2 ref_quad8) r s). rewrite det_ref_quad8. lra.
Qed.

Lemma det_ref_tet4 r s t : det_at3 4 shape_tet4 (pts3 ref_tet4) r s t = 1.
Proof. unfold det_at3, J3det, Jac, ent; shp; cbn [rsum nth pts3 map fst snd ref_tet4]; ring. Qed.
Lemma det_ref_hex8 r s t : det_at3 8 shape_hex8 (pts3 ref_hex8) r s t = 1.
Proof.
  assert (HJ : forall a b, (a < 3)%nat -> (b < 3)%nat -> Jac 8 (snd (shape_hex8 r s t)) (pts3 ref_hex8) a b = if (a =? b)%nat then 1 else 0).
  { intros a b Ha Hb. unfold Jac, ent. shp. 
    do 3 (destruct a as [|a]; [do 3 (destruct b as [|b]; [cbn [rsum nth pts3 map fst snd ref_hex8 Nat.eqb]; field|]); lia|]). lia. }
  unfold det_at3, J3det. rewrite !HJ by lia. cbn. ring.
Qed.
Lemma ref_runs3 E nu rho : 1 + nu <> 0 -> 1 - 2 * nu <> 0 ->
  (exists K M, elast_tet4 (pts3 ref_tet4) [E; nu; rho] = Ok (K, M2 M)) /\
  (exists K M, elast_hex8 (pts3 ref_hex8) [E; nu; rho] = Ok (K, M2 M)).
Proof.
  intros H1 H2. split.
  - apply (solid_runs so_tet4 (pts3 ref_tet4) E nu rho ltac:(cbn; tauto) H1 H2).
    split; [reflexivity|]. split; [reflexivity|]. intros. change (1 / 100000000 < det_at3 4 shape_tet4 (pts3 ref_tet4) r s t). rewrite det_ref_tet4. lra.
  - apply (solid_runs so_hex8 (pts3 ref_hex8) E nu rho ltac:(cbn; tauto) H1 H2).
    split; [reflexivity|]. split; [reflexivity|]. intros. change (1 / 100000000 < det_at3 8 shape_hex8 (pts3 ref_hex8) r s t). rewrite det_ref_hex8. lra.
Qed.

(** ** C42: the axisymmetric element *)
Definition ring_coord (x : R) : list (list R) := move2 1 0 x 0 (pts2 ref_quad9).
Lemma ring_det x r s : det_at 9 shape_quad9 (ring_coord x) r s = 1.
Proof.
  unfold det_at, J2det, Jac, ent, ring_coord, move2. shp.
  cbn [rsum nth pts2 map fst snd ref_quad4 ref_quad8 ref_quad9 app]. field.
Qed.
Lemma ring_radius x r s : radius 9 (fst (shape_quad9 r s)) (ring_coord x) = x + r.
Proof.
  unfold radius, ent, ring_coord, move2. shp. cbn [rsum nth pts2 map fst snd ref_quad4 ref_quad8 ref_quad9 app]. field.
Qed.
Lemma gqA_range r s w : In (r, s, w) gqA -> -1 < r.
Proof.
  intros HH. cbn in HH. repeat (destruct HH as [HH|HH]; [injection HH as <- _ _; numR; unfold Q2R; cbn; lra|]). destruct HH.
Qed.
Lemma ring_accepted x : 1 <= x -> acceptedA (ring_coord x).
Proof.
  intros Hx. split.
  - split; [reflexivity|]. split; [reflexivity|]. intros. rewrite ring_det. lra.
  - intros r s w Hin. rewrite ring_radius. apply gqA_range in Hin. lra.
Qed.

Lemma axi_mass_no_ring : exists coord K m K' m',
  elast_axi_quad9 coord [1; 1/4; 1] = Ok (K, M2 m) /\
  elast_axi_quad9 (move2 1 0 100 0 coord) [1; 1/4; 1] = Ok (K', M2 m') /\
  form 18 m (trans2 0 1) (trans2 0 1) > 0 /\
  form 18 m' (trans2 0 1) (trans2 0 1) = form 18 m (trans2 0 1) (trans2 0 1).
Proof.
  exists (ring_coord 1).
  destruct (axi_runs (ring_coord 1) 1 (1/4) 1 ltac:(lra) ltac:(lra) (ring_accepted 1 ltac:(lra))) as [K [M HK]].
  assert (E : move2 1 0 100 0 (ring_coord 1) = ring_coord 101).
  { unfold ring_coord, move2. rewrite map_map. apply map_ext. intros x. cbn [nth]. apply f_equal2; [ring|apply f_equal2; [ring|reflexivity]]. }
  destruct (axi_runs (ring_coord 101) 1 (1/4) 1 ltac:(lra) ltac:(lra) (ring_accepted 101 ltac:(lra))) as [K' [M' HK']].
  exists K, M, K', M'. rewrite E. split; [exact HK|]. split; [exact HK'|].
  destruct (axi_mass_plane _ _ _ _ _ _ HK ltac:(lra)) as [Kp Hp].
  destruct (axi_mass_plane _ _ _ _ _ _ HK' ltac:(lra)) as [Kp' Hp'].
  assert (Hin : In (elast_quad9, 9%nat) plane_list) by (cbn; tauto).
  pose proof (plane_translate _ _ Hin _ _ _ _ Hp 100 0) as Ht. rewrite E, Hp' in Ht.
  apply Ok_pair_inj in Ht. destruct Ht as [_ Ht]. apply M2_inj in Ht. subst M'. split; [|reflexivity].
  destruct (plane_mass_props elast_quad9 9 _ ltac:(do 4 right; left; reflexivity) _ _ _ _ _ _ Hp) as [M1 [W [Hm [_ [_ [_ [HW [_ HF]]]]]]]].
  apply M2_inj in Hm. subst M1. change 18%nat with (2 * 9)%nat. rewrite HF. lra.
Qed.

Lemma axi_mass_is_plane coord E nu rho K m : elast_axi_quad9 coord [E; nu; rho] = Ok (K, m) ->
  1 - nu * nu <> 0 ->
  exists M W, m = M2 M /\ symmetric 18 M /\ (0 <= rho -> psd 18 M) /\ 0 < W /\
    (forall xc yc r, 0 <= r -> within2 9 coord xc yc r -> Rabs (W - area8 coord) <= 1 / 1000000000000000 * (r * r)) /\
    forall a b a' b', form 18 M (trans2 a b) (trans2 a' b') = rho * W * (a * a' + b * b').
Proof.
  intros HK Hnu. destruct (axi_mass_plane _ _ _ _ _ _ HK Hnu) as [Kp Hp].
  destruct (plane_mass_props elast_quad9 9 _ ltac:(do 4 right; left; reflexivity) _ _ _ _ _ _ Hp) as [M1 [W [Hm [H1 [H2 [_ [HW [H3 HF]]]]]]]].
  exists M1, W. split; [exact Hm|]. split; [exact H1|]. split; [exact H2|]. split; [exact HW|]. split; [exact H3|exact HF].
Qed.

(** ** C33 *)
Lemma vertical_beam :
  exists K m, beam2D [[0; 0]; [0; 1]] [1; 1; 1] = Ok (K, m) /\
  ~ forall i, (i < 6)%nat -> act 6 K (beam_rigid [[0; 0]; [0; 1]] 0 0 1) i = 0.
Proof.
  destruct (beams_rigid 0 0 0 1 ltac:(right; lra) 1 1 1 [] ltac:(lra) ltac:(left; reflexivity) ltac:(lra)) as [K [m [H1 H2]]].
  exists K, m. split; [exact H1|]. intros H. apply (H2 ltac:(lra) 0 0 1) in H. lra.
Qed.
Lemma vertical_beamU :
  exists K m, beam2DU [[0; 0]; [0; 1]] [1; 1] = Ok (K, m) /\
  ~ forall i, (i < 6)%nat -> act 6 K (beam_rigid [[0; 0]; [0; 1]] 0 0 1) i = 0.
Proof.
  destruct (beamsU_rigid 0 0 0 1 ltac:(right; lra) 1 1 [] ltac:(left; reflexivity) ltac:(lra)) as [K [m [H1 H2]]].
  exists K, m. split; [exact H1|]. intros H. apply (H2 0 0 1) in H. lra.
Qed.

(** ** C41 *)
Lemma beamU_three xa ya xb yb young I dens : (xa <> xb \/ ya <> yb) ->
  exists msg, beam2DU [[xa; ya]; [xb; yb]] [young; I; dens] = Err (ValueError msg).
Proof. intros H. unfold beam2DU. rewrite axis_ok by exact H. cbn. eexists. reflexivity. Qed.
Lemma beamU_two_four xa ya xb yb young I : (xa <> xb \/ ya <> yb) -> 
  (exists K m, beam2DU [[xa; ya]; [xb; yb]] [young; I] = Ok (K, m) /\ beam2DU [[xa; ya]; [xb; yb]] [young; I; 1; 1] = Ok (K, m)) /\
  forall dens area, exists K m, beam2DU [[xa; ya]; [xb; yb]] [young; I; dens; area] = Ok (K, m).
Proof.
  intros H. unfold beam2DU. rewrite axis_ok by exact H. cbn [bind]. split; [|intros]; do 2 eexists; try split; reflexivity.
Qed.

(** ** C40 *)
Lemma foldM_step {A B} (f : B -> A -> res B) l b b' a : foldM f l b = Ok b' -> In a l ->
  exists c c', f c a = Ok c'.
Proof.
  revert b. induction l as [|x l IH]; intros b H Hin; [destruct Hin|]. cbn in H. inv_ok H.
  destruct Hin as [<-|Hin]; [exists b, r; exact Hr|]. eapply IH; eassumption.
Qed.

Lemma spring_mass coord s K m : @spring R Num_R coord s = Ok (K, m) -> length K = 4%nat /\ m = M1 (vzeros 4).
Proof.
  unfold spring. intros Ht. inv_ok Ht. destruct r as [[nx ny] L]. inv_ok Ht. apply Ok_pair_inj in Ht. destruct Ht as [<- <-].
  split; [|reflexivity]. apply shape_mk_mat.
Qed.

Lemma np_get_error {A} (l : list A) i a : nth_error l i = Some a -> np_get l (Z.of_nat i) = Ok a.
Proof.
  intros H. assert (Hi : (i < length l)%nat) by (apply nth_error_Some; congruence).
  rewrite (np_get_nth _ _ a) by exact Hi. f_equal. apply nth_error_nth. exact H.
Qed.

Lemma nth_error_firstn {A} (l : list A) n j : (j < n)%nat -> nth_error (firstn n l) j = nth_error l j.
Proof.
  revert n j. induction l as [|a l IH]; intros n j Hj; [rewrite firstn_nil; reflexivity|].
  destruct n; [lia|]. destruct j; [reflexivity|]. cbn. apply IH. lia.
Qed.

Lemma spring_never elements mats nodes neq op sparse i elem arow :
  nth_error elements i = Some elem -> nth_error elem 1 = Some 5%Z -> nth_error op i = Some arow ->
  (exists j b, (j < 4)%nat /\ nth_error arow j = Some b /\ b <> (-1)%Z) ->
  forall KM, @assembler R Num_R elements mats nodes neq op sparse None <> Ok KM.
Proof.
  intros He Ht Hop [j [b [Hj [Hb Hne]]]] KM HA.
  assert (Hin : In (elem, @Ok (list Z) arow) (elem_rows elements op)).
  { unfold elem_rows. apply in_map_iff. exists i. split.
    - rewrite (np_get_error _ _ _ Hop). f_equal. apply nth_error_nth. exact He.
    - apply in_seq. split; [lia|]. apply nth_error_Some. congruence. }
  assert (Hret : forall K m, retriever elem mats nodes None = Ok (K, m) -> length K = 4%nat /\ m = M1 (vzeros 4)).
  { intros K m Hr. unfold retriever in Hr. change 1%Z with (Z.of_nat 1) in Hr. rewrite (np_get_error _ _ _ Ht) in Hr. cbn [bind] in Hr.
    inv_ok Hr. inv_ok Hr. inv_ok Hr. cbn [ele_fun bind] in Hr. eapply spring_mass. exact Hr. }
  assert (Hget : np_get (firstn 4 arow) (Z.of_nat j) = Ok b).
  { apply np_get_error. rewrite nth_error_firstn by exact Hj. exact Hb. }
  assert (Hz : (b =? -1)%Z = false) by (apply Z.eqb_neq; exact Hne).
  unfold assembler in HA. destruct sparse.
  - inv_ok HA. unfold sparse_assem in Hr. inv_ok Hr. eapply foldM_step in Hr0; [|exact Hin].
    destruct Hr0 as [c [c' Hs]]. cbv beta iota in Hs. inv_ok Hs. destruct r1 as [K m]. cbn [bind] in Hs.
    destruct (Hret _ _ Hr0) as [HK ->]. unfold sparse_elem in Hs. rewrite HK in Hs.
    eapply foldM_step with (a := j) in Hs; [|apply in_seq; lia]. destruct Hs as [d [d' Hs]].
    rewrite Hget in Hs. cbn [bind] in Hs. rewrite Hz in Hs.
    eapply foldM_step with (a := j) in Hs; [|apply in_seq; lia]. destruct Hs as [e [e' Hs]].
    rewrite Hget in Hs. cbn [bind] in Hs. rewrite Hz in Hs. inv_ok Hs. discriminate Hs.
  - inv_ok HA. unfold dense_assem in Hr. eapply foldM_step in Hr; [|exact Hin].
    destruct Hr as [c [c' Hs]]. cbv beta iota in Hs. inv_ok Hs. destruct r0 as [K m]. cbn [bind] in Hs.
    destruct (Hret _ _ Hr) as [HK ->]. unfold dense_elem in Hs. rewrite HK in Hs.
    eapply foldM_step with (a := j) in Hs; [|apply in_seq; lia]. destruct Hs as [d [d' Hs]].
    rewrite Hget in Hs. cbn [bind] in Hs. rewrite Hz in Hs.
    eapply foldM_step with (a := j) in Hs; [|apply in_seq; lia]. destruct Hs as [[e1 e2] [e' Hs]].
    rewrite Hget in Hs. cbn [bind] in Hs. rewrite Hz in Hs. inv_ok Hs. inv_ok Hs. discriminate Hs.
Qed.

Lemma one_spring :
  let elements := [[0; 5; 0; 0; 1]]%Z in let nodes := [[0; 0; 0]; [1; 1; 0]] in
  let cons := [[-1; -1]; [0; 0]] in
  (exists K m, retriever [0; 5; 0; 0; 1]%Z [[2]] nodes None = Ok (K, m)) /\
  exists op bc, DME cons elements 2 18 None = Ok (op, bc, 2%Z) /\
    forall sparse KM, assembler elements [[2]] nodes 2 op sparse None <> Ok KM.
Proof.
  cbv zeta. split.
  - unfold retriever. change (np_get [0; 5; 0; 0; 1]%Z 1) with (@Ok Z 5%Z). change (np_get [0; 5; 0; 0; 1]%Z 2) with (@Ok Z 0%Z).
    change (np_get [[2]] 0) with (Ok [2]). 
    change (mapM (np_get [[0; 0; 0]; [1; 1; 0]]) (skipn 3 [0; 5; 0; 0; 1]%Z)) with (Ok [[0; 0; 0]; [1; 1; 0]]).
    cbn [bind map tl ele_fun]. do 2 eexists. exact (spring_unfold [[0; 0]; [1; 0]] 2 _ _ _ (axis_ok 0 0 1 0 ltac:(left; lra))).
  - assert (F : flags01 2 [[-1; -1]; [0; 0]]).
    { repeat constructor; lra. }
    destruct (DME_ok 2 18 None [[-1; -1]; [0; 0]] [[0; 5; 0; 0; 1]]%Z F) as [op [bc [H1 [H2 H3]]]].
    { repeat constructor. exists 5%Z. split; [reflexivity|]. split; [reflexivity|]. split; [cbn; lia|]. repeat constructor; cbn; lia. }
    assert (Hc : count_free [[-1; -1]; [0; 0]] = 2%nat).
    { unfold count_free. cbn. repeat (destruct (Req_EM_T _ _); try lra). reflexivity. }
    rewrite Hc in H1. exists op, bc. split; [exact H1|]. intros sparse KM.
    inversion H3 as [|? row ? ? [Hl [Hrow _]] H3' E1 E2]; subst. inversion H3'; subst.
    eapply (spring_never _ _ _ _ _ _ 0 _ row); [reflexivity|reflexivity|reflexivity|].
    exists 2%nat, (zent bc 1 0). split; [lia|]. split.
    + pose proof (Hrow 1%nat 0%nat ltac:(cbn; lia) ltac:(lia)) as Hr. cbn [Nat.mul Nat.add node_of nth] in Hr.
      change (node_of [0; 5; 0; 0; 1]%Z 1) with 1%nat in Hr. rewrite <- Hr. apply nth_error_nth'. lia.
    + destruct H2 as [H2 _]. inversion H2 as [|? ? ? ? _ H2']; subst. inversion H2' as [|? bcr ? ? Hb _]; subst.
      inversion Hb as [|? b0 ? ? [_ Hb0] _]; subst. unfold zent. cbn [nth]. specialize (Hb0 eq_refl). lia.
Qed.

(** ** mass matrices of the beams *)
Definition beam_mass4 (L : R) : list (list R) :=
  [[156; 22 * L; 54; - (13) * L]; [22 * L; 4 * (L * L); 13 * L; - (3) * (L * L)];
   [54; 13 * L; 156; - (22) * L]; [- (13) * L; - (3) * (L * L); - (22) * L; 4 * (L * L)]].
Lemma quadratic4 a b c d : 0 <= 156 * a * a + 4 * b * b + 156 * c * c + 4 * d * d + 44 * a * b + 108 * a * c - 26 * a * d + 26 * b * c - 6 * b * d - 44 * c * d.
Proof.
  replace (156 * a * a + 4 * b * b + 156 * c * c + 4 * d * d + 44 * a * b + 108 * a * c - 26 * a * d + 26 * b * c - 6 * b * d - 44 * c * d)
    with (105 * ((a + c) + (b - d) / 6)² + 7 / 12 * (b - d)² + 51 * ((a - c) + 3 / 34 * (b + d))² + 7 / 68 * (b + d)²) by (unfold Rsqr; field).
  pose proof (Rle_0_sqr ((a + c) + (b - d) / 6)). pose proof (Rle_0_sqr (b - d)).
  pose proof (Rle_0_sqr ((a - c) + 3 / 34 * (b + d))). pose proof (Rle_0_sqr (b + d)). lra.
Qed.
Lemma beam_mass4_psd L c : 0 <= c -> psd 4 (mscale c (beam_mass4 L)).
Proof.
  intros Hc u. rewrite form_mscale. apply Rmult_le_pos; [exact Hc|].
  pose proof (quadratic4 (u 0%nat) (L * u 1%nat) (u 2%nat) (L * u 3%nat)) as H.
  unfold form, act, beam_mass4, ent. cbn [rsum nth]. lra.
Qed.
Lemma beam2DU_mass_psd coord young I rest K M : beam2DU coord (young :: I :: rest) = Ok (K, M2 M) ->
  (rest = [] \/ exists d A, rest = [d; A] /\ 0 <= d * A) -> psd 6 M.
Proof.
  intros Hf Hrest. unfold beam2DU in Hf. inv_ok Hf. destruct r as [[nx ny] L]. pose proof (axis_pos _ _ _ _ Hr).
  destruct Hrest as [-> |[d [A [-> Hd]]]]; cbn [bind] in Hf; apply Ok_pair_inj in Hf; destruct Hf as [_ Hf]; apply M2_inj in Hf; subst M;
    apply psd_congr; apply (beam_mass4_psd L); numR; apply div_nonneg; try lra.
  replace (A * L * d) with (d * A * L) by ring. apply Rmult_le_pos; lra.
Qed.
Definition beam_mass6 (L : R) : list (list R) :=
  [[140; 0; 0; 70; 0; 0]; [0; 156; 22 * L; 0; 54; - (13) * L]; [0; 22 * L; 4 * (L * L); 0; 13 * L; - (3) * (L * L)];
   [70; 0; 0; 140; 0; 0]; [0; 54; 13 * L; 0; 156; - (22) * L]; [0; - (13) * L; - (3) * (L * L); 0; - (22) * L; 4 * (L * L)]].
Lemma beam_mass6_psd L c : 0 <= c -> psd 6 (mscale c (beam_mass6 L)).
Proof.
  intros Hc u. rewrite form_mscale. apply Rmult_le_pos; [exact Hc|].
  pose proof (quadratic4 (u 1%nat) (L * u 2%nat) (u 4%nat) (L * u 5%nat)) as H.
  pose proof (Rle_0_sqr (u 0%nat + u 3%nat)). pose proof (Rle_0_sqr (u 0%nat)). pose proof (Rle_0_sqr (u 3%nat)). unfold Rsqr in *.
  unfold form, act, beam_mass6, ent. cbn [rsum nth]. lra.
Qed.
Lemma beam2D_mass_psd coord young I area rest K M : beam2D coord (young :: I :: area :: rest) = Ok (K, M2 M) ->
  (rest = [] /\ 0 <= area \/ exists d, rest = [d] /\ 0 <= area * d) -> psd 6 M.
Proof.
  intros Hf Hrest. unfold beam2D in Hf. inv_ok Hf. destruct r as [[nx ny] L]. pose proof (axis_pos _ _ _ _ Hr).
  inv_ok Hf.
  destruct Hrest as [[-> Ha]|[d [-> Hd]]]; cbn [map bcast_mul bind] in Hf; apply Ok_pair_inj in Hf;
    destruct Hf as [_ Hf]; apply M2_inj in Hf; subst M; apply psd_congr; apply (beam_mass6_psd L); numR; apply div_nonneg; try lra.
  - rewrite Rmult_1_r. apply Rmult_le_pos; lra.
  - replace (area * L * d) with (area * d * L) by ring. apply Rmult_le_pos; lra.
Qed.

(** ** C06 for the built-in elements *)
Lemma last_default {A} (x : A) l a b : last (x :: l) a = last (x :: l) b.
Proof. revert x. induction l as [|y l IH]; intros x; [reflexivity|]. apply IH. Qed.
Lemma opt_dens_last (a b x : R) l : opt_dens (a :: b :: x :: l) = last (x :: l) 0.
Proof. exact (last_default x l _ 0). Qed.
Lemma plane_rho p E nu rest rho : In p planes -> pl_par p (E :: nu :: rest) = Some (E, nu, rho) ->
  rest = [] /\ rho = 1 \/ rest <> [] /\ rho = last rest 0.
Proof.
  intros Hp Hpar.
  assert (Hopt : par_opt (E :: nu :: rest) = Some (E, nu, rho) -> rest = [] /\ rho = 1 \/ rest <> [] /\ rho = last rest 0).
  { intros Ho. unfold par_opt in Ho. destruct rest as [|x l]; [left|right].
    - cbn in Ho. injection Ho as <-. split; reflexivity.
    - split; [discriminate|]. rewrite (opt_dens_last E nu x l) in Ho. congruence. }
  destruct Hp as [<-|[<-|[<-|[<-|[<-|[]]]]]]; try (apply Hopt; exact Hpar).
  cbn in Hpar. unfold par3 in Hpar. destruct rest as [|x [|y l]]; try discriminate. right. split; [discriminate|]. cbn. congruence.
Qed.
Lemma builtin_sym_psd t f coord params K M :
  @ele_fun R Num_R t = Ok f -> f coord params = Ok (K, M2 M) -> material_ok t params ->
  symmetric (length K) K /\ symmetric (length K) M /\ psd (length K) K /\ psd (length K) M.
Proof.
  intros Ht Hf Hm.
  assert (Hty : (1 <= t <= 8)%Z).
  { assert (Hd : (1 <= t <= 8)%Z \/ ~ (1 <= t <= 8)%Z) by lia. destruct Hd as [Hd|Hd]; [exact Hd|].
    destruct (proj2 (types_table t) Hd) as [_ [msg Hmsg]]. rewrite Hmsg in Ht. discriminate. }
  destruct (proj1 (types_table t) Hty) as [nd [nn [ng [f' [He [Hf' Hnd]]]]]].
  destruct (types_shape t f nd nn ng coord params K M Ht He Hf) as [[HK _] _]. rewrite HK.
  assert (Hpl : forall n, In (f, n) plane_list -> nd = (2 * n)%nat ->
    (exists E nu rest, params = E :: nu :: rest /\ 0 <= E /\ -1 < nu < 1 /\ (rest = [] \/ 0 <= last rest 0)) ->
    symmetric nd K /\ symmetric nd M /\ psd nd K /\ psd nd M).
  { intros n Hin -> [E [nu [rest [-> [HE [Hnu Hr]]]]]]. destruct (plane_sym_psd f n Hin _ _ _ _ _ _ Hf) as [A B].
    destruct (plane_of f n Hin) as [p [Hp [<- <-]]].
    destruct (plane_par p coord E nu rest K _ Hp Hf) as [rho Hpar].
    destruct (plane_mass p coord _ K _ E nu rho Hp Hf Hpar) as [M' [HM [C [D _]]]]. apply M2_inj in HM. subst M'.
    split; [exact A|]. split; [exact C|]. split; [apply B; assumption|]. apply D.
    pose proof (plane_rho p E nu rest rho Hp Hpar) as Hrho.
    destruct Hrho as [[_ ->]|[Hne ->]]; [lra|]. destruct Hr as [Hr|Hr]; [contradiction|exact Hr]. }
  assert (Hcase : (t = 1 \/ t = 2 \/ t = 3 \/ t = 4 \/ t = 5 \/ t = 6 \/ t = 7 \/ t = 8)%Z) by lia.
  destruct Hcase as [-> |[-> |[-> |[-> |[-> |[-> |[-> | ->]]]]]]]; cbn in Ht; apply Ok_inj in Ht; subst f;
    cbn in He; apply Ok_inj in He; apply pair_equal_spec in He; destruct He as [He _]; apply pair_equal_spec in He; destruct He as [<- _]; cbn [material_ok] in Hm.
  - apply (Hpl 4%nat); [cbn; tauto|reflexivity|exact Hm].
  - apply (Hpl 6%nat); [cbn; tauto|reflexivity|exact Hm].
  - apply (Hpl 3%nat); [cbn; tauto|reflexivity|exact Hm].
  - apply (Hpl 9%nat); [cbn; tauto|reflexivity|exact Hm].
  - exfalso. apply spring_mass in Hf. destruct Hf as [_ Hf]. discriminate.
  - destruct Hm as [E [A [rest [-> [HEA Hr]]]]]. destruct (truss_sym_psd _ _ _ _ _ _ Hf) as [H1 H2].
    apply truss_inv in Hf. destruct Hf as [nx [ny [L [y [a [r [Ha [Hp [_ Hf]]]]]]]]]. injection Hp as <- <- <-.
    apply M2_inj in Hf. subst M. pose proof (axis_pos _ _ _ _ Ha) as HL.
    split; [exact H1|]. split; [apply sym_of_form; intros; rewrite !truss_mass_form; ring|]. split; [apply H2; exact HEA|].
    intros u. rewrite truss_mass_form. apply Rmult_le_pos.
    + apply div_nonneg; [|lra]. 
      assert (Hd : 0 <= A * opt_dens (E :: A :: rest)).
      { destruct Hr as [[-> Hr]|[Hne Hr]]; [cbn; lra|]. destruct rest as [|x l]; [congruence|].
        rewrite opt_dens_last. exact Hr. }
      rewrite Rmult_assoc, (Rmult_comm L), <- Rmult_assoc. apply Rmult_le_pos; lra.
    + pose proof (Rle_0_sqr (u 0%nat + u 2%nat)). pose proof (Rle_0_sqr (u 1%nat + u 3%nat)).
      pose proof (Rle_0_sqr (u 0%nat)). pose proof (Rle_0_sqr (u 1%nat)). pose proof (Rle_0_sqr (u 2%nat)). pose proof (Rle_0_sqr (u 3%nat)).
      unfold Rsqr in *. lra.
  - destruct Hm as [E [I [rest [-> [HEI Hr]]]]].
    pose proof (beam2DU_mass_psd _ _ _ _ _ _ Hf Hr) as HM.
    assert (Ha : exists nx ny L, axis coord = Ok (nx, ny, L)).
    { unfold beam2DU in Hf. inv_ok Hf. destruct r as [[nx ny] L]. eauto. }
    destruct Ha as [nx [ny [L Ha]]].
    assert (Hd : exists dens area, rest = [] /\ dens = 1 /\ area = 1 \/ rest = [dens; area]).
    { destruct Hr as [-> |[d [A [-> _]]]]; [exists 1, 1; left; auto|exists d, A; right; reflexivity]. }
    destruct Hd as [dens [area Hd]].
    destruct (beam2DU_spec coord nx ny L E I rest Ha dens area Hd) as [K' [M' [E' [HK' [_ HS]]]]].
    rewrite Hf in E'. apply Ok_pair_inj in E'. destruct E' as [<- E']. apply M2_inj in E'. subst M'.
    split; [apply sym_of_form; intros; rewrite !HK'; unfold bend_energy; ring|]. split; [exact HS|]. split; [|exact HM].
    intros u. rewrite HK'. apply bend_energy_psd; [lra|eapply axis_pos; exact Ha].
  - destruct Hm as [E [I [A [rest [-> [HEI [HEA Hr]]]]]]].
    pose proof (beam2D_mass_psd _ _ _ _ _ _ _ Hf Hr) as HM.
    assert (Ha : exists nx ny L, axis coord = Ok (nx, ny, L) /\ I <> 0).
    { unfold beam2D in Hf. inv_ok Hf. destruct r as [[nx ny] L]. inv_ok Hf. apply guard_ok in Hr1. apply negb_true_iff, nis0_false in Hr1. eauto 6. }
    destruct Ha as [nx [ny [L [Ha HI]]]].
    assert (Hd : exists dens, rest = [] /\ dens = 1 \/ rest = [dens]).
    { destruct Hr as [[-> _]|[d [-> _]]]; [exists 1; left; auto|exists d; right; reflexivity]. }
    destruct Hd as [dens Hd].
    destruct (beam2D_spec coord nx ny L E I A rest Ha HI dens Hd) as [K' [M' [E' [HK' [_ HS]]]]].
    rewrite Hf in E'. apply Ok_pair_inj in E'. destruct E' as [<- E']. apply M2_inj in E'. subst M'.
    split; [apply sym_of_form; intros; rewrite !HK'; unfold bend_energy; ring|]. split; [exact HS|]. split; [|exact HM].
    intros u. rewrite HK'. apply Rplus_le_le_0_compat.
    + apply Rmult_le_pos; [apply div_nonneg; [exact HEA|eapply axis_pos; exact Ha]|apply Rle_0_sqr].
    + apply bend_energy_psd; [lra|eapply axis_pos; exact Ha].
Qed.

Lemma builtin_assembled elements mats nodes neq op locs sparse gk gm :
  locals_of elements mats nodes op None locs -> Forall (local_ok neq) locs ->
  assembler elements mats nodes neq op sparse None = Ok (gk, gm) ->
  (forall elem t im params, In elem elements -> nth_error elem 1 = Some t -> nth_error elem 2 = Some im ->
     np_get mats im = Ok params -> material_ok t params) ->
  symmetric neq (fst (mats_of (gk, gm))) /\ symmetric neq (snd (mats_of (gk, gm))) /\
  psd neq (fst (mats_of (gk, gm))) /\ psd neq (snd (mats_of (gk, gm))).
Proof.
  intros HL Hok HA Hmat. destruct (assembled_sym_psd _ _ _ _ _ _ _ _ _ _ HL Hok HA) as [A [B [C D]]].
  assert (Hall : Forall (fun l => symmetric (l_n l) (l_K l) /\ symmetric (l_n l) (l_M l) /\ psd (l_n l) (l_K l) /\ psd (l_n l) (l_M l)) locs).
  { destruct HL as [HL _]. clear - HL Hmat. induction HL as [|elem l es ls Hr HL IH]; constructor.
    - unfold retriever in Hr. inv_ok Hr. inv_ok Hr. inv_ok Hr. inv_ok Hr. inv_ok Hr.
      assert (G : forall (z : Z) (k : nat), np_get elem (Z.of_nat k) = Ok z -> nth_error elem k = Some z).
      { intros z k Hz. destruct (nth_error elem k) eqn:E; [rewrite (np_get_error _ _ _ E) in Hz; congruence|].
        apply nth_error_None in E. rewrite np_get_overflow in Hz by lia. discriminate. }
      apply (builtin_sym_psd r r3 (map (@tl R) r2) r1); try assumption.
      eapply Hmat; [left; reflexivity|apply (G r 1%nat); exact Hr0|apply (G r0 2%nat); exact Hr1|exact Hr2].
    - apply IH. intros. eapply Hmat; [right; eassumption|eassumption|eassumption|assumption]. }
  rewrite Forall_forall in Hall.
  split; [apply A|split; [apply B|split; [apply C|apply D]]]; apply Forall_forall; intros l Hl; apply (Hall l Hl).
Qed.
