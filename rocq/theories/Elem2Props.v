(** * Proofs: properties of the plane continuum elements *)
From Coq Require Import String Reals List Arith Lia Lra Bool ZArith QArith Qreals.
From Verif Require Import Num LinAlg Gauss Fem Uel Spec LinR Base ElemShape BarProofs SpecElem SpecShape ShapeProofs ElemCore Sampled Elem2 MatProofs.
Import ListNotations.
Local Open Scope R_scope.

Lemma total_rsum l : total l = rsum (length l) (fun k => nth k l 0).
Proof.
  unfold total. rewrite <- lsum_seq. induction l as [|a l IH]; [reflexivity|].
  cbn [length seq lsum fold_right nth]. f_equal. change (fold_right (fun a s => a + s) 0 l) with (lsum (fun x => x) l).
  rewrite IH. rewrite <- seq_shift. symmetry. apply lsum_map.
Qed.

Lemma planes_shapes p : In p planes -> In (pl_sh p) shapes2.
Proof. intros Hin. repeat (destruct Hin as [<-|Hin]; [cbn; tauto|]). destruct Hin. Qed.

Lemma plane_D0 p r s a : In p planes -> (a < 2)%nat -> rsum (pl_n p) (ent (snd (pl_sh p r s)) a) = 0.
Proof.
  intros Hp Ha. destruct (unity2 (pl_sh p) (planes_shapes p Hp) r s) as [_ [HL HF]].
  destruct (good2_all p Hp r s) as [HN HD].
  rewrite Forall_forall in HF. destruct (HF (nth a (snd (pl_sh p r s)) [])) as [H0 H1]; [apply nth_In; lia|].
  rewrite total_rsum, H1, HN in H0. exact H0.
Qed.
Lemma plane_N1 p r s : In p planes -> rsum (pl_n p) (fun k => nth k (fst (pl_sh p r s)) 0) = 1.
Proof.
  intros Hp. destruct (unity2 (pl_sh p) (planes_shapes p Hp) r s) as [H1 _].
  destruct (good2_all p Hp r s) as [HN HD]. rewrite total_rsum, HN in H1. exact H1.
Qed.

Lemma gq_pos p : In p planes -> 0 < pl_c p /\ forall r s w, In (r, s, w) (pl_gq p) -> 0 < w.
Proof.
  intros Hin.
  repeat (destruct Hin as [<-|Hin];
    [split; [cbn; lra|];
     intros r s w HH; cbn in HH; repeat (destruct HH as [HH|HH]; [injection HH as _ _ <-; unfold Q2R; cbn; lra|]); destruct HH|]).
  destruct Hin.
Qed.

Lemma gq_ne p : In p planes -> pl_gq p <> [].
Proof. intros Hin. repeat (destruct Hin as [<-|Hin]; [discriminate|]). destruct Hin. Qed.

(** ** what a successful call returns, and when it succeeds *)
Definition gs_of (p : plane) (coord : list (list R)) : list gdat := map (gdat2 (pl_n p) (pl_sh p) coord (pl_c p)) (pl_gq p).

Lemma plane_summary p coord params K m : In p planes -> pl_f p coord params = Ok (K, m) ->
  exists E nu rho M, pl_par p params = Some (E, nu, rho) /\ 1 - nu * nu <> 0 /\
    accepted2 (pl_n p) (pl_sh p) (pl_gq p) coord /\ m = M2 M /\
    sampled 3 2 (2 * pl_n p) (umat_R E nu) rho (gs_of p coord) K M.
Proof.
  intros Hp Hf. apply plane_eq in Hf; [|exact Hp].
  destruct Hf as [E [nu [rho [C [sK [sM [M [H1 [H2 [H3 [H4 [H5 H6]]]]]]]]]]]].
  apply umat_inv in H2. destruct H2 as [H2 ->].
  apply (plane_inv (pl_n p) (pl_sh p) (pl_gq p) coord _ (pl_c p) sK sM rho) in H5; auto using good2_all, gq_ne.
  destruct H5 as [H5 H7]. exists E, nu, rho, M. repeat (split; [assumption|]). exact H7.
Qed.

Lemma bind_wrap_total (x : res (list (list R) * list (list R))) : (exists KM, x = Ok KM) ->
  exists K M, bind x (fun KM => Ok (wrap KM)) = Ok (K, M2 M).
Proof. intros [[K M] ->]. exists K, M. reflexivity. Qed.

Lemma plane_runs p coord params E nu rho : In p planes ->
  pl_par p params = Some (E, nu, rho) -> 1 - nu * nu <> 0 ->
  accepted2 (pl_n p) (pl_sh p) (pl_gq p) coord ->
  exists K M, pl_f p coord params = Ok (K, M2 M).
Proof.
  intros Hin Hpar Hnu Hacc.
  assert (Hu : umat [E; nu] = Ok (umat_R E nu)).
  { rewrite umat_eq. destruct (Req_EM_T _ _); [contradiction|reflexivity]. }
  pose proof (good2_all p Hin) as Hg.
  repeat (destruct Hin as [<-|Hin]).
  - cbn [pl_par pl_quad4] in Hpar. destruct params as [|E' [|nu' rest]]; try discriminate. injection Hpar as -> -> _.
    cbn [pl_f pl_quad4]. unfold elast_quad4. change (firstn 2 (E :: nu :: rest)) with [E; nu]. rewrite Hu. cbn [bind].
    change (gauss_nd 2 2) with (Ok (match @gauss_nd R Num_R 2 2 with Ok x => x | Err _ => ([], []) end)).
    cbn [bind]. apply bind_wrap_total. apply (plane_total 4 shape_quad4 (pl_gq pl_quad4)); assumption.
  - cbn [pl_par pl_tri6] in Hpar. destruct params as [|E' [|nu' rest]]; try discriminate. injection Hpar as -> -> _.
    cbn [pl_f pl_tri6]. unfold elast_tri6. change (firstn 2 (E :: nu :: rest)) with [E; nu]. rewrite Hu. cbn [bind].
    change (gauss_tri 3) with (Ok (match @gauss_tri R Num_R 3 with Ok x => x | Err _ => ([], []) end)).
    cbn [bind]. apply bind_wrap_total. apply (plane_total 6 shape_tri6 (pl_gq pl_tri6)); assumption.
  - cbn [pl_par pl_tri3] in Hpar. destruct params as [|E' [|nu' rest]]; try discriminate. injection Hpar as -> -> _.
    cbn [pl_f pl_tri3]. unfold elast_tri3. change (firstn 2 (E :: nu :: rest)) with [E; nu]. rewrite Hu. cbn [bind].
    change (gauss_tri 2) with (Ok (match @gauss_tri R Num_R 2 with Ok x => x | Err _ => ([], []) end)).
    cbn [bind]. apply bind_wrap_total. apply (plane_total 3 shape_tri3 (pl_gq pl_tri3)); assumption.
  - cbn [pl_par pl_quad9] in Hpar. destruct params as [|E' [|nu' rest]]; try discriminate. injection Hpar as -> -> _.
    cbn [pl_f pl_quad9]. unfold elast_quad9. change (firstn 2 (E :: nu :: rest)) with [E; nu]. rewrite Hu. cbn [bind].
    change (gauss_nd 3 2) with (Ok (match @gauss_nd R Num_R 3 2 with Ok x => x | Err _ => ([], []) end)).
    cbn [bind]. apply bind_wrap_total. apply (plane_total 9 shape_quad9 (pl_gq pl_quad9)); assumption.
  - cbn [pl_par pl_quad8] in Hpar. destruct params as [|E' [|nu' [|rho' [|? ?]]]]; try discriminate. injection Hpar as -> -> _.
    cbn [pl_f pl_quad8]. unfold elast_quad8. cbn [params3 bind]. rewrite Hu. cbn [bind].
    change (gauss_nd 3 2) with (Ok (match @gauss_nd R Num_R 3 2 with Ok x => x | Err _ => ([], []) end)).
    cbn [bind]. apply bind_wrap_total. apply (plane_total 8 shape_quad8 (pl_gq pl_quad8)); assumption.
  - destruct Hin.
Qed.

Lemma gs_weights p coord g : In p planes -> accepted2 (pl_n p) (pl_sh p) (pl_gq p) coord ->
  In g (gs_of p coord) -> 0 < g_w g.
Proof.
  intros Hp [_ [_ Ha]] Hg. apply in_map_iff in Hg. destruct Hg as [[[r s] w] [<- Hin]]. cbn [gdat2 g_w].
  destruct (gq_pos p Hp) as [Hc Hw]. specialize (Hw r s w Hin). specialize (Ha r s w Hin).
  apply Rmult_lt_0_compat; [exact Hc|]. apply Rmult_lt_0_compat; lra.
Qed.

(** ** affine fields *)
Lemma field2_even ux uy k : field2 ux uy (2 * k)%nat = ux k.
Proof. unfold field2. rewrite Nat.even_mul. cbn [Nat.even orb]. rewrite Nat.div2_double. reflexivity. Qed.
Lemma field2_odd ux uy k : field2 ux uy (2 * k + 1)%nat = uy k.
Proof.
  unfold field2. rewrite Nat.add_1_r. rewrite Nat.even_succ.
  replace (Nat.odd (2 * k)) with false by (rewrite Nat.odd_mul; reflexivity).
  rewrite Nat.div2_succ_double. reflexivity.
Qed.

Lemma rsum_affine n g coord c0 c1 c2 :
  rsum n (fun k => g k * (c0 + c1 * node_x coord k + c2 * node_y coord k)) =
  c0 * rsum n g + c1 * rsum n (fun k => g k * ent coord k 0) + c2 * rsum n (fun k => g k * ent coord k 1).
Proof.
  rewrite <- !rsum_scal, <- !rsum_plus. apply rsum_ext; intros k _. unfold node_x, node_y. ring.
Qed.

Lemma strain2_affine n D coord a0 a1 a2 b0 b1 b2 a : (a < 3)%nat ->
  rsum n (ent D 0) = 0 -> rsum n (ent D 1) = 0 -> J2det (Jac n D coord) <> 0 ->
  strain2 n D coord (affine2 coord a0 a1 a2 b0 b1 b2) a = nth a [a1; b2; a2 + b1] 0.
Proof.
  intros Ha H0 H1 Hdet. unfold strain2, affine2.
  pose proof (fun a Ha => grad2_one n D coord a Ha H0 H1) as Hone.
  pose proof (fun a b Ha Hb => grad2_coord n D coord a b Ha Hb Hdet) as Hc.
  destruct a as [|[|[|]]]; [| | |lia]; cbn [nth].
  - erewrite rsum_ext; [|intros k _; rewrite field2_even; reflexivity].
    rewrite rsum_affine. rewrite (Hone 0%nat), (Hc 0%nat 0%nat), (Hc 0%nat 1%nat) by lia. cbn [Nat.eqb]. ring.
  - erewrite rsum_ext; [|intros k _; rewrite field2_odd; reflexivity].
    rewrite rsum_affine. rewrite (Hone 1%nat), (Hc 1%nat 0%nat), (Hc 1%nat 1%nat) by lia. cbn [Nat.eqb]. ring.
  - erewrite rsum_ext; [|intros k _; rewrite field2_even, field2_odd; reflexivity].
    rewrite rsum_plus, !rsum_affine.
    rewrite (Hone 0%nat), (Hone 1%nat), (Hc 0%nat 0%nat), (Hc 0%nat 1%nat), (Hc 1%nat 0%nat), (Hc 1%nat 1%nat) by lia.
    cbn [Nat.eqb]. ring.
Qed.

Lemma plane_strain_affine p coord a0 a1 a2 b0 b1 b2 g a : In p planes ->
  accepted2 (pl_n p) (pl_sh p) (pl_gq p) coord -> In g (gs_of p coord) -> (a < 3)%nat ->
  g_eps g (affine2 coord a0 a1 a2 b0 b1 b2) a = nth a [a1; b2; a2 + b1] 0.
Proof.
  intros Hp [_ [_ Hacc]] Hg Ha. apply in_map_iff in Hg. destruct Hg as [[[r s] w] [<- Hin]]. cbn [gdat2 g_eps].
  apply strain2_affine; auto; try (apply plane_D0; auto).
  specialize (Hacc r s w Hin). unfold det_at in Hacc. lra.
Qed.

(** ** element properties *)
Section OneElement.
  Variables (p : plane) (coord : list (list R)) (params : list R) (K : list (list R)) (m : massmat R).
  Hypothesis Hp : In p planes.
  Hypothesis Hrun : pl_f p coord params = Ok (K, m).

  Lemma plane_sym : symmetric (2 * pl_n p) K.
  Proof.
    destruct (plane_summary p coord params K m Hp Hrun) as [E [nu [rho [M [_ [_ [_ [_ HS]]]]]]]].
    eapply sampled_sym; [exact HS|apply umat_sym].
  Qed.

  Lemma plane_psd E nu rho : pl_par p params = Some (E, nu, rho) -> 0 <= E -> -1 < nu < 1 -> psd (2 * pl_n p) K.
  Proof.
    intros Hpar HE Hnu. destruct (plane_summary p coord params K m Hp Hrun) as [E' [nu' [rho' [M [Hpar' [_ [Ha [_ HS]]]]]]]].
    rewrite Hpar in Hpar'. injection Hpar' as <- <- <-.
    eapply sampled_psd; [exact HS|apply umat_psd; assumption|].
    intros g Hg. apply Rlt_le. eapply gs_weights; eassumption.
  Qed.

  Lemma plane_rigid a b w i : (i < 2 * pl_n p)%nat -> act (2 * pl_n p) K (rigid2 coord a b w) i = 0.
  Proof.
    intros Hi. destruct (plane_summary p coord params K m Hp Hrun) as [E [nu [rho [M [_ [_ [Ha [_ HS]]]]]]]].
    eapply sampled_null; [exact HS| |exact Hi]. intros g k Hg Hk. unfold rigid2.
    rewrite (plane_strain_affine p) by assumption. do 3 (destruct k as [|k]; [cbn [nth]; ring|]). lia.
  Qed.

  Lemma plane_uniform E nu rho a0 a1 a2 b0 b1 b2 a0' a1' a2' b0' b1' b2' :
    pl_par p params = Some (E, nu, rho) ->
    form (2 * pl_n p) K (affine2 coord a0 a1 a2 b0 b1 b2) (affine2 coord a0' a1' a2' b0' b1' b2') =
    pl_c p * lsum (fun q => let '(r, s, w) := q in det_at (pl_n p) (pl_sh p) coord r s * w) (pl_gq p) *
    (E / (1 - nu * nu) * (a1 * a1' + nu * (a1 * b2' + b2 * a1') + b2 * b2'
       + (1 - nu) / 2 * ((a2 + b1) * (a2' + b1')))).
  Proof.
    intros Hpar. destruct (plane_summary p coord params K m Hp Hrun) as [E' [nu' [rho' [M [Hpar' [_ [Ha [_ HS]]]]]]]].
    rewrite Hpar in Hpar'. injection Hpar' as <- <- <-.
    rewrite (sampled_uniform _ _ _ _ _ _ _ _ HS _ _ (fun a => nth a [a1; b2; a2 + b1] 0) (fun a => nth a [a1'; b2'; a2' + b1'] 0)).
    - rewrite umat_form. cbn [nth]. f_equal. unfold gs_of. rewrite lsum_map, <- lsum_scal. apply lsum_ext.
      intros [[r s] w] _. reflexivity.
    - intros. apply (plane_strain_affine p); assumption.
    - intros. apply (plane_strain_affine p); assumption.
  Qed.
End OneElement.
