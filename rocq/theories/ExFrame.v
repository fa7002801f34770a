(** * Concrete models for the properties about frames and units *)
From Coq Require Import Reals List Arith Lia Lra Bool ZArith.
From Verif Require Import Num LinAlg Gauss Fem Uel Assem Post Pre Main Spec LinR Base SpecAssem SpecModel SpecElem SpecPost SpecStatic SpecTruss SpecGrid SpecFrame
  SpecShape ShapeProofs ElemShape ElemCore Elem2 Elem2Props Elem2Mass ElemFinal2 AssemProofs ModelProofs BarProofs PostProofs PostFinal PostTotal PostPos PostMore
  StaticProofs StaticProofs2 StaticProofs3 GridModel GridLoads TrussProofs ExModel ExSolver ExGrid ExTruss FrameProofs FrameProofs2 StrainFrame.
Import ListNotations.
Local Open Scope R_scope.

(** the bracket *)
Lemma br_rows : node_rows_ok brm.
Proof. exact (proj1 br_truss). Qed.
Lemma br_types : continuum_or_truss brm /\ all_bars brm.
Proof.
  split; unfold continuum_or_truss, all_bars; cbn [md_elements brm br_bars]; all_forall;
    try (exists 6%Z; split; reflexivity); split; reflexivity.
Qed.
Lemma br_free : exists i d, free brm i d.
Proof. exists 1%nat, 0%nat. split; [cbn; lia|split; [lia|reflexivity]]. Qed.

(** grids of any size *)
Section Grid.
  Variables (L H : R) (nx ny : nat) (E nu s : R).
  Hypothesis (Hx : (1 <= nx)%nat) (Hy : (1 <= ny)%nat) (HL : 0 < L) (HH : 0 < H)
    (Hd : 1 / 100000000 < L * H / (4 * INR nx * INR ny)) (HE : 0 < E) (Hnu : -1 < nu < 1).
  Let md := pulled L H nx ny E nu s.
  Let G : grid_model L H nx ny E nu md := pulled_grid L H nx ny E nu s Hx Hy HL HH Hd HE Hnu.

  Lemma pl_wf : wf_model md.
  Proof. exact (pulled_wf L H nx ny E nu s Hx Hy HL HH Hd HE Hnu). Qed.
  Lemma pl_plane : all_plane md /\ continuum_or_truss md.
  Proof.
    pose proof (gm_mesh L H nx ny E nu md G) as HM. unfold mesh_of in HM. rewrite Forall_forall in HM.
    split; apply Forall_forall; intros e He; destruct (HM e He) as (LE & T & _); exists 1%Z;
      (assert (HT : nth_error e 1 = Some 1%Z) by (destruct e as [|? [|? ?]]; cbn in LE, T; try lia; subst; reflexivity));
      (assert (HN : type_nodes 1 = Some (e_n e)) by (unfold e_n; rewrite LE; reflexivity)); auto.
    split; [exact HT|]. split; [lia|exact HN].
  Qed.
  Lemma pl_rows : node_rows_ok md.
  Proof.
    pose proof (gm_length L H nx ny E nu md G) as HN. unfold node_rows_ok. apply Forall_forall. intros r Hr. apply (In_nth _ _ []) in Hr as (k & Hk & <-).
    rewrite HN in Hk. destruct (gm_row L H nx ny E nu md G k Hk) as (x & y & _ & ->). reflexivity.
  Qed.
  Lemma pl_supported : supported md.
  Proof.
    intros a b w HR. pose proof (gm_length L H nx ny E nu md G) as HN. destruct (gm_dx L H nx ny E nu md G) as [_ Hdy].
    assert (Hn : forall i j, (i <= nx)%nat -> (j <= ny)%nat -> (node nx i j < length (md_nodes md))%nat) by (intros; rewrite HN; apply node_bound; assumption).
    pose proof (HR (node nx 0 0) 0%nat (Hn 0%nat 0%nat ltac:(lia) ltac:(lia)) ltac:(lia) (proj1 (pulled_cons L H nx ny E nu s 0 0 ltac:(lia) ltac:(lia)))) as A.
    pose proof (HR (node nx 0 1) 0%nat (Hn 0%nat 1%nat ltac:(lia) ltac:(lia)) ltac:(lia) (proj1 (pulled_cons L H nx ny E nu s 0 1 ltac:(lia) ltac:(lia)))) as B.
    pose proof (HR (node nx 0 0) 1%nat (Hn 0%nat 0%nat ltac:(lia) ltac:(lia)) ltac:(lia) (proj2 (pulled_cons L H nx ny E nu s 0 0 ltac:(lia) ltac:(lia)))) as C.
    unfold node_rigid in A, B, C. cbn [Nat.eqb] in A, B, C.
    destruct (gm_xy L H nx ny E nu md G 0 0 ltac:(lia) ltac:(lia)) as [X0 Y0]. destruct (gm_xy L H nx ny E nu md G 0 1 ltac:(lia) ltac:(lia)) as [X1 Y1].
    rewrite Y0 in A. rewrite Y1 in B. rewrite X0 in C. cbn [INR] in *.
    assert (W : w * (H / INR ny) = 0) by lra. apply Rmult_integral in W. destruct W as [W|W]; [|lra]. subst w. repeat split; lra.
  Qed.
  Lemma pl_stable : stable md.
  Proof. exact (gm_stable L H nx ny E nu md G pl_wf pl_supported). Qed.
  Lemma pl_accepted : accepted md.
  Proof. apply (gm_accepted L H nx ny E nu md G). destruct pl_wf as (_ & HC & _). exact HC. Qed.
  Lemma pl_free : exists i d, free md i d.
  Proof.
    exists (node nx nx 0), 0%nat. split; [|split; [lia|]].
    - rewrite (gm_length L H nx ny E nu md G). apply node_bound; lia.
    - transitivity (if (nx =? 0)%nat then -1 else 0); [exact (proj1 (pulled_cons L H nx ny E nu s nx 0 ltac:(lia) ltac:(lia)))|]. destruct (Nat.eqb_spec nx 0); [lia|reflexivity].
  Qed.
End Grid.

(** two squares turned by the angle with cosine 3/5 *)
Definition two_turned : list (list R) := map (fun r => [3/5 * nth 0 r 0 - 4/5 * nth 1 r 0; 4/5 * nth 0 r 0 + 3/5 * nth 1 r 0]) two_sol.
Lemma two_turned_ent i d : (i < 7)%nat -> (d < 2)%nat -> ent two_turned i d = turned (3/5) (4/5) (ent two_sol) i d.
Proof.
  intros Hi Hd. unfold ent, two_turned. rewrite (map_nth_def _ two_sol i [] []) by exact Hi. destruct d as [|[|]]; [reflexivity|reflexivity|lia].
Qed.
Lemma two_turned_runs tx ty : exists E S, strain_rows (map (move_row (3/5) (4/5) tx ty) two_nodes) two_quads [[8; 1/3]; [1; 0]] two_turned = Ok (E, S).
Proof.
  assert (H1 : exists a b w, @gauss_1d R Num_R 2 = Ok ([a; b], w)) by (do 3 eexists; reflexivity).
  destruct H1 as [a [b [w H1]]]. destruct (nd22 a b w H1) as [Hab [wts Hnd]].
  destruct (strain_rows_runs 1 4 shape_quad4 (gauss_nd 2 2) [[a; a]; [a; b]; [b; a]; [b; b]] wts 7 (map (move_row (3/5) (4/5) tx ty) two_nodes) two_quads [[8; 1/3]; [1; 0]] two_turned) as (E & S & H & _);
    auto; try (cbn; tauto); try discriminate.
  - exact two_mesh.
  - repeat constructor.
  - repeat constructor.
  - apply Forall_forall. intros e He. unfold elem_runs.
    assert (K : (nth 2 e 0 < Z.of_nat 2)%Z /\ length (nth (Z.to_nat (nth 2 e 0%Z)) [[8; 1/3]; [1; 0]] []) = 2%nat /\ e_nu [[8; 1/3]; [1; 0]] e <> 1 /\ e_nu [[8; 1/3]; [1; 0]] e <> -1).
    { destruct He as [<-|[<-|[]]]; (split; [cbn; lia|]); (split; [reflexivity|]);
        unfold e_nu, ent; cbn [nth]; change (Z.to_nat 0) with 0%nat; change (Z.to_nat 1) with 1%nat; cbn [nth]; split; lra. }
    destruct K as [A1 [A2 [A3 A4]]]. do 4 (split; [assumption|]). apply Forall_forall. intros p _.
    rewrite (e_coords_moved (3/5) (4/5) tx ty two_nodes 7 e eq_refl) by (pose proof two_mesh as TM; unfold mesh_of in TM; rewrite Forall_forall in TM; apply (TM e He)).
    set (co := e_coords two_nodes e). assert (HC : co = [[0; 0]; [2; 0]; [2; 2]; [0; 2]] \/ co = [[2; 0]; [4; 0]; [4; 2]; [2; 2]]) by (destruct He as [<-|[<-|[]]]; [left|right]; reflexivity).
    set (r := nth 0 p 0). set (t := nth 1 p 0). assert (HL : length co = 4%nat) by (destruct HC as [-> | ->]; reflexivity).
    assert (ED : J2det (Jac 4 (snd (shape_quad4 r t)) (move2 (3/5) (4/5) tx ty co)) = 1).
    { rewrite det_move; [|exact HL|apply (plane_D0 pl_quad4 r t 0); [cbn; tauto|lia]|apply (plane_D0 pl_quad4 r t 1); [cbn; tauto|lia]|lra].
      destruct HC as [-> | ->]; unfold J2det, Jac, ent; shp; cbn [rsum nth]; field. }
    destruct (diff2_total 4 shape_quad4 (move2 (3/5) (4/5) tx ty co) r t (good2_all pl_quad4 ltac:(cbn; tauto))) as [Hm [B HB]].
    + unfold move2. rewrite map_length. exact HL.
    + unfold move2. destruct co; [discriminate|reflexivity].
    + apply (Rlt_le_trans _ 1); [lra|]. apply Req_le. symmetry. exact ED.
    + eexists. exact HB.
  - exists E, S. exact H.
Qed.
