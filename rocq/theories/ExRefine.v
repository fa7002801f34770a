(** * Concrete meshes for the refinement properties: a square of two triangles and the same square of eight *)
From Coq Require Import Reals List Arith Lia Lra Bool ZArith Relations.
From Verif Require Import Num LinAlg Fem Uel Assem Post Main Script Spec LinR Base SpecAssem SpecModel SpecElem SpecStatic SpecScript SpecMass SpecStiff SpecSolid SpecRefine
  ElemCore Sampled Elem2 ShapeProofs ElemShape AssemProofs4 ModelProofs ElemFinal2 ElemFinal3 MeshProofs ExModel ExModel2 StaticProofs StaticProofs2 StaticProofs3 ExSolver ExStatic Elem2Props
  SpecModes Elem3 Elem3Props ScriptProofs ScriptProofs2 ScriptFinal MassPos2 SolidProofs ExScript ExSolid RefineProofs RefineProofs2.
Import ListNotations.
Local Open Scope R_scope.

Definition fine_nodes : list (list R) := [[0; 0; 0]; [1; 2; 0]; [2; 2; 2]; [3; 0; 2]; [4; 1; 0]; [5; 2; 1]; [6; 1; 1]; [7; 1; 2]; [8; 0; 1]].
Definition fine_cons : list (list R) := [[-1; -1]; [0; -1]; [0; 0]; [0; 0]; [0; -1]; [0; 0]; [0; 0]; [0; 0]; [0; 0]].
Definition fine_elements : list (list Z) := [[0; 3; 0; 0; 4; 6]; [1; 3; 0; 4; 1; 5]; [2; 3; 0; 6; 5; 2]; [3; 3; 0; 4; 5; 6];
  [4; 3; 0; 0; 6; 8]; [5; 3; 0; 6; 2; 7]; [6; 3; 0; 8; 7; 3]; [7; 3; 0; 6; 7; 8]]%Z.
Definition fine (fx fy : R) : model := mkModel fine_nodes fine_cons fine_elements [[1; 1/4; 2]] [[2; fx; fy]].
(** the nodes of the square, then the middles of its sides and of its diagonal *)
Definition fine_W (i j : nat) : R :=
  nth j (nth i [[1; 0; 0; 0]; [0; 1; 0; 0]; [0; 0; 1; 0]; [0; 0; 0; 1]; [1/2; 1/2; 0; 0]; [0; 1/2; 1/2; 0]; [1/2; 0; 1/2; 0]; [0; 0; 1/2; 1/2]; [1/2; 0; 0; 1/2]] []) 0.
Definition fine_parent (k : nat) : nat := if (k <? 4)%nat then 0 else 1.

Lemma fine_rows : flags01 2 fine_cons /\ Forall (good_row 2 18 None fine_cons) fine_elements.
Proof.
  split; [flags|]. repeat (apply Forall_cons || apply Forall_nil); exists 3%Z; (split; [reflexivity|]); (split; [reflexivity|]); (split; [cbn; lia|]); cbn [skipn];
    all_forall; cbn; lia.
Qed.
Lemma fine_wf fx fy : wf_model (fine fx fy).
Proof.
  split; [|split; [reflexivity|split]].
  - exact (proj1 fine_rows).
  - all_forall; cbn; lia.
  - all_forall. split; [cbn; lia|]. exists 2%nat. split; [cbn; lia|]. cbn. lra.
Qed.
Lemma tri_runs1 c : J2det (Jac 3 (snd (shape_tri3 0 0)) c) = 1 -> length c = 3%nat -> ncols c = 2%nat ->
  exists K M, elast_tri3 c [1; 1/4; 2] = Ok (K, M2 M).
Proof.
  intros Hd Hl Hc. apply (plane_runs pl_tri3 c [1; 1/4; 2] 1 (1/4) 2 ltac:(cbn; tauto) eq_refl ltac:(lra)).
  split; [exact Hl|]. split; [exact Hc|]. intros r s w _. apply (Rlt_le_trans _ 1); [lra|]. apply Req_le. rewrite <- Hd. reflexivity.
Qed.
Ltac runs1 c := let K := fresh in let M := fresh in let E := fresh in
  destruct (tri_runs1 c) as [K [M E]]; [unfold J2det, Jac, ent; shp; cbn [rsum nth]; ring|reflexivity|reflexivity|]; exists K, M; exact E.
Lemma fine_ret e : In e fine_elements -> exists K M, retriever e [[1; 1/4; 2]] fine_nodes None = Ok (K, M2 M).
Proof.
  intros [<-|[<-|[<-|[<-|[<-|[<-|[<-|[<-|[]]]]]]]]].
  - runs1 [[0; 0]; [1; 0]; [1; 1]].
  - runs1 [[1; 0]; [2; 0]; [2; 1]].
  - runs1 [[1; 1]; [2; 1]; [2; 2]].
  - runs1 [[1; 0]; [2; 1]; [1; 1]].
  - runs1 [[0; 0]; [1; 1]; [0; 1]].
  - runs1 [[1; 1]; [2; 2]; [1; 2]].
  - runs1 [[0; 1]; [1; 2]; [0; 2]].
  - runs1 [[1; 1]; [1; 2]; [0; 1]].
Qed.
Lemma fine_accepted fx fy : accepted (fine fx fy).
Proof.
  apply Forall_forall. intros e He. split.
  - pose proof (proj2 fine_rows) as H. rewrite Forall_forall in H. exact (H e He).
  - destruct (fine_ret e He) as [K [M H]]. exists K, M. exact H.
Qed.
Ltac each_elem H := destruct H as [<-|[<-|[<-|[<-|[<-|[<-|[<-|[<-|[]]]]]]]]].
Lemma fine_sound fx fy : Forall (sound_plane (fine fx fy)) (md_elements (fine fx fy)).
Proof.
  apply Forall_forall. intros e He. destruct (fine_ret e He) as [K [M H]].
  split; [|split; [|exists K, (M2 M); exact H]].
  - exists 3%Z. each_elem He; (split; [reflexivity|right; left; split; reflexivity]).
  - exists 0%Z, 1, (1/4), [2]. each_elem He; (split; [reflexivity|split; [reflexivity|lra]]).
Qed.
Lemma fine_materials fx fy : materials_ok (fine fx fy).
Proof.
  intros elem t im params He Ht Hi Hp. each_elem He; cbn in Ht, Hi; injection Ht as <-; injection Hi as <-; cbn in Hp; apply Ok_inj in Hp; subst params;
    exists 1, (1/4), [2]; (split; [reflexivity|]); (split; [lra|]); (split; [lra|]); right; cbn; lra.
Qed.
Ltac linked_at a b c d := exists a, b, c, d; do 4 (split; [cbn; lia|]); do 2 (split; [reflexivity|]); (left; cbv -[IZR]; intros Habs; lra) || (right; cbv -[IZR]; intros Habs; lra).
Definition fe (k : nat) : list Z := nth k fine_elements [].
Lemma linked_sym md e e' : linked md e e' -> linked md e' e.
Proof.
  intros (a & b & c & d & H1 & H2 & H3 & H4 & H5 & H6 & H7). exists c, d, a, b. repeat (split; [auto|]). rewrite <- H5, <- H6. exact H7.
Qed.
Lemma fine_link fx fy : linked (fine fx fy) (fe 3) (fe 0) /\ linked (fine fx fy) (fe 3) (fe 1) /\ linked (fine fx fy) (fe 3) (fe 2) /\
  linked (fine fx fy) (fe 0) (fe 4) /\ linked (fine fx fy) (fe 4) (fe 7) /\ linked (fine fx fy) (fe 7) (fe 5) /\ linked (fine fx fy) (fe 7) (fe 6).
Proof.
  split; [linked_at 0%nat 2%nat 1%nat 2%nat|]. split; [linked_at 0%nat 1%nat 0%nat 2%nat|]. split; [linked_at 1%nat 2%nat 1%nat 0%nat|].
  split; [linked_at 0%nat 2%nat 0%nat 1%nat|]. split; [linked_at 1%nat 2%nat 0%nat 2%nat|]. split; [linked_at 0%nat 1%nat 0%nat 2%nat|].
  linked_at 1%nat 2%nat 1%nat 0%nat.
Qed.
Lemma fine_connected fx fy : connected (fine fx fy).
Proof.
  destruct (fine_link fx fy) as (L0 & L1 & L2 & L4 & L7 & L5 & L6).
  split.
  - set (R := fun a b => In b (md_elements (fine fx fy)) /\ linked (fine fx fy) a b).
    assert (I : forall k, (k < 8)%nat -> In (fe k) (md_elements (fine fx fy))) by (intros k Hk; apply nth_In; exact Hk).
    assert (D : forall i j, (i < 8)%nat -> (j < 8)%nat -> linked (fine fx fy) (fe i) (fe j) -> clos_refl_trans _ R (fe i) (fe j) /\ clos_refl_trans _ R (fe j) (fe i)).
    { intros i j Hi Hj L. split; apply rt_step; split; auto. apply linked_sym. exact L. }
    assert (T : forall k, (k < 8)%nat -> clos_refl_trans _ R (fe 3) (fe k) /\ clos_refl_trans _ R (fe k) (fe 3)).
    { assert (C : forall i j, (i < 8)%nat -> (j < 8)%nat -> linked (fine fx fy) (fe i) (fe j) -> clos_refl_trans _ R (fe 3) (fe i) /\ clos_refl_trans _ R (fe i) (fe 3) ->
        clos_refl_trans _ R (fe 3) (fe j) /\ clos_refl_trans _ R (fe j) (fe 3)).
      { intros i j Hi Hj L [A B]. destruct (D i j Hi Hj L) as [E F]. split; eapply rt_trans; eassumption. }
      assert (C3 : clos_refl_trans _ R (fe 3) (fe 3) /\ clos_refl_trans _ R (fe 3) (fe 3)) by (split; apply rt_refl).
      pose proof (C 3%nat 0%nat ltac:(lia) ltac:(lia) L0 C3) as C0. pose proof (C 3%nat 1%nat ltac:(lia) ltac:(lia) L1 C3) as C1.
      pose proof (C 3%nat 2%nat ltac:(lia) ltac:(lia) L2 C3) as C2. pose proof (C 0%nat 4%nat ltac:(lia) ltac:(lia) L4 C0) as C4.
      pose proof (C 4%nat 7%nat ltac:(lia) ltac:(lia) L7 C4) as C7. pose proof (C 7%nat 5%nat ltac:(lia) ltac:(lia) L5 C7) as C5.
      pose proof (C 7%nat 6%nat ltac:(lia) ltac:(lia) L6 C7) as C6.
      intros k Hk. do 8 (destruct k as [|k]; [assumption|]). lia. }
    intros e e' He He'. apply (In_nth _ _ []) in He. apply (In_nth _ _ []) in He'. destruct He as [i [Hi <-]]. destruct He' as [j [Hj <-]].
    apply (rt_trans _ _ _ (fe 3)); [exact (proj2 (T i Hi))|exact (proj1 (T j Hj))].
  - intros i Hi. cbn in Hi.
    assert (G : forall k m, (k < 8)%nat -> (m < 3)%nat -> e_node (fe k) m = i -> exists e k, In e (md_elements (fine fx fy)) /\ (k < e_n e)%nat /\ e_node e k = i).
    { intros k m Hk Hm E. exists (fe k), m. split; [apply nth_In; exact Hk|]. split; [|exact E].
      do 8 (destruct k as [|k]; [exact Hm|]). lia. }
    apply (G (nth i [0; 1; 2; 6; 0; 1; 0; 5; 6] 0)%nat (nth i [0; 1; 2; 2; 1; 2; 2; 2; 0] 0)%nat);
      do 9 (destruct i as [|i]; [first [reflexivity | cbn; lia]|]); lia.
Qed.
Lemma fine_supported fx fy : supported (fine fx fy).
Proof.
  intros a b w H.
  pose proof (H 0%nat 0%nat ltac:(cbn; lia) ltac:(lia) eq_refl) as H1.
  pose proof (H 0%nat 1%nat ltac:(cbn; lia) ltac:(lia) eq_refl) as H2.
  pose proof (H 1%nat 1%nat ltac:(cbn; lia) ltac:(lia) eq_refl) as H3.
  unfold node_rigid, ent in *. cbn in *. lra.
Qed.
Lemma fine_stable fx fy : stable (fine fx fy).
Proof. exact (supported_stable _ (fine_wf fx fy) (fine_sound fx fy) (fine_connected fx fy) (fine_supported fx fy)). Qed.
Lemma fine_free fx fy : exists i d, free (fine fx fy) i d.
Proof. exists 2%nat, 0%nat. split; [cbn; lia|]. split; [lia|reflexivity]. Qed.
Lemma fine_runs fx fy : exists out, auto elim_solver (fine fx fy) false false = Ok out.
Proof. exact (model_runs _ _ (fine_wf fx fy) (fine_accepted fx fy) (fine_stable fx fy) elim_ok elim_total (fine_free fx fy)). Qed.

(** ** the eight triangles are pieces of the two *)
Lemma fine_triangle (md : model) k e : md_mats md = [[1; 1/4; 2]] -> nth k (md_elements md) [] = e -> nth_error e 1 = Some 3%Z -> nth_error e 2 = Some 0%Z -> length e = 6%nat ->
  triangle (plane_problem md) e 1 (1/4).
Proof.
  intros HM _ H1 H2 H3. split; [reflexivity|]. do 7 (destruct e as [|? e]; try discriminate). cbn in H1, H2. injection H1 as ->. injection H2 as ->.
  do 5 eexists. exists [2]. split; [reflexivity|]. cbn [plane_problem p_mats]. rewrite HM. reflexivity.
Qed.
Lemma fine_nested fx fy : nested 2 triangle triangle_area (plane_problem (sqm fx fy)) (plane_problem (fine fx fy)) fine_W fine_parent.
Proof.
  split; [reflexivity|]. split; [reflexivity|]. split; [all_forall; reflexivity|]. split; [all_forall; reflexivity|].
  assert (Tp : forall k, (k < 2)%nat -> triangle (plane_problem (sqm fx fy)) (nth k sq_elements []) 1 (1/4)).
  { intros k Hk. apply (fine_triangle (sqm fx fy) k); try reflexivity; do 2 (destruct k as [|k]; [reflexivity|]); lia. }
  assert (Tq : forall k, (k < 8)%nat -> triangle (plane_problem (fine fx fy)) (nth k fine_elements []) 1 (1/4)).
  { intros k Hk. apply (fine_triangle (fine fx fy) k); try reflexivity; do 8 (destruct k as [|k]; [reflexivity|]); lia. }
  split.
  { apply Forall_forall. intros e He. apply (In_nth _ _ []) in He. destruct He as [k [Hk <-]]. exists 1, (1/4). exact (Tp k Hk). }
  split.
  - intros k Hk e e'. change (k < 8)%nat in Hk. subst e e'.
    assert (HP : (fine_parent k < 2)%nat) by (unfold fine_parent; destruct (k <? 4)%nat; lia).
    split; [exact HP|]. split; [exists 1, (1/4); split; [exact (Tq k Hk)|exact (Tp _ HP)]|].
    intros m Hm. 
    assert (G : placed 2 (plane_problem (sqm fx fy)) (plane_problem (fine fx fy)) fine_W (e_node (nth k fine_elements []) m) (nth (fine_parent k) sq_elements [])); [|exact G].
    assert (Hm' : (m = 0 \/ m = 1 \/ m = 2)%nat) by lia. clear Hm.
    do 8 (destruct k as [|k]; [destruct Hm' as [->|[->| ->]];
      (split; [cbv -[Rplus Rmult Rdiv Rinv IZR Ropp Rminus]; lra|]; split;
       [intros c Hc; assert (Hc' : (c = 0 \/ c = 1)%nat) by lia; destruct Hc' as [->| ->]; cbv -[Rplus Rmult Rdiv Rinv IZR Ropp Rminus]; lra|];
       intros j Hj; change (j < 4)%nat in Hj; 
       do 4 (destruct j as [|j]; [intros HW; (exfalso; apply HW; reflexivity) || (exists 0%nat; split; [cbn; lia|reflexivity]) ||
          (exists 1%nat; split; [cbn; lia|reflexivity]) || (exists 2%nat; split; [cbn; lia|reflexivity])|]); lia)|]); lia.
  - intros n Hn. change (n < 2)%nat in Hn. do 2 (destruct n as [|n]; [cbv -[Rplus Rmult Rdiv Rinv IZR Ropp Rminus]; lra|]). lia.
Qed.
Lemma fine_supports fx fy i d j : p_dof (plane_problem (fine fx fy)) i d -> ent (p_cons (plane_problem (fine fx fy))) i d = -1 ->
  (j < length (p_nodes (plane_problem (sqm fx fy))))%nat -> fine_W i j <> 0 -> ent (p_cons (plane_problem (sqm fx fy))) j d = -1.
Proof.
  intros [Hi Hd] C Hj HW. change (i < 9)%nat in Hi. change (d < 2)%nat in Hd. change (j < 4)%nat in Hj.
  do 2 (destruct d as [|d]; [do 9 (destruct i as [|i]; [first [exfalso; revert C; cbv -[IZR Ropp]; lra|
    do 4 (destruct j as [|j]; [first [exfalso; apply HW; reflexivity|reflexivity]|]); lia]|]); lia|]); lia.
Qed.
Lemma applied_one n row i d : nth 0 row 0 = INR n -> applied [row] i d = if (i =? n)%nat then nth (d + 1) row 0 else 0.
Proof.
  intros Hn. unfold applied. cbn [fold_left]. rewrite Hn. destruct (Nat.eqb_spec i n) as [->|N].
  - destruct (Req_EM_T (INR n) (INR n)); [reflexivity|lra].
  - destruct (Req_EM_T (INR n) (INR i)) as [E|E]; [apply INR_eq in E; congruence|reflexivity].
Qed.
(** a load on a kept node is that load on the nodes of the fine mesh *)
Lemma kept_load (W : nat -> nat -> R) nq n j (f : R) : (n < nq)%nat -> W n j = (if (j =? n)%nat then 1 else 0) ->
  (if (j =? n)%nat then f else 0) = rsum nq (fun i => W i j * (if (i =? n)%nat then f else 0)).
Proof.
  intros Hn HW. rewrite (rsum_single nq n); [|exact Hn|].
  - rewrite Nat.eqb_refl, HW. destruct (j =? n)%nat; ring.
  - intros i _ Hi. apply Nat.eqb_neq in Hi. rewrite Hi. ring.
Qed.
Lemma fine_loads fx fy j d : p_dof (plane_problem (sqm fx fy)) j d -> ent (p_cons (plane_problem (sqm fx fy))) j d = 0 ->
  applied (p_loads (plane_problem (sqm fx fy))) j d =
  rsum (length (p_nodes (plane_problem (fine fx fy)))) (fun i => fine_W i j * applied (p_loads (plane_problem (fine fx fy))) i d).
Proof.
  intros [Hj Hd] _. change (p_loads (plane_problem (sqm fx fy))) with [[2; fx; fy]]. change (p_loads (plane_problem (fine fx fy))) with [[2; fx; fy]].
  assert (A : forall i, applied [[2; fx; fy]] i d = if (i =? 2)%nat then nth (d + 1) [2; fx; fy] 0 else 0) by (intros i; apply applied_one; cbn; lra).
  rewrite A. rewrite (rsum_ext _ _ (fun i => fine_W i j * (if (i =? 2)%nat then nth (d + 1) [2; fx; fy] 0 else 0))) by (intros i _; rewrite A; reflexivity).
  apply kept_load; [cbn; lia|]. change (j < 4)%nat in Hj. do 4 (destruct j as [|j]; [reflexivity|]). lia.
Qed.
Lemma fine_kept fx fy : kept (plane_problem (sqm fx fy)) (plane_problem (fine fx fy)) fine_W.
Proof.
  intros j Hj. change (j < 4)%nat in Hj. exists j. split; [cbn; lia|]. intros j' Hj'. change (j' < 4)%nat in Hj'.
  do 4 (destruct j as [|j]; [do 4 (destruct j' as [|j']; [reflexivity|]); lia|]). lia.
Qed.
Lemma fine_finer fx fy : finer (plane_problem (sqm fx fy)) (plane_problem (fine fx fy)) fine_W.
Proof.
  exact (triangles_finer _ _ _ _ (plane_wf _ (sqm_wf fx fy) (sqm_accepted fx fy)) (plane_wf _ (fine_wf fx fy) (fine_accepted fx fy)) (fine_nested fx fy)
    (fine_supports fx fy) (fine_loads fx fy)).
Qed.

(** ** one tetrahedron, and the four made with its centre (those of [tq]) *)
Definition tet1 : problem := {|
  p_dofs := 3; p_max := 12; p_ndof := Some (fun _ => Ok 12%nat); p_uel := Some elast_tet4;
  p_nodes := [[0; 0; 0; 0]; [1; 4; 0; 0]; [2; 0; 4; 0]; [3; 0; 0; 4]];
  p_cons := [[-1; -1; -1]; [0; -1; -1]; [0; 0; -1]; [0; 0; 0]];
  p_elements := [[0; 10; 0; 0; 1; 2; 3]]%Z;
  p_mats := [[1; 1 / 4; 2]]; p_loads := [[1; 8 / 3; 0; 0]] |}.
Definition tet_W (i j : nat) : R := nth j (nth i [[1; 0; 0; 0]; [0; 1; 0; 0]; [0; 0; 1; 0]; [0; 0; 0; 1]; [1/4; 1/4; 1/4; 1/4]] []) 0.
Lemma tet1_tets : tets tet1 1 (1/4).
Proof.
  assert (HR : exists K M, elast_tet4 (p_coords tet1 [0; 10; 0; 0; 1; 2; 3]%Z) [1; 1/4; 2] = Ok (K, M2 M)).
  { apply (solid_runs so_tet4 (p_coords tet1 [0; 10; 0; 0; 1; 2; 3]%Z) 1 (1/4) 2 ltac:(cbn; tauto)); [lra|lra|]. cbn [so_n so_sh so_tet4].
    split; [reflexivity|]. split; [reflexivity|]. intros r s t w _. apply (Rlt_le_trans _ 64); [lra|]. apply Req_le. symmetry.
    change (p_coords tet1 [0; 10; 0; 0; 1; 2; 3]%Z) with [[0; 0; 0]; [4; 0; 0]; [0; 4; 0]; [0; 0; 4]]. unfold det_at3, J3det, Jac, ent. shp. cbn [rsum nth]. field. }
  split.
  - split; [reflexivity|]. split; [cbn [p_nodes tet1]; all_forall; reflexivity|]. split; [cbn [p_cons tet1]; flags|]. split; [reflexivity|]. split.
    + apply Forall_forall. intros e He. destruct HR as (K & M & H). split.
      * exists 10%Z. destruct He as [<-|[]]; (split; [reflexivity|]; split; [reflexivity|]; split; [cbn; lia|]; cbn [skipn]; all_forall; cbn; lia).
      * destruct He as [<-|[]]. exists 0%Z, elast_tet4, 1, (1/4), 2, K, (M2 M).
        split; [reflexivity|]. split; [reflexivity|]. split; [lra|]. split; [lra|]. split; [reflexivity|]. split; [exact H|].
        left. split; reflexivity.
    + cbn [p_loads tet1]. all_forall. split; [cbn; lia|]. exists 1%nat. split; [cbn; lia|]. cbn; lra.
  - apply Forall_forall. intros e [<-|[]]; (split; [reflexivity|]; exists 0%Z, 2; split; reflexivity).
Qed.
Lemma tet_nested : nested 3 tetrahedron tetrahedron_volume tet1 tq tet_W (fun _ => 0%nat).
Proof.
  split; [reflexivity|]. split; [reflexivity|]. split; [cbn [p_nodes tet1]; all_forall; reflexivity|]. split; [cbn [p_nodes tq]; all_forall; reflexivity|].
  assert (Tp : tetrahedron tet1 [0; 10; 0; 0; 1; 2; 3]%Z 1 (1/4)).
  { exists 0%Z, 10%Z, 0%Z, 0%Z, 1%Z, 2%Z, 3%Z, 2, elast_tet4. repeat (split; [reflexivity|]). reflexivity. }
  assert (Tq : forall k, (k < 4)%nat -> tetrahedron tq (nth k (p_elements tq) []) 1 (1/4)).
  { intros k Hk. do 4 (destruct k as [|k]; [do 7 eexists; exists 2, elast_tet4; split; [reflexivity|]; split; [reflexivity|]; split; reflexivity|]). lia. }
  split; [apply Forall_cons; [exists 1, (1/4); exact Tp|apply Forall_nil]|].
  split.
  - intros k Hk e e'. change (k < 4)%nat in Hk. subst e e'. split; [cbn; lia|]. split; [exists 1, (1/4); split; [exact (Tq k Hk)|exact Tp]|].
    intros m Hm. assert (G : placed 3 tet1 tq tet_W (e_node (nth k (p_elements tq) []) m) [0; 10; 0; 0; 1; 2; 3]%Z); [|exact G].
    assert (Hi : (e_node (nth k (p_elements tq) []) m < 5)%nat) by (do 4 (destruct k as [|k]; [do 4 (destruct m as [|m]; [cbn; lia|]); lia|]); lia).
    generalize dependent (e_node (nth k (p_elements tq) []) m). clear. intros i Hi.
    split; [do 5 (destruct i as [|i]; [cbv -[Rplus Rmult Rdiv Rinv IZR Ropp Rminus]; lra|]); lia|]. split.
    + intros c Hc. do 3 (destruct c as [|c]; [do 5 (destruct i as [|i]; [cbv -[Rplus Rmult Rdiv Rinv IZR Ropp Rminus]; lra|]); lia|]). lia.
    + intros j Hj _. change (j < 4)%nat in Hj. exists j. split; [cbn; lia|]. do 4 (destruct j as [|j]; [reflexivity|]). lia.
  - intros n Hn. change (n < 1)%nat in Hn. destruct n as [|n]; [|lia]. cbv -[Rplus Rmult Rdiv Rinv IZR Ropp Rminus]. lra.
Qed.
Lemma tet_supports i d j : p_dof tq i d -> ent (p_cons tq) i d = -1 -> (j < length (p_nodes tet1))%nat -> tet_W i j <> 0 -> ent (p_cons tet1) j d = -1.
Proof.
  intros [Hi Hd] C Hj HW. change (i < 5)%nat in Hi. change (d < 3)%nat in Hd. change (j < 4)%nat in Hj.
  do 3 (destruct d as [|d]; [do 5 (destruct i as [|i]; [first [exfalso; revert C; cbv -[IZR Ropp]; lra|
    do 4 (destruct j as [|j]; [first [exfalso; apply HW; reflexivity|reflexivity]|]); lia]|]); lia|]); lia.
Qed.
Lemma tet_loads j d : p_dof tet1 j d -> ent (p_cons tet1) j d = 0 -> applied (p_loads tet1) j d = rsum (length (p_nodes tq)) (fun i => tet_W i j * applied (p_loads tq) i d).
Proof.
  intros [Hj Hd] _. change (p_loads tet1) with [[1; 8 / 3; 0; 0]]. change (p_loads tq) with [[1; 8 / 3; 0; 0]].
  assert (A : forall i, applied [[1; 8 / 3; 0; 0]] i d = if (i =? 1)%nat then nth (d + 1) [1; 8 / 3; 0; 0] 0 else 0) by (intros i; apply applied_one; cbn; lra).
  rewrite A. rewrite (rsum_ext _ _ (fun i => tet_W i j * (if (i =? 1)%nat then nth (d + 1) [1; 8 / 3; 0; 0] 0 else 0))) by (intros i _; rewrite A; reflexivity).
  apply kept_load; [cbn; lia|]. change (j < 4)%nat in Hj. do 4 (destruct j as [|j]; [reflexivity|]). lia.
Qed.
Lemma tet_kept : kept tet1 tq tet_W.
Proof.
  intros j Hj. change (j < 4)%nat in Hj. exists j. split; [cbn; lia|]. intros j' Hj'. change (j' < 4)%nat in Hj'.
  do 4 (destruct j as [|j]; [do 4 (destruct j' as [|j']; [reflexivity|]); lia|]). lia.
Qed.
Lemma tet_finer : finer tet1 tq tet_W.
Proof. exact (tetrahedra_finer _ _ _ _ (solid_wf _ (proj1 tet1_tets)) (solid_wf _ (proj1 tq_tets)) tet_nested tet_supports tet_loads). Qed.
Lemma tet1_run : exists U, p_script elim_solver tet1 false = Ok U.
Proof.
  destruct elim_both as [H1 H2]. apply (p_runs elim_solver tet1 false (solid_wf _ (proj1 tet1_tets)) H1 H2).
  exact (finer_stable tet1 tq tet_W tet_finer (solid_wf _ (proj1 tet1_tets)) (solid_wf _ (proj1 tq_tets)) (solid_psd _ (proj1 tet1_tets)) (solid_psd _ (proj1 tq_tets))
    tet_kept (solid_stable tq (proj1 tq_tets) tq_connected tq_supported)).
Qed.
