(** * Concrete model: a square of four quadrilaterals around an off-centre node, pulled to the right *)
From Coq Require Import Reals List Arith Lia Lra Bool ZArith Relations Permutation.
From Verif Require Import Num LinAlg Fem Uel Assem Post Main Spec LinR Base SpecAssem SpecModel SpecElem SpecPost SpecStatic SpecPatch SpecDriver
  ElemShape AssemProofs4 ModelProofs ElemFinal2 ElemFinal3 MeshProofs BarProofs ExModel ExSolver StaticProofs StaticProofs2 StaticProofs3
  DriverProofs ConvexProofs PatchProofs PatchProofs2.
Import ListNotations.
Local Open Scope R_scope.

Definition pt_nodes : list (list R) :=
  [[0; 0; 0]; [1; 2; 0]; [2; 4; 0]; [3; 0; 2]; [4; 5/2; 3/2]; [5; 4; 2]; [6; 0; 4]; [7; 2; 4]; [8; 4; 4]].
Definition pt_elements : list (list Z) :=
  [[0; 1; 0; 0; 1; 4; 3]; [1; 1; 0; 1; 2; 5; 4]; [2; 1; 0; 4; 5; 8; 7]; [3; 1; 0; 3; 4; 7; 6]]%Z.
Definition pt_cons : list (list R) :=
  [[-1; -1]; [0; 0]; [0; 0]; [-1; 0]; [0; 0]; [0; 0]; [-1; 0]; [0; 0]; [0; 0]].
Definition ptm : model := mkModel pt_nodes pt_cons pt_elements [[1; 1/4]] [[2; 1; 0]; [5; 2; 0]; [8; 1; 0]].

Ltac lt9 i H := let E := fresh in
  assert (E : (i = 0 \/ i = 1 \/ i = 2 \/ i = 3 \/ i = 4 \/ i = 5 \/ i = 6 \/ i = 7 \/ i = 8)%nat) by lia; clear H;
  destruct E as [E|[E|[E|[E|[E|[E|[E|[E|E]]]]]]]]; subst i.
Ltac lt2 d H := let E := fresh in assert (E : (d = 0 \/ d = 1)%nat) by lia; clear H; destruct E as [E|E]; subst d.

Lemma pt_wf : wf_model ptm.
Proof.
  split; [|split; [reflexivity|split]].
  - flags.
  - cbn [md_elements ptm pt_elements]. all_forall; cbn; lia.
  - cbn [md_loads ptm]. all_forall; (split; [cbn; lia|]); [exists 2%nat|exists 5%nat|exists 8%nat]; (split; [cbn; lia|]); cbn; lra.
Qed.

Lemma pt_ret e : In e pt_elements -> exists K M, retriever e [[1; 1/4]] pt_nodes None = Ok (K, M2 M).
Proof.
  assert (C : forall p q r s, (forall k, (k < 4)%nat -> 4 / 100000000 < turn 4 [p; q; r; s] k) -> length p = 2%nat ->
     exists K M, elast_quad4 [p; q; r; s] [1; 1/4] = Ok (K, M2 M)).
  { intros p q r s Ht Hp. apply (convex_accepted _ 1 (1/4) []); [reflexivity|exact Hp|lra|exact Ht]. }
  intros [<-|[<-|[<-|[<-|[]]]]].
  - destruct (C [0; 0] [2; 0] [5/2; 3/2] [0; 2]) as (K & M & H); [|reflexivity|exists K, M; exact H].
    intros k Hk. lt4 k Hk; unfold turn, ent; cbn [nth Nat.add Nat.sub Nat.modulo Nat.divmod fst snd]; lra.
  - destruct (C [2; 0] [4; 0] [4; 2] [5/2; 3/2]) as (K & M & H); [|reflexivity|exists K, M; exact H].
    intros k Hk. lt4 k Hk; unfold turn, ent; cbn [nth Nat.add Nat.sub Nat.modulo Nat.divmod fst snd]; lra.
  - destruct (C [5/2; 3/2] [4; 2] [4; 4] [2; 4]) as (K & M & H); [|reflexivity|exists K, M; exact H].
    intros k Hk. lt4 k Hk; unfold turn, ent; cbn [nth Nat.add Nat.sub Nat.modulo Nat.divmod fst snd]; lra.
  - destruct (C [0; 2] [5/2; 3/2] [2; 4] [0; 4]) as (K & M & H); [|reflexivity|exists K, M; exact H].
    intros k Hk. lt4 k Hk; unfold turn, ent; cbn [nth Nat.add Nat.sub Nat.modulo Nat.divmod fst snd]; lra.
Qed.

Lemma pt_accepted : accepted ptm.
Proof.
  apply Forall_forall. intros e He. split.
  - destruct He as [<-|[<-|[<-|[<-|[]]]]]; (exists 1%Z; split; [reflexivity|]; split; [reflexivity|]; split; [cbn; lia|]; cbn [skipn]; all_forall; cbn; lia).
  - destruct (pt_ret e He) as (K & M & H). exists K, M. exact H.
Qed.
Lemma pt_sound : Forall (sound_plane ptm) (md_elements ptm).
Proof.
  apply Forall_forall. intros e He. destruct (pt_ret e He) as (K & M & H).
  split; [|split; [|exists K, (M2 M); exact H]].
  - exists 1%Z. destruct He as [<-|[<-|[<-|[<-|[]]]]]; (split; [reflexivity|left; split; reflexivity]).
  - exists 0%Z, 1, (1/4), []. destruct He as [<-|[<-|[<-|[<-|[]]]]]; (split; [reflexivity|split; [reflexivity|lra]]).
Qed.
Lemma pt_mesh : mesh_of 1 4 9 pt_elements.
Proof. unfold pt_elements. all_forall; (split; [reflexivity|split; [reflexivity|split; [cbn; lia|]]]); cbn [skipn]; all_forall; lia. Qed.
Lemma pt_patch : patch_mesh ptm 1 (1/4) 1.
Proof.
  exists 1%Z, 4%nat. split; [cbn; tauto|]. split; [exact pt_mesh|]. apply Forall_forall. intros e He.
  destruct (pt_ret e He) as (K & M & H). split; [|exists K, (M2 M); exact H].
  exists 0%Z, []. destruct He as [<-|[<-|[<-|[<-|[]]]]]; split; reflexivity.
Qed.

Lemma pt_link k1 k2 k1' k2' e e' : (k1 < e_n e)%nat -> (k2 < e_n e)%nat -> (k1' < e_n e')%nat -> (k2' < e_n e')%nat ->
  e_node e k1 = e_node e' k1' -> e_node e k2 = e_node e' k2' ->
  (ent pt_nodes (e_node e k1) 1 <> ent pt_nodes (e_node e k2) 1 \/ ent pt_nodes (e_node e k1) 2 <> ent pt_nodes (e_node e k2) 2) -> linked ptm e e'.
Proof. intros. exists k1, k2, k1', k2'. auto 10. Qed.
Lemma pt_connected : connected ptm.
Proof.
  split.
  - assert (G : forall e, In e pt_elements -> clos_refl_trans _ (fun a b => In b (md_elements ptm) /\ linked ptm a b) [0; 1; 0; 0; 1; 4; 3]%Z e /\
       clos_refl_trans _ (fun a b => In b (md_elements ptm) /\ linked ptm a b) e [0; 1; 0; 0; 1; 4; 3]%Z).
    { assert (L1 : linked ptm [0; 1; 0; 0; 1; 4; 3]%Z [1; 1; 0; 1; 2; 5; 4]%Z) by (apply (pt_link 1 2 0 3); try (cbn; lia); try reflexivity; left; cbv -[IZR Rdiv]; lra).
      assert (L1' : linked ptm [1; 1; 0; 1; 2; 5; 4]%Z [0; 1; 0; 0; 1; 4; 3]%Z) by (apply (pt_link 0 3 1 2); try (cbn; lia); try reflexivity; left; cbv -[IZR Rdiv]; lra).
      assert (L2 : linked ptm [1; 1; 0; 1; 2; 5; 4]%Z [2; 1; 0; 4; 5; 8; 7]%Z) by (apply (pt_link 2 3 1 0); try (cbn; lia); try reflexivity; left; cbv -[IZR Rdiv]; lra).
      assert (L2' : linked ptm [2; 1; 0; 4; 5; 8; 7]%Z [1; 1; 0; 1; 2; 5; 4]%Z) by (apply (pt_link 1 0 2 3); try (cbn; lia); try reflexivity; left; cbv -[IZR Rdiv]; lra).
      assert (L3 : linked ptm [0; 1; 0; 0; 1; 4; 3]%Z [3; 1; 0; 3; 4; 7; 6]%Z) by (apply (pt_link 2 3 1 0); try (cbn; lia); try reflexivity; left; cbv -[IZR Rdiv]; lra).
      assert (L3' : linked ptm [3; 1; 0; 3; 4; 7; 6]%Z [0; 1; 0; 0; 1; 4; 3]%Z) by (apply (pt_link 1 0 2 3); try (cbn; lia); try reflexivity; left; cbv -[IZR Rdiv]; lra).
      intros e [<-|[<-|[<-|[<-|[]]]]].
      - split; apply rt_refl.
      - split; apply rt_step; (split; [cbn; tauto|assumption]).
      - split; [eapply rt_trans; [apply rt_step; split; [|exact L1]|apply rt_step; split; [|exact L2]]|eapply rt_trans; [apply rt_step; split; [|exact L2']|apply rt_step; split; [|exact L1']]]; cbn; tauto.
      - split; apply rt_step; (split; [cbn; tauto|assumption]). }
    intros e e' He He'. eapply rt_trans; [apply (G e He)|apply (G e' He')].
  - intros i Hi. cbn in Hi. lt9 i Hi; [exists [0; 1; 0; 0; 1; 4; 3]%Z, 0%nat|exists [0; 1; 0; 0; 1; 4; 3]%Z, 1%nat|exists [1; 1; 0; 1; 2; 5; 4]%Z, 1%nat|
      exists [0; 1; 0; 0; 1; 4; 3]%Z, 3%nat|exists [0; 1; 0; 0; 1; 4; 3]%Z, 2%nat|exists [1; 1; 0; 1; 2; 5; 4]%Z, 2%nat|
      exists [3; 1; 0; 3; 4; 7; 6]%Z, 3%nat|exists [3; 1; 0; 3; 4; 7; 6]%Z, 2%nat|exists [2; 1; 0; 4; 5; 8; 7]%Z, 2%nat]; (split; [cbn; tauto|]); split; cbn; auto with arith.
Qed.
Lemma pt_supported : supported ptm.
Proof.
  intros a b w H.
  pose proof (H 0%nat 0%nat ltac:(cbn; lia) ltac:(lia) eq_refl) as H1.
  pose proof (H 0%nat 1%nat ltac:(cbn; lia) ltac:(lia) eq_refl) as H2.
  pose proof (H 3%nat 0%nat ltac:(cbn; lia) ltac:(lia) eq_refl) as H3.
  unfold node_rigid, ent in *. cbn in *. lra.
Qed.
Lemma pt_stable : stable ptm.
Proof. exact (supported_stable _ pt_wf pt_sound pt_connected pt_supported). Qed.
Lemma pt_free : exists i d, free ptm i d.
Proof. exists 4%nat, 0%nat. split; [cbn; lia|]. split; [lia|reflexivity]. Qed.
Lemma pt_recoverable : recoverable ptm.
Proof.
  split; [exists 1%Z, 4%nat; split; [cbn; tauto|exact pt_mesh]|]. split; [discriminate|].
  split; [cbn [md_nodes ptm pt_nodes]; all_forall; cbn; lia|]. split; [cbn [md_mats ptm]; all_forall; reflexivity|].
  intros i Hi. destruct (proj2 pt_connected i Hi) as (e & k & He & Hk & Hn). exists e. split; [exact He|]. exists k. auto.
Qed.
Lemma pt_plottable : plottable ptm.
Proof.
  right. split; [discriminate|]. split; [cbn [md_nodes ptm pt_nodes]; all_forall; cbn; lia|].
  cbn [md_elements ptm pt_elements]. all_forall; (split; [cbn; lia|reflexivity]).
Qed.
Lemma pt_runs : exists out, auto elim_solver ptm true true = Ok out.
Proof.
  exact (model_runs_full _ _ true true pt_wf pt_accepted pt_stable elim_ok elim_total pt_free (fun _ => pt_recoverable) (fun _ => pt_plottable)).
Qed.

(** u = x, v = - y / 4 *)
Lemma pt_admissible : admissible ptm (affine_table (md_nodes ptm) 0 1 0 0 0 (-1/4)).
Proof.
  intros i d Hi Hd Hc. cbn in Hi. lt9 i Hi; lt2 d Hd; cbn in Hc; try lra; unfold affine_table, ent; cbn; lra.
Qed.
Lemma pt_loads : forall i d, free ptm i d -> applied (md_loads ptm) i d =
  1 * sides_at (md_nodes ptm) (md_elements ptm) (hooke2 1 (1/4) (affine_strain 1 0 0 (-1/4))) i d.
Proof.
  intros i d (Hi & Hd & Hc). cbn in Hi.
  assert (A : forall i : nat, applied (md_loads ptm) i d =
    if (i =? 8)%nat then nth (d + 1) [8; 1; 0] 0 else if (i =? 5)%nat then nth (d + 1) [5; 2; 0] 0 else if (i =? 2)%nat then nth (d + 1) [2; 1; 0] 0 else 0).
  { intros j. unfold applied. cbn [fold_left md_loads ptm].
    assert (D : forall n z, INR n = IZR z -> (j =? n)%nat = if Req_EM_T (nth 0 [IZR z; 0; 0] 0) (INR j) then true else false).
    { intros n z Hz. cbn [nth]. rewrite <- Hz. destruct (Req_EM_T (INR n) (INR j)) as [E|E].
      - apply INR_eq in E. subst. apply Nat.eqb_refl.
      - apply Nat.eqb_neq. intros ->. apply E. reflexivity. }
    cbn [nth] in *. rewrite (D 8%nat 8%Z) by (cbn; lra). rewrite (D 5%nat 5%Z) by (cbn; lra). rewrite (D 2%nat 2%Z) by (cbn; lra).
    repeat destruct (Req_EM_T _ _); reflexivity. }
  rewrite A. clear A. unfold sides_at, lsum, side, side_force, hooke2, affine_strain.
  lt9 i Hi; lt2 d Hd; cbn in Hc; try lra; unfold after, before, e_n; cbn -[IZR Rdiv Rmult Rplus Rminus]; cbv -[IZR Rdiv Rmult Rplus Rminus Rinv]; lra.
Qed.

Lemma pt_interior : surrounded (md_elements ptm) 4.
Proof.
  unfold surrounded. change (after (md_elements ptm) 4) with [3; 1; 5; 7]%nat. change (before (md_elements ptm) 4) with [1; 5; 7; 3]%nat.
  apply (Permutation_cons_append [1; 5; 7]%nat 3%nat).
Qed.
