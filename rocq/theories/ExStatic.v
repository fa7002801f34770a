(** * Concrete model for the energy and stability properties: a square of two triangles *)
From Coq Require Import Reals List Arith Lia Lra Bool ZArith Relations.
From Verif Require Import Num LinAlg Fem Uel Assem Post Main Spec LinR Base SpecAssem SpecModel SpecElem SpecStatic
  ElemCore Sampled Elem2 ShapeProofs ElemShape AssemProofs4 ModelProofs ElemFinal2 ElemFinal3 MeshProofs ExModel ExModel2 StaticProofs StaticProofs2 StaticProofs3 ExSolver.
Import ListNotations.
Local Open Scope R_scope.

Definition sqm (fx fy : R) : model := mkModel sq_nodes sq_cons sq_elements [[1; 1/4; 2]] [[2; fx; fy]].

Lemma sqm_wf fx fy : wf_model (sqm fx fy).
Proof.
  split; [|split; [reflexivity|split]].
  - exact (proj1 sq_rows).
  - all_forall; cbn; lia.
  - all_forall. split; [cbn; lia|]. exists 2%nat. split; [cbn; lia|]. cbn. lra.
Qed.

Lemma sqm_ret e : In e sq_elements -> exists K M, retriever e [[1; 1/4; 2]] sq_nodes None = Ok (K, M2 M).
Proof.
  intros [<-|[<-|[]]].
  - destruct (tri_runs [[0; 0]; [2; 0]; [2; 2]]) as [K1' [M1' [E1 _]]];
      [unfold J2det, Jac, ent; shp; cbn [rsum nth]; ring|reflexivity|reflexivity|]. exists K1', M1'. exact E1.
  - destruct (tri_runs [[0; 0]; [2; 2]; [0; 2]]) as [K1' [M1' [E1 _]]];
      [unfold J2det, Jac, ent; shp; cbn [rsum nth]; ring|reflexivity|reflexivity|]. exists K1', M1'. exact E1.
Qed.

Lemma sqm_materials fx fy : materials_ok (sqm fx fy).
Proof. exact sq_materials. Qed.

Lemma sqm_accepted fx fy : accepted (sqm fx fy).
Proof.
  apply Forall_forall. intros e He. split.
  - pose proof (proj2 sq_rows) as H. rewrite Forall_forall in H. exact (H e He).
  - destruct (sqm_ret e He) as [K [M H]]. exists K, M. exact H.
Qed.

Lemma sqm_sound fx fy : Forall (sound_plane (sqm fx fy)) (md_elements (sqm fx fy)).
Proof.
  apply Forall_forall. intros e He. destruct (sqm_ret e He) as [K [M H]].
  split; [|split; [|exists K, (M2 M); exact H]].
  - exists 3%Z. destruct He as [<-|[<-|[]]]; (split; [reflexivity|right; left; split; reflexivity]).
  - exists 0%Z, 1, (1/4), [2]. destruct He as [<-|[<-|[]]]; (split; [reflexivity|split; [reflexivity|lra]]).
Qed.

Lemma sqm_linked fx fy e e' : In e sq_elements -> In e' sq_elements -> linked (sqm fx fy) e e'.
Proof.
  intros [<-|[<-|[]]] [<-|[<-|[]]].
  - exists 0%nat, 2%nat, 0%nat, 2%nat. do 4 (split; [cbn; lia|]). do 2 (split; [reflexivity|]). left. cbv -[IZR]. intros Habs. lra.
  - exists 0%nat, 2%nat, 0%nat, 1%nat. do 4 (split; [cbn; lia|]). do 2 (split; [reflexivity|]). left. cbv -[IZR]. intros Habs. lra.
  - exists 0%nat, 1%nat, 0%nat, 2%nat. do 4 (split; [cbn; lia|]). do 2 (split; [reflexivity|]). left. cbv -[IZR]. intros Habs. lra.
  - exists 0%nat, 1%nat, 0%nat, 1%nat. do 4 (split; [cbn; lia|]). do 2 (split; [reflexivity|]). left. cbv -[IZR]. intros Habs. lra.
Qed.

Lemma sqm_connected fx fy : connected (sqm fx fy).
Proof.
  split.
  - intros e e' He He'. apply rt_step. split; [exact He'|exact (sqm_linked fx fy e e' He He')].
  - intros i Hi. cbn in Hi. assert (E : (i = 0 \/ i = 1 \/ i = 2 \/ i = 3)%nat) by lia.
    destruct E as [->|[->|[->| ->]]].
    + exists [0; 3; 0; 0; 1; 2]%Z, 0%nat. cbn. auto with arith.
    + exists [0; 3; 0; 0; 1; 2]%Z, 1%nat. cbn. auto with arith.
    + exists [0; 3; 0; 0; 1; 2]%Z, 2%nat. cbn. auto with arith.
    + exists [1; 3; 0; 0; 2; 3]%Z, 2%nat. cbn. auto with arith.
Qed.

Lemma sqm_supported fx fy : supported (sqm fx fy).
Proof.
  intros a b w H.
  pose proof (H 0%nat 0%nat ltac:(cbn; lia) ltac:(lia) eq_refl) as H1.
  pose proof (H 0%nat 1%nat ltac:(cbn; lia) ltac:(lia) eq_refl) as H2.
  pose proof (H 1%nat 1%nat ltac:(cbn; lia) ltac:(lia) eq_refl) as H3.
  unfold node_rigid, ent in *. cbn in *. lra.
Qed.

Lemma sqm_stable fx fy : stable (sqm fx fy).
Proof. exact (supported_stable _ (sqm_wf fx fy) (sqm_sound fx fy) (sqm_connected fx fy) (sqm_supported fx fy)). Qed.

Lemma sqm_free fx fy : exists i d, free (sqm fx fy) i d.
Proof. exists 2%nat, 0%nat. split; [cbn; lia|]. split; [lia|reflexivity]. Qed.

Lemma sqm_runs fx fy : exists out, auto elim_solver (sqm fx fy) false false = Ok out.
Proof. exact (model_runs _ _ (sqm_wf fx fy) (sqm_accepted fx fy) (sqm_stable fx fy) elim_ok elim_total (sqm_free fx fy)). Qed.

(** the loaded square does move, and an admissible field other than its displacements exists *)
Lemma sqm_load : load_work (sqm 1 0) [[2; 1; 0]] (fun i d => if (i =? 2)%nat then 1 else 0) = 1.
Proof.
  unfold load_work, applied. cbn -[Req_EM_T INR].
  repeat match goal with |- context [Req_EM_T ?a ?b] => destruct (Req_EM_T a b) end; cbn in *; lra.
Qed.
