(** * Concrete structures with additional supports, harder materials and additional elements *)
From Coq Require Import Reals List Arith Lia Lra Bool ZArith.
From Verif Require Import Num LinAlg Gauss Fem Uel Assem Main Script Spec LinR Base SpecAssem SpecModel SpecElem SpecStatic SpecModes SpecScript SpecSolid SpecMass SpecStiff
  ScriptProofs ScriptProofs2 ScriptFinal BeamFrame StiffProofs StiffProofs2 StiffProofs3 SpectralMesh ExModel ExSolver ExScript.
Import ListNotations.
Local Open Scope R_scope.

(** the frame of tests/test_integration.py:103-126 with a support in x at its corner, twice the Young modulus and a third beam *)
Definition rf_cons : list (list R) := [[-1; -1; -1]; [-1; 0; 0]; [-1; -1; -1]].
Definition rf_mats : list (list R) := [[2 * 200000000000; 133 / 1000000; 4 / 100]].
Definition rf_extra : list (list Z) := [[2; 8; 0; 0; 2]]%Z.
Definition rf : problem := reinforced tf rf_cons rf_mats rf_extra.
Lemma rf_frame : frame rf.
Proof.
  split; [reflexivity|]. split; [cbn; lia|]. do 2 (split; [reflexivity|]). split; [cbn [p_nodes tf rf reinforced]; all_forall; reflexivity|].
  split; [unfold rf, rf_cons; cbn [p_cons reinforced p_dofs tf]; flags|]. split; [reflexivity|]. split.
  - unfold rf, rf_extra. cbn [p_elements reinforced tf app]. all_forall.
    + exists 0%Z, 0%Z, 0%Z, 1%Z, (2 * 200000000000), (133 / 1000000), (4 / 100), []. split; [reflexivity|]. split; [reflexivity|]. do 3 (split; [lra|]).
      split; [left; reflexivity|]. split; [cbn; lia|]. split; [cbn; lia|]. right. cbv -[IZR]. intro N. lra.
    + exists 1%Z, 0%Z, 1%Z, 2%Z, (2 * 200000000000), (133 / 1000000), (4 / 100), []. split; [reflexivity|]. split; [reflexivity|]. do 3 (split; [lra|]).
      split; [left; reflexivity|]. split; [cbn; lia|]. split; [cbn; lia|]. left. cbv -[IZR]. intro N. lra.
    + exists 2%Z, 0%Z, 0%Z, 2%Z, (2 * 200000000000), (133 / 1000000), (4 / 100), []. split; [reflexivity|]. split; [reflexivity|]. do 3 (split; [lra|]).
      split; [left; reflexivity|]. split; [cbn; lia|]. split; [cbn; lia|]. left. cbv -[IZR]. intro N. lra.
  - unfold rf. cbn [p_loads tf reinforced]. all_forall. split; [cbn; lia|]. exists 1%nat. split; [cbn; lia|]. cbn; lra.
Qed.
Lemma rf_flags : flags01 3 rf_cons.
Proof. exact (proj1 (proj2 (frame_wf rf rf_frame))). Qed.
Lemma rf_supports i d : p_dof tf i d -> ent (p_cons tf) i d = -1 -> ent rf_cons i d = -1.
Proof. intros [Hi Hd]. cbn in Hi, Hd. destruct i as [|[|[|]]]; [| | |lia]; (destruct d as [|[|[|]]]; [| | |lia]); cbn; intros; lra. Qed.
Lemma rf_harder : Forall2 harder (p_mats tf) rf_mats.
Proof. constructor; [|constructor]. right. exists 2, 200000000000, [133 / 1000000; 4 / 100]. split; [lra|]. split; reflexivity. Qed.
Lemma rf_extra_ok : Forall (fun e => good_row (p_dofs tf) (p_max tf) (p_ndof tf) rf_cons e /\
     exists k m, retriever e rf_mats (p_nodes tf) (p_uel tf) = Ok (k, M2 m) /\
       shape (p_dofs tf * e_n e) (p_dofs tf * e_n e) k /\ shape (p_dofs tf * e_n e) (p_dofs tf * e_n e) m /\
       symmetric (p_dofs tf * e_n e) k /\ psd (p_dofs tf * e_n e) k) rf_extra.
Proof.
  rewrite Forall_forall. intros e He. destruct (frame_wf rf rf_frame) as (_ & _ & _ & HE & _). rewrite Forall_forall in HE.
  assert (Hq : In e (p_elements rf)) by (unfold rf; cbn [reinforced p_elements]; apply in_or_app; right; exact He).
  destruct (HE e Hq) as (Hg & k & m & HR & Sk & Sm). split; [exact Hg|]. exists k, m.
  pose proof (frame_psd rf rf_frame e Hq) as Hp. unfold p_stiff in Hp. rewrite HR in Hp. exact (conj HR (conj Sk (conj Sm Hp))).
Qed.
Lemma rf_stiffer : stiffer tf rf.
Proof. exact (reinforced_stiffer tf rf_cons rf_mats rf_extra (frame_wf tf tf_frame) (frame_psd tf tf_frame) ltac:(discriminate) rf_supports rf_harder rf_extra_ok). Qed.

(** the same frame with the support and the material only *)
Definition lf : problem := reinforced tf rf_cons rf_mats [].
Lemma lf_frame : frame lf.
Proof.
  destruct rf_frame as (H1 & H2 & H3 & H4 & H5 & H6 & H7 & H8 & H9). repeat (split; [assumption|]). split; [|exact H9].
  unfold rf, lf in *. cbn [p_elements reinforced] in *. rewrite Forall_forall in *. intros e He. apply H8. apply in_or_app. left. rewrite app_nil_r in He. exact He.
Qed.
Lemma lf_stiffer : stiffer tf lf.
Proof. exact (reinforced_stiffer tf rf_cons rf_mats [] (frame_wf tf tf_frame) (frame_psd tf tf_frame) ltac:(discriminate) rf_supports rf_harder (Forall_nil _)). Qed.
Lemma lf_kinetic U V : p_kinetic lf U V = p_kinetic tf U V.
Proof. exact (reinforced_kinetic tf rf_cons rf_mats [] (frame_wf tf tf_frame) ltac:(discriminate) rf_harder eq_refl U V). Qed.
Lemma lf_covered i : (i < length (p_nodes lf))%nat -> exists e k, In e (p_elements lf) /\ (k < 2)%nat /\ e_node e k = i.
Proof.
  intros Hi. destruct (tf_covered i Hi) as (e & k & He & Hk & Ek). exists e, k. split; [|split; assumption].
  unfold lf. cbn [reinforced p_elements]. rewrite app_nil_r. exact He.
Qed.
Lemma rf_runs : exists U V, p_script elim_solver tf false = Ok U /\ p_script elim_solver rf true = Ok V /\ p_load_work rf (ent V) <= p_load_work tf (ent U).
Proof.
  pose proof (frame_stable tf tf_frame tf_connected tf_supported) as St.
  pose proof (stiffer_stable tf rf (frame_wf _ tf_frame) (frame_wf _ rf_frame) (frame_psd _ tf_frame) (frame_psd _ rf_frame) rf_stiffer St) as Sr.
  destruct (p_runs elim_solver tf false (frame_wf _ tf_frame) (proj1 elim_both) (proj2 elim_both) St) as [U HU].
  destruct (p_runs elim_solver rf true (frame_wf _ rf_frame) (proj1 elim_both) (proj2 elim_both) Sr) as [V HV].
  exists U, V. split; [exact HU|]. split; [exact HV|].
  exact (stiffer_runs tf rf (frame_wf _ tf_frame) (frame_wf _ rf_frame) (frame_psd _ tf_frame) rf_stiffer (fun _ _ _ => eq_refl) _ _ _ _ _ _ (proj1 elim_both) (proj1 elim_both) HU HV).
Qed.
Lemma tf_lf_free : count_free (p_cons tf) = 3%nat /\ count_free (p_cons lf) = 2%nat.
Proof.
  unfold count_free. set (f := fun c => if Req_EM_T c 0 then true else false).
  assert (F0 : forall l, length (filter f (0 :: l)) = S (length (filter f l))).
  { intros l. cbn [filter]. replace (f 0) with true; [reflexivity|]. unfold f. destruct (Req_EM_T 0 0); [reflexivity|lra]. }
  assert (F1 : forall l, length (filter f (-1 :: l)) = length (filter f l)).
  { intros l. cbn [filter]. replace (f (-1)) with false; [reflexivity|]. unfold f. destruct (Req_EM_T (-1) 0); [lra|reflexivity]. }
  unfold lf, rf_cons. cbn [reinforced tf p_cons concat app]. split; repeat first [rewrite F0|rewrite F1]; reflexivity.
Qed.
Lemma lf_modes : exists mu Y lam W, modal_basis tf mu Y /\ modal_basis lf lam W /\ count_free (p_cons tf) = 3%nat /\ count_free (p_cons lf) = 2%nat /\
  mu 0%nat <= lam 0%nat /\ mu 1%nat <= lam 1%nat.
Proof.
  destruct (frame_basis tf tf_frame tf_covered) as (mu0 & Y0 & B0). destruct (sorted_basis _ _ _ B0) as (mu & Y & B & Hs & _).
  destruct (frame_basis lf lf_frame lf_covered) as (la0 & W0 & C0). destruct (sorted_basis _ _ _ C0) as (la & W & C & Hs' & _).
  exists mu, Y, la, W. split; [exact B|]. split; [exact C|]. split; [exact (proj1 tf_lf_free)|]. split; [exact (proj2 tf_lf_free)|].
  destruct (stiffer_sorted tf lf mu Y la W (frame_wf _ tf_frame) (frame_wf _ lf_frame) (frame_psd _ tf_frame) lf_stiffer
    (fun U _ => Req_le _ _ (lf_kinetic U U)) B C Hs Hs') as [_ HK].
  rewrite (proj2 tf_lf_free) in HK. split; apply HK; lia.
Qed.
