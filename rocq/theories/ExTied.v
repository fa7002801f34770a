(** * Concrete problems with tied dofs *)
From Coq Require Import Reals List Arith Lia Lra Bool ZArith.
From Verif Require Import Num LinAlg Gauss Fem Uel Assem Post Main Script Spec LinR Base SpecAssem SpecModel SpecElem SpecModes SpecScript SpecMass SpecStatic SpecStiff SpecTied
  AssemProofs ElemShape StaticProofs ScriptProofs ScriptProofs2 StiffProofs RefineProofs2 TiedProofs TiedProofs2 TiedProofs3 TiedProofs4 MassPos2 ExModel ExModel2 ExSolver ExStatic ExScript ScriptFinal.
Import ListNotations.
Local Open Scope R_scope.

(** a row of three springs of constant one; the last node has the flag 1 and carries the load *)
Definition ch (flag : R) : problem := {|
  p_dofs := 1; p_max := 2; p_ndof := Some (fun _ => Ok 2%nat); p_uel := Some spring;
  p_nodes := [[0; 0]; [1; 1]; [2; 2]; [3; 3]]; p_cons := [[-1]; [0]; [0]; [flag]];
  p_elements := [[0; 77; 0; 0; 1]; [1; 77; 0; 1; 2]; [2; 77; 0; 2; 3]]%Z; p_mats := [[1]]; p_loads := [[3; 6]] |}.
Lemma ch_count flag : flag <> 0 -> count_free (p_cons (ch flag)) = 2%nat.
Proof. intros N. unfold count_free. cbn [p_cons ch concat app filter]. repeat (destruct (Req_EM_T _ _); try lra); try contradiction; reflexivity. Qed.
Lemma ch_ret flag e : In e (p_elements (ch flag)) -> retriever e (p_mats (ch flag)) (p_nodes (ch flag)) (p_uel (ch flag)) = Ok ([[1; - (1)]; [- (1); 1]], M2 [[1; 0]; [0; 1]]).
Proof. intros [<-|[<-|[<-|[]]]]; reflexivity. Qed.
Lemma ch_elems flag : Forall (fun e => good_row (p_dofs (ch flag)) (p_max (ch flag)) (p_ndof (ch flag)) (p_cons (ch flag)) e /\
     exists k m, retriever e (p_mats (ch flag)) (p_nodes (ch flag)) (p_uel (ch flag)) = Ok (k, M2 m) /\
       shape (p_dofs (ch flag) * e_n e) (p_dofs (ch flag) * e_n e) k /\ shape (p_dofs (ch flag) * e_n e) (p_dofs (ch flag) * e_n e) m) (p_elements (ch flag)).
Proof.
  apply Forall_forall. intros e He. split.
  - exists 77%Z. destruct He as [<-|[<-|[<-|[]]]]; (split; [reflexivity|]; split; [reflexivity|]; split; [cbn; lia|]; cbn [skipn]; all_forall; cbn; lia).
  - exists [[1; - (1)]; [- (1); 1]], [[1; 0]; [0; 1]]. split; [exact (ch_ret flag e He)|].
    destruct He as [<-|[<-|[<-|[]]]]; split; split; try reflexivity; all_forall; reflexivity.
Qed.
Lemma ch_loads flag : Forall (fun row => (p_dofs (ch flag) < length row)%nat /\ exists n, (n < length (p_nodes (ch flag)))%nat /\ nth 0 row 0 = INR n) (p_loads (ch flag)).
Proof. cbn [p_loads ch]. all_forall. split; [cbn; lia|]. exists 3%nat. split; [cbn; lia|]. cbn; lra. Qed.
Lemma ch_wf : wf_tied (ch 1).
Proof.
  split; [cbn; lia|]. split.
  - unfold tied_flags. rewrite (ch_count 1) by lra. cbn [p_cons ch p_dofs]. all_forall; (split; [reflexivity|]); all_forall; auto.
    right. right. exists 1%nat. split; [lia|reflexivity].
  - split; [reflexivity|]. split; [apply ch_elems|apply ch_loads].
Qed.
Lemma ch_psd flag : p_psd (ch flag).
Proof.
  intros e He. unfold p_stiff. rewrite (ch_ret flag e He). replace (p_dofs (ch flag) * e_n e)%nat with 2%nat by (destruct He as [<-|[<-|[<-|[]]]]; reflexivity).
  split.
  - intros i j Hi Hj. destruct i as [|[|]], j as [|[|]]; try lia; reflexivity.
  - intros u. unfold form, act, ent. cbn [rsum nth]. match goal with |- 0 <= ?x => replace x with ((u 0%nat - u 1%nat) * (u 0%nat - u 1%nat)) by ring end. apply Rle_0_sqr.
Qed.
Lemma ch_internal flag U i : p_internal (ch flag) U i 0 =
  (if (i =? 0)%nat then U 0%nat 0%nat - U 1%nat 0%nat else 0) + (if (i =? 1)%nat then 2 * U 1%nat 0%nat - U 0%nat 0%nat - U 2%nat 0%nat else 0) +
  (if (i =? 2)%nat then 2 * U 2%nat 0%nat - U 1%nat 0%nat - U 3%nat 0%nat else 0) + (if (i =? 3)%nat then U 3%nat 0%nat - U 2%nat 0%nat else 0).
Proof.
  unfold p_internal. cbn [p_elements ch]. change (lsum ?f (?a :: ?t)) with (f a + lsum f t). cbn [lsum fold_right]. unfold p_stiff.
  rewrite !(ch_ret flag) by (cbn; auto). unfold p_disp. cbn [p_dofs ch]. unfold e_node, e_n, node_of. cbn -[Nat.eqb IZR].
  change (Pos.to_nat 1) with 1%nat. change (Pos.to_nat 2) with 2%nat. change (Pos.to_nat 3) with 3%nat.
  do 4 (destruct i as [|i]; [cbn; unfold act, ent; cbn; ring|]). cbn. ring.
Qed.
Lemma ch_share i q : (i < 4)%nat -> shareb (p_cons (ch 1)) i 0 q = nth i [false; (q =? 0)%nat; (q =? 1)%nat; (q =? 1)%nat] false.
Proof.
  intros Hi. destruct i as [|[|[|[|]]]]; [| | | |lia]; unfold shareb, ent; cbn [p_cons ch nth].
  - destruct (Req_EM_T (-1) 0); [lra|]. destruct (Req_EM_T (-1) (INR q)); [pose proof (pos_INR q); lra|reflexivity].
  - destruct (Req_EM_T 0 0); [|lra]. replace (rank [[-1]; [0]; [0]; [1]] 1 0) with 0%nat; [apply Nat.eqb_sym|].
    unfold rank, count_free. cbn [p_cons ch firstn nth concat app filter]. destruct (Req_EM_T (-1) 0); [lra|reflexivity].
  - destruct (Req_EM_T 0 0); [|lra]. replace (rank [[-1]; [0]; [0]; [1]] 2 0) with 1%nat; [apply Nat.eqb_sym|].
    unfold rank, count_free. cbn [p_cons ch firstn nth concat app filter]. destruct (Req_EM_T (-1) 0); [lra|]. destruct (Req_EM_T 0 0); [reflexivity|lra].
  - destruct (Req_EM_T 1 0); [lra|]. destruct (Req_EM_T 1 (INR q)) as [E|E].
    + assert (q = 1%nat) by (apply INR_eq; rewrite <- E; reflexivity). subst q. reflexivity.
    + destruct (Nat.eqb_spec q 1) as [->|]; [|reflexivity]. exfalso. apply E. reflexivity.
Qed.
Lemma ch_over q f : over (ch 1) q f = (if (q =? 0)%nat then f 1%nat 0%nat else 0) + (if (q =? 1)%nat then f 2%nat 0%nat + f 3%nat 0%nat else 0).
Proof.
  unfold over. change (length (p_nodes (ch 1))) with 4%nat. change (p_dofs (ch 1)) with 1%nat. cbn [rsum]. rewrite !ch_share by lia. cbn [nth].
  destruct (q =? 0)%nat, (q =? 1)%nat; ring.
Qed.
Lemma ch_tied_load q : tied_load (ch 1) q = if (q =? 1)%nat then 6 else 0.
Proof.
  unfold tied_load. change (length (p_nodes (ch 1))) with 4%nat. change (p_dofs (ch 1)) with 1%nat. cbn [p_loads ch fold_left seq existsb]. rewrite !ch_share by lia. cbn [nth Nat.add].
  replace (if Req_EM_T 3 (INR 0) then true else false) with false by (destruct (Req_EM_T 3 (INR 0)) as [E|]; [cbn in E; lra|reflexivity]).
  replace (if Req_EM_T 3 (INR 1) then true else false) with false by (destruct (Req_EM_T 3 (INR 1)) as [E|]; [cbn in E; lra|reflexivity]).
  replace (if Req_EM_T 3 (INR 2) then true else false) with false by (destruct (Req_EM_T 3 (INR 2)) as [E|]; [cbn in E; lra|reflexivity]).
  replace (if Req_EM_T 3 (INR 3) then true else false) with true by (destruct (Req_EM_T 3 (INR 3)) as [|E]; [reflexivity|cbn in E; lra]).
  cbn. destruct (q =? 1)%nat; reflexivity.
Qed.
Lemma ch_applied i : (i < 4)%nat -> applied (p_loads (ch 1)) i 0 = if (i =? 3)%nat then 6 else 0.
Proof.
  intros Hi. unfold applied. cbn [p_loads ch fold_left nth].
  destruct i as [|[|[|[|]]]]; [| | | |lia]; destruct (Req_EM_T _ _) as [E|E]; try (cbn in E; lra); reflexivity.
Qed.
Lemma ch_sum_loads q : (q < count_free (p_cons (ch 1)))%nat -> tied_load (ch 1) q = over (ch 1) q (applied (p_loads (ch 1))).
Proof. intros _. rewrite ch_tied_load, ch_over, !ch_applied by lia. cbn [Nat.eqb]. destruct (Nat.eqb_spec q 0); destruct (Nat.eqb_spec q 1); try lia; ring. Qed.
Lemma ch_untied_ent i : (i < 4)%nat -> ent (p_cons (untied (ch 1))) i 0 = if (i =? 0)%nat then -1 else 0.
Proof. intros Hi. rewrite untied_ent; [|exact Hi|]; do 4 (destruct i as [|i]; [cbn; try (destruct (Req_EM_T _ _); [lra|reflexivity]); try (destruct (Req_EM_T _ _); [reflexivity|lra]); lia|]); lia. Qed.
Lemma ch_untied_stable : p_stable (untied (ch 1)).
Proof.
  intros U HU. assert (H : forall i, (i < 4)%nat -> _) by exact (fun i Hi => HU i 0%nat (conj Hi (le_n 1))).
  pose proof (H 0%nat ltac:(lia)) as [H0 _]. pose proof (H 1%nat ltac:(lia)) as [_ H1]. pose proof (H 2%nat ltac:(lia)) as [_ H2]. pose proof (H 3%nat ltac:(lia)) as [_ H3].
  change (p_internal (untied (ch 1))) with (p_internal (ch 1)) in *. rewrite ch_untied_ent in H0, H1, H2, H3 by lia. rewrite ch_internal in H1, H2, H3. cbn [Nat.eqb] in *.
  specialize (H0 eq_refl). specialize (H1 eq_refl). specialize (H2 eq_refl). specialize (H3 eq_refl).
  intros i d [Hi Hd]. cbn in Hi, Hd. destruct d as [|]; [|lia]. do 4 (destruct i as [|i]; [lra|]). lia.
Qed.
Lemma ch_stable : tied_stable (ch 1).
Proof. exact (tied_from_untied (ch 1) ch_wf (ch_psd 1) ch_untied_stable). Qed.
Lemma ch_run sparse : exists U, p_script elim_solver (ch 1) sparse = Ok U /\ ent U 0 0 = 0 /\ ent U 1 0 = 6 /\ ent U 2 0 = 12 /\ ent U 3 0 = 12.
Proof.
  destruct elim_both as [H1 H2]. destruct (tied_runs elim_solver (ch 1) sparse ch_wf H1 H2 ch_stable) as [U HU]. exists U. split; [exact HU|].
  destruct (tied_solved elim_solver (ch 1) sparse U ch_wf H1 HU) as (_ & (HA & HT) & HE).
  pose proof (HA 0%nat 0%nat ltac:(split; cbn; lia) eq_refl) as E0.
  pose proof (HT 1%nat 2%nat 0%nat 3%nat 0%nat ltac:(split; cbn; lia) ltac:(split; cbn; lia) ltac:(rewrite ch_share by lia; reflexivity) ltac:(rewrite ch_share by lia; reflexivity)) as E23.
  pose proof (HE 0%nat ltac:(rewrite ch_count by lra; lia)) as Q0. pose proof (HE 1%nat ltac:(rewrite ch_count by lra; lia)) as Q1.
  rewrite ch_over, ch_tied_load, !ch_internal in Q0, Q1. cbn [Nat.eqb] in Q0, Q1. lra.
Qed.
Lemma ch_untied_run sparse : exists W, p_script elim_solver (untied (ch 1)) sparse = Ok W /\ ent W 3 0 = 18.
Proof.
  destruct elim_both as [H1 H2]. pose proof (untied_wf _ ch_wf) as Wf. destruct (p_runs elim_solver _ sparse Wf H1 H2 ch_untied_stable) as [W HW]. exists W. split; [exact HW|].
  destruct (p_equilibrium_run elim_solver _ sparse W Wf H1 HW) as [_ HE].
  pose proof (proj1 (HE 0%nat 0%nat ltac:(split; cbn; lia))) as E0. pose proof (proj2 (HE 1%nat 0%nat ltac:(split; cbn; lia))) as E1.
  pose proof (proj2 (HE 2%nat 0%nat ltac:(split; cbn; lia))) as E2. pose proof (proj2 (HE 3%nat 0%nat ltac:(split; cbn; lia))) as E3.
  change (p_internal (untied (ch 1))) with (p_internal (ch 1)) in *. change (p_loads (untied (ch 1))) with (p_loads (ch 1)) in *.
  rewrite ch_untied_ent in E0, E1, E2, E3 by lia. rewrite ch_internal, ch_applied in E1, E2, E3 by lia. cbn [Nat.eqb] in *.
  specialize (E0 eq_refl). specialize (E1 eq_refl). specialize (E2 eq_refl). specialize (E3 eq_refl). lra.
Qed.
(** the two triangles with the upper side kept level: node 3 has the flag 1, the equation of the x of node 2 *)
Definition tsq (fx fy : R) : model := mkModel sq_nodes [[-1; -1]; [0; -1]; [0; 0]; [1; 0]] sq_elements [[1; 1/4; 2]] [[2; fx; fy]].
Lemma tsq_count fx fy : count_free (md_cons (tsq fx fy)) = 4%nat.
Proof. unfold count_free. cbn [md_cons tsq concat app filter]. repeat (destruct (Req_EM_T _ _); try lra); reflexivity. Qed.
Lemma tsq_wf fx fy : wf_tied (plane_problem (tsq fx fy)).
Proof.
  pose proof (plane_wf (sqm fx fy) (sqm_wf fx fy) (sqm_accepted fx fy)) as (_ & _ & _ & Hel & Hld).
  split; [cbn; lia|]. split.
  - unfold tied_flags. change (p_cons (plane_problem (tsq fx fy))) with (md_cons (tsq fx fy)). rewrite tsq_count. cbn [md_cons tsq plane_problem p_dofs]. all_forall; (split; [reflexivity|]); all_forall; auto.
    right. right. exists 1%nat. split; [lia|reflexivity].
  - split; [reflexivity|]. split; [|exact Hld]. exact Hel.
Qed.
Lemma tsq_psd fx fy : p_psd (plane_problem (tsq fx fy)).
Proof. exact (plane_psd (sqm fx fy) (sqm_wf fx fy) (sqm_accepted fx fy) (sqm_materials fx fy)). Qed.
Lemma tsq_untied fx fy : untied (plane_problem (tsq fx fy)) = plane_problem (sqm fx fy).
Proof.
  unfold untied, plane_problem, sqm, tsq. cbn [p_cons p_dofs p_max p_ndof p_uel p_nodes p_elements p_mats p_loads md_cons md_nodes md_elements md_mats md_loads map]. f_equal.
  unfold sq_cons. repeat (destruct (Req_EM_T _ _); try lra). reflexivity.
Qed.
Lemma tsq_stable fx fy : tied_stable (plane_problem (tsq fx fy)).
Proof.
  apply (tied_from_untied _ (tsq_wf fx fy) (tsq_psd fx fy)). rewrite tsq_untied. intros V HV i d [Hi Hd]. apply (sqm_stable fx fy V); [|exact Hi|exact Hd].
  intros i' d' Hi' Hd'. exact (HV i' d' (conj Hi' Hd')).
Qed.
Lemma tsq_runs fx fy : exists out, auto elim_solver (tsq fx fy) false false = Ok out.
Proof. apply (tied_auto_runs elim_solver (tsq fx fy) (tsq_wf fx fy) elim_ok elim_total (tsq_stable fx fy)). rewrite tsq_count. lia. Qed.
Lemma tsq_level fx fy : shareb (md_cons (tsq fx fy)) 2 0 1 = true /\ shareb (md_cons (tsq fx fy)) 3 0 1 = true.
Proof.
  split; unfold shareb, ent; cbn [md_cons tsq nth].
  - destruct (Req_EM_T 0 0); [|lra]. unfold rank, count_free. cbn [firstn nth concat app filter]. repeat (destruct (Req_EM_T _ _); try lra). reflexivity.
  - destruct (Req_EM_T 1 0); [lra|]. destruct (Req_EM_T 1 (INR 1)) as [|N]; [reflexivity|]. exfalso. apply N. reflexivity.
Qed.
Lemma tsq_answer fx fy out : auto elim_solver (tsq fx fy) false false = Ok out -> table out 2 0 = table out 3 0.
Proof.
  intros H. destruct (tied_auto elim_solver (tsq fx fy) false false out (tsq_wf fx fy) elim_ok H) as (_ & (_ & HT) & _).
  destruct (tsq_level fx fy) as [A B]. apply (HT 1%nat 2%nat 0%nat 3%nat 0%nat); [split; cbn; lia|split; cbn; lia|exact A|exact B].
Qed.

(** flags out of range *)
Lemma ch_whole z : whole_flags (p_dofs (ch (IZR z))) (p_cons (ch (IZR z))).
Proof.
  cbn [p_dofs p_cons ch]. unfold whole_flags. all_forall; (split; [reflexivity|]); all_forall; [exists (-1)%Z|exists 0%Z|exists 0%Z|exists z]; reflexivity.
Qed.
Lemma ch_large : p_dof (ch 2) 3 0 /\ ent (p_cons (ch 2)) 3 0 = INR 2 /\ (count_free (p_cons (ch 2)) <= 2)%nat.
Proof. split; [split; cbn; lia|]. split; [reflexivity|]. rewrite ch_count by lra. lia. Qed.
Lemma ch_small : exists e, In e (p_elements (ch (-2))) /\ good_row (p_dofs (ch (-2))) (p_max (ch (-2))) (p_ndof (ch (-2))) (p_cons (ch (-2))) e /\
  shape (p_dofs (ch (-2)) * e_n e) (p_dofs (ch (-2)) * e_n e) (p_stiff (ch (-2)) e) /\ (1 < e_n e)%nat /\ e_node e 1 = 3%nat.
Proof.
  exists [2; 77; 0; 2; 3]%Z. assert (He : In [2; 77; 0; 2; 3]%Z (p_elements (ch (-2)))) by (cbn; auto). split; [exact He|].
  pose proof (ch_elems (-2)) as HF. rewrite Forall_forall in HF. destruct (HF _ He) as [G (k & m & Hr & Sk & _)]. split; [exact G|]. split; [|split; [cbn; lia|reflexivity]].
  unfold p_stiff. rewrite Hr. exact Sk.
Qed.
(** the flag -3 of four: in the dense mode it means equation 1 *)
Definition nsq (fx fy : R) : model := mkModel sq_nodes [[-1; -1]; [0; -1]; [0; 0]; [-3; 0]] sq_elements [[1; 1/4; 2]] [[2; fx; fy]].
Lemma nsq_count fx fy : count_free (md_cons (nsq fx fy)) = 4%nat.
Proof. unfold count_free. cbn [md_cons nsq concat app filter]. repeat (destruct (Req_EM_T _ _); try lra); reflexivity. Qed.
Lemma nsq_wrapped fx fy : wrapped (plane_problem (nsq fx fy)) = plane_problem (tsq fx fy).
Proof.
  unfold wrapped. change (count_free (p_cons (plane_problem (nsq fx fy)))) with (count_free (md_cons (nsq fx fy))). rewrite nsq_count.
  unfold plane_problem, tsq, nsq. cbn [p_cons p_dofs p_max p_ndof p_uel p_nodes p_elements p_mats p_loads md_cons md_nodes md_elements md_mats md_loads map]. f_equal.
  repeat (destruct (Rlt_dec _ _); try lra). repeat f_equal. cbn. lra.
Qed.
Lemma nsq_whole fx fy : whole_flags 2 (md_cons (nsq fx fy)) /\ Forall (Forall (fun c => c < -1 -> - INR (count_free (md_cons (nsq fx fy))) < c)) (md_cons (nsq fx fy)).
Proof.
  rewrite nsq_count. cbn [md_cons nsq]. split.
  - unfold whole_flags. all_forall; (split; [reflexivity|]); all_forall; (exists (-1)%Z; reflexivity) || (exists 0%Z; reflexivity) || (exists (-3)%Z; reflexivity).
  - all_forall; all_forall; intros; cbn; lra.
Qed.
Lemma nsq_runs fx fy : exists U, p_script elim_solver (plane_problem (nsq fx fy)) false = Ok U.
Proof.
  destruct elim_both as [H1 H2]. rewrite (dense_wraps elim_solver (plane_problem (nsq fx fy)) H1 (proj1 (nsq_whole fx fy)) (proj2 (nsq_whole fx fy))), nsq_wrapped.
  exact (tied_runs elim_solver _ false (tsq_wf fx fy) H1 H2 (tsq_stable fx fy)).
Qed.
