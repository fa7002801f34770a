(** * Concrete problems for analyses with any dofs and elements *)
From Coq Require Import Reals List Arith Lia Lra Bool ZArith Relations.
From Verif Require Import Num LinAlg Gauss Fem Uel Assem Post Main Script Spec LinR Base SpecAssem SpecModel SpecElem SpecModes SpecScript SpecVib
  AssemProofs AssemProofs3 AssemProofs4 ElemShape ScriptProofs ScriptProofs2 BeamFrame BarModes BarBounds Cantilever ExModel ExSolver ScriptFinal.
Import ListNotations.
Local Open Scope R_scope.

(** the frame of tests/test_integration.py:103-126 *)
Definition tf : problem := {|
  p_dofs := 3; p_max := 18; p_ndof := None; p_uel := None;
  p_nodes := [[0; 0; 0]; [1; 0; 6]; [2; 4; 6]];
  p_cons := [[-1; -1; -1]; [0; 0; 0]; [-1; -1; -1]];
  p_elements := [[0; 8; 0; 0; 1]; [1; 8; 0; 1; 2]]%Z;
  p_mats := [[200000000000; 133 / 1000000; 4 / 100]];
  p_loads := [[1; -12000; -24000; -6000]] |}.
Lemma tf_frame : frame tf.
Proof.
  split; [reflexivity|]. split; [cbn; lia|]. do 2 (split; [reflexivity|]). split; [cbn [p_nodes tf]; all_forall; reflexivity|].
  split; [cbn [p_cons tf]; flags|]. split; [reflexivity|]. split.
  - cbn [p_elements tf]. all_forall.
    + exists 0%Z, 0%Z, 0%Z, 1%Z, 200000000000, (133 / 1000000), (4 / 100), []. split; [reflexivity|]. split; [reflexivity|]. do 3 (split; [lra|]).
      split; [left; reflexivity|]. split; [cbn; lia|]. split; [cbn; lia|]. right. cbv -[IZR]. intro N. lra.
    + exists 1%Z, 0%Z, 1%Z, 2%Z, 200000000000, (133 / 1000000), (4 / 100), []. split; [reflexivity|]. split; [reflexivity|]. do 3 (split; [lra|]).
      split; [left; reflexivity|]. split; [cbn; lia|]. split; [cbn; lia|]. left. cbv -[IZR]. intro N. lra.
  - cbn [p_loads tf]. all_forall. split; [cbn; lia|]. exists 1%nat. split; [cbn; lia|]. cbn; lra.
Qed.
Lemma tf_connected : frame_connected tf.
Proof.
  assert (L : forall a, (a < 3)%nat -> clos_refl_trans _ (fun a b => exists e, In e (p_elements tf) /\ (e_node e 0 = a /\ e_node e 1 = b \/ e_node e 0 = b /\ e_node e 1 = a)) a 1%nat
    /\ clos_refl_trans _ (fun a b => exists e, In e (p_elements tf) /\ (e_node e 0 = a /\ e_node e 1 = b \/ e_node e 0 = b /\ e_node e 1 = a)) 1%nat a).
  { intros a Ha. destruct a as [|[|[|]]]; [| | |lia].
    - split; apply rt_step; exists [0; 8; 0; 0; 1]%Z; (split; [left; reflexivity|]); [left|right]; split; reflexivity.
    - split; apply rt_refl.
    - split; apply rt_step; exists [1; 8; 0; 1; 2]%Z; (split; [right; left; reflexivity|]); [right|left]; split; reflexivity. }
  intros i j Hi Hj. cbn in Hi, Hj. exact (rt_trans _ _ _ _ _ (proj1 (L i Hi)) (proj2 (L j Hj))).
Qed.
Lemma tf_clamped d : (d < 3)%nat -> ent (p_cons tf) 0 d = -1.
Proof. intros Hd. destruct d as [|[|[|]]]; [reflexivity|reflexivity|reflexivity|lia]. Qed.
Lemma tf_supported : frame_supported tf.
Proof. exact (frame_clamped tf tf_frame 0%nat ltac:(cbn; lia) tf_clamped). Qed.
Lemma tf_covered i : (i < length (p_nodes tf))%nat -> exists e k, In e (p_elements tf) /\ (k < 2)%nat /\ e_node e k = i.
Proof.
  intros Hi. cbn in Hi. destruct i as [|[|[|]]]; [| | |lia].
  - exists [0; 8; 0; 0; 1]%Z, 0%nat. split; [left; reflexivity|split; [lia|reflexivity]].
  - exists [0; 8; 0; 0; 1]%Z, 1%nat. split; [left; reflexivity|split; [lia|reflexivity]].
  - exists [1; 8; 0; 1; 2]%Z, 1%nat. split; [right; left; reflexivity|split; [lia|reflexivity]].
Qed.

(** one dof per node: a user spring (its only parameter is the constant) pulled at its free end *)
Definition spring : uel_fun R := fun _ params => k <- np_get params 0 ;; Ok ([[k; - k]; [- k; k]], M2 [[1; 0]; [0; 1]]).
Definition sp : problem := {|
  p_dofs := 1; p_max := 2; p_ndof := Some (fun _ => Ok 2%nat); p_uel := Some spring;
  p_nodes := [[0; 0]; [1; 3]]; p_cons := [[-1]; [0]]; p_elements := [[0; 77; 0; 0; 1]]%Z; p_mats := [[2]]; p_loads := [[1; 5]] |}.
Lemma sp_wf : wf_problem sp.
Proof.
  split; [cbn; lia|]. split; [cbn [p_cons sp p_dofs]; flags|]. split; [reflexivity|]. split.
  - cbn [p_elements sp]. all_forall. split.
    + exists 77%Z. split; [reflexivity|]. split; [reflexivity|]. split; [cbn; lia|]. cbn [skipn]. all_forall; cbn; lia.
    + exists [[2; - (2)]; [- (2); 2]], [[1; 0]; [0; 1]]. split; [reflexivity|]. split; split; try reflexivity; all_forall; reflexivity.
  - cbn [p_loads sp]. all_forall. split; [cbn; lia|]. exists 1%nat. split; [cbn; lia|]. cbn; lra.
Qed.
Lemma sp_internal U : p_internal sp U 1 0 = 2 * U 1%nat 0%nat - 2 * U 0%nat 0%nat.
Proof.
  unfold p_internal, p_stiff, p_disp. cbn -[INR IZR act]. unfold act, ent. cbn [rsum nth]. unfold e_node. cbn.
  change (retriever [0%Z; 77%Z; 0%Z; 0%Z; 1%Z] [[2]] [[0; 0]; [1; 3]] (Some spring)) with (@Ok (list (list R) * massmat R) ([[2; - (2)]; [- (2); 2]], M2 [[1; 0]; [0; 1]])).
  cbn. change (Pos.to_nat 1) with 1%nat. cbn. ring.
Qed.
Lemma sp_stable : p_stable sp.
Proof.
  intros U HU. pose proof (proj1 (HU 0%nat 0%nat ltac:(split; cbn; lia)) eq_refl) as H0.
  pose proof (proj2 (HU 1%nat 0%nat ltac:(split; cbn; lia)) eq_refl) as H1. rewrite sp_internal in H1.
  intros i d [Hi Hd]. cbn in Hi, Hd. destruct d as [|]; [|lia]. destruct i as [|[|]]; [exact H0|lra|lia].
Qed.
Lemma sp_run : exists U, p_script elim_solver sp true = Ok U /\ ent U 0 0 = 0 /\ ent U 1 0 = 5 / 2.
Proof.
  destruct elim_both as [H1 H2]. destruct (p_runs elim_solver sp true sp_wf H1 H2 sp_stable) as [U HU]. exists U. split; [exact HU|].
  destruct (p_equilibrium_run elim_solver sp true U sp_wf H1 HU) as [_ HQ].
  pose proof (proj1 (HQ 0%nat 0%nat ltac:(split; cbn; lia)) eq_refl) as E0.
  pose proof (proj2 (HQ 1%nat 0%nat ltac:(split; cbn; lia)) eq_refl) as E1. rewrite sp_internal in E1.
  split; [exact E0|]. rewrite E0 in E1. unfold applied in E1. cbn [p_loads sp fold_left nth INR] in E1. destruct (Req_EM_T 1 1) as [_|N]; [|lra]. cbn in E1. lra.
Qed.

(** the bar of test_eigs_truss: 512 elements on [0, PI]; the first six frequencies *)
Lemma mesh_increasing n l E rho m m' : (0 < m)%nat -> (m < m' < n)%nat -> 0 < l -> 0 < E -> 0 < rho ->
  mesh_frequency2 n l E rho m < mesh_frequency2 n l E rho m'.
Proof.
  intros Hm Hmn Hl HE Hr. assert (Hn : 0 < INR n) by (apply lt_0_INR; lia).
  assert (H0 : 0 < INR m) by (apply lt_0_INR; lia). assert (H1 : INR m < INR m') by (apply lt_INR; lia). assert (H2 : INR m' < INR n) by (apply lt_INR; lia).
  pose proof PI_RGT_0 as HP.
  assert (A1 : 0 < INR m * PI / INR n) by (apply Rdiv_lt_0_compat; [apply Rmult_lt_0_compat; assumption|exact Hn]).
  assert (A2 : INR m * PI / INR n < INR m' * PI / INR n).
  { unfold Rdiv. apply Rmult_lt_compat_r; [apply Rinv_0_lt_compat; exact Hn|]. apply Rmult_lt_compat_r; assumption. }
  assert (A3 : INR m' * PI / INR n < PI).
  { apply (Rmult_lt_reg_r (INR n)); [exact Hn|]. unfold Rdiv. rewrite Rmult_assoc, Rinv_l by lra. rewrite Rmult_1_r, Rmult_comm. apply Rmult_lt_compat_l; assumption. }
  assert (HC : cos (INR m' * PI / INR n) < cos (INR m * PI / INR n)) by (apply cos_decreasing_1; lra).
  unfold mesh_frequency2. cbv zeta. set (c := cos (INR m * PI / INR n)) in *. set (c' := cos (INR m' * PI / INR n)) in *.
  assert (B : -1 <= c') by (apply COS_bound). assert (HL : 0 < l / INR n) by (apply Rdiv_lt_0_compat; assumption). set (h := l / INR n) in *. clearbody h.
  apply Rmult_lt_compat_l.
  - apply Rdiv_lt_0_compat; [lra|]. apply Rmult_lt_0_compat; [exact Hr|]. apply Rmult_lt_0_compat; exact HL.
  - apply (Rmult_lt_reg_r ((2 + c) * (2 + c'))); [apply Rmult_lt_0_compat; lra|].
    replace ((1 - c) / (2 + c) * ((2 + c) * (2 + c'))) with ((1 - c) * (2 + c')) by (field; lra).
    replace ((1 - c') / (2 + c') * ((2 + c) * (2 + c'))) with ((1 - c') * (2 + c)) by (field; lra). lra.
Qed.
Lemma mesh_close n l E rho m : (0 < m < n)%nat -> 0 < l -> 0 < E -> 0 < rho -> (8 * m <= n)%nat ->
  bar_frequency2 l E rho m <= mesh_frequency2 n l E rho m <= (1 + 2 * (INR m / INR n * (INR m / INR n))) * bar_frequency2 l E rho m.
Proof.
  intros Hm Hl HE Hr H8. destruct (frequency_bounds n l E rho m Hm Hl HE Hr) as [B1 B2]. split; [exact B1|].
  assert (Hn : 0 < INR n) by (apply lt_0_INR; lia). assert (H0 : 0 < INR m) by (apply lt_0_INR; lia).
  assert (H1 : INR m / INR n <= 1 / 8).
  { apply (Rmult_le_reg_r (INR n)); [exact Hn|]. unfold Rdiv at 1. rewrite Rmult_assoc, Rinv_l by lra. apply le_INR in H8. rewrite mult_INR in H8. cbn in H8. lra. }
  set (q := INR m / INR n) in *. assert (Hq : 0 < q) by (apply Rdiv_lt_0_compat; assumption).
  replace (INR m * PI / INR n) with (q * PI) in B2 by (unfold q; field; lra). pose proof PI_33 as P. pose proof PI_RGT_0 as P0.
  assert (PP : PI * PI <= 11) by nra.
  assert (T : q * PI * (q * PI) <= 11 * (q * q)) by (replace (q * PI * (q * PI)) with (q * q * (PI * PI)) by ring; nra).
  assert (Q1 : q * q <= 1 / 64) by nra.
  assert (B : mesh_frequency2 n l E rho m <= bar_frequency2 l E rho m / (1 - q * PI * (q * PI) / 6)) by (apply B2; lra).
  eapply Rle_trans; [exact B|]. set (t := q * PI * (q * PI)) in *.
  assert (HB : 0 <= bar_frequency2 l E rho m).
  { unfold bar_frequency2. apply Rmult_le_pos; [apply Rle_0_sqr|]. left. apply Rdiv_lt_0_compat; assumption. }
  unfold Rdiv at 1. rewrite Rmult_comm. apply Rmult_le_compat_r; [exact HB|].
  apply (Rmult_le_reg_r (1 - t / 6)); [lra|]. rewrite Rinv_l by lra. nra.
Qed.
Lemma test_eigs m : (0 < m <= 6)%nat -> Rabs (mesh_frequency2 512 PI 1 1 m - INR m * INR m) <= 1 / 1000 * (INR m * INR m).
Proof.
  intros Hm. pose proof PI_RGT_0 as HP. destruct (mesh_close 512 PI 1 1 m ltac:(lia) HP ltac:(lra) ltac:(lra) ltac:(lia)) as [B1 B2].
  assert (E : bar_frequency2 PI 1 1 m = INR m * INR m) by (unfold bar_frequency2; field; lra). rewrite E in *.
  assert (H : 0 <= INR m <= 6). { split; [apply pos_INR|]. replace 6 with (INR 6) by (cbn; lra). apply le_INR. lia. }
  replace (INR 512) with 512 in B2 by (rewrite INR_IZR_INZ; reflexivity).
  assert (S : INR m / 512 * (INR m / 512) <= 1 / 5000) by nra. assert (M : 0 <= INR m * INR m) by nra.
  set (x := mesh_frequency2 512 PI 1 1 m) in *. apply Rabs_le. split; nra.
Qed.
