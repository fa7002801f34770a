(** * Property C101: stiffer structures move less and vibrate faster *)
From Coq Require Import Reals List Arith Lia Lra ZArith.
From Verif Require Import Num LinAlg Gauss Fem Uel Assem Main Script Spec SpecAssem SpecModel SpecElem SpecStatic SpecModes SpecScript SpecSolid SpecMass SpecStiff
  ScriptProofs2 ScriptFinal BeamFrame StiffProofs StiffProofs2 StiffProofs3 SpectralMesh ExModel ExModes ExSolver ExScript ExStiff.
Import ListNotations.
Local Open Scope R_scope.

(** a structure that takes its loads still takes them when it is made stiffer *)
Theorem C101_stable : forall p q, wf_problem p -> wf_problem q -> p_psd p -> p_psd q -> stiffer p q -> p_stable p -> p_stable q.
Proof. exact stiffer_stable. Qed.
Print Assumptions C101_stable.

(** the work of the loads falls, and at least by the energy of the difference of the motions *)
Theorem C101_work : forall p q U V, wf_problem p -> wf_problem q -> p_psd p -> stiffer p q ->
  (forall i d, p_dof p i d -> applied (p_loads q) i d = applied (p_loads p) i d) -> p_equilibrium p U -> p_equilibrium q V ->
  p_load_work q V + p_energy p (fun i d => U i d - V i d) (fun i d => U i d - V i d) <= p_load_work p U.
Proof. exact stiffer_work. Qed.
Print Assumptions C101_work.

(** tables written by two runs, whatever the solvers and the storage *)
Theorem C101_runs : forall p q, wf_problem p -> wf_problem q -> p_psd p -> stiffer p q ->
  (forall i d, p_dof p i d -> applied (p_loads q) i d = applied (p_loads p) i d) ->
  forall sv sv' sparse sparse' U V, solvers_ok sv -> solvers_ok sv' -> p_script sv p sparse = Ok U -> p_script sv' q sparse' = Ok V ->
  p_load_work q (ent V) <= p_load_work p (ent U).
Proof. exact stiffer_runs. Qed.
Print Assumptions C101_runs.

(** when a single dof is loaded that work is the load times its displacement *)
Theorem C101_point : forall p U i0 d0, p_dof p i0 d0 -> (forall i d, p_dof p i d -> (i, d) <> (i0, d0) -> applied (p_loads p) i d = 0) ->
  p_load_work p U = applied (p_loads p) i0 d0 * U i0 d0.
Proof. exact p_load_work_point. Qed.
Print Assumptions C101_point.

(** stiffer and not heavier: at every level no more natural motions below it *)
Theorem C101_frequencies : forall p q mu Y lam W, wf_problem p -> wf_problem q -> p_psd p -> stiffer p q ->
  (forall U, p_admissible q U -> p_kinetic q U U <= p_kinetic p U U) -> modal_basis p mu Y -> modal_basis q lam W ->
  forall t, (below lam (count_free (p_cons q)) t <= below mu (count_free (p_cons p)) t)%nat.
Proof. exact stiffer_below. Qed.
Print Assumptions C101_frequencies.

(** in increasing order the k-th frequency rises *)
Theorem C101_sorted : forall p q mu Y lam W, wf_problem p -> wf_problem q -> p_psd p -> stiffer p q ->
  (forall U, p_admissible q U -> p_kinetic q U U <= p_kinetic p U U) -> modal_basis p mu Y -> modal_basis q lam W ->
  (forall i j, (i <= j < count_free (p_cons p))%nat -> mu i <= mu j) -> (forall i j, (i <= j < count_free (p_cons q))%nat -> lam i <= lam j) ->
  (count_free (p_cons q) <= count_free (p_cons p))%nat /\ forall k, (k < count_free (p_cons q))%nat -> mu k <= lam k.
Proof. exact stiffer_sorted. Qed.
Print Assumptions C101_sorted.

(** the natural motions can be listed in that order *)
Theorem C101_order : forall p lam U, modal_basis p lam U -> exists lam' U', modal_basis p lam' U' /\
  (forall i j, (i <= j < count_free (p_cons p))%nat -> lam' i <= lam' j) /\ forall t, below lam' (count_free (p_cons p)) t = below lam (count_free (p_cons p)) t.
Proof. exact sorted_basis. Qed.
Print Assumptions C101_order.

(** the first parameter of every routine of the element table multiplies the stiffness and not the mass *)
Theorem C101_proportional : forall t f, ele_fun t = Ok f -> proportional f.
Proof. exact ele_proportional. Qed.
Print Assumptions C101_proportional.
Theorem C101_proportional_user : forall f, In f [elast_tet4; elast_hex8; elast_axi_quad9; elast_quad8] -> proportional f.
Proof. exact user_proportional. Qed.
Print Assumptions C101_proportional_user.

(** more supports, larger moduli and more elements make a structure stiffer *)
Theorem C101_reinforced : forall p cons mats extra, wf_problem p -> p_psd p -> (forall f, p_uel p = Some f -> proportional f) ->
  flags01 (p_dofs p) cons -> length cons = length (p_nodes p) -> (forall i d, p_dof p i d -> ent (p_cons p) i d = -1 -> ent cons i d = -1) ->
  Forall2 harder (p_mats p) mats ->
  Forall (fun e => good_row (p_dofs p) (p_max p) (p_ndof p) cons e /\
     exists k m, retriever e mats (p_nodes p) (p_uel p) = Ok (k, M2 m) /\
       shape (p_dofs p * e_n e) (p_dofs p * e_n e) k /\ shape (p_dofs p * e_n e) (p_dofs p * e_n e) m /\
       symmetric (p_dofs p * e_n e) k /\ psd (p_dofs p * e_n e) k) extra ->
  wf_problem (reinforced p cons mats extra) /\ p_psd (reinforced p cons mats extra) /\ stiffer p (reinforced p cons mats extra) /\
  (extra = [] -> forall U V, p_kinetic (reinforced p cons mats extra) U V = p_kinetic p U V).
Proof. exact reinforced_all. Qed.
Print Assumptions C101_reinforced.

(** the frame of tests/test_integration.py with a support, a material and a beam added *)
Example C101_case : wf_problem tf /\ p_psd tf /\ p_stable tf /\ flags01 3 rf_cons /\ (forall i d, p_dof tf i d -> ent (p_cons tf) i d = -1 -> ent rf_cons i d = -1) /\
  Forall2 harder (p_mats tf) rf_mats /\ rf_extra = [[2; 8; 0; 0; 2]]%Z /\ stiffer tf rf /\ ~ stiffer rf tf.
Proof.
  split; [exact (frame_wf tf tf_frame)|]. split; [exact (frame_psd tf tf_frame)|]. split; [exact (frame_stable tf tf_frame tf_connected tf_supported)|].
  split; [exact rf_flags|]. split; [exact rf_supports|]. split; [exact rf_harder|]. split; [reflexivity|]. split; [exact rf_stiffer|].
  intros H. pose proof (st_cons _ _ H 1%nat 0%nat ltac:(split; cbn; lia) ltac:(cbn; lra)) as N. cbn in N. lra.
Qed.
(** both frames run and the work of the loads falls *)
Example C101_case_runs : exists U V, p_script elim_solver tf false = Ok U /\ p_script elim_solver rf true = Ok V /\ p_load_work rf (ent V) <= p_load_work tf (ent U).
Proof. exact rf_runs. Qed.
(** sorted natural motions of the frame and of the frame with the support and the material *)
Example C101_case_modes : exists mu Y lam W, modal_basis tf mu Y /\ modal_basis lf lam W /\ count_free (p_cons tf) = 3%nat /\ count_free (p_cons lf) = 2%nat /\
  mu 0%nat <= lam 0%nat /\ mu 1%nat <= lam 1%nat.
Proof. exact lf_modes. Qed.
(** a brick; one loaded dof (a user spring) *)
Example C101_case_brick : exists K M, elast_hex8 brick [1; 1/4; 2] = Ok (K, M2 M) /\ elast_hex8 brick [3 * 1; 1/4; 2] = Ok (map (map (Rmult 3)) K, M2 M).
Proof. destruct brick_runs as (K & M & H). exists K, M. split; [exact H|]. exact (C101_proportional_user elast_hex8 ltac:(cbn; tauto) _ _ _ _ _ 3 H). Qed.
Example C101_case_point : p_dof sp 1 0 /\ forall i d, p_dof sp i d -> (i, d) <> (1, 0)%nat -> applied (p_loads sp) i d = 0.
Proof.
  split; [split; cbn; lia|]. intros i d [Hi Hd] N. cbn in Hi, Hd. destruct i as [|[|]]; [|exfalso; apply N; f_equal; lia|lia]. destruct d; [|lia].
  unfold applied. cbn. destruct (Req_EM_T 1 0); lra.
Qed.
