(** * Properties C89, C91-C94: analyses with any dofs and elements; frames, natural frequencies, cantilevers *)
From Coq Require Import Reals List Arith Lra Lia ZArith Bool.
From Verif Require Import Num LinAlg Assem Post Main Script Spec SpecAssem SpecModel SpecElem SpecModes SpecScript SpecVib
  ScriptProofs ScriptProofs2 BeamFrame BarModes BarBounds Cantilever ScriptFinal ExSolver ExScript.
Import ListNotations.
Local Open Scope R_scope.

(** ** C89: DME, assembler, loadasem, static_sol, complete_disp for any dofs per node and any element *)
Theorem C89_equilibrium : forall sv p sparse U, wf_problem p -> solvers_ok sv -> p_script sv p sparse = Ok U ->
  shape (length (p_nodes p)) (p_dofs p) U /\ p_equilibrium p (ent U).
Proof. exact p_equilibrium_run. Qed.
Print Assumptions C89_equilibrium.

Theorem C89_runs : forall sv p sparse, wf_problem p -> solvers_ok sv -> solvers_total sv -> p_stable p -> exists U, p_script sv p sparse = Ok U.
Proof. exact p_runs. Qed.
Print Assumptions C89_runs.

(** equilibrium of a stable problem is unique: no solver and no storage changes the result *)
Theorem C89_unique : forall p U V, p_stable p -> p_equilibrium p U -> p_equilibrium p V -> forall i d, p_dof p i d -> U i d = V i d.
Proof. exact p_unique. Qed.
Print Assumptions C89_unique.

Theorem C89_storage : forall sv sv' p sparse sparse' U V, wf_problem p -> solvers_ok sv -> solvers_ok sv' -> p_stable p ->
  p_script sv p sparse = Ok U -> p_script sv' p sparse' = Ok V -> U = V.
Proof. exact p_same. Qed.
Print Assumptions C89_storage.

(** the assembled stiffness is regular exactly when the problem is stable *)
Theorem C89_regular : forall p, wf_problem p -> exists K M,
  (forall sparse, p_matrices p sparse = Ok (if sparse then (Csr K, Csr M) else (Dense K, Dense M))) /\
  shape (count_free (p_cons p)) (count_free (p_cons p)) K /\ shape (count_free (p_cons p)) (count_free (p_cons p)) M /\
  (p_stable p <-> regular (count_free (p_cons p)) K).
Proof. exact script_matrices. Qed.
Print Assumptions C89_regular.

(** with symmetric elements that do no negative work: stable exactly when no admissible motion is free of energy *)
Theorem C89_energy : forall p, wf_problem p -> p_psd p ->
  (p_stable p <->
   forall U, p_admissible p U -> (forall e, In e (p_elements p) -> form (p_dofs p * e_n e) (p_stiff p e) (p_disp p U e) (p_disp p U e) = 0) ->
     forall i d, p_dof p i d -> U i d = 0).
Proof. exact p_stable_energy. Qed.
Print Assumptions C89_energy.

Theorem C89_virtual_work : forall p U V, wf_problem p -> p_equilibrium p U -> p_admissible p V ->
  p_energy p V U = rsum (length (p_nodes p)) (fun i => rsum (p_dofs p) (fun d => V i d * applied (p_loads p) i d)).
Proof. exact p_work. Qed.
Print Assumptions C89_virtual_work.

(** a user spring with one dof per node; both solvers by elimination *)
Example C89_case : wf_problem sp /\ p_stable sp /\ solvers_ok elim_solver /\ solvers_total elim_solver /\
  exists U, p_script elim_solver sp true = Ok U /\ ent U 0 0 = 0 /\ ent U 1 0 = 5 / 2.
Proof. exact (conj sp_wf (conj sp_stable (conj (proj1 elim_both) (conj (proj2 elim_both) sp_run)))). Qed.
(** the frame of test_beams satisfies the remaining hypotheses *)
Example C89_case_energy : wf_problem tf /\ p_psd tf /\ p_stable tf.
Proof. exact (conj (frame_wf tf tf_frame) (conj (frame_psd tf tf_frame) (frame_stable tf tf_frame tf_connected tf_supported))). Qed.

(** ** C91: plane frames *)
Theorem C91_wf : forall p, frame p -> wf_problem p.
Proof. exact frame_wf. Qed.
Print Assumptions C91_wf.

Theorem C91_stable : forall p, frame p -> frame_connected p -> frame_supported p -> p_stable p.
Proof. exact frame_stable. Qed.
Print Assumptions C91_stable.

Theorem C91_clamped : forall p, frame p -> forall i, (i < length (p_nodes p))%nat -> (forall d, (d < 3)%nat -> ent (p_cons p) i d = -1) -> frame_supported p.
Proof. exact frame_clamped. Qed.
Print Assumptions C91_clamped.

Theorem C91_runs : forall sv p sparse, frame p -> frame_connected p -> frame_supported p -> solvers_ok sv -> solvers_total sv ->
  exists U, p_script sv p sparse = Ok U /\ p_equilibrium p (ent U).
Proof. exact frame_runs. Qed.
Print Assumptions C91_runs.

Example C91_case : frame tf /\ frame_connected tf /\ (forall d, (d < 3)%nat -> ent (p_cons tf) 0 d = -1) /\
  exists U, p_script elim_solver tf false = Ok U /\ p_equilibrium tf (ent U).
Proof.
  exact (conj tf_frame (conj tf_connected (conj tf_clamped
    (frame_runs elim_solver tf false tf_frame tf_connected tf_supported (proj1 elim_both) (proj2 elim_both))))).
Qed.

(** ** C92: the eigenvalue problem of the assembled matrices *)
(** eigenpairs of the two matrices are the free vibrations of the mesh, and every free vibration is one *)
Theorem C92_modes : forall p, wf_problem p -> exists op bc K M,
  DME (p_cons p) (p_elements p) (p_dofs p) (p_max p) (p_ndof p) = Ok (op, bc, Z.of_nat (count_free (p_cons p))) /\
  (forall sparse, p_matrices p sparse = Ok (if sparse then (Csr K, Csr M) else (Dense K, Dense M))) /\
  (forall lam x, length x = count_free (p_cons p) -> exists U, complete_disp bc (p_nodes p) x (p_dofs p) = Ok U /\
    ((exists q, (q < count_free (p_cons p))%nat /\ nth q x 0 <> 0) /\
     (forall q, (q < count_free (p_cons p))%nat ->
        act (count_free (p_cons p)) K (fun j => nth j x 0) q = lam * act (count_free (p_cons p)) M (fun j => nth j x 0) q)
     <-> p_mode p lam (ent U))) /\
  (forall lam V, p_mode p lam V -> exists x U, length x = count_free (p_cons p) /\ complete_disp bc (p_nodes p) x (p_dofs p) = Ok U /\
    forall i d, p_dof p i d -> ent U i d = V i d).
Proof. exact script_modes. Qed.
Print Assumptions C92_modes.

Theorem C92_nonneg : forall p lam U, wf_problem p -> p_psd p -> 0 < p_kinetic p U U -> p_mode p lam U ->
  0 <= lam /\ lam = p_energy p U U / p_kinetic p U U /\ (p_stable p -> 0 < lam).
Proof. exact p_mode_nonneg. Qed.
Print Assumptions C92_nonneg.

Theorem C92_orthogonal : forall p lam mu U V, p_psd p ->
  (forall e, In e (p_elements p) -> symmetric (p_dofs p * e_n e) (p_mass p e)) ->
  p_mode p lam U -> p_mode p mu V -> lam <> mu -> p_kinetic p U V = 0 /\ p_energy p U V = 0.
Proof. exact p_modes_orthogonal. Qed.
Print Assumptions C92_orthogonal.

(** frames: the kinetic energy is positive, so no hypothesis is left *)
Theorem C92_frame : forall p lam U, frame p ->
  (forall i, (i < length (p_nodes p))%nat -> exists e k, In e (p_elements p) /\ (k < 2)%nat /\ e_node e k = i) ->
  p_mode p lam U -> 0 <= lam /\ lam = p_energy p U U / p_kinetic p U U /\ (frame_connected p -> frame_supported p -> 0 < lam).
Proof. exact frame_modes. Qed.
Print Assumptions C92_frame.

Theorem C92_frame_orthogonal : forall p lam mu U V, frame p -> p_mode p lam U -> p_mode p mu V -> lam <> mu ->
  p_kinetic p U V = 0 /\ p_energy p U V = 0.
Proof. exact frame_orthogonal. Qed.
Print Assumptions C92_frame_orthogonal.

Example C92_case : frame tf /\ frame_connected tf /\ frame_supported tf /\
  (forall i, (i < length (p_nodes tf))%nat -> exists e k, In e (p_elements tf) /\ (k < 2)%nat /\ e_node e k = i).
Proof. exact (conj tf_frame (conj tf_connected (conj tf_supported tf_covered))). Qed.
(** modes exist: two of the bar with four elements *)
Example C92_case_modes : let p := fixed_bar 4 1 1 1 1 in
  wf_problem p /\ p_mode p (mesh_frequency2 4 1 1 1 1) (half_waves 4 1 1) /\ p_mode p (mesh_frequency2 4 1 1 1 2) (half_waves 4 2 1) /\
  mesh_frequency2 4 1 1 1 1 <> mesh_frequency2 4 1 1 1 2.
Proof.
  cbv zeta. split; [apply fb_wf; [lia|lra]|]. split; [|split].
  - apply fb_modes; [lia|lra|lra|lra|lra|]. exists 1%nat, 1. split; [lia|]. split; [lra|]. split; reflexivity.
  - apply fb_modes; [lia|lra|lra|lra|lra|]. exists 2%nat, 1. split; [lia|]. split; [lra|]. split; reflexivity.
  - apply Rlt_not_eq. apply mesh_increasing; [lia|lia|lra|lra|lra].
Qed.

(** ** C93: the bar fixed at both ends *)
Theorem C93_modes : forall n l E A rho, (0 < n)%nat -> 0 < l -> 0 < E -> 0 < A -> 0 < rho -> forall lam U,
  p_mode (fixed_bar n l E A rho) lam U <->
  exists m c, (0 < m < n)%nat /\ c <> 0 /\ lam = mesh_frequency2 n l E rho m /\
    forall i d, (i <= n)%nat -> (d < 2)%nat -> U i d = half_waves n m c i d.
Proof. exact fb_modes. Qed.
Print Assumptions C93_modes.

Theorem C93_order : forall n l E rho m m', (0 < m)%nat -> (m < m' < n)%nat -> 0 < l -> 0 < E -> 0 < rho ->
  mesh_frequency2 n l E rho m < mesh_frequency2 n l E rho m'.
Proof. exact mesh_increasing. Qed.
Print Assumptions C93_order.

(** never below the frequency of the continuous bar *)
Theorem C93_bounds : forall n l E rho m, (0 < m < n)%nat -> 0 < l -> 0 < E -> 0 < rho ->
  let th := INR m * PI / INR n in
  bar_frequency2 l E rho m <= mesh_frequency2 n l E rho m /\
  (th * th < 6 -> mesh_frequency2 n l E rho m <= bar_frequency2 l E rho m / (1 - th * th / 6)).
Proof. exact frequency_bounds. Qed.
Print Assumptions C93_bounds.

(** second order: eight elements per half wave or more *)
Theorem C93_rate : forall n l E rho m, (0 < m < n)%nat -> 0 < l -> 0 < E -> 0 < rho -> (8 * m <= n)%nat ->
  bar_frequency2 l E rho m <= mesh_frequency2 n l E rho m <= (1 + 2 * (INR m / INR n * (INR m / INR n))) * bar_frequency2 l E rho m.
Proof. exact mesh_close. Qed.
Print Assumptions C93_rate.

(** the assertion of tests/test_integration.py:152, ten times sharper *)
Example C93_case : forall m, (0 < m <= 6)%nat -> Rabs (mesh_frequency2 512 PI 1 1 m - INR m * INR m) <= 1 / 1000 * (INR m * INR m).
Proof. exact test_eigs. Qed.

(** ** C94: tip of a cantilever of two-node beams with axial force *)
(** claim: forall x y E I A fx fy mz sv sparse U, (x, y) <> 0 -> 0 < E, I, A -> solvers_ok sv ->
    p_script sv (cantilever x y E I A fx fy mz) sparse = Ok U -> forall d < 3, ent U 1 d = tip x y E I A fx fy mz d *)
Theorem C94_refuted : exists x y E I A fx fy mz sv sparse U, (x <> 0 \/ y <> 0) /\ 0 < E /\ 0 < I /\ 0 < A /\ solvers_ok sv /\
  p_script sv (cantilever x y E I A fx fy mz) sparse = Ok U /\ exists d, (d < 3)%nat /\ ent U 1 d <> tip x y E I A fx fy mz d.
Proof. exact ct_refuted. Qed.
Print Assumptions C94_refuted.

(** what the code returns instead: the tip of the mirrored beam, from the origin to (x, -y); right for horizontal beams *)
Theorem C94_tip_partial : forall x y E I A fx fy mz sv sparse U, (x <> 0 \/ y <> 0) -> 0 < E -> 0 < I -> 0 < A -> solvers_ok sv ->
  p_script sv (cantilever x y E I A fx fy mz) sparse = Ok U ->
  (forall d, (d < 3)%nat -> ent U 1 d = tip x (- y) E I A fx fy mz d) /\ (y = 0 -> forall d, (d < 3)%nat -> ent U 1 d = tip x y E I A fx fy mz d).
Proof. exact ct_partial. Qed.
Print Assumptions C94_tip_partial.

Example C94_case : exists U, p_script elim_solver (cantilever 3 4 1 1 1 2 1 0) true = Ok U.
Proof. apply ct_runs; [left|..]; lra. Qed.
