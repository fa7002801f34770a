(** * Analyses with any dofs and elements: statements about the matrices and vectors the calls return *)
From Coq Require Import Reals List Arith Lia Lra Bool ZArith Relations.
From Verif Require Import Num LinAlg Gauss Fem Uel Assem Post Main Script Spec LinR Base SpecAssem SpecModel SpecElem SpecModes SpecScript SpecVib
  AssemProofs AssemProofs3 AssemProofs4 ScriptProofs ScriptProofs2 BeamFrame BarModes BarBounds Cantilever ExSolver.
Import ListNotations.
Local Open Scope R_scope.

Lemma script_matrices p : wf_problem p -> exists K M,
  (forall sparse, p_matrices p sparse = Ok (if sparse then (Csr K, Csr M) else (Dense K, Dense M))) /\
  shape (count_free (p_cons p)) (count_free (p_cons p)) K /\ shape (count_free (p_cons p)) (count_free (p_cons p)) M /\
  (p_stable p <-> regular (count_free (p_cons p)) K).
Proof.
  intros Hwf. destruct (p_system p Hwf) as (op & bc & K & M & F). exists K, M. split; [|split; [|split]].
  - intros sparse. exact (p_matrices_eq p op bc K M sparse F).
  - exact (pf_K _ _ _ _ _ F).
  - exact (pf_M _ _ _ _ _ F).
  - exact (stable_regular p op bc K M Hwf F).
Qed.

Lemma script_modes p : wf_problem p -> exists op bc K M,
  DME (p_cons p) (p_elements p) (p_dofs p) (p_max p) (p_ndof p) = Ok (op, bc, Z.of_nat (count_free (p_cons p))) /\
  (forall sparse, p_matrices p sparse = Ok (if sparse then (Csr K, Csr M) else (Dense K, Dense M))) /\
  (forall lam x, length x = count_free (p_cons p) -> exists U, complete_disp bc (p_nodes p) x (p_dofs p) = Ok U /\
    ((exists q, (q < count_free (p_cons p))%nat /\ nth q x 0 <> 0) /\
     (forall q, (q < count_free (p_cons p))%nat ->
        act (count_free (p_cons p)) K (fun j => nth j x 0) q = lam * act (count_free (p_cons p)) M (fun j => nth j x 0) q)
     <-> p_mode p lam (ent U))) /\
  (forall lam V, p_mode p lam V -> exists x U, length x = count_free (p_cons p) /\ complete_disp bc (p_nodes p) x (p_dofs p) = Ok U /\
    forall i d, p_dof p i d -> ent U i d = V i d).
Proof.
  intros Hwf. destruct (p_system p Hwf) as (op & bc & K & M & F). exists op, bc, K, M.
  pose proof (pf_bc _ _ _ _ _ F) as Hbc. pose proof (pf_len _ _ _ _ _ F) as Hlen.
  split; [exact (pf_dme _ _ _ _ _ F)|]. split; [intros sparse; exact (p_matrices_eq p op bc K M sparse F)|]. split.
  - intros lam x Lx. destruct (complete_disp_ok bc (p_nodes p) x (p_dofs p) (count_free (p_cons p))) as (U & EU & SU & HUv); auto; try apply Hbc.
    exists U. split; [exact EU|].
    exact (p_eigen p op bc K M lam (fun j => nth j x 0) (ent U) Hwf F ltac:(intros a b Ha Hb; apply HUv; [lia|exact Hb])).
  - intros lam V [HV _]. destruct (admissible_spread p op bc K M V Hwf F HV) as [u Hu].
    set (x := mk_vec (count_free (p_cons p)) u).
    destruct (complete_disp_ok bc (p_nodes p) x (p_dofs p) (count_free (p_cons p))) as (U & EU & SU & HUv); auto; try apply Hbc; [apply mk_vec_length|].
    exists x, U. split; [apply mk_vec_length|]. split; [exact EU|]. intros i d [Hi Hd]. rewrite (HUv i d Hi Hd).
    rewrite <- Hlen in Hi. rewrite (Hu i d Hi Hd). destruct (Z.eqb_spec (zent bc i d) (-1)) as [|N]; [reflexivity|].
    destruct Hbc as (_ & Hrg & _). destruct (Hrg i d Hi Hd) as [E|E]; [contradiction|].
    unfold x. rewrite mk_vec_nth by lia. reflexivity.
Qed.

Lemma elim_both : solvers_ok elim_solver /\ solvers_total elim_solver.
Proof.
  split; [split; exact elim_ok|]. intros n A f HA Hf Hr. split; exact (elim_total n A f HA Hf Hr).
Qed.

(** ** frames *)
Lemma frame_runs sv p sparse : frame p -> frame_connected p -> frame_supported p -> solvers_ok sv -> solvers_total sv ->
  exists U, p_script sv p sparse = Ok U /\ p_equilibrium p (ent U).
Proof.
  intros Hf Hc Hs H1 H2. destruct (p_runs sv p sparse (frame_wf p Hf) H1 H2 (frame_stable p Hf Hc Hs)) as [U HU].
  exists U. split; [exact HU|]. exact (proj2 (p_equilibrium_run sv p sparse U (frame_wf p Hf) H1 HU)).
Qed.
Lemma frame_kinetic p U : frame p ->
  (forall i, (i < length (p_nodes p))%nat -> exists e k, In e (p_elements p) /\ (k < 2)%nat /\ e_node e k = i) ->
  (exists i d, p_dof p i d /\ U i d <> 0) -> 0 < p_kinetic p U U.
Proof.
  intros Hf Hc HU. apply p_kinetic_pos; [exact (frame_wf p Hf)| |intros i Hi|exact HU].
  - intros e He u Hu. destruct (frame_facts p Hf e He) as (E & I & A & _ & _ & _ & En & _ & _ & _ & F). cbv zeta in F. destruct F as (_ & _ & F).
    rewrite (proj1 Hf), En in *. exact (F u Hu).
  - destruct (Hc i Hi) as (e & k & He & Hk & E). exists e, k. split; [exact He|]. split; [|exact E].
    destruct (frame_facts p Hf e He) as (_ & _ & _ & _ & _ & _ & En & _). rewrite En. exact Hk.
Qed.
Lemma frame_modes p lam U : frame p ->
  (forall i, (i < length (p_nodes p))%nat -> exists e k, In e (p_elements p) /\ (k < 2)%nat /\ e_node e k = i) ->
  p_mode p lam U -> 0 <= lam /\ lam = p_energy p U U / p_kinetic p U U /\ (frame_connected p -> frame_supported p -> 0 < lam).
Proof.
  intros Hf Hc HU. destruct (p_mode_nonneg p lam U (frame_wf p Hf) (frame_psd p Hf)) as (H1 & H2 & H3).
  - apply frame_kinetic; [exact Hf|exact Hc|exact (proj1 (proj2 HU))].
  - exact HU.
  - split; [exact H1|]. split; [exact H2|]. intros C S. exact (H3 (frame_stable p Hf C S)).
Qed.
Lemma frame_orthogonal p lam mu U V : frame p -> p_mode p lam U -> p_mode p mu V -> lam <> mu -> p_kinetic p U V = 0 /\ p_energy p U V = 0.
Proof.
  intros Hf. apply p_modes_orthogonal; [exact (frame_psd p Hf)|]. intros e He.
  destruct (frame_facts p Hf e He) as (E & I & A & _ & _ & _ & En & _ & _ & _ & F). cbv zeta in F. destruct F as (_ & F & _). rewrite (proj1 Hf), En. exact F.
Qed.

(** ** cantilevers *)
Lemma ct_partial x y E I A fx fy mz sv sparse U : (x <> 0 \/ y <> 0) -> 0 < E -> 0 < I -> 0 < A -> solvers_ok sv ->
  p_script sv (cantilever x y E I A fx fy mz) sparse = Ok U ->
  (forall d, (d < 3)%nat -> ent U 1 d = tip x (- y) E I A fx fy mz d) /\ (y = 0 -> forall d, (d < 3)%nat -> ent U 1 d = tip x y E I A fx fy mz d).
Proof.
  intros Hxy HE HI HA Hs HU. pose proof (ct_run x y E I A fx fy mz Hxy HE HI HA sv sparse U Hs HU) as H. split; [exact H|].
  intros -> d Hd. rewrite (H d Hd). rewrite Ropp_0. reflexivity.
Qed.
Lemma ct_runs x y E I A fx fy mz sparse : (x <> 0 \/ y <> 0) -> 0 < E -> 0 < I -> 0 < A ->
  exists U, p_script elim_solver (cantilever x y E I A fx fy mz) sparse = Ok U.
Proof.
  intros Hxy HE HI HA. destruct elim_both as [H1 H2].
  exact (p_runs elim_solver _ sparse (frame_wf _ (ct_frame x y E I A fx fy mz Hxy HE HI HA)) H1 H2 (ct_stable x y E I A fx fy mz Hxy HE HI HA)).
Qed.
Lemma ct_refuted : exists x y E I A fx fy mz sv sparse U, (x <> 0 \/ y <> 0) /\ 0 < E /\ 0 < I /\ 0 < A /\ solvers_ok sv /\
  p_script sv (cantilever x y E I A fx fy mz) sparse = Ok U /\ exists d, (d < 3)%nat /\ ent U 1 d <> tip x y E I A fx fy mz d.
Proof.
  assert (Hxy : 0 <> 0 \/ 1 <> 0) by (right; lra).
  destruct (ct_runs 0 1 1 1 1 1 0 0 true Hxy ltac:(lra) ltac:(lra) ltac:(lra)) as [U HU].
  exists 0, 1, 1, 1, 1, 1, 0, 0, elim_solver, true, U. split; [exact Hxy|]. do 3 (split; [lra|]). split; [exact (proj1 elim_both)|]. split; [exact HU|].
  exists 2%nat. split; [lia|]. rewrite (ct_run 0 1 1 1 1 1 0 0 Hxy ltac:(lra) ltac:(lra) ltac:(lra) elim_solver true U (proj1 elim_both) HU 2%nat ltac:(lia)).
  unfold tip. replace (0 * 0 + - (1) * - (1)) with 1 by ring. replace (0 * 0 + 1 * 1) with 1 by ring. rewrite sqrt_1. lra.
Qed.
