(** * C109: constraint flags other than 0 and -1 *)
From Coq Require Import Reals List Arith Lia Lra Bool ZArith.
From Verif Require Import Num LinAlg Uel Assem Post Main Script Spec SpecAssem SpecModel SpecElem SpecModes SpecScript SpecMass SpecStatic SpecStiff SpecTied
  ScriptFinal StaticProofs TiedProofs TiedProofs2 TiedProofs3 TiedProofs4 ExSolver ExTied.
Import ListNotations.
Local Open Scope R_scope.

(** a flag k > 0 below the number of free dofs: the dof moves with the k-th free dof, and the answer balances the forces of all
    dofs of an equation, taken together, with the last load written on any of them *)
Theorem C109_solved : forall sv p sparse U, wf_tied p -> solvers_ok sv -> p_script sv p sparse = Ok U ->
  shape (length (p_nodes p)) (p_dofs p) U /\ tied_equilibrium p (ent U).
Proof. exact tied_solved. Qed.
Print Assumptions C109_solved.
Theorem C109_auto : forall sv md plot strains out, wf_tied (plane_problem md) -> solver_ok sv -> auto sv md plot strains = Ok out ->
  shape (length (md_nodes md)) 2 (out_disp out) /\ tied_equilibrium (plane_problem md) (table out).
Proof. exact tied_auto. Qed.
Print Assumptions C109_auto.
(** such problems run *)
Theorem C109_runs : forall sv p sparse, wf_tied p -> solvers_ok sv -> solvers_total sv -> tied_stable p -> exists U, p_script sv p sparse = Ok U.
Proof. exact tied_runs. Qed.
Print Assumptions C109_runs.
Theorem C109_auto_runs : forall sv md, wf_tied (plane_problem md) -> solver_ok sv -> solver_total sv -> tied_stable (plane_problem md) -> (0 < count_free (md_cons md))%nat ->
  exists out, auto sv md false false = Ok out.
Proof. exact tied_auto_runs. Qed.
Print Assumptions C109_auto_runs.
(** ties never make a structure unstable; they take work from loads that add up *)
Theorem C109_stable : forall p, wf_tied p -> p_psd p -> p_stable (untied p) -> tied_stable p.
Proof. exact tied_from_untied. Qed.
Print Assumptions C109_stable.
Theorem C109_less : forall p U W, wf_tied p -> p_psd p -> (forall q, (q < count_free (p_cons p))%nat -> tied_load p q = over p q (applied (p_loads p))) ->
  tied_equilibrium p U -> p_equilibrium (untied p) W ->
  p_load_work p W - p_load_work p U = p_energy p (fun i d => W i d - U i d) (fun i d => W i d - U i d) /\ p_load_work p U <= p_load_work p W.
Proof. exact tied_less. Qed.
Print Assumptions C109_less.
(** a flag that is not below the number of free dofs: no answer *)
Theorem C109_too_large : forall sv p sparse i j k U, (0 < p_dofs p)%nat -> whole_flags (p_dofs p) (p_cons p) -> length (p_cons p) = length (p_nodes p) -> solvers_ok sv ->
  p_dof p i j -> ent (p_cons p) i j = INR k -> (1 <= k)%nat -> (count_free (p_cons p) <= k)%nat -> p_script sv p sparse <> Ok U.
Proof. exact flag_too_large. Qed.
Print Assumptions C109_too_large.
(** a flag below -1 of a node with an element, sparse mode: no answer *)
Theorem C109_too_small : forall sv p e k i j z U, (0 < p_dofs p)%nat -> whole_flags (p_dofs p) (p_cons p) -> length (p_cons p) = length (p_nodes p) ->
  In e (p_elements p) -> good_row (p_dofs p) (p_max p) (p_ndof p) (p_cons p) e -> shape (p_dofs p * e_n e) (p_dofs p * e_n e) (p_stiff p e) -> (k < e_n e)%nat -> e_node e k = i ->
  (j < p_dofs p)%nat -> ent (p_cons p) i j = IZR z -> (z < -1)%Z -> p_script sv p true <> Ok U.
Proof. exact flag_too_small. Qed.
Print Assumptions C109_too_small.
(** flags below -1, dense mode: counted from the end *)
Theorem C109_wraps : forall sv p, solvers_ok sv -> whole_flags (p_dofs p) (p_cons p) ->
  Forall (Forall (fun c => c < -1 -> - INR (count_free (p_cons p)) < c)) (p_cons p) -> p_script sv p false = p_script sv (wrapped p) false.
Proof. exact dense_wraps. Qed.
Print Assumptions C109_wraps.

(** three springs in a row, the last node loaded and tied to the one before: 12 instead of 18 *)
Example C109_case : wf_tied (ch 1) /\ p_psd (ch 1) /\ p_stable (untied (ch 1)) /\ tied_stable (ch 1) /\ solvers_ok elim_solver /\ solvers_total elim_solver /\
  (forall q, (q < count_free (p_cons (ch 1)))%nat -> tied_load (ch 1) q = over (ch 1) q (applied (p_loads (ch 1)))) /\
  forall sparse, (exists U, p_script elim_solver (ch 1) sparse = Ok U /\ ent U 0 0 = 0 /\ ent U 1 0 = 6 /\ ent U 2 0 = 12 /\ ent U 3 0 = 12) /\
    exists W, p_script elim_solver (untied (ch 1)) sparse = Ok W /\ ent W 3 0 = 18.
Proof.
  exact (conj ch_wf (conj (ch_psd 1) (conj ch_untied_stable (conj ch_stable (conj (proj1 elim_both) (conj (proj2 elim_both) (conj ch_sum_loads
    (fun sparse => conj (ch_run sparse) (ch_untied_run sparse))))))))).
Qed.
(** two triangles whose upper side stays level *)
Example C109_case_auto : forall fx fy, wf_tied (plane_problem (tsq fx fy)) /\ tied_stable (plane_problem (tsq fx fy)) /\ count_free (md_cons (tsq fx fy)) = 4%nat /\
  exists out, auto elim_solver (tsq fx fy) false false = Ok out /\ table out 2 0 = table out 3 0.
Proof.
  intros fx fy. split; [exact (tsq_wf fx fy)|]. split; [exact (tsq_stable fx fy)|]. split; [exact (tsq_count fx fy)|].
  destruct (tsq_runs fx fy) as [out H]. exists out. split; [exact H|exact (tsq_answer fx fy out H)].
Qed.
Example C109_case_range : (whole_flags 1 (p_cons (ch 2)) /\ p_dof (ch 2) 3 0 /\ ent (p_cons (ch 2)) 3 0 = INR 2 /\ (count_free (p_cons (ch 2)) <= 2)%nat) /\
  (whole_flags 1 (p_cons (ch (-2))) /\ ent (p_cons (ch (-2))) 3 0 = -2 /\
   exists e, In e (p_elements (ch (-2))) /\ good_row (p_dofs (ch (-2))) (p_max (ch (-2))) (p_ndof (ch (-2))) (p_cons (ch (-2))) e /\
     shape (p_dofs (ch (-2)) * e_n e) (p_dofs (ch (-2)) * e_n e) (p_stiff (ch (-2)) e) /\ (1 < e_n e)%nat /\ e_node e 1 = 3%nat) /\
  forall fx fy, whole_flags 2 (md_cons (nsq fx fy)) /\ Forall (Forall (fun c => c < -1 -> - INR (count_free (md_cons (nsq fx fy))) < c)) (md_cons (nsq fx fy)) /\
    wrapped (plane_problem (nsq fx fy)) = plane_problem (tsq fx fy) /\ exists U, p_script elim_solver (plane_problem (nsq fx fy)) false = Ok U.
Proof.
  split; [exact (conj (ch_whole 2) ch_large)|]. split; [exact (conj (ch_whole (-2)) (conj eq_refl ch_small))|].
  intros fx fy. exact (conj (proj1 (nsq_whole fx fy)) (conj (proj2 (nsq_whole fx fy)) (conj (nsq_wrapped fx fy) (nsq_runs fx fy)))).
Qed.

(** "a flag other than 0 and -1 is reported" is false *)
Theorem C109_refuted : exists md i d out, ent (md_cons md) i d <> 0 /\ ent (md_cons md) i d <> -1 /\ auto elim_solver md false false = Ok out.
Proof.
  destruct (tsq_runs 1 0) as [out H]. exists (tsq 1 0), 3%nat, 0%nat, out. change (ent (md_cons (tsq 1 0)) 3 0) with 1. split; [lra|]. split; [lra|exact H].
Qed.
Print Assumptions C109_refuted.
