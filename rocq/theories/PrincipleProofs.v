(** * Superposition, reciprocity and minimum of the potential, any dofs and elements *)
From Coq Require Import Reals List Arith ZArith Lia Lra.
From Verif Require Import Num LinAlg LinR Main Script Spec SpecAssem SpecModel SpecElem SpecScript SpecStiff SpecCast ScriptProofs ScriptProofs2 ScriptFinal StiffProofs.
Import ListNotations.
Local Open Scope R_scope.

Lemma script_superposition p l1 l2 l3 a b sv1 sv2 sv3 sp1 sp2 sp3 U1 U2 U3 :
  solvers_ok sv1 -> solvers_ok sv2 -> solvers_ok sv3 -> p_stable p ->
  wf_problem (p_loaded p l1) -> wf_problem (p_loaded p l2) -> wf_problem (p_loaded p l3) ->
  (forall i d, p_dof p i d -> applied l3 i d = a * applied l1 i d + b * applied l2 i d) ->
  p_script sv1 (p_loaded p l1) sp1 = Ok U1 -> p_script sv2 (p_loaded p l2) sp2 = Ok U2 -> p_script sv3 (p_loaded p l3) sp3 = Ok U3 ->
  forall i d, p_dof p i d -> ent U3 i d = a * ent U1 i d + b * ent U2 i d.
Proof.
  intros S1 S2 S3 Hst W1 W2 W3 HL R1 R2 R3.
  destruct (p_equilibrium_run _ _ _ _ W1 S1 R1) as [_ E1]. destruct (p_equilibrium_run _ _ _ _ W2 S2 R2) as [_ E2].
  destruct (p_equilibrium_run _ _ _ _ W3 S3 R3) as [_ E3].
  apply (p_unique (p_loaded p l3) _ (fun i d => a * ent U1 i d + b * ent U2 i d) Hst E3).
  intros i d Hd. split; intros C.
  - rewrite (proj1 (E1 i d Hd) C), (proj1 (E2 i d Hd) C). ring.
  - rewrite p_internal_lin. change (p_internal (p_loaded p l3)) with (p_internal (p_loaded p l1)) at 1.
    change (p_internal (p_loaded p l3)) with (p_internal (p_loaded p l2)).
    rewrite (proj2 (E1 i d Hd) C), (proj2 (E2 i d Hd) C). symmetry. apply HL. exact Hd.
Qed.

Lemma script_reciprocity p l1 l2 sv1 sv2 sp1 sp2 U1 U2 :
  solvers_ok sv1 -> solvers_ok sv2 -> p_psd p -> wf_problem (p_loaded p l1) -> wf_problem (p_loaded p l2) ->
  p_script sv1 (p_loaded p l1) sp1 = Ok U1 -> p_script sv2 (p_loaded p l2) sp2 = Ok U2 ->
  p_load_work (p_loaded p l1) (ent U2) = p_load_work (p_loaded p l2) (ent U1).
Proof.
  intros S1 S2 Hp W1 W2 R1 R2.
  destruct (p_equilibrium_run _ _ _ _ W1 S1 R1) as [_ E1]. destruct (p_equilibrium_run _ _ _ _ W2 S2 R2) as [_ E2].
  rewrite <- (p_work' _ _ (ent U2) W1 E1) by (intros i d Hd; exact (proj1 (E2 i d Hd))).
  rewrite <- (p_work' _ _ (ent U1) W2 E2) by (intros i d Hd; exact (proj1 (E1 i d Hd))).
  exact (p_energy_sym p (ent U2) (ent U1) Hp).
Qed.

Lemma script_minimum p sv sparse U : solvers_ok sv -> wf_problem p -> p_psd p -> p_script sv p sparse = Ok U ->
  p_admissible p (ent U) /\ p_energy p (ent U) (ent U) = p_load_work p (ent U) /\
  forall V, p_admissible p V -> 1 / 2 * p_energy p (ent U) (ent U) - p_load_work p (ent U) <= 1 / 2 * p_energy p V V - p_load_work p V.
Proof.
  intros S W Hp R. destruct (p_equilibrium_run _ _ _ _ W S R) as [_ E].
  assert (A : p_admissible p (ent U)) by (intros i d Hd; exact (proj1 (E i d Hd))).
  split; [exact A|]. split; [exact (p_work' _ _ _ W E A)|]. intros V HV.
  pose proof (p_energy_nonneg p (fun i d => 1 * V i d + (-1) * ent U i d) Hp) as N.
  rewrite p_energy_lin_l, !p_energy_lin_r, (p_energy_sym p (ent U) V Hp), (p_work' _ _ V W E HV) in N.
  rewrite (p_work' _ _ _ W E A) in *. lra.
Qed.

Lemma lsum_all_zero {A} (f : A -> R) l : (forall a, In a l -> 0 <= f a) -> lsum f l <= 0 -> forall a, In a l -> f a = 0.
Proof.
  induction l as [|x l IH]; intros H0 H a [].
  - subst a. change (lsum f (x :: l)) with (f x + lsum f l) in H. pose proof (H0 x (or_introl eq_refl)). pose proof (lsum_nonneg f l (fun b Hb => H0 b (or_intror Hb))). lra.
  - apply IH; [intros b Hb; apply H0; right; exact Hb| |exact H1]. change (lsum f (x :: l)) with (f x + lsum f l) in H. pose proof (H0 x (or_introl eq_refl)). lra.
Qed.

Lemma script_minimiser p sv sparse U V : solvers_ok sv -> wf_problem p -> p_psd p -> p_stable p -> p_script sv p sparse = Ok U ->
  p_admissible p V -> 1 / 2 * p_energy p V V - p_load_work p V <= 1 / 2 * p_energy p (ent U) (ent U) - p_load_work p (ent U) ->
  forall i d, p_dof p i d -> V i d = ent U i d.
Proof.
  intros S W Hp Hst R HV HM i d Hd. destruct (p_equilibrium_run _ _ _ _ W S R) as [_ E].
  assert (A : p_admissible p (ent U)) by (intros i' d' Hd'; exact (proj1 (E i' d' Hd'))).
  assert (Z : 1 * V i d + (-1) * ent U i d = 0); [|lra].
  apply (proj1 (p_stable_energy p W Hp) Hst (fun i d => 1 * V i d + (-1) * ent U i d)); [| |exact Hd].
  - intros i' d' Hd' C. rewrite (HV i' d' Hd' C), (A i' d' Hd' C). ring.
  - apply lsum_all_zero.
    + intros e He. apply (proj2 (Hp e He)).
    + change (p_energy p (fun i d => 1 * V i d + (-1) * ent U i d) (fun i d => 1 * V i d + (-1) * ent U i d) <= 0).
      rewrite p_energy_lin_l, !p_energy_lin_r, (p_energy_sym p (ent U) V Hp), (p_work' _ _ V W E HV).
      rewrite (p_work' _ _ _ W E A) in *. lra.
Qed.
