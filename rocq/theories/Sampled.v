(** * Proofs: matrices given by sampled strains and values *)
From Coq Require Import String Reals List Arith Lia Lra Bool ZArith QArith Qreals.
From Verif Require Import Num LinAlg Gauss Fem Uel Spec LinR Base ElemShape BarProofs SpecElem SpecShape ShapeProofs ElemCore.
Import ListNotations.
Local Open Scope R_scope.

Record gdat := mkG { g_w : R; g_eps : (nat -> R) -> nat -> R; g_val : (nat -> R) -> nat -> R }.

Definition vK nst C u v (g : gdat) : R := g_w g * form nst C (g_eps g u) (g_eps g v).
Definition vM nd u v (g : gdat) : R := g_w g * rsum nd (fun a => g_val g u a * g_val g v a).

Record sampled (nst nd ndof : nat) (C : list (list R)) (dens : R) (gs : list gdat) (K M : list (list R)) : Prop := {
  sa_shK : shape ndof ndof K;
  sa_shM : shape ndof ndof M;
  sa_K : forall u v, form ndof K u v = lsum (vK nst C u v) gs;
  sa_M : forall u v, form ndof M u v = dens * lsum (vM nd u v) gs
}.

Lemma lsum_scal_r {A} (f : A -> R) c l : lsum (fun a => f a * c) l = lsum f l * c.
Proof. rewrite Rmult_comm, <- lsum_scal. apply lsum_ext. intros. ring. Qed.

Lemma form_matrix_unique n K K' : shape n n K -> shape n n K' ->
  (forall u v, form n K u v = form n K' u v) -> K = K'.
Proof.
  intros SK SK' Hf. apply (mat_ext n n); auto. intros i j Hi Hj.
  specialize (Hf (unitv i) (unitv j)). rewrite !form_unit, !act_unit in Hf by assumption. exact Hf.
Qed.

Section Generic.
  Variables (nst nd ndof : nat) (C : list (list R)) (dens : R) (gs : list gdat) (K M : list (list R)).
  Hypothesis HS : sampled nst nd ndof C dens gs K M.

  Lemma sampled_sym : symmetric nst C -> symmetric ndof K.
  Proof.
    intros HC. apply sym_of_form. intros u v. rewrite !(sa_K _ _ _ _ _ _ _ _ HS). apply lsum_ext.
    intros g _. unfold vK. rewrite (form_sym nst C) by exact HC. reflexivity.
  Qed.

  Lemma sampled_psd : psd nst C -> (forall g, In g gs -> 0 <= g_w g) -> psd ndof K.
  Proof.
    intros HC Hw u. rewrite (sa_K _ _ _ _ _ _ _ _ HS). apply lsum_nonneg. intros g Hg. unfold vK.
    apply Rmult_le_pos; [apply Hw; exact Hg|apply HC].
  Qed.

  Lemma sampled_null u : (forall g a, In g gs -> (a < nst)%nat -> g_eps g u a = 0) ->
    forall i, (i < ndof)%nat -> act ndof K u i = 0.
  Proof.
    intros Hu i Hi. rewrite act_of_form by exact Hi. rewrite (sa_K _ _ _ _ _ _ _ _ HS).
    apply lsum_zero. intros g Hg. unfold vK.
    rewrite (form_ext nst C _ (g_eps g (unitv i)) (g_eps g u) (fun _ => 0)); [|reflexivity|intros; apply Hu; assumption].
    unfold form, act. rewrite rsum_zero; [ring|]. intros; rewrite rsum_zero; [ring|]. intros; ring.
  Qed.

  Lemma sampled_uniform u v e e' :
    (forall g a, In g gs -> (a < nst)%nat -> g_eps g u a = e a) ->
    (forall g a, In g gs -> (a < nst)%nat -> g_eps g v a = e' a) ->
    form ndof K u v = lsum g_w gs * form nst C e e'.
  Proof.
    intros Hu Hv. rewrite (sa_K _ _ _ _ _ _ _ _ HS). rewrite <- lsum_scal_r. apply lsum_ext.
    intros g Hg. unfold vK. f_equal. apply form_ext; intros; [apply Hu|apply Hv]; assumption.
  Qed.

  Lemma sampled_zero_energy u : (forall g, In g gs -> 0 < g_w g) -> psd nst C ->
    form ndof K u u = 0 -> forall g, In g gs -> form nst C (g_eps g u) (g_eps g u) = 0.
  Proof.
    intros Hw HC H0 g Hg. rewrite (sa_K _ _ _ _ _ _ _ _ HS) in H0.
    assert (HH : vK nst C u u g = 0).
    { revert g Hg. apply lsum_eq_zero_nonneg; [|exact H0]. intros g Hg. unfold vK.
      apply Rmult_le_pos; [apply Rlt_le, Hw; exact Hg|apply HC]. }
    unfold vK in HH. apply Rmult_integral in HH. destruct HH as [HH|HH]; [|exact HH].
    specialize (Hw g Hg). lra.
  Qed.

  Lemma sampled_mass_sym : symmetric ndof M.
  Proof.
    apply sym_of_form. intros u v. rewrite !(sa_M _ _ _ _ _ _ _ _ HS). f_equal. apply lsum_ext.
    intros g _. unfold vM. f_equal. apply rsum_ext; intros. ring.
  Qed.

  Lemma sampled_mass_psd : 0 <= dens -> (forall g, In g gs -> 0 <= g_w g) -> psd ndof M.
  Proof.
    intros Hd Hw u. rewrite (sa_M _ _ _ _ _ _ _ _ HS). apply Rmult_le_pos; [exact Hd|].
    apply lsum_nonneg. intros g Hg. unfold vM.
    apply Rmult_le_pos; [apply Hw; exact Hg|]. apply rsum_nonneg. intros. apply Rle_0_sqr.
  Qed.

  Lemma sampled_mass_uniform u v e e' :
    (forall g a, In g gs -> (a < nd)%nat -> g_val g u a = e a) ->
    (forall g a, In g gs -> (a < nd)%nat -> g_val g v a = e' a) ->
    form ndof M u v = dens * lsum g_w gs * rsum nd (fun a => e a * e' a).
  Proof.
    intros Hu Hv. rewrite (sa_M _ _ _ _ _ _ _ _ HS). rewrite Rmult_assoc. f_equal.
    rewrite <- lsum_scal_r. apply lsum_ext. intros g Hg. unfold vM. f_equal.
    apply rsum_ext; intros a Ha. rewrite Hu, Hv by assumption. reflexivity.
  Qed.

  Lemma sampled_mass_zero u v :
    (forall g a, In g gs -> (a < nd)%nat -> g_val g u a * g_val g v a = 0) -> form ndof M u v = 0.
  Proof.
    intros Hu. rewrite (sa_M _ _ _ _ _ _ _ _ HS). rewrite (lsum_zero (vM nd u v)); [ring|].
    intros g Hg. unfold vM. rewrite rsum_zero; [ring|]. intros; apply Hu; assumption.
  Qed.
End Generic.

(** two sampled descriptions give the same matrices *)
Lemma sampled_unique nst nd ndof C dens gs K M K' M' :
  sampled nst nd ndof C dens gs K M -> sampled nst nd ndof C dens gs K' M' -> K = K' /\ M = M'.
Proof.
  intros H1 H2. split.
  - apply (form_matrix_unique ndof); [apply H1|apply H2|].
    intros. rewrite (sa_K _ _ _ _ _ _ _ _ H1), (sa_K _ _ _ _ _ _ _ _ H2). reflexivity.
  - apply (form_matrix_unique ndof); [apply H1|apply H2|].
    intros. rewrite (sa_M _ _ _ _ _ _ _ _ H1), (sa_M _ _ _ _ _ _ _ _ H2). reflexivity.
Qed.
