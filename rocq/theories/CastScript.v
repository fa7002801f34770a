(** * Derivatives of the strain energy with respect to the loads, any dofs and elements *)
From Coq Require Import Reals List Arith ZArith Bool Lia Lra.
From Verif Require Import Num LinAlg LinR Main Script Spec SpecAssem SpecModel SpecElem SpecScript SpecCast ScriptProofs ScriptProofs2 ScriptFinal.
Import ListNotations.
Local Open Scope R_scope.

Section Line.
  Variables (W : R -> R -> R).
  Hypothesis Wsym : forall a b, W a b = W b a.
  Hypothesis Wline : forall a t, W a t = (1 - t) * W a 0 + t * W a 1.
  Lemma half_derivative t : derivable_pt_lim (fun x => 1 / 2 * W x x) t (W t 1 - W t 0).
  Proof.
    set (p := W 0 0). set (q := W 0 1). set (r := W 1 1).
    assert (A0 : forall x, W x 0 = (1 - x) * p + x * q) by (intro x; rewrite Wsym; apply Wline).
    assert (A1 : forall x, W x 1 = (1 - x) * q + x * r) by (intro x; rewrite Wsym, Wline, (Wsym 1 0); reflexivity).
    set (k := 1 / 2 * (p + r) - q).
    assert (E : forall x, 1 / 2 * W x x = 1 / 2 * p + (q - p) * x + k * (x * x)).
    { intro x. rewrite (Wline x x), A0, A1. unfold k. field. }
    replace (W t 1 - W t 0) with ((q - p) + k * (2 * t)) by (rewrite A0, A1; unfold k; field).
    intros eps He. assert (HD : 0 < eps / (Rabs k + 1)).
    { apply Rdiv_lt_0_compat; [exact He|]. pose proof (Rabs_pos k). lra. }
    exists (mkposreal _ HD). intros h Hh Hs. cbn in Hs. rewrite !E.
    replace ((1 / 2 * p + (q - p) * (t + h) + k * ((t + h) * (t + h)) - (1 / 2 * p + (q - p) * t + k * (t * t))) / h - (q - p + k * (2 * t))) with (k * h) by (field; exact Hh).
    rewrite Rabs_mult. pose proof (Rabs_pos k). pose proof (Rabs_pos h).
    apply Rle_lt_trans with ((Rabs k + 1) * Rabs h); [nra|].
    apply (Rmult_lt_compat_l (Rabs k + 1)) in Hs; [|lra]. replace ((Rabs k + 1) * (eps / (Rabs k + 1))) with eps in Hs by (field; lra). exact Hs.
  Qed.
End Line.

Lemma script_castigliano p L sv sparse U i d :
  (forall t, solvers_ok (sv t)) -> p_psd p -> (forall t, wf_problem (p_loaded p (L t))) ->
  (forall t, p_script (sv t) (p_loaded p (L t)) (sparse t) = Ok (U t)) -> p_dof p i d ->
  (forall t, applied (L t) i d = t) ->
  (forall t j e, p_dof p j e -> (j, e) <> (i, d) -> applied (L t) j e = applied (L 0) j e) ->
  forall t, derivable_pt_lim (fun x => 1 / 2 * p_energy p (ent (U x)) (ent (U x))) t (ent (U t) i d).
Proof.
  intros Hsv Hpsd Hwf Hrun [Hi Hd] H1 H2 t.
  set (W := fun a b => p_energy p (ent (U a)) (ent (U b))).
  assert (HE : forall t, p_equilibrium (p_loaded p (L t)) (ent (U t))).
  { intro x. exact (proj2 (p_equilibrium_run _ _ _ _ (Hwf x) (Hsv x) (Hrun x))). }
  assert (HA : forall x, p_admissible p (ent (U x))).
  { intros x j e Hje. exact (proj1 (HE x j e Hje)). }
  assert (HW : forall a b, W a b = rsum (length (p_nodes p)) (fun j => rsum (p_dofs p) (fun e => ent (U a) j e * applied (L b) j e))).
  { intros a b. exact (p_work (p_loaded p (L b)) (ent (U b)) (ent (U a)) (Hwf b) (HE b) (HA a)). }
  assert (S : forall a b, W a b = W b a).
  { intros a b. unfold W, p_energy. apply lsum_ext. intros e He. apply LinR.form_sym. exact (proj1 (Hpsd e He)). }
  assert (G : forall x j e, p_dof p j e -> applied (L x) j e = applied (L 0) j e + x * (if ((j =? i)%nat && (e =? d)%nat)%bool then 1 else 0)).
  { intros x j e Hje. destruct (Nat.eqb_spec j i) as [->|N]; [destruct (Nat.eqb_spec e d) as [->|N]|]; cbn [andb].
    - rewrite !H1. ring.
    - rewrite (H2 x i e Hje); [ring|congruence].
    - rewrite (H2 x j e Hje); [ring|congruence]. }
  replace (ent (U t) i d) with (W t 1 - W t 0).
  - refine (half_derivative W S _ t). intros a x. rewrite !HW, <- !rsum_scal, <- rsum_plus. apply rsum_ext. intros j Hj.
    rewrite <- !rsum_scal, <- rsum_plus. apply rsum_ext. intros e He. rewrite (G x j e (conj Hj He)), (G 1 j e (conj Hj He)). ring.
  - rewrite !HW, <- rsum_minus, (rsum_single _ i); [|exact Hi|].
    + rewrite <- rsum_minus, (rsum_single _ d); [|exact Hd|].
      * rewrite (G 1 i d (conj Hi Hd)), !Nat.eqb_refl. cbn [andb]. ring.
      * intros e He N. rewrite (G 1 i e (conj Hi He)), (proj2 (Nat.eqb_neq e d) N), andb_false_r. ring.
    + intros j Hj N. rewrite <- rsum_minus. apply rsum_zero. intros e He. rewrite (G 1 j e (conj Hj He)), (proj2 (Nat.eqb_neq j i) N). cbn [andb]. ring.
Qed.
