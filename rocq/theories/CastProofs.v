(** * Derivatives of the strain energy with respect to the loads *)
From Coq Require Import Reals List Arith ZArith Bool Lia Lra.
From Verif Require Import Num LinAlg Main LinR Spec SpecAssem SpecModel SpecElem SpecStatic StaticProofs.
Import ListNotations.
Local Open Scope R_scope.

Lemma load_work_lin md la lb lc a b U :
  (forall i d, (i < length (md_nodes md))%nat -> (d < 2)%nat -> applied lc i d = a * applied la i d + b * applied lb i d) ->
  load_work md lc U = a * load_work md la U + b * load_work md lb U.
Proof.
  intros H. unfold load_work. rewrite <- !rsum_scal, <- rsum_plus. apply rsum_ext. intros i Hi.
  rewrite <- !rsum_scal, <- rsum_plus. apply rsum_ext. intros d Hd. rewrite (H i d Hi Hd). ring.
Qed.

(** one run for each value of the parameter; the loads are the straight line from those at 0 to those at 1 *)
Section Line.
  Variables (md : model) (L : R -> list (list R)) (sv : R -> solvers R) (plot strains : R -> bool) (out : R -> outcome R).
  Hypothesis Hsv : forall t, solver_ok (sv t).
  Hypothesis Hmat : materials_ok md.
  Hypothesis Hwf : forall t, wf_model (with_loads md (L t)).
  Hypothesis Hrun : forall t, auto (sv t) (with_loads md (L t)) (plot t) (strains t) = Ok (out t).
  Hypothesis HL : forall t i d, (i < length (md_nodes md))%nat -> (d < 2)%nat -> applied (L t) i d = (1 - t) * applied (L 0) i d + t * applied (L 1) i d.

  Let W a b := load_work md (L a) (table (out b)).
  Lemma W_sym a b : W a b = W b a.
  Proof. exact (reciprocity _ _ md (L a) (L b) _ _ _ _ _ _ (Hsv a) (Hsv b) Hmat (Hwf a) (Hwf b) (Hrun a) (Hrun b)). Qed.
  Lemma W_line t b : W t b = (1 - t) * W 0 b + t * W 1 b.
  Proof. apply load_work_lin. exact (HL t). Qed.
  Lemma W_at a t : W a t = (1 - t) * W a 0 + t * W a 1.
  Proof. rewrite (W_sym a t), W_line, (W_sym 0 a), (W_sym 1 a). reflexivity. Qed.
  Lemma line_energy t : 2 * strain_energy md (table (out t)) = (1 - t) * ((1 - t) * W 0 0 + t * W 0 1) + t * ((1 - t) * W 0 1 + t * W 1 1).
  Proof.
    destruct (clapeyron _ _ _ _ _ (Hsv t) (Hwf t) Hmat (Hrun t)) as [H _]. change (2 * strain_energy md (table (out t)) = W t t) in H.
    rewrite H, W_line, (W_at 0 t), (W_at 1 t), (W_sym 1 0). ring.
  Qed.
  Lemma line_derivative t : derivable_pt_lim (fun x => strain_energy md (table (out x))) t (W 1 t - W 0 t).
  Proof.
    set (p := W 0 0). set (q := W 0 1). set (r := W 1 1).
    assert (E : forall x, strain_energy md (table (out x)) = 1 / 2 * p + (q - p) * x + (1 / 2 * (p + r) - q) * (x * x)).
    { intro x. pose proof (line_energy x) as H. fold p q r in H. lra. }
    replace (W 1 t - W 0 t) with ((q - p) + (1 / 2 * (p + r) - q) * (2 * t)).
    2: { rewrite (W_at 0 t), (W_at 1 t), (W_sym 1 0). fold p q r. field. }
    intros eps He. set (k := 1 / 2 * (p + r) - q). assert (HD : 0 < eps / (Rabs k + 1)).
    { apply Rdiv_lt_0_compat; [exact He|]. pose proof (Rabs_pos k). lra. }
    exists (mkposreal _ HD). intros h Hh Hs. cbn in Hs. rewrite !E. fold k.
    replace ((1 / 2 * p + (q - p) * (t + h) + k * ((t + h) * (t + h)) - (1 / 2 * p + (q - p) * t + k * (t * t))) / h - (q - p + k * (2 * t))) with (k * h) by (field; exact Hh).
    rewrite Rabs_mult. pose proof (Rabs_pos k). pose proof (Rabs_pos h).
    apply Rle_lt_trans with ((Rabs k + 1) * Rabs h); [nra|].
    apply (Rmult_lt_compat_l (Rabs k + 1)) in Hs; [|lra]. replace ((Rabs k + 1) * (eps / (Rabs k + 1))) with eps in Hs by (field; lra). exact Hs.
  Qed.
End Line.

Lemma castigliano md L sv plot strains out g :
  (forall t, solver_ok (sv t)) -> materials_ok md -> (forall t, wf_model (with_loads md (L t))) ->
  (forall t, auto (sv t) (with_loads md (L t)) (plot t) (strains t) = Ok (out t)) ->
  (forall t i d, (i < length (md_nodes md))%nat -> (d < 2)%nat -> applied (L t) i d = applied (L 0) i d + t * g i d) ->
  forall t, derivable_pt_lim (fun x => strain_energy md (table (out x))) t
    (rsum (length (md_nodes md)) (fun i => rsum 2 (fun d => g i d * table (out t) i d))).
Proof.
  intros Hsv Hm Hwf Hrun HL t.
  replace (rsum _ _) with (load_work md (L 1) (table (out t)) - load_work md (L 0) (table (out t))).
  - apply (line_derivative md L sv plot strains out Hsv Hm Hwf Hrun).
    intros x i d Hi Hd. rewrite (HL x i d Hi Hd), (HL 1 i d Hi Hd). ring.
  - unfold load_work. rewrite <- rsum_minus. apply rsum_ext. intros i Hi. rewrite <- rsum_minus. apply rsum_ext. intros d Hd.
    rewrite (HL 1 i d Hi Hd). ring.
Qed.

Lemma castigliano_point md L sv plot strains out i d :
  (forall t, solver_ok (sv t)) -> materials_ok md -> (forall t, wf_model (with_loads md (L t))) ->
  (forall t, auto (sv t) (with_loads md (L t)) (plot t) (strains t) = Ok (out t)) ->
  (i < length (md_nodes md))%nat -> (d < 2)%nat ->
  (forall t, applied (L t) i d = t) ->
  (forall t j e, (j < length (md_nodes md))%nat -> (e < 2)%nat -> (j, e) <> (i, d) -> applied (L t) j e = applied (L 0) j e) ->
  forall t, derivable_pt_lim (fun x => strain_energy md (table (out x))) t (table (out t) i d).
Proof.
  intros Hsv Hm Hwf Hrun Hi Hd H1 H2 t.
  set (g := fun j e => if ((j =? i)%nat && (e =? d)%nat)%bool then 1 else 0).
  replace (table (out t) i d) with (rsum (length (md_nodes md)) (fun j => rsum 2 (fun e => g j e * table (out t) j e))).
  - apply (castigliano md L sv plot strains out g Hsv Hm Hwf Hrun). intros x j e Hj He. unfold g.
    destruct (Nat.eqb_spec j i) as [->|N]; [destruct (Nat.eqb_spec e d) as [->|N]|]; cbn [andb].
    + rewrite !H1. ring.
    + rewrite (H2 x i e); [ring|assumption|assumption|congruence].
    + rewrite (H2 x j e); [ring|assumption|assumption|congruence].
  - rewrite (rsum_single _ i); [|exact Hi|].
    + rewrite (rsum_single _ d); [|exact Hd|]; unfold g.
      * rewrite !Nat.eqb_refl. cbn. ring.
      * intros e He N. rewrite (proj2 (Nat.eqb_neq e d) N), Bool.andb_false_r. ring.
    + intros j Hj N. unfold g. rewrite (proj2 (Nat.eqb_neq j i) N). cbn. ring.
Qed.
