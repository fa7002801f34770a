(** * Lemmas: the plate of the first tutorial has a mirror line *)
From Coq Require Import Reals List Arith Lia Lra ZArith Permutation.
From Verif Require Import Num LinAlg Assem Main Spec LinR Base SpecAssem SpecModel SpecStatic SpecOrder SpecDriver SpecPre SpecRun SpecReport SpecSquare ExModel ExModel2 ExPatch SquareProofs DriverProofs PlotFields RunProofs SpecSymm SymmFinal.
Import ListNotations.
Local Open Scope R_scope.

Definition mirror9 (i : nat) : nat := nth i [1; 0; 3; 2; 4; 7; 6; 5; 8]%nat i.
(** the plate pushed sideways at its upper corners *)
Definition swayed (H : R) : model := with_loads (plate 1 1 1 (3/10) 1) [[3; H; 0]; [2; H; 0]].

Lemma plate_mirror a b E nu loads P : symmetry (-1) 1 (2 * a) 0 mirror9 (with_loads (plate a b E nu P) loads).
Proof.
  split.
  - split; [right; reflexivity|left; reflexivity].
  - intros i Hi. cbn in Hi. lt9 i Hi; cbn; split; (lia || reflexivity).
  - intros i Hi. cbn in Hi. lt9 i Hi; unfold ent; cbn; split; ring.
  - intros i d Hi Hd. cbn in Hi. lt9 i Hi; lt2 d Hd; reflexivity.
  - exists [[1; 1; 0; 4; 1; 5; 8]; [0; 1; 0; 0; 4; 8; 7]; [3; 1; 0; 8; 5; 2; 6]; [2; 1; 0; 7; 8; 6; 3]]%Z. split.
    + cbn [with_loads md_elements plate]. eapply perm_trans; [apply perm_swap|]. apply perm_skip, perm_skip, perm_swap.
    + cbn [with_loads md_elements plate]. repeat (apply Forall2_cons; [|]); try apply Forall2_nil;
      (exists 1%Z, [1; 0; 3; 2]%nat; split; [reflexivity|]; split; [reflexivity|]; split; [reflexivity|]; split; [left; split; [ring|cbn; tauto]|reflexivity]).
Qed.
Lemma plate_follows P : follows (-1) 1 1 mirror9 9 (applied (md_loads (plate 1 1 1 (3/10) P))).
Proof.
  intros i d Hi Hd. rewrite !pl_applied. lt9 i Hi; lt2 d Hd; cbn; ring.
Qed.
Lemma swayed_applied H i d : applied (md_loads (swayed H)) i d = if (i =? 2)%nat then nth (d + 1) [2; H; 0] 0 else if (i =? 3)%nat then nth (d + 1) [3; H; 0] 0 else 0.
Proof.
  unfold applied. cbn [fold_left md_loads swayed with_loads].
  assert (D : forall n z, INR n = IZR z -> (i =? n)%nat = if Req_EM_T (IZR z) (INR i) then true else false).
  { intros n z Hz. rewrite <- Hz. destruct (Req_EM_T (INR n) (INR i)) as [F|F].
    - apply INR_eq in F. subst. apply Nat.eqb_refl.
    - apply Nat.eqb_neq. intros ->. apply F. reflexivity. }
  cbn [nth] in *. rewrite (D 2%nat 2%Z) by (cbn; lra). rewrite (D 3%nat 3%Z) by (cbn; lra).
  repeat destruct (Req_EM_T _ _); reflexivity.
Qed.
Lemma swayed_follows H : follows (-1) 1 (-1) mirror9 9 (applied (md_loads (swayed H))).
Proof. intros i d Hi Hd. rewrite !swayed_applied. lt9 i Hi; lt2 d Hd; cbn; ring. Qed.
Lemma swayed_wf H : wf_model (swayed H).
Proof.
  destruct (pl_wf 1 1 1 (3/10) 1) as (H1 & H2 & H3 & _). split; [exact H1|]. split; [exact H2|]. split; [exact H3|].
  cbn [md_loads swayed with_loads]. all_forall; (split; [cbn; lia|]); [exists 3%nat|exists 2%nat]; (split; [cbn; lia|]); cbn; lra.
Qed.
Lemma swayed_stable H : stable (swayed H).
Proof. exact (pl_stable 1 1 1 (3/10) 1 ltac:(lra) ltac:(lra) ltac:(lra) ltac:(lra) ltac:(lra)). Qed.
Lemma swayed_rows H : node_rows_ok (swayed H).
Proof. unfold node_rows_ok. cbn [md_nodes swayed with_loads plate]. all_forall; reflexivity. Qed.
Lemma swayed_types H : continuum_or_truss (swayed H).
Proof. unfold continuum_or_truss. cbn [md_elements swayed with_loads plate]. all_forall; (exists 1%Z; split; reflexivity). Qed.
Lemma swayed_runs H sv plot strains : solver_ok sv -> solver_total sv -> exists out, auto sv (swayed H) plot strains = Ok out.
Proof.
  intros Hsv Htot.
  destruct (model_runs_full sv (swayed H) plot strains (swayed_wf H)) as [out Hout]; eauto.
  - apply (pl_accepted 1 1 1 (3/10) 1); lra.
  - apply swayed_stable.
  - exact (pl_free 1 1 1 (3/10) 1).
  - intros _. apply (pl_recoverable 1 1 1 (3/10) 1); lra.
  - intros _. exact (pl_plottable 1 1 1 (3/10) 1).
Qed.
