(** * Lemmas: eigvals of any 2x2 array *)
From Coq Require Import Reals List Arith Lia Lra ZArith.
From Verif Require Import Num LinAlg Fem Post Spec SpecPost LinR Base BarProofs PostMore.
Import ListNotations.
Local Open Scope R_scope.

Lemma abs_max_any a b c d : abs_max [[a; b]; [c; d]] = Rmax (largest a b d) (Rabs c).
Proof.
  unfold abs_max, mget. cbn [nth]. rewrite !nabs_R, !nmax_R. unfold largest.
  unfold Rmax. repeat destruct (Rle_dec _ _); lra.
Qed.
Lemma eigvals_any a b c d tol : let m := Rmax (largest a b d) (Rabs c) in 0 < tol ->
  eigvals [[a; b]; [c; d]] tol =
  if Rlt_dec (m) tol then Ok (0, 0, None, None)
  else if Rlt_dec (Rabs b / m) tol then Ok (sorted_pair a d [1; 0] [0; 1])
  else Ok (sorted_pair (eig_lo a b d) (eig_hi a b d) (eig_v1 a b d) (eig_v2 a b d)).
Proof.
  intros m Ht. unfold eigvals. rewrite (abs_max_any a b c d). fold m. clearbody m. rewrite !nabs_R.
  change (mget [[a; b]; [c; d]] 0 0) with a. change (mget [[a; b]; [c; d]] 0 1) with b. change (mget [[a; b]; [c; d]] 1 1) with d.
  destruct (Rlt_dec (m) tol) as [H1|H1].
  - replace (nltb (m) tol) with true by (symmetry; apply nltb_true; exact H1). cbn [bind].
    rewrite !nabs_R. replace (nltb _ _) with false; [reflexivity|]. symmetry. apply nltb_false. lra.
  - replace (nltb (m) tol) with false by (symmetry; apply nltb_false; lra).
    replace (nis0 (m)) with false by (symmetry; apply nis0_false; lra). cbn [negb guard bind].
    change (ndiv (Rabs b) (m)) with (Rabs b / m).
    destruct (Rlt_dec (Rabs b / m) tol) as [H2|H2].
    + replace (nltb (Rabs b / m) tol) with true by (symmetry; apply nltb_true; exact H2). cbn [bind]. unfold sorted_pair.
      rewrite !nabs_R. destruct (Rlt_dec (Rabs a) (Rabs d)) as [H3|H3].
      * replace (nltb (Rabs a) (Rabs d)) with true by (symmetry; apply nltb_true; exact H3). reflexivity.
      * replace (nltb (Rabs a) (Rabs d)) with false by (symmetry; apply nltb_false; lra). reflexivity.
    + replace (nltb (Rabs b / m) tol) with false by (symmetry; apply nltb_false; lra).
      assert (Hb : b <> 0). { intros ->. rewrite Rabs_R0 in H2. apply H2. unfold Rdiv. rewrite Rmult_0_l. exact Ht. }
      unfold npow. numR. q2r.
      assert (Eroot : sqrt ((a + d) * (a + d) - 4 * (a * d - b * b)) = eig_root a b d) by (unfold eig_root; f_equal; ring).
      rewrite Eroot.
      replace (5 * / 10 * (a + d - eig_root a b d)) with (eig_lo a b d) by (unfold eig_lo; field).
      replace (5 * / 10 * (a + d + eig_root a b d)) with (eig_hi a b d) by (unfold eig_hi; field).
      fold (eig_nrm a b d).
      replace (nis0 (eig_nrm a b d)) with false by (symmetry; apply nis0_false; pose proof (eig_nrm_pos a b d Hb); lra).
      cbn [negb guard bind]. rewrite !nabs_R. unfold sorted_pair.
      destruct (Rlt_dec (Rabs (eig_lo a b d)) (Rabs (eig_hi a b d))) as [H3|H3].
      * replace (nltb _ _) with true by (symmetry; apply nltb_true; exact H3). reflexivity.
      * replace (nltb _ _) with false by (symmetry; apply nltb_false; lra). reflexivity.
Qed.
Theorem eig_any a b c d tol : 0 < tol -> let m := Rmax (largest a b d) (Rabs c) in
  (m < tol -> eigvals [[a; b]; [c; d]] tol = Ok (0, 0, None, None)) /\
  (tol <= m -> Rabs b / m < tol ->
     eigvals [[a; b]; [c; d]] tol = Ok (if Rlt_dec (Rabs a) (Rabs d) then (d, a, Some [0; 1], Some [1; 0]) else (a, d, Some [1; 0], Some [0; 1]))) /\
  (tol <= m -> tol <= Rabs b / m ->
     exists l1 l2 v1 v2, eigvals [[a; b]; [c; d]] tol = Ok (l1, l2, Some v1, Some v2) /\
       length v1 = 2%nat /\ length v2 = 2%nat /\
       tmul a b d v1 = (l1 * nth 0 v1 0, l1 * nth 1 v1 0) /\ tmul a b d v2 = (l2 * nth 0 v2 0, l2 * nth 1 v2 0) /\
       dot2 v1 v1 = 1 /\ dot2 v2 v2 = 1 /\ dot2 v1 v2 = 0 /\ Rabs l2 <= Rabs l1).
Proof.
  intros Ht m. pose proof (eigvals_any a b c d tol Ht) as E. fold m in E. rewrite E. split; [|split].
  - intros H. destruct (Rlt_dec m tol); [reflexivity|lra].
  - intros H1 H2. destruct (Rlt_dec m tol); [lra|]. destruct (Rlt_dec (Rabs b / m) tol); [|lra]. unfold sorted_pair. destruct (Rlt_dec _ _); reflexivity.
  - intros H1 H2. destruct (Rlt_dec m tol); [lra|]. destruct (Rlt_dec (Rabs b / m) tol); [lra|].
    assert (Hb : b <> 0). { intros ->. rewrite Rabs_R0 in H2. unfold Rdiv in H2. rewrite Rmult_0_l in H2. lra. }
    destruct (eig_vectors a b d Hb) as [A1 [A2 [A3 [A4 A5]]]]. unfold sorted_pair.
    destruct (Rlt_dec _ _).
    + do 4 eexists. split; [reflexivity|]. repeat (split; [first [reflexivity|assumption]|]).
      split; [unfold dot2 in *; lra|lra].
    + do 4 eexists. split; [reflexivity|]. repeat (split; [first [reflexivity|assumption]|]). lra.
Qed.
