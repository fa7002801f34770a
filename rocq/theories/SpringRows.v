(** * Springs whose material row has several columns *)
From Coq Require Import String Reals List Arith Lia Lra ZArith.
From Verif Require Import Num LinAlg LinR Fem Uel Assem Spec SpecAssem SpecElem BarProofs ElemFinal2.
Import ListNotations.
Local Open Scope R_scope.

Lemma spring_row xa ya xb yb : xa <> xb \/ ya <> yb ->
  (forall a b, exists K m, spring [[xa; ya]; [xb; yb]] [a; b] = Ok (K, m) /\
     (forall u i, (i < 4)%nat -> act 4 K u i =
        (if (i <? 2)%nat then 1 else -1) * ((if (i mod 2 =? 0)%nat then xb - xa else yb - ya) / bar_len xa ya xb yb) *
        (a * ((xb - xa) * u 0%nat + (yb - ya) * u 1%nat) - b * ((xb - xa) * u 2%nat + (yb - ya) * u 3%nat)) / bar_len xa ya xb yb) /\
     (symmetric 4 K <-> a = b)) /\
  (forall row, (length row = 0 \/ 3 <= length row)%nat -> exists msg, spring [[xa; ya]; [xb; yb]] row = Err (ValueError msg)).
Proof.
  intros Hne. pose proof (bar_len_pos _ _ _ _ Hne) as HL. split.
  - intros a b. unfold spring. rewrite (axis_ok _ _ _ _ Hne). cbn [bind bcast_mul length Nat.eqb]. do 2 eexists. split; [reflexivity|].
    set (L := bar_len xa ya xb yb) in *.
    assert (G : forall u i, (i < 4)%nat -> act 4 (congr 2 4 (axial_Q ((xb - xa) / L) ((yb - ya) / L)) (map (fun row => map (fun p => fst p * snd p) (combine [a; b] row)) axial_K)) u i =
        (if (i <? 2)%nat then 1 else -1) * ((if (i mod 2 =? 0)%nat then xb - xa else yb - ya) / L) *
        (a * ((xb - xa) * u 0%nat + (yb - ya) * u 1%nat) - b * ((xb - xa) * u 2%nat + (yb - ya) * u 3%nat)) / L).
    { intros u i Hi. do 4 (destruct i as [|i]; [unfold act, ent; cbn; numR; field; lra|]). lia. }
    split; [exact G|]. split.
    + intros HS. unfold symmetric in HS.
      assert (EE : forall i j, (i < 4)%nat -> (j < 4)%nat -> ent (congr 2 4 (axial_Q ((xb - xa) / L) ((yb - ya) / L)) (map (fun row => map (fun p => fst p * snd p) (combine [a; b] row)) axial_K)) i j =
        act 4 (congr 2 4 (axial_Q ((xb - xa) / L) ((yb - ya) / L)) (map (fun row => map (fun p => fst p * snd p) (combine [a; b] row)) axial_K)) (fun k => if (k =? j)%nat then 1 else 0) i).
      { intros i j Hi Hj. unfold act. rewrite (rsum_single 4 j); [rewrite Nat.eqb_refl; ring|exact Hj|]. intros k Hk N. rewrite (proj2 (Nat.eqb_neq k j) N). ring. }
      pose proof (HS 0%nat 2%nat ltac:(lia) ltac:(lia)) as H1. pose proof (HS 1%nat 3%nat ltac:(lia) ltac:(lia)) as H2.
      rewrite !EE in H1, H2 by lia. rewrite !G in H1, H2 by lia. cbn in H1, H2.
      assert (P : 0 < (xb - xa) * (xb - xa) + (yb - ya) * (yb - ya)) 
      by (destruct Hne as [N|N]; [assert (0 < Rsqr (xb - xa)) by (apply Rsqr_pos_lt; lra)|assert (0 < Rsqr (yb - ya)) by (apply Rsqr_pos_lt; lra)]; unfold Rsqr in *;
          pose proof (Rle_0_sqr (xb - xa)); pose proof (Rle_0_sqr (yb - ya)); unfold Rsqr in *; lra).
      assert (Q1 : (a - b) * ((xb - xa) * (xb - xa)) = 0).
      { apply (f_equal (fun z => z * (L * L))) in H1. field_simplify in H1; [|lra|lra]. idtac. lra. }
      assert (Q2 : (a - b) * ((yb - ya) * (yb - ya)) = 0).
      { apply (f_equal (fun z => z * (L * L))) in H2. field_simplify in H2; [|lra|lra]. lra. }
      assert (Q : (a - b) * ((xb - xa) * (xb - xa) + (yb - ya) * (yb - ya)) = 0) by lra. apply Rmult_integral in Q. destruct Q as [Q|Q]; lra.
    + intros <- i j Hi Hj.
      do 4 (destruct i as [|i]; [do 4 (destruct j as [|j]; [unfold ent; cbn; numR; field; lra|]); lia|]). lia.
  - intros row Hr. unfold spring. rewrite (axis_ok _ _ _ _ Hne). cbn [bind]. unfold bcast_mul.
    destruct row as [|x [|y [|z r]]]; cbn in Hr; try lia; cbn; eexists; reflexivity.
Qed.
