(** * Concrete heavy meshes *)
From Coq Require Import Reals List Arith Lia Lra Bool ZArith.
From Verif Require Import Num LinAlg Fem Uel Assem Main Script Spec LinR Base SpecAssem SpecModel SpecElem SpecStatic SpecModes SpecScript SpecSolid SpecTruss SpecMass
  StaticProofs3 TrussProofs ScriptProofs2 ExModel ExStatic ExModes ExTruss ExSolid.
Import ListNotations.
Local Open Scope R_scope.

Lemma hi_heavy : heavy_model him.
Proof.
  split.
  - intros e t im params He Et Ei Ep. destruct He as [<-|[<-|[]]]; injection Et as <-; injection Ei as <-; cbn in Ep; injection Ep as <-;
      exists 1, (1/4), []; (split; [reflexivity|]); repeat split; try lra; left; reflexivity.
  - intros i Hi. cbn in Hi. destruct (Nat.lt_ge_cases i 9) as [H|H].
    + exists [0; 4; 0; 0; 1; 2; 3; 4; 5; 6; 7; 8]%Z, i. split; [left; reflexivity|]. split; [cbn; lia|]. do 9 (destruct i as [|i]; [reflexivity|]). lia.
    + exists [1; 2; 0; 1; 9; 2; 10; 11; 5]%Z, (if (i =? 9)%nat then 1 else i - 7)%nat. split; [right; left; reflexivity|].
      do 12 (destruct i as [|i]; [first [lia|split; [cbn; lia|reflexivity]]|]). lia.
Qed.
Lemma br_heavy : heavy_model brm.
Proof.
  split.
  - intros e t im params He Et Ei Ep. destruct He as [<-|[<-|[<-|[]]]]; injection Et as <-; injection Ei as <-; cbn in Ep; injection Ep as <-;
      [exists 10, 2, []|exists 7, 1, []|exists 100, 5, [3]]; (split; [reflexivity|]); repeat split; try lra; first [left; reflexivity|right; cbn; lra].
  - intros i Hi. cbn in Hi. destruct i as [|[|[|i]]]; [| | |lia].
    + exists [0; 6; 0; 0; 1]%Z, 0%nat. split; [left; reflexivity|]. split; [cbn; lia|reflexivity].
    + exists [0; 6; 0; 0; 1]%Z, 1%nat. split; [left; reflexivity|]. split; [cbn; lia|reflexivity].
    + exists [1; 6; 1; 2; 0]%Z, 0%nat. split; [right; left; reflexivity|]. split; [cbn; lia|reflexivity].
Qed.
Lemma br_accepted : accepted brm.
Proof. exact (truss_accepted brm br_wf br_truss). Qed.
Lemma mx_heavy : heavy_solids mx.
Proof. intros e im E nu rho He Ei Ep. destruct He as [<-|[<-|[]]]; injection Ei as <-; cbn in Ep; injection Ep as <- <- <-; lra. Qed.
Lemma hi_free : count_free hi_cons = 20%nat.
Proof.
  unfold count_free. set (f := fun c => if Req_EM_T c 0 then true else false).
  assert (F0 : forall l, length (filter f (0 :: l)) = S (length (filter f l))).
  { intros l. cbn [filter]. replace (f 0) with true; [reflexivity|]. unfold f. destruct (Req_EM_T 0 0); [reflexivity|lra]. }
  assert (F1 : forall l, length (filter f (-1 :: l)) = length (filter f l)).
  { intros l. cbn [filter]. replace (f (-1)) with false; [reflexivity|]. unfold f. destruct (Req_EM_T (-1) 0); [lra|reflexivity]. }
  unfold hi_cons. cbn [concat app]. repeat first [rewrite F0|rewrite F1]. reflexivity.
Qed.
