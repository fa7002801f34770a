(** * Elements of one node with one dof *)
From Coq Require Import String Reals List Arith Lia Lra Bool ZArith.
From Verif Require Import Num LinAlg Assem Spec Base SpecAssem SpecModel AssemProofs AssemProofs2 AssemProofs3 AssemProofs4.
Import ListNotations.
Local Open Scope R_scope.

Lemma one_row bc max f elem z t nd : Forall (fun r => length r = 1%nat) bc -> skipn 3 elem = [z] -> (0 <= z < Z.of_nat (length bc))%Z ->
  nth_error elem 1 = Some t -> dofs_of f t = Ok nd -> (nd <= max)%nat ->
  dme_row bc max f elem = Ok (repeat (zent bc (Z.to_nat z) 0) nd ++ repeat 0%Z (max - nd)).
Proof.
  intros Hd Hs Hz Ht Hnd Hm. rewrite dme_row_unfold.
  assert (Hl : (1 < length elem)%nat) by (apply nth_error_Some; congruence).
  change 1%Z with (Z.of_nat 1). rewrite (np_get_nth elem 1 0%Z Hl). cbn [bind].
  rewrite (nth_error_nth elem 1 0%Z Ht), Hnd. cbn [bind]. rewrite Hs.
  rewrite get_rows by (constructor; [exact Hz|constructor]). cbn [bind map concat]. rewrite app_nil_r. unfold slice_assign.
  assert (L : length (nth (Z.to_nat z) bc []) = 1%nat) by (rewrite Forall_forall in Hd; apply Hd, nth_In; lia).
  unfold zent. destruct (nth (Z.to_nat z) bc []) as [|v [|w u]]; try discriminate L. cbn [length nth].
  rewrite repeat_length, Nat.min_l by exact Hm.
  assert (K : skipn nd (repeat 0%Z max) = repeat 0%Z (max - nd)).
  { clear -Hm. revert max Hm. induction nd as [|n IH]; intros max Hm; [rewrite Nat.sub_0_r; reflexivity|]. destruct max as [|m]; [lia|]. cbn [repeat skipn Nat.sub]. apply IH. lia. }
  rewrite K. destruct (Nat.eqb_spec 1 nd) as [<-|_]; reflexivity.
Qed.

Theorem DME_one max f cons elements : flags01 1 cons ->
  Forall (fun elem => exists z t nd, skipn 3 elem = [z] /\ (0 <= z < Z.of_nat (length cons))%Z /\ nth_error elem 1 = Some t /\ dofs_of f t = Ok nd /\ (nd <= max)%nat) elements ->
  exists op bc, DME cons elements 1 max f = Ok (op, bc, Z.of_nat (count_free cons)) /\ numbering cons bc (count_free cons) /\
    Forall2 (fun elem row => forall z t nd, skipn 3 elem = [z] -> nth_error elem 1 = Some t -> dofs_of f t = Ok nd ->
      row = repeat (zent bc (Z.to_nat z) 0) nd ++ repeat 0%Z (max - nd)) elements op.
Proof.
  intros Hf HE. destruct (eqcounter_numbering 1 cons Hf) as (bc & He & Hn). unfold DME. rewrite He. cbn [bind].
  pose proof (numbering_length _ _ _ Hn) as HL. destruct (numbering_bc_ok _ _ _ _ Hf Hn) as (Hd & _).
  set (S := fun (elem row : list Z) => forall z t nd, skipn 3 elem = [z] -> nth_error elem 1 = Some t -> dofs_of f t = Ok nd ->
      row = repeat (zent bc (Z.to_nat z) 0) nd ++ repeat 0%Z (max - nd)).
  assert (HF : exists op, Forall2 (fun e r => dme_row bc max f e = Ok r /\ S e r) elements op).
  { clear -HE HL Hd. induction HE as [|e l (z & t & nd & Hs & Hz & Ht & Hnd & Hm) _ [op IH]]; [exists []; constructor|].
    rewrite <- HL in Hz. eexists (_ :: op). constructor; [|exact IH]. split; [apply (one_row bc max f e z t nd); assumption|].
    intros z' t' nd' Hs' Ht' Hnd'. rewrite Hs in Hs'. injection Hs' as <-. rewrite Ht in Ht'. injection Ht' as <-. rewrite Hnd in Hnd'. injection Hnd' as <-. reflexivity. }
  destruct HF as [op HF]. exists op, bc.
  assert (Hm : mapM (dme_row bc max f) elements = Ok op).
  { apply mapM_ok. eapply Forall2_mono; [|exact HF]. intros a b H; apply H. }
  rewrite Hm. cbn [bind]. split; [reflexivity|]. split; [exact Hn|]. eapply Forall2_mono; [|exact HF]. intros a b H; apply H.
Qed.
