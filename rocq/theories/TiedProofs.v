(** * Proofs: constraint flags other than 0 and -1 *)
From Coq Require Import Reals List Arith Lia Lra Bool ZArith.
From Verif Require Import Num LinAlg Gauss Fem Uel Assem Post Main Script Spec LinR Base SpecAssem SpecModel SpecElem SpecModes SpecScript SpecTied
  AssemProofs AssemProofs2 AssemProofs3 AssemProofs4 ElemShape ModelProofs MeshProofs StaticProofs ScriptProofs.
Import ListNotations.
Local Open Scope R_scope.

(** ** numbering *)
Definition isz (c : R) : bool := if Req_EM_T c 0 then true else false.
Definition rcount (l : list R) : nat := length (filter isz l).
Definition whole (c : R) : Prop := exists z, c = IZR z.
Lemma rcount_app a b : rcount (a ++ b) = (rcount a + rcount b)%nat.
Proof. unfold rcount. rewrite filter_app, app_length. reflexivity. Qed.
Lemma rank_eq cons i j : rank cons i j = (rcount (concat (firstn i cons)) + rcount (firstn j (nth i cons [])))%nat.
Proof. unfold rank, count_free. rewrite concat_app. change (fun c => if Req_EM_T c 0 then true else false) with isz. cbn [concat]. rewrite app_nil_r. apply rcount_app. Qed.
Lemma isz_whole c : whole c -> (Rtrunc c =? 0)%Z = isz c.
Proof.
  intros [z ->]. rewrite Rtrunc_IZR. unfold isz. destruct (Req_EM_T (IZR z) 0) as [E|E].
  - apply Z.eqb_eq. apply eq_IZR. exact E.
  - apply Z.eqb_neq. intros ->. apply E. reflexivity.
Qed.
Lemma eq_row_gen row n : Forall whole row -> exists row', eq_row (length row) (map Rtrunc row) n = Ok ((n + Z.of_nat (rcount row))%Z, row') /\ length row' = length row /\
  forall j, (j < length row)%nat -> nth j row' (-1)%Z = if isz (nth j row 0) then (n + Z.of_nat (rcount (firstn j row)))%Z else Rtrunc (nth j row 0).
Proof.
  intros HW. revert n. induction HW as [|c row Hc HW IH]; intros n; cbn [length map eq_row].
  - exists []. split; [do 2 f_equal; cbn; lia|]. split; [reflexivity|]. intros j Hj. lia.
  - rewrite (isz_whole c Hc). destruct (isz c) eqn:E.
    + destruct (IH (n + 1)%Z) as (t & -> & Lt & Ht). cbn [bind]. exists (n :: t). split; [do 2 f_equal; unfold rcount; cbn [filter]; rewrite E; cbn [length]; lia|].
      split; [cbn; congruence|]. intros [|j] Hj; cbn [nth firstn]; [rewrite E; cbn; lia|]. rewrite Ht by (cbn in Hj; lia).
      destruct (isz (nth j row 0)); [|reflexivity]. unfold rcount. cbn [filter]. rewrite E. cbn [length]. lia.
    + destruct (IH n) as (t & -> & Lt & Ht). cbn [bind]. exists (Rtrunc c :: t). split; [do 2 f_equal; unfold rcount; cbn [filter]; rewrite E; lia|].
      split; [cbn; congruence|]. intros [|j] Hj; cbn [nth firstn]; [rewrite E; reflexivity|]. rewrite Ht by (cbn in Hj; lia).
      destruct (isz (nth j row 0)); [|reflexivity]. unfold rcount. cbn [filter]. rewrite E. reflexivity.
Qed.
Lemma eq_rows_gen d cons n : Forall (fun row => length row = d /\ Forall whole row) cons ->
  exists bc, eq_rows d (map (map Rtrunc) cons) n = Ok ((n + Z.of_nat (rcount (concat cons)))%Z, bc) /\ length bc = length cons /\ Forall (fun r => length r = d) bc /\
  forall i j, (i < length cons)%nat -> (j < d)%nat -> zent bc i j = if isz (ent cons i j) then (n + Z.of_nat (rank cons i j))%Z else Rtrunc (ent cons i j).
Proof.
  intros HW. revert n. induction HW as [|row cons [Hl Hr] HW IH]; intros n; cbn [map eq_rows].
  - exists []. split; [do 2 f_equal; cbn; lia|]. split; [reflexivity|]. split; [constructor|]. intros i j Hi. cbn in Hi. lia.
  - subst d. destruct (eq_row_gen row n Hr) as (r1 & -> & L1 & H1). cbn [bind].
    destruct (IH (n + Z.of_nat (rcount row))%Z) as (bc & -> & L2 & F2 & H2). cbn [bind]. exists (r1 :: bc).
    split; [do 2 f_equal; cbn [concat]; rewrite rcount_app; lia|]. split; [cbn; congruence|]. split; [constructor; assumption|].
    intros [|i] j Hi Hj.
    + unfold zent, ent. cbn [nth]. rewrite (H1 j Hj), rank_eq. cbn [firstn concat nth]. cbn [rcount filter length Nat.add]. reflexivity.
    + unfold zent, ent in *. cbn [nth]. cbn [length] in Hi. rewrite (H2 i j) by lia. rewrite !rank_eq. cbn [firstn concat nth]. rewrite rcount_app.
      destruct (isz (nth j (nth i cons []) 0)); [lia|reflexivity].
Qed.
Lemma rank_lt cons i j : (i < length cons)%nat -> (j < length (nth i cons []))%nat -> ent cons i j = 0 -> (rank cons i j < count_free cons)%nat.
Proof.
  intros Hi Hj H0. rewrite rank_eq. change (count_free cons) with (rcount (concat cons)). unfold ent in H0.
  revert i Hi Hj H0. induction cons as [|row cons IH]; intros i Hi Hj H0; [cbn in Hi; lia|]. destruct i as [|i]; cbn [firstn concat nth] in *.
  - rewrite rcount_app. change (rcount []) with 0%nat. clear -Hj H0. enough (rcount (firstn j row) < rcount row)%nat by lia.
    revert j Hj H0. induction row as [|c row IH]; intros j Hj H0; [cbn in Hj; lia|]. destruct j as [|j]; cbn [nth firstn] in *.
    + subst c. change (rcount []) with 0%nat. unfold rcount. cbn [filter]. replace (isz 0) with true by (unfold isz; destruct (Req_EM_T 0 0); [reflexivity|lra]). cbn. lia.
    + specialize (IH j ltac:(cbn in Hj; lia) H0). unfold rcount in *. cbn [filter]. destruct (isz c); cbn [length]; lia.
  - rewrite !rcount_app. specialize (IH i ltac:(cbn in Hi; lia) Hj H0). lia.
Qed.
Lemma rank_onto cons q : (q < count_free cons)%nat -> exists i j, (i < length cons)%nat /\ (j < length (nth i cons []))%nat /\ ent cons i j = 0 /\ rank cons i j = q.
Proof.
  change (count_free cons) with (rcount (concat cons)). revert q. induction cons as [|row cons IH]; intros q Hq; [cbn in Hq; lia|].
  cbn [concat] in Hq. rewrite rcount_app in Hq. destruct (le_lt_dec (rcount row) q) as [Hle|Hlt].
  - destruct (IH (q - rcount row)%nat ltac:(lia)) as (i & j & Hi & Hj & H0 & HR). exists (S i), j. split; [cbn; lia|]. split; [exact Hj|]. split; [exact H0|].
    rewrite rank_eq in *. cbn [firstn concat nth]. rewrite rcount_app. lia.
  - assert (G : exists j, (j < length row)%nat /\ nth j row 0 = 0 /\ rcount (firstn j row) = q).
    { clear -Hlt. revert q Hlt. induction row as [|c row IH]; intros q Hq; [cbn in Hq; lia|]. unfold rcount in Hq. cbn [filter] in Hq.
      destruct (isz c) eqn:E.
      - destruct q as [|q].
        + exists 0%nat. split; [cbn; lia|]. split; [|reflexivity]. unfold isz in E. cbn. destruct (Req_EM_T c 0); [assumption|discriminate].
        + cbn [length] in Hq. destruct (IH q ltac:(unfold rcount; lia)) as (j & Hj & H0 & HR). exists (S j). split; [cbn; lia|]. split; [exact H0|].
          cbn [firstn]. unfold rcount in *. cbn [filter]. rewrite E. cbn [length]. lia.
      - destruct (IH q Hq) as (j & Hj & H0 & HR). exists (S j). split; [cbn; lia|]. split; [exact H0|].
        cbn [firstn]. unfold rcount in *. cbn [filter]. rewrite E. exact HR. }
    destruct G as (j & Hj & H0 & HR). exists 0%nat, j. split; [cbn; lia|]. split; [exact Hj|]. split; [exact H0|]. rewrite rank_eq. cbn. exact HR.
Qed.

(** ** the numbers of a tied problem *)
Lemma tied_flag d cons i j : tied_flags d cons -> (i < length cons)%nat -> (j < d)%nat ->
  ent cons i j = 0 \/ ent cons i j = -1 \/ exists k, (1 <= k < count_free cons)%nat /\ ent cons i j = INR k.
Proof.
  intros HT Hi Hj. unfold tied_flags in HT. rewrite Forall_forall in HT. destruct (HT (nth i cons []) (nth_In _ _ Hi)) as [HL HF].
  rewrite Forall_forall in HF. apply HF. apply nth_In. lia.
Qed.
Lemma tied_length d cons i : tied_flags d cons -> (i < length cons)%nat -> length (nth i cons []) = d.
Proof. intros HT Hi. unfold tied_flags in HT. rewrite Forall_forall in HT. exact (proj1 (HT (nth i cons []) (nth_In _ _ Hi))). Qed.
Record tied_bc (d : nat) (cons : list (list R)) (bc : list (list Z)) : Prop := {
  tb_len : length bc = length cons;
  tb_row : Forall (fun r => length r = d) bc;
  tb_held : forall i j, (i < length cons)%nat -> (j < d)%nat -> (zent bc i j = (-1)%Z <-> ent cons i j = -1);
  tb_range : forall i j, (i < length cons)%nat -> (j < d)%nat -> zent bc i j = (-1)%Z \/ (0 <= zent bc i j < Z.of_nat (count_free cons))%Z;
  tb_share : forall i j q, (i < length cons)%nat -> (j < d)%nat -> (zent bc i j =? Z.of_nat q)%Z = shareb cons i j q;
  tb_onto : forall q, (q < count_free cons)%nat -> exists i j, (i < length cons)%nat /\ (j < d)%nat /\ zent bc i j = Z.of_nat q
}.
Lemma tied_numbers d cons : tied_flags d cons -> exists bc, eqcounter cons d = Ok (Z.of_nat (count_free cons), bc) /\ tied_bc d cons bc.
Proof.
  intros HT.
  assert (HW : Forall (fun row => length row = d /\ Forall whole row) cons).
  { eapply Forall_impl; [|exact HT]. intros row [HL HF]. split; [exact HL|]. eapply Forall_impl; [|exact HF].
    intros c [->|[->|(k & _ & ->)]]; [exists 0%Z|exists (-1)%Z|exists (Z.of_nat k); apply INR_IZR_INZ]; reflexivity. }
  destruct (eq_rows_gen d cons 0%Z HW) as (bc & HE & HL & HR & HZ). exists bc. split; [exact HE|].
  assert (Hval : forall i j, (i < length cons)%nat -> (j < d)%nat ->
    (ent cons i j = 0 /\ zent bc i j = Z.of_nat (rank cons i j)) \/ (ent cons i j = -1 /\ zent bc i j = (-1)%Z) \/
    exists k, (1 <= k < count_free cons)%nat /\ ent cons i j = INR k /\ zent bc i j = Z.of_nat k).
  { intros i j Hi Hj. rewrite (HZ i j Hi Hj). unfold isz. destruct (tied_flag d cons i j HT Hi Hj) as [E|[E|(k & Hk & E)]]; rewrite E.
    - left. destruct (Req_EM_T 0 0); [|lra]. split; [reflexivity|lia].
    - right. left. destruct (Req_EM_T (-1) 0); [lra|]. split; [reflexivity|]. exact (Rtrunc_IZR (-1)).
    - right. right. exists k. split; [exact Hk|]. split; [reflexivity|]. destruct (Req_EM_T (INR k) 0) as [E0|_]; [apply (INR_eq k 0) in E0; lia|].
      rewrite INR_IZR_INZ. apply Rtrunc_IZR. }
  split; try assumption.
  - intros i j Hi Hj. destruct (Hval i j Hi Hj) as [[E Z]|[[E Z]|(k & Hk & E & Z)]]; rewrite E, Z.
    + split; [lia|lra].
    + tauto.
    + split; [lia|]. pose proof (pos_INR k). lra.
  - intros i j Hi Hj. destruct (Hval i j Hi Hj) as [[E Z]|[[E Z]|(k & Hk & E & Z)]]; rewrite Z.
    + right. pose proof (rank_lt cons i j Hi ltac:(rewrite (tied_length d cons i HT Hi); exact Hj) E). lia.
    + left. reflexivity.
    + right. lia.
  - intros i j q Hi Hj. unfold shareb. destruct (Hval i j Hi Hj) as [[E Z]|[[E Z]|(k & Hk & E & Z)]]; rewrite E, Z.
    + destruct (Req_EM_T 0 0); [|lra]. destruct (Nat.eqb_spec (rank cons i j) q) as [->|N]; [apply Z.eqb_refl|apply Z.eqb_neq; lia].
    + destruct (Req_EM_T (-1) 0); [lra|]. destruct (Req_EM_T (-1) (INR q)) as [E1|]; [pose proof (pos_INR q); lra|]. apply Z.eqb_neq. lia.
    + destruct (Req_EM_T (INR k) 0) as [E0|_]; [apply (INR_eq k 0) in E0; lia|]. destruct (Req_EM_T (INR k) (INR q)) as [E1|N].
      * apply INR_eq in E1. subst q. apply Z.eqb_refl.
      * apply Z.eqb_neq. intros E1. apply N. f_equal. lia.
  - intros q Hq. destruct (rank_onto cons q Hq) as (i & j & Hi & Hj & H0 & HK). rewrite (tied_length d cons i HT Hi) in Hj. exists i, j. split; [exact Hi|]. split; [exact Hj|].
    destruct (Hval i j Hi Hj) as [[E Z]|[[E Z]|(k & Hk & E & Z)]]; [congruence|lra|]. rewrite E in H0. apply (INR_eq k 0) in H0. lia.
Qed.
Lemma tied_DME p : wf_tied p -> exists op bc, DME (p_cons p) (p_elements p) (p_dofs p) (p_max p) (p_ndof p) = Ok (op, bc, Z.of_nat (count_free (p_cons p))) /\
  tied_bc (p_dofs p) (p_cons p) bc /\ Forall2 (row_spec bc (p_dofs p) (p_max p)) (p_elements p) op.
Proof.
  intros (_ & HT & _ & Hel & _). destruct (tied_numbers _ _ HT) as (bc & He & HB). unfold DME. rewrite He. cbn [bind].
  assert (HF : exists op, Forall2 (fun e r => dme_row bc (p_max p) (p_ndof p) e = Ok r /\ row_spec bc (p_dofs p) (p_max p) e r) (p_elements p) op).
  { pose proof (tb_len _ _ _ HB) as HL. pose proof (tb_row _ _ _ HB) as HR. clear -Hel HL HR. induction Hel as [|e l [(t & Ht & Hnd & Hm & HF) _] _ [op IH]]; [exists []; constructor|].
    destruct (dme_row_ok bc (p_dofs p) (p_max p) (p_ndof p) e t _ HR Ht Hnd) as (row & Hr & Hs); auto.
    { rewrite HL. exact HF. }
    exists (row :: op). constructor; auto. }
  destruct HF as [op HF]. exists op, bc.
  assert (Hm : mapM (dme_row bc (p_max p) (p_ndof p)) (p_elements p) = Ok op).
  { apply mapM_ok. eapply Forall2_mono; [|exact HF]. intros a b H; apply H. }
  rewrite Hm. cbn [bind]. split; [reflexivity|]. split; [exact HB|]. eapply Forall2_mono; [|exact HF]. intros a b H; apply H.
Qed.
