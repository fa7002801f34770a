(** * Proofs about the beam example: the call of DME with five columns *)
From Coq Require Import String QArith Reals List ZArith Arith Lra Lia Bool.
From Verif Require Import Num LinAlg Gauss Fem Uel Assem Post Pre Main Template Example Spec SpecAssem SpecModel SpecPre SpecGrid SpecExample LinR Base
  GridProofs GridModel ExampleProofs ExampleProofs2.
Import ListNotations.
Local Open Scope R_scope.

Lemma eq_row_len d row n : (d <= length row)%nat -> exists n' row', eq_row d row n = Ok (n', row') /\ length row' = length row.
Proof.
  revert row n. induction d as [|d IH]; intros row n Hd; [do 2 eexists; split; reflexivity|]. destruct row as [|b row]; [cbn in Hd; lia|]. cbn [eq_row]. cbn [length] in Hd.
  destruct (b =? 0)%Z.
  - destruct (IH row (n + 1)%Z ltac:(lia)) as (n' & r' & -> & Hl). do 2 eexists. split; [reflexivity|]. cbn [length]. lia.
  - destruct (IH row n ltac:(lia)) as (n' & r' & -> & Hl). do 2 eexists. split; [reflexivity|]. cbn [length]. lia.
Qed.
Lemma eq_rows_len d w rows n : (d <= w)%nat -> Forall (fun r => length r = w) rows -> exists n' rows', eq_rows d rows n = Ok (n', rows') /\ length rows' = length rows /\ Forall (fun r => length r = w) rows'.
Proof.
  intros Hd HF. revert n. induction HF as [|r rows Hr HF IH]; intros n; cbn [eq_rows]; [do 2 eexists; split; [reflexivity|]; split; [reflexivity|constructor]|].
  destruct (eq_row_len d r n ltac:(lia)) as (n1 & r' & -> & H1). cbn [bind]. destruct (IH n1) as (n2 & t' & -> & H2 & H3). cbn [bind]. do 2 eexists. split; [reflexivity|].
  split; [cbn [length]; lia|]. constructor; [lia|exact H3].
Qed.

Lemma concat_len {A} w (rows : list (list A)) : Forall (fun r => length r = w) rows -> length (concat rows) = (length rows * w)%nat.
Proof. induction 1 as [|r rows Hr HF IH]; [reflexivity|]. cbn [concat length]. rewrite app_length, IH, Hr. lia. Qed.

Theorem dme_wide (cons : list (list R)) e es t w nd nn ng : Forall (fun r => length r = w) cons -> (2 <= w)%nat ->
  nth_error e 1 = Some t -> eletype t = Ok (nd, nn, ng) -> Forall (fun z => (0 <= z < Z.of_nat (length cons))%Z) (skipn 3 e) ->
  ((length e - 3) * w <> nd)%nat -> ((length e - 3) * w <> 1)%nat -> DME cons (e :: es) 2 18 None = Err (ValueError "could not broadcast input array").
Proof.
  intros HC Hw Ht Hty Hn H1 H2. unfold DME, eqcounter.
  assert (HC' : Forall (fun r => length r = w) (map (map (@ntrunc R Num_R)) cons)) by (apply Forall_forall; intros r Hr; apply in_map_iff in Hr as (r' & <- & Hr); rewrite map_length; rewrite Forall_forall in HC; exact (HC r' Hr)).
  destruct (eq_rows_len 2 w _ 0 Hw HC') as (n' & bc & -> & Lb & HB). rewrite map_length in Lb. cbn [bind mapM]. unfold dme_row at 1.
  assert (Et : np_get e 1 = Ok t).
  { destruct e as [|e0 [|e1 e]]; try discriminate Ht. cbn in Ht. injection Ht as ->. change 1%Z with (Z.of_nat 1). rewrite (np_get_nth _ 1 0%Z) by (cbn; lia). reflexivity. }
  rewrite Et. cbn [bind]. rewrite Hty. cbn [bind].
  rewrite (mapM_total _ (fun z => nth (Z.to_nat z) bc [])) by (intros z Hz; rewrite Forall_forall in Hn; apply np_get_nonneg; rewrite Lb; exact (Hn z Hz)). cbn [bind].
  assert (HL : length (concat (map (fun z => nth (Z.to_nat z) bc []) (skipn 3 e))) = ((length e - 3) * w)%nat).
  { rewrite (concat_len w); [rewrite map_length, skipn_length; reflexivity|]. apply Forall_forall. intros r Hr. apply in_map_iff in Hr as (z & <- & Hz).
    rewrite Forall_forall in Hn, HB. apply HB. apply nth_In. specialize (Hn z Hz). lia. }
  assert (Hnd : (nd <= 18)%nat) by (unfold eletype in Hty; destruct t as [|p|p]; try discriminate; repeat (destruct p as [p|p|]; try discriminate; try (injection Hty; lia))).
  unfold slice_assign. rewrite repeat_length, HL, Nat.min_l by exact Hnd. destruct (Nat.eqb_spec ((length e - 3) * w) nd) as [|_]; [contradiction|].
  destruct (concat _) as [|a [|b l]]; [reflexivity|exfalso; cbn in HL; lia|reflexivity].
Qed.

Theorem beam_stops P L h nx ny : (1 <= nx)%nat -> (1 <= ny)%nat -> L <> 0 -> beam_dme P L h nx ny = Err (ValueError "could not broadcast input array").
Proof.
  intros Hx Hy HL. unfold beam_dme. destruct (tables_ok P L h nx ny Hx Hy HL) as (els & E1 & ->). cbn [bind].
  destruct (rect_grid L h nx ny) as [[x y] e'] eqn:G. cbn [snd] in E1. subst e'. destruct (st_elements L h nx ny x y els Hx Hy G) as (LE & HE).
  destruct (st_nodes L h nx ny x y els Hx Hy G) as (Lx & _).
  destruct els as [|e es]; [cbn [length] in LE; nia|]. destruct (HE 0%nat 0%nat ltac:(lia) ltac:(lia)) as (He & _ & HR & _). cbn [Nat.mul Nat.add nth] in He. rewrite He.
  apply (dme_wide _ _ _ 1%Z 5 8 4 4); try reflexivity; try lia.
  - apply Forall_forall. intros r Hr. apply in_map_iff in Hr as (k & <- & _). reflexivity.
  - rewrite map_length, seq_length, <- Lx. cbn [app skipn]. exact HR.
Qed.
