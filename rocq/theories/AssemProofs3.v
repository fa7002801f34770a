(** * Proofs: numbering as a bijection, assembly operator, loads, completion *)
From Coq Require Import Reals List Arith Lia Lra Bool ZArith Permutation.
From Verif Require Import Num LinAlg Gauss Fem Uel Assem Post Spec LinR Base SpecAssem AssemProofs AssemProofs2.
Import ListNotations.
Local Open Scope R_scope.

(** ** positions in a rectangular table *)
Lemma concat_nth {A} (rows : list (list A)) d i j x :
  Forall (fun r => length r = d) rows -> (i < length rows)%nat -> (j < d)%nat ->
  nth (i * d + j) (concat rows) x = nth j (nth i rows []) x.
Proof.
  revert i; induction rows as [|r rows IH]; intros i HF Hi Hj; simpl in Hi; [lia|].
  inversion HF as [|? ? Hr HF']; subst. destruct i as [|i]; cbn [concat nth].
  - cbn [Nat.mul Nat.add]. apply app_nth1. lia.
  - rewrite app_nth2 by lia. replace (S i * length r + j - length r)%nat with (i * length r + j)%nat by lia.
    apply IH; auto. lia.
Qed.

Lemma concat_length_uniform {A} (rows : list (list A)) d :
  Forall (fun r => length r = d) rows -> length (concat rows) = (length rows * d)%nat.
Proof.
  induction 1 as [|r rows Hr _ IH]; cbn [concat length]; [reflexivity|].
  rewrite app_length, IH, Hr. lia.
Qed.

Lemma NoDup_filter_nth {A} (f : A -> bool) l x a b :
  NoDup (filter f l) -> (a < length l)%nat -> (b < length l)%nat ->
  f (nth a l x) = true -> nth a l x = nth b l x -> a = b.
Proof.
  revert a b; induction l as [|y l IH]; intros a b HN Ha Hb Hf He; simpl in Ha, Hb; [lia|].
  simpl in HN.
  assert (HN' : NoDup (filter f l)).
  { destruct (f y); [inversion HN; assumption|assumption]. }
  destruct a as [|a], b as [|b]; cbn [nth] in *; auto.
  - exfalso. rewrite Hf in HN. apply NoDup_cons_iff in HN; destruct HN as [Hni _]. apply Hni.
    apply filter_In. split; [|exact Hf]. rewrite He. apply nth_In. lia.
  - exfalso. rewrite He in Hf. rewrite Hf in HN. apply NoDup_cons_iff in HN; destruct HN as [Hni _]. apply Hni.
    apply filter_In. split; [|exact Hf]. rewrite <- He. apply nth_In. lia.
  - f_equal. apply IH; auto; lia.
Qed.

(** ** what a numbering gives *)
Definition bc_ok (d neq : nat) (bc : list (list Z)) : Prop :=
  Forall (fun r => length r = d) bc /\
  (forall i j, (i < length bc)%nat -> (j < d)%nat ->
     zent bc i j = (-1)%Z \/ (0 <= zent bc i j < Z.of_nat neq)%Z) /\
  (forall i j i' j', (i < length bc)%nat -> (j < d)%nat -> (i' < length bc)%nat -> (j' < d)%nat ->
     (0 <= zent bc i j)%Z -> zent bc i j = zent bc i' j' -> i = i' /\ j = j') /\
  (forall p, (p < neq)%nat -> exists i j, (i < length bc)%nat /\ (j < d)%nat /\ zent bc i j = Z.of_nat p).

Lemma numbering_bc_ok d cons bc neq : flags01 d cons -> numbering cons bc neq -> bc_ok d neq bc.
Proof.
  intros Hf Hn. pose proof (numbering_shape _ _ _ Hn) as HS.
  pose proof (numbering_flag _ _ _ _ Hf Hn) as HR. destruct Hn as [HF Hl].
  assert (Hd : Forall (fun r => length r = d) bc).
  { clear -HS Hf. induction HS as [|c b cons bc Hcb _ IH]; constructor.
    - inversion Hf as [|? ? [Hc _] _]; subst. congruence.
    - apply IH. inversion Hf; assumption. }
  assert (HN : NoDup (filter (fun b => (0 <=? b)%Z) (concat bc))).
  { rewrite Hl. apply FinFun.Injective_map_NoDup; [intros x y; lia|apply seq_NoDup]. }
  pose proof (concat_length_uniform bc d Hd) as HL.
  split; [exact Hd|]. split; [|split].
  - intros i j Hi Hj. rewrite Forall_forall in HR.
    assert (Hrow : In (nth i bc []) bc) by (apply nth_In; exact Hi).
    specialize (HR _ Hrow). rewrite Forall_forall in HR. apply HR.
    unfold zent. apply nth_In. rewrite Forall_forall in Hd. rewrite (Hd _ Hrow). exact Hj.
  - intros i j i' j' Hi Hj Hi' Hj' H0 He. unfold zent in *.
    rewrite <- !(concat_nth bc d) in He by assumption. rewrite <- (concat_nth bc d) in H0 by assumption.
    assert (E : (i * d + j = i' * d + j')%nat).
    { eapply NoDup_filter_nth with (x := (-1)%Z); try exact HN; try exact He.
      - rewrite HL. nia. - rewrite HL. nia. - apply Z.leb_le. exact H0. }
    assert (i = i') by nia. subst i'. split; [reflexivity|lia].
  - intros p Hp.
    assert (Hin : In (Z.of_nat p) (filter (fun b => (0 <=? b)%Z) (concat bc))).
    { rewrite Hl. apply in_map. apply in_seq. lia. }
    apply filter_In in Hin. destruct Hin as [Hin _].
    apply In_nth with (d := (-1)%Z) in Hin. destruct Hin as [a [Ha He]]. rewrite HL in Ha.
    assert (0 < d)%nat by nia.
    exists (a / d)%nat, (a mod d)%nat.
    assert (a / d < length bc)%nat by (apply Nat.div_lt_upper_bound; lia).
    assert (a mod d < d)%nat by (apply Nat.mod_upper_bound; lia).
    repeat split; auto. unfold zent. rewrite <- (concat_nth bc d) by assumption.
    rewrite <- He. f_equal. rewrite Nat.mul_comm. symmetry. apply Nat.div_mod. lia.
Qed.

Lemma numbering_entry cons bc neq i j :
  numbering cons bc neq -> (i < length cons)%nat -> (j < length (nth i cons []))%nat ->
  (ent cons i j = -1 -> zent bc i j = (-1)%Z) /\ (ent cons i j = 0 -> (0 <= zent bc i j)%Z).
Proof.
  intros [HF _] Hi Hj. pose proof (Forall2_nth _ _ _ i [] [] HF Hi) as Hrow.
  exact (Forall2_nth _ _ _ j 0 (-1)%Z Hrow Hj).
Qed.

Lemma numbering_length cons bc neq : numbering cons bc neq -> length bc = length cons.
Proof. intros [HF _]. symmetry. eapply Forall2_len; exact HF. Qed.

(** ** the assembly operator *)
Lemma dme_row_unfold bc max ndof_el elem :
  dme_row bc max ndof_el elem =
  (iet <- np_get elem 1 ;; ndof <- dofs_of ndof_el iet ;;
   rows <- mapM (np_get bc) (skipn 3 elem) ;;
   slice_assign (repeat 0%Z max) ndof (concat rows)).
Proof. reflexivity. Qed.

Lemma nth_skipn {A} (l : list A) n k d : nth k (skipn n l) d = nth (n + k) l d.
Proof.
  revert l; induction n as [|n IH]; intros l; [reflexivity|].
  destruct l as [|a l]; [destruct k; reflexivity|]. cbn [skipn plus nth]. apply IH.
Qed.

Lemma get_rows (bc : list (list Z)) ids :
  Forall (fun z => (0 <= z < Z.of_nat (length bc))%Z) ids ->
  mapM (np_get bc) ids = Ok (map (fun z => nth (Z.to_nat z) bc []) ids).
Proof.
  intros HF. apply mapM_total. intros z Hz. rewrite Forall_forall in HF.
  apply np_get_nonneg. apply HF. exact Hz.
Qed.

Lemma slice_row_spec bc d max elem :
  Forall (fun r => length r = d) bc ->
  Forall (fun z => (0 <= z < Z.of_nat (length bc))%Z) (skipn 3 elem) ->
  ((length elem - 3) * d <= max)%nat ->
  row_spec bc d max elem
    (concat (map (fun z => nth (Z.to_nat z) bc []) (skipn 3 elem)) ++
     skipn ((length elem - 3) * d) (repeat 0%Z max)).
Proof.
  intros Hd HF Hm.
  set (rows := map (fun z => nth (Z.to_nat z) bc []) (skipn 3 elem)).
  assert (Hrl : length rows = (length elem - 3)%nat) by (unfold rows; rewrite map_length, skipn_length; reflexivity).
  assert (Hrows : Forall (fun r => length r = d) rows).
  { unfold rows. apply Forall_map. eapply Forall_impl; [|exact HF]. intros z Hz; cbv beta in Hz.
    rewrite Forall_forall in Hd. apply Hd. apply nth_In. lia. }
  pose proof (concat_length_uniform rows d Hrows) as HL. rewrite Hrl in HL.
  split; [|split].
  - rewrite app_length, skipn_length, repeat_length. lia.
  - intros k dir Hk Hdir. rewrite app_nth1 by nia.
    rewrite (concat_nth rows d) by (try assumption; lia).
    unfold zent, node_of. f_equal. unfold rows.
    rewrite nth_indep with (d' := (fun z => nth (Z.to_nat z) bc []) 0%Z)
      by (rewrite map_length, skipn_length; lia).
    rewrite (map_nth (fun z => nth (Z.to_nat z) bc []) (skipn 3 elem) 0%Z).
    rewrite nth_skipn. reflexivity.
  - intros j Hj. rewrite app_nth2 by lia. rewrite nth_skipn.
    rewrite HL. replace ((length elem - 3) * d + (j - (length elem - 3) * d))%nat with j by lia.
    rewrite nth_indep with (d' := 0%Z) by (rewrite repeat_length; lia).
    apply nth_repeat.
Qed.

Lemma dme_row_ok bc d max ndof_el elem t nd :
  Forall (fun r => length r = d) bc ->
  nth_error elem 1 = Some t -> dofs_of ndof_el t = Ok nd ->
  Forall (fun z => (0 <= z < Z.of_nat (length bc))%Z) (skipn 3 elem) ->
  nd = ((length elem - 3) * d)%nat -> (nd <= max)%nat ->
  exists row, dme_row bc max ndof_el elem = Ok row /\ row_spec bc d max elem row.
Proof.
  intros Hd Ht Hnd HF -> Hm. rewrite dme_row_unfold.
  assert (Hl : (1 < length elem)%nat) by (apply nth_error_Some; congruence).
  change 1%Z with (Z.of_nat 1). rewrite (np_get_nth elem 1 0%Z Hl). cbn [bind].
  rewrite (nth_error_nth elem 1 0%Z Ht), Hnd. cbn [bind].
  rewrite get_rows by exact HF. cbn [bind]. unfold slice_assign.
  rewrite repeat_length, Nat.min_l by exact Hm.
  assert (Hrows : Forall (fun r => length r = d) (map (fun z => nth (Z.to_nat z) bc []) (skipn 3 elem))).
  { apply Forall_map. eapply Forall_impl; [|exact HF]. intros z Hz; cbv beta in Hz.
    rewrite Forall_forall in Hd. apply Hd. apply nth_In. lia. }
  rewrite (concat_length_uniform _ d Hrows), map_length, skipn_length, Nat.eqb_refl.
  eexists; split; [reflexivity|]. apply slice_row_spec; assumption.
Qed.

(** inversion: two dofs per node, built-in types *)
Lemma dme_row_inv bc elem row :
  Forall (fun r => length r = 2%nat) bc ->
  Forall (fun z => (0 <= z < Z.of_nat (length bc))%Z) (skipn 3 elem) ->
  dme_row bc 18 None elem = Ok row ->
  exists t nd nn ng, np_get elem 1 = Ok t /\ eletype t = Ok (nd, nn, ng) /\
    nd = ((length elem - 3) * 2)%nat /\ row_spec bc 2 18 elem row.
Proof.
  intros Hd HF Hrow. rewrite dme_row_unfold in Hrow. inv_ok Hrow. inv_ok Hrow.
  rename r into t. exists t. cbn [dofs_of] in Hr0. inv_ok Hr0. destruct r as [[nd nn] ng]. inv_ok Hr0. subst r0.
  exists nd, nn, ng. rewrite get_rows in Hrow by exact HF. cbn [bind] in Hrow.
  assert (Hrows : Forall (fun r => length r = 2%nat) (map (fun z => nth (Z.to_nat z) bc []) (skipn 3 elem))).
  { apply Forall_map. eapply Forall_impl; [|exact HF]. intros z Hz; cbv beta in Hz.
    rewrite Forall_forall in Hd. apply Hd. apply nth_In. lia. }
  pose proof (concat_length_uniform _ 2 Hrows) as HL. rewrite map_length, skipn_length in HL.
  assert (Hnd : (nd <= 18)%nat).
  { clear -Hr1. unfold eletype in Hr1.
    repeat (match type of Hr1 with context [match ?z with _ => _ end] => destruct z end);
      try discriminate; injection Hr1 as <- _ _; lia. }
  unfold slice_assign in Hrow. rewrite repeat_length, Nat.min_l in Hrow by exact Hnd.
  rewrite HL in Hrow. destruct (Nat.eqb_spec ((length elem - 3) * 2) nd) as [E|E].
  - subst nd. inv_ok Hrow. subst row. split; [exact Hr|]. split; [exact Hr1|]. split; [reflexivity|].
    apply slice_row_spec; auto.
  - exfalso. destruct (concat (map (fun z => nth (Z.to_nat z) bc []) (skipn 3 elem))) as [|v [|w t']];
      try discriminate. simpl in HL. lia.
Qed.

(** ** loads *)
Lemma load_row_ok bc neq d rhs load node :
  bc_ok d neq bc -> length rhs = neq -> (d < length load)%nat ->
  Rtrunc (nth 0 load 0) = Z.of_nat node -> (node < length bc)%nat ->
  exists rhs', load_row bc d rhs load = Ok rhs' /\ length rhs' = neq /\
    forall i j, (i < length bc)%nat -> (j < d)%nat -> (0 <= zent bc i j)%Z ->
      nth (Z.to_nat (zent bc i j)) rhs' 0 =
      if (i =? node)%nat then nth (j + 1) load 0 else nth (Z.to_nat (zent bc i j)) rhs 0.
Proof.
  intros (Hd & Hrg & Hinj & _) HL Hload Hnode Hn. unfold load_row.
  change 0%Z with (Z.of_nat 0). rewrite (np_get_nth load 0 0) by lia. cbn [bind].
  change (ntrunc (nth 0 load 0)) with (Rtrunc (nth 0 load 0)). rewrite Hnode.
  assert (Hrow : length (nth node bc []) = d) by (rewrite Forall_forall in Hd; apply Hd, nth_In; exact Hn).
  enough (Hgen : forall m, (m <= d)%nat -> exists rhs',
    foldM
      (fun rhs dof =>
         brow <- np_get bc (Z.of_nat node) ;;
         dof_id <- np_get brow (Z.of_nat dof) ;;
         if (dof_id =? -1)%Z then Ok rhs
         else
           v <- np_get load (Z.of_nat dof + 1)%Z ;;
           np_upd rhs dof_id (fun _ => v))
      (seq 0 m) rhs = Ok rhs' /\ length rhs' = neq /\
    forall i j, (i < length bc)%nat -> (j < d)%nat -> (0 <= zent bc i j)%Z ->
      nth (Z.to_nat (zent bc i j)) rhs' 0 =
      if (i =? node)%nat && (j <? m)%nat then nth (j + 1) load 0 else nth (Z.to_nat (zent bc i j)) rhs 0).
  { destruct (Hgen d (le_n d)) as (rhs' & He & HL' & Hv). exists rhs'. split; [exact He|].
    split; [exact HL'|]. intros i j Hi Hj H0. rewrite Hv by assumption.
    replace (j <? d)%nat with true by (symmetry; apply Nat.ltb_lt; exact Hj). rewrite andb_true_r. reflexivity. }
  induction m as [|m IH]; intros Hm.
  - exists rhs. split; [reflexivity|]. split; [exact HL|]. intros i j _ _ _. rewrite andb_false_r. reflexivity.
  - destruct IH as (r1 & He & HL1 & Hv); [lia|]. rewrite foldM_seq_S, He. cbn [bind].
    rewrite (np_get_nth bc node []) by exact Hn. cbn [bind].
    rewrite (np_get_nth _ m (-1)%Z) by lia. cbn [bind]. fold (zent bc node m).
    destruct (Z.eqb_spec (zent bc node m) (-1)) as [E|E].
    + exists r1. split; [reflexivity|]. split; [exact HL1|]. intros i j Hi Hj H0. rewrite Hv by assumption.
      destruct (Nat.eqb_spec i node) as [->|]; [|reflexivity]. cbn [andb].
      destruct (Nat.eq_dec j m) as [->|]; [lia|].
      destruct (Nat.ltb_spec j m), (Nat.ltb_spec j (S m)); try lia; reflexivity.
    + destruct (Hrg node m) as [|Hz]; [exact Hn|lia|contradiction|].
      replace (Z.of_nat m + 1)%Z with (Z.of_nat (m + 1)) by lia.
      rewrite (np_get_nth load (m + 1) 0) by lia. cbn [bind].
      rewrite np_upd_nonneg by lia. eexists; split; [reflexivity|]. split; [rewrite upd_length; exact HL1|].
      intros i j Hi Hj H0. rewrite upd_nth by lia.
      destruct (Nat.eqb_spec (Z.to_nat (zent bc i j)) (Z.to_nat (zent bc node m))) as [Ez|Ez].
      * destruct (Hinj i j node m) as [-> ->]; auto; try lia.
        rewrite Nat.eqb_refl. replace (m <? S m)%nat with true by (symmetry; apply Nat.ltb_lt; lia). reflexivity.
      * rewrite Hv by assumption. destruct (Nat.eqb_spec i node) as [->|]; [|reflexivity]. cbn [andb].
        destruct (Nat.eq_dec j m) as [->|]; [contradiction|].
        destruct (Nat.ltb_spec j m), (Nat.ltb_spec j (S m)); try lia; reflexivity.
Qed.

Definition load_node (load : list R) (i : nat) : bool := (Rtrunc (nth 0 load 0%R) =? Z.of_nat i)%Z.

(** the load of (i, j): the last row of the table for node i *)
Definition last_load (loads : list (list R)) (v : R) (i j : nat) : R :=
  fold_left (fun v load => if load_node load i then nth (j + 1) load 0 else v) loads v.

Lemma loadasem_ok loads bc neq d :
  bc_ok d neq bc ->
  Forall (fun load => (d < length load)%nat /\
            (0 <= Rtrunc (nth 0%nat load 0%R) < Z.of_nat (length bc))%Z) loads ->
  exists rhs, loadasem loads bc neq d = Ok rhs /\ length rhs = neq /\
    forall i j, (i < length bc)%nat -> (j < d)%nat -> (0 <= zent bc i j)%Z ->
      nth (Z.to_nat (zent bc i j)) rhs 0 = last_load loads 0 i j.
Proof.
  intros Hbc HF. unfold loadasem.
  enough (Hgen : forall r0, length r0 = neq -> exists rhs,
    foldM (load_row bc d) loads r0 = Ok rhs /\ length rhs = neq /\
    forall i j, (i < length bc)%nat -> (j < d)%nat -> (0 <= zent bc i j)%Z ->
      nth (Z.to_nat (zent bc i j)) rhs 0 = last_load loads (nth (Z.to_nat (zent bc i j)) r0 0) i j).
  { destruct (Hgen (vzeros neq)) as (rhs & He & HL & Hv); [apply mk_vec_length|].
    exists rhs. split; [exact He|]. split; [exact HL|]. intros i j Hi Hj H0. rewrite Hv by assumption.
    f_equal. destruct Hbc as (_ & Hrg & _ & _). destruct (Hrg i j Hi Hj) as [E|E]; [lia|].
    unfold vzeros. rewrite mk_vec_nth by lia. reflexivity. }
  induction HF as [|load loads [Hl Hn] HF IH]; intros r0 HL0; cbn [foldM].
  - exists r0. split; [reflexivity|]. split; [exact HL0|]. reflexivity.
  - destruct (load_row_ok bc neq d r0 load (Z.to_nat (Rtrunc (nth 0 load 0)))) as (r1 & He1 & HL1 & Hv1);
      auto; try lia.
    rewrite He1. cbn [bind]. destruct (IH r1 HL1) as (rhs & He & HL & Hv).
    exists rhs. split; [exact He|]. split; [exact HL|]. intros i j Hi Hj H0.
    rewrite Hv, Hv1 by assumption. cbn [last_load fold_left]. unfold last_load. f_equal.
    unfold load_node. destruct (Nat.eqb_spec i (Z.to_nat (Rtrunc (nth 0 load 0)))) as [E|E].
    + replace (Rtrunc (nth 0%nat load 0%R) =? Z.of_nat i)%Z with true by (symmetry; apply Z.eqb_eq; lia). reflexivity.
    + replace (Rtrunc (nth 0%nat load 0%R) =? Z.of_nat i)%Z with false by (symmetry; apply Z.eqb_neq; lia). reflexivity.
Qed.

(** ** displacement completion *)
Lemma mapM_seq_ok {B} (f : nat -> res B) n (g : nat -> B) :
  (forall i, (i < n)%nat -> f i = Ok (g i)) -> mapM f (seq 0 n) = Ok (map g (seq 0 n)).
Proof. intros Hf. apply mapM_total. intros i Hi. apply in_seq in Hi. apply Hf. lia. Qed.

Lemma complete_disp_ok bc (nodes : list (list R)) sol d neq :
  Forall (fun r => length r = d) bc -> length bc = length nodes -> length sol = neq ->
  (forall i j, (i < length bc)%nat -> (j < d)%nat ->
     zent bc i j = (-1)%Z \/ (0 <= zent bc i j < Z.of_nat neq)%Z) ->
  exists U, complete_disp bc nodes sol d = Ok U /\ shape (length nodes) d U /\
    forall i j, (i < length nodes)%nat -> (j < d)%nat ->
      ent U i j = if (zent bc i j =? -1)%Z then 0 else nth (Z.to_nat (zent bc i j)) sol 0.
Proof.
  intros Hd HL Hsol Hrg. unfold complete_disp.
  rewrite (mapM_seq_ok _ _ (fun i => map (fun j =>
    if (zent bc i j =? -1)%Z then 0 else nth (Z.to_nat (zent bc i j)) sol 0) (seq 0 d))).
  - eexists; split; [reflexivity|].
    change (map _ (seq 0 (length nodes))) with (mk_mat (length nodes) d
      (fun i j => if (zent bc i j =? -1)%Z then 0 else nth (Z.to_nat (zent bc i j)) sol 0)).
    split; [apply shape_mk_mat|]. intros i j Hi Hj. apply ent_mk_mat; assumption.
  - intros i Hi. apply mapM_seq_ok. intros j Hj.
    rewrite (np_get_nth bc i []) by lia. cbn [bind].
    rewrite (np_get_nth _ j (-1)%Z).
    + cbn [bind]. fold (zent bc i j). destruct (Z.eqb_spec (zent bc i j) (-1)) as [|E]; [reflexivity|].
      destruct (Hrg i j) as [|Hz]; [lia|exact Hj|contradiction|].
      apply np_get_nonneg. lia.
    + rewrite Forall_forall in Hd. rewrite Hd; [exact Hj|]. apply nth_In. lia.
Qed.
