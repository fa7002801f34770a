(** * Proofs: statements of the assembly properties in their final form *)
From Coq Require Import String Reals List Arith Lia Lra Bool ZArith Permutation QArith Qreals.
From Verif Require Import Num LinAlg Gauss Fem Uel Assem Post Spec LinR Base SpecAssem
  AssemProofs AssemProofs2 AssemProofs3 ElemShape SpecModel ModelProofs.
Import ListNotations.
Local Open Scope R_scope.

(** ** C02: the assembly operator *)
Lemma mapM_np_get_err {A} (l : list A) ids :
  Exists (fun z => (z < - Z.of_nat (length l) \/ Z.of_nat (length l) <= z)%Z) ids ->
  mapM (np_get l) ids = Err IndexError.
Proof.
  induction 1 as [z ids Hz|z ids Hz IH]; cbn [mapM].
  - assert (E : np_get l z = Err IndexError).
    { unfold np_get, np_index.
      replace ((0 <=? z)%Z && (z <? Z.of_nat (length l))%Z) with false.
      - replace ((- Z.of_nat (length l) <=? z)%Z && (z <? 0)%Z) with false; [reflexivity|].
        symmetry. apply andb_false_iff. rewrite Z.leb_gt, Z.ltb_ge. lia.
      - symmetry. apply andb_false_iff. rewrite Z.leb_gt, Z.ltb_ge. lia. }
    rewrite E. reflexivity.
  - destruct (np_get l z) eqn:E; cbn [bind]; [rewrite IH; reflexivity|].
    apply np_get_err in E. congruence.
Qed.

Lemma mapM_first_err {A B} (f : A -> res B) l1 a l2 e :
  Forall (fun x => exists y, f x = Ok y) l1 -> f a = Err e -> mapM f (l1 ++ a :: l2) = Err e.
Proof.
  induction 1 as [|x l1 [y Hy] HF IH]; intros Ha; cbn [app mapM].
  - rewrite Ha. reflexivity.
  - rewrite Hy. cbn [bind]. rewrite (IH Ha). reflexivity.
Qed.

Section DME.
  Variables (d max : nat) (ndof_el : option (Z -> res nat)).

  Lemma dme_row_type_err bc elem t e :
    nth_error elem 1 = Some t -> dofs_of ndof_el t = Err e -> dme_row bc max ndof_el elem = Err e.
  Proof.
    intros Ht He. rewrite dme_row_unfold.
    assert (Hl : (1 < length elem)%nat) by (apply nth_error_Some; congruence).
    change 1%Z with (Z.of_nat 1). rewrite (np_get_nth elem 1 0%Z Hl). cbn [bind].
    rewrite (nth_error_nth elem 1 0%Z Ht), He. reflexivity.
  Qed.

  Lemma dme_row_node_err bc elem t nd :
    nth_error elem 1 = Some t -> dofs_of ndof_el t = Ok nd ->
    Exists (fun z => (z < - Z.of_nat (length bc) \/ Z.of_nat (length bc) <= z)%Z) (skipn 3 elem) ->
    dme_row bc max ndof_el elem = Err IndexError.
  Proof.
    intros Ht He Hn. rewrite dme_row_unfold.
    assert (Hl : (1 < length elem)%nat) by (apply nth_error_Some; congruence).
    change 1%Z with (Z.of_nat 1). rewrite (np_get_nth elem 1 0%Z Hl). cbn [bind].
    rewrite (nth_error_nth elem 1 0%Z Ht), He. cbn [bind]. rewrite mapM_np_get_err by exact Hn. reflexivity.
  Qed.

  Lemma dme_row_count_err bc elem t nd :
    (2 <= d)%nat -> Forall (fun r => length r = d) bc ->
    nth_error elem 1 = Some t -> dofs_of ndof_el t = Ok nd ->
    Forall (fun z => (0 <= z < Z.of_nat (length bc))%Z) (skipn 3 elem) ->
    nd <> ((length elem - 3) * d)%nat -> (nd <= max)%nat ->
    exists m, dme_row bc max ndof_el elem = Err (ValueError m).
  Proof.
    intros H2 Hd Ht He Hn Hne Hm. rewrite dme_row_unfold.
    assert (Hl : (1 < length elem)%nat) by (apply nth_error_Some; congruence).
    change 1%Z with (Z.of_nat 1). rewrite (np_get_nth elem 1 0%Z Hl). cbn [bind].
    rewrite (nth_error_nth elem 1 0%Z Ht), He. cbn [bind].
    rewrite get_rows by exact Hn. cbn [bind]. unfold slice_assign.
    rewrite repeat_length, Nat.min_l by exact Hm.
    set (flat := concat _).
    assert (HL : length flat = ((length elem - 3) * d)%nat).
    { unfold flat. rewrite (concat_length_uniform _ d), map_length, skipn_length; [reflexivity|].
      apply Forall_map. eapply Forall_impl; [|exact Hn]. intros z Hz; cbv beta in Hz.
      rewrite Forall_forall in Hd. apply Hd. apply nth_In. lia. }
    replace (length flat =? nd)%nat with false by (symmetry; apply Nat.eqb_neq; lia).
    destruct flat as [|a [|b fl]]; cbn [length] in HL; try (eexists; reflexivity).
    exfalso. destruct (length elem - 3)%nat as [|k]; [lia|]. cbn in HL. destruct d as [|[|d']]; lia.
  Qed.

  (** an element row accepted by the operator *)
  Lemma DME_ok cons elements :
    flags01 d cons ->
    Forall (good_row d max ndof_el cons) elements ->
    exists op bc, DME cons elements d max ndof_el = Ok (op, bc, Z.of_nat (count_free cons)) /\
      numbering cons bc (count_free cons) /\
      Forall2 (row_spec bc d max) elements op.
  Proof.
    intros Hf HE. destruct (eqcounter_numbering d cons Hf) as (bc & He & Hn).
    unfold DME. rewrite He. cbn [bind].
    pose proof (numbering_length _ _ _ Hn) as HL.
    destruct (numbering_bc_ok _ _ _ _ Hf Hn) as (Hd & _).
    assert (HF : exists op, Forall2 (fun e r => dme_row bc max ndof_el e = Ok r /\ row_spec bc d max e r) elements op).
    { clear -HE HL Hd. induction HE as [|e l (t & Ht & Hnd & Hm & HF) _ [op IH]]; [exists []; constructor|].
      destruct (dme_row_ok bc d max ndof_el e t _ Hd Ht Hnd) as (row & Hr & Hs); auto.
      { rewrite HL. exact HF. }
      exists (row :: op). constructor; auto. }
    destruct HF as [op HF]. exists op, bc.
    assert (Hm : mapM (dme_row bc max ndof_el) elements = Ok op).
    { apply mapM_ok. eapply Forall2_mono; [|exact HF]. intros a b H; apply H. }
    rewrite Hm. cbn [bind]. split; [reflexivity|]. split; [exact Hn|].
    eapply Forall2_mono; [|exact HF]. intros a b H; apply H.
  Qed.

  Lemma DME_err cons l1 elem l2 t :
    flags01 d cons -> (2 <= d)%nat -> Forall (good_row d max ndof_el cons) l1 -> nth_error elem 1 = Some t ->
    (forall e, dofs_of ndof_el t = Err e -> DME cons (l1 ++ elem :: l2) d max ndof_el = Err e) /\
    (forall nd, dofs_of ndof_el t = Ok nd ->
       Exists (fun z => (z < - Z.of_nat (length cons) \/ Z.of_nat (length cons) <= z)%Z) (skipn 3 elem) ->
       DME cons (l1 ++ elem :: l2) d max ndof_el = Err IndexError) /\
    (forall nd, dofs_of ndof_el t = Ok nd ->
       Forall (fun z => (0 <= z < Z.of_nat (length cons))%Z) (skipn 3 elem) ->
       nd <> ((length elem - 3) * d)%nat -> (nd <= max)%nat ->
       exists m, DME cons (l1 ++ elem :: l2) d max ndof_el = Err (ValueError m)).
  Proof.
    intros Hf H2 HG Ht. destruct (eqcounter_numbering d cons Hf) as (bc & He & Hn).
    pose proof (numbering_length _ _ _ Hn) as HL.
    destruct (numbering_bc_ok _ _ _ _ Hf Hn) as (Hd & _).
    assert (H1 : Forall (fun x => exists y, dme_row bc max ndof_el x = Ok y) l1).
    { eapply Forall_impl; [|exact HG]. intros e (t' & Ht' & Hnd & Hm & HF).
      destruct (dme_row_ok bc d max ndof_el e t' _ Hd Ht' Hnd) as (row & Hr & _); eauto.
      rewrite HL. exact HF. }
    unfold DME. rewrite He. cbn [bind].
    split; [|split].
    - intros e Herr. rewrite (mapM_first_err _ _ _ _ e H1); [reflexivity|].
      eapply dme_row_type_err; eauto.
    - intros nd Hnd Hex. rewrite (mapM_first_err _ _ _ _ IndexError H1); [reflexivity|].
      eapply dme_row_node_err; eauto. rewrite HL. exact Hex.
    - intros nd Hnd HF Hne Hm.
      destruct (dme_row_count_err bc elem t nd H2 Hd Ht Hnd) as [m Hm']; auto; [rewrite HL; exact HF|].
      exists m. rewrite (mapM_first_err _ _ _ _ (ValueError m) H1 Hm'). reflexivity.
  Qed.
End DME.

(** ** C03-C05 for [assembler] *)
Lemma locals_op_in_range elements mats nodes neq assem_op uel locs :
  locals_of elements mats nodes assem_op uel locs -> Forall (local_ok neq) locs ->
  op_in_range elements mats nodes neq assem_op uel.
Proof.
  intros [HF ->] HO i elem k m arow b Hi Ha Hr Hb.
  destruct (nth_error locs i) as [l|] eqn:El.
  2:{ rewrite nth_error_map, El in Ha. discriminate. }
  rewrite nth_error_map, El in Ha. cbn in Ha. injection Ha as <-.
  assert (HR : retriever elem mats nodes uel = Ok (l_K l, M2 (l_M l))).
  { assert (Hlt : (i < length elements)%nat) by (apply nth_error_Some; congruence).
    pose proof (Forall2_nth _ _ _ i elem l HF Hlt) as H. cbv beta in H.
    rewrite (nth_error_nth _ _ _ Hi), (nth_error_nth _ _ _ El) in H. exact H. }
  rewrite Hr in HR. apply Ok_pair_inj in HR. destruct HR as [-> _].
  rewrite Forall_forall in HO. destruct (HO l (nth_error_In _ _ El)) as (_ & _ & Hlen & Hrng).
  apply (In_nth _ _ (-1)%Z) in Hb. destruct Hb as [r [Hr1 Hr2]].
  rewrite firstn_length in Hr1. rewrite firstn_nth in Hr2 by lia. rewrite <- Hr2.
  apply (Hrng r). unfold l_n. lia.
Qed.

Lemma assembler_ok elements mats nodes neq assem_op uel locs sparse :
  locals_of elements mats nodes assem_op uel locs ->
  Forall (local_ok neq) locs ->
  exists K M, assembler elements mats nodes neq assem_op sparse uel =
      Ok (if sparse then (Csr K, Csr M) else (Dense K, Dense M)) /\
    shape neq neq K /\ shape neq neq M /\
    forall p q, (p < neq)%nat -> (q < neq)%nat ->
       ent K p q = lsum (fun l => scatter l (l_K l) p q) locs /\
       ent M p q = lsum (fun l => scatter l (l_M l) p q) locs.
Proof.
  intros HL HO. destruct (dense_assem_ok _ _ _ _ _ _ _ HL HO) as (K & M & He & HK & HM & EK & EM).
  exists K, M. split.
  - unfold assembler. destruct sparse.
    + rewrite (sparse_dense_agree _ _ _ _ _ _ (locals_op_in_range _ _ _ _ _ _ _ HL HO)), He. reflexivity.
    + rewrite He. reflexivity.
  - split; [exact HK|]. split; [exact HM|]. intros p q Hp Hq. split; auto.
Qed.

Lemma assembler_agree elements mats nodes neq assem_op uel :
  op_in_range elements mats nodes neq assem_op uel ->
  match assembler elements mats nodes neq assem_op true uel,
        assembler elements mats nodes neq assem_op false uel with
  | Ok (Csr k, Csr m), Ok (Dense k', Dense m') => k = k' /\ m = m'
  | Err e, Err e' => e = e'
  | _, _ => False
  end.
Proof.
  intros Hop. unfold assembler. rewrite sparse_dense_agree by exact Hop.
  destruct (dense_assem _ _ _ _ _ _) as [[k m]|e]; cbn; auto.
Qed.

Lemma op_in_range_perm elements mats nodes neq assem_op uel elements' assem_op' :
  length elements = length assem_op -> length elements' = length assem_op' ->
  Permutation (combine elements assem_op) (combine elements' assem_op') ->
  op_in_range elements mats nodes neq assem_op uel -> op_in_range elements' mats nodes neq assem_op' uel.
Proof.
  intros HL HL' HP Hop i elem k m arow b Hi Ha Hr Hb.
  assert (Hin : In (elem, arow) (combine elements assem_op)).
  { apply (Permutation_in _ (Permutation_sym HP)). apply nth_error_In with (n := i).
    clear -Hi Ha. revert i assem_op' Hi Ha. induction elements' as [|e l IH]; intros [|i] [|a al] Hi Ha;
      cbn in *; try discriminate; [congruence|]. apply IH; assumption. }
  apply In_nth_error in Hin. destruct Hin as [j Hj].
  assert (Hj' : nth_error elements j = Some elem /\ nth_error assem_op j = Some arow).
  { clear -Hj. revert j assem_op Hj. induction elements as [|e l IH]; intros [|j] [|a al] Hj; cbn in *;
      try discriminate; [injection Hj as -> ->; split; reflexivity|]. apply IH. exact Hj. }
  destruct Hj' as [Hj1 Hj2]. eapply Hop; eauto.
Qed.

Lemma assembler_perm elements mats nodes neq assem_op uel elements' assem_op' sparse KM :
  length elements = length assem_op -> length elements' = length assem_op' ->
  Permutation (combine elements assem_op) (combine elements' assem_op') ->
  op_in_range elements mats nodes neq assem_op uel ->
  assembler elements mats nodes neq assem_op sparse uel = Ok KM ->
  assembler elements' mats nodes neq assem_op' sparse uel = Ok KM.
Proof.
  intros HL HL' HP Hop. pose proof (op_in_range_perm _ _ _ _ _ _ _ _ HL HL' HP Hop) as Hop'.
  unfold assembler. destruct sparse; intros Hs; inv_ok Hs; destruct r as [k m].
  - rewrite (sparse_assem_perm _ _ _ _ _ _ _ _ _ HL HL' HP Hr). exact Hs.
  - rewrite <- sparse_dense_agree in Hr by exact Hop.
    rewrite <- sparse_dense_agree by exact Hop'.
    rewrite (sparse_assem_perm _ _ _ _ _ _ _ _ _ HL HL' HP Hr). exact Hs.
Qed.

(** ** C06, C07 for assembled matrices *)
Lemma assembled_entries elements mats nodes neq assem_op uel locs sparse gk gm :
  locals_of elements mats nodes assem_op uel locs -> Forall (local_ok neq) locs ->
  assembler elements mats nodes neq assem_op sparse uel = Ok (gk, gm) ->
  forall p q, (p < neq)%nat -> (q < neq)%nat ->
    ent (fst (mats_of (gk, gm))) p q = lsum (fun l => scatter l (l_K l) p q) locs /\
    ent (snd (mats_of (gk, gm))) p q = lsum (fun l => scatter l (l_M l) p q) locs.
Proof.
  intros HL HO Ha. destruct (assembler_ok _ _ _ _ _ _ _ sparse HL HO) as (K & M & He & _ & _ & HE).
  rewrite Ha in He. apply Ok_inj in He. destruct sparse; injection He as -> ->; exact HE.
Qed.

Lemma assembled_sym_psd elements mats nodes neq assem_op uel locs sparse gk gm :
  locals_of elements mats nodes assem_op uel locs -> Forall (local_ok neq) locs ->
  assembler elements mats nodes neq assem_op sparse uel = Ok (gk, gm) ->
  (Forall (fun l => symmetric (l_n l) (l_K l)) locs -> symmetric neq (fst (mats_of (gk, gm)))) /\
  (Forall (fun l => symmetric (l_n l) (l_M l)) locs -> symmetric neq (snd (mats_of (gk, gm)))) /\
  (Forall (fun l => psd (l_n l) (l_K l)) locs -> psd neq (fst (mats_of (gk, gm)))) /\
  (Forall (fun l => psd (l_n l) (l_M l)) locs -> psd neq (snd (mats_of (gk, gm)))).
Proof.
  intros HL HO Ha. pose proof (assembled_entries _ _ _ _ _ _ _ _ _ _ HL HO Ha) as HE.
  pose proof (local_ok_ranges _ _ HO) as HR.
  split; [|split; [|split]].
  - apply (symmetric_sum neq l_K _ locs HR). intros p q Hp Hq. apply HE; assumption.
  - apply (symmetric_sum neq l_M _ locs HR). intros p q Hp Hq. apply HE; assumption.
  - apply (psd_sum neq l_K _ locs HR). intros p q Hp Hq. apply HE; assumption.
  - apply (psd_sum neq l_M _ locs HR). intros p q Hp Hq. apply HE; assumption.
Qed.

Lemma assembled_action elements mats nodes neq assem_op uel locs sparse gk gm :
  locals_of elements mats nodes assem_op uel locs -> Forall (local_ok neq) locs ->
  assembler elements mats nodes neq assem_op sparse uel = Ok (gk, gm) ->
  (forall u p, (p < neq)%nat ->
     act neq (fst (mats_of (gk, gm))) u p =
     lsum (fun l => rsum (l_n l) (fun r => if (l_eq l r =? Z.of_nat p)%Z
                                          then act (l_n l) (l_K l) (gather l u) r else 0)) locs) /\
  (forall u v, form neq (fst (mats_of (gk, gm))) u v =
     lsum (fun l => form (l_n l) (l_K l) (gather l u) (gather l v)) locs) /\
  (forall u v, form neq (snd (mats_of (gk, gm))) u v =
     lsum (fun l => form (l_n l) (l_M l) (gather l u) (gather l v)) locs).
Proof.
  intros HL HO Ha. pose proof (assembled_entries _ _ _ _ _ _ _ _ _ _ HL HO Ha) as HE.
  pose proof (local_ok_ranges _ _ HO) as HR. split; [|split].
  - intros u p Hp. apply (act_sum neq l_K _ locs u p HR Hp). intros p' q Hp' Hq. apply HE; assumption.
  - intros u v. apply (form_sum neq l_K _ locs u v HR). intros p' q Hp' Hq. apply HE; assumption.
  - intros u v. apply (form_sum neq l_M _ locs u v HR). intros p' q Hp' Hq. apply HE; assumption.
Qed.

(** ** C08, C09: loads *)
Lemma applied_gen loads i d v0 : (forall r, In r loads -> exists n, nth 0 r 0 = INR n) ->
  fold_left (fun v row => if Req_EM_T (nth 0 row 0) (INR i) then nth (d + 1) row 0 else v) loads v0 =
  last_load loads v0 i d.
Proof.
  unfold last_load. revert v0; induction loads as [|r l IH]; intros v0 Hr; [reflexivity|].
  cbn [fold_left]. rewrite IH by (intros; apply Hr; right; assumption). f_equal.
  destruct (Hr r (or_introl eq_refl)) as [n Hn]. unfold load_node. rewrite Hn, INR_Rtrunc.
  destruct (Req_EM_T (INR n) (INR i)) as [E|E].
  - apply INR_eq in E. subst. rewrite Z.eqb_refl. reflexivity.
  - replace (Z.of_nat n =? Z.of_nat i)%Z with false; [reflexivity|].
    symmetry. apply Z.eqb_neq. intros E'. apply E. f_equal. lia.
Qed.

Lemma loadasem_applied cons d bc neq loads :
  flags01 d cons -> numbering cons bc neq ->
  Forall (fun row => (d < length row)%nat /\ exists n, (n < length cons)%nat /\ nth 0 row 0 = INR n) loads ->
  exists rhs, loadasem loads bc neq d = Ok rhs /\ length rhs = neq /\
    forall i j, (i < length cons)%nat -> (j < d)%nat -> ent cons i j = 0 ->
      nth (Z.to_nat (zent bc i j)) rhs 0 = applied loads i j.
Proof.
  intros Hf Hn HL. pose proof (numbering_length _ _ _ Hn) as Hlen.
  pose proof (numbering_bc_ok _ _ _ _ Hf Hn) as Hbc.
  destruct (loadasem_ok loads bc neq d Hbc) as (rhs & He & Hl & Hv).
  { eapply Forall_impl; [|exact HL]. intros row [Hr (n & Hn1 & Hn2)]. split; [exact Hr|].
    rewrite Hn2, INR_Rtrunc. lia. }
  exists rhs. split; [exact He|]. split; [exact Hl|]. intros i j Hi Hj Hc.
  rewrite Hv; [|lia|exact Hj|].
  - unfold applied. rewrite applied_gen; [reflexivity|].
    intros r Hr. rewrite Forall_forall in HL. destruct (HL r Hr) as [_ (n & _ & E)]. eauto.
  - assert (Hi' : (i < length cons)%nat) by exact Hi.
    assert (Hj' : (j < length (nth i cons []))%nat).
    { unfold flags01 in Hf. rewrite Forall_forall in Hf. destruct (Hf (nth i cons [])) as [E _]; [apply nth_In; exact Hi|].
      rewrite E. exact Hj. }
    pose proof (numbering_entry cons bc neq i j Hn Hi' Hj') as [_ H0]. apply H0. exact Hc.
Qed.

Lemma fold_no_row l i d v : (forall r, In r l -> nth 0 r 0 <> INR i) ->
  fold_left (fun v row => if Req_EM_T (nth 0 row 0) (INR i) then nth (d + 1) row 0 else v) l v = v.
Proof.
  revert v; induction l as [|r l IH]; intros v Hr; [reflexivity|].
  cbn [fold_left]. destruct (Req_EM_T (nth 0 r 0) (INR i)) as [E|E].
  - exfalso. apply (Hr r); [left; reflexivity|exact E].
  - apply IH. intros; apply Hr; right; assumption.
Qed.

Lemma applied_no_row loads i d : (forall r, In r loads -> nth 0 r 0 <> INR i) -> applied loads i d = 0.
Proof. apply fold_no_row. Qed.

Lemma applied_last l1 row l2 i d : nth 0 row 0 = INR i ->
  (forall r, In r l2 -> nth 0 r 0 <> INR i) -> applied (l1 ++ row :: l2) i d = nth (d + 1) row 0.
Proof.
  intros He Hn. unfold applied. rewrite fold_left_app. cbn [fold_left].
  destruct (Req_EM_T (nth 0 row 0) (INR i)) as [_|E]; [|contradiction].
  apply fold_no_row. exact Hn.
Qed.

Lemma loads_overwrite :
  exists (cons : list (list R)) bc neq,
    flags01 2 cons /\ numbering cons bc neq /\
    loadasem [[0; 1; 2]; [0; 3; 4]] bc neq 2 = Ok [3; 4] /\
    loadasem [[0; 1 + 3; 2 + 4]] bc neq 2 = Ok [1 + 3; 2 + 4] /\
    [3; 4] <> [1 + 3; 2 + 4].
Proof.
  exists [[0; 0]], [[0; 1]]%Z, 2%nat. split; [|split; [|split; [|split]]].
  - repeat constructor; auto.
  - split; [|reflexivity]. repeat constructor; intros; lra || lia.
  - unfold loadasem. cbn [foldM bind]. unfold load_row. cbn [np_get np_index length nth_error bind].
    change (@ntrunc R Num_R) with Rtrunc. cbn. rewrite (Rtrunc_IZR 0). reflexivity.
  - unfold loadasem. cbn [foldM bind]. unfold load_row.
    change (@ntrunc R Num_R) with Rtrunc. cbn. rewrite (Rtrunc_IZR 0). reflexivity.
  - intros E. injection E. intros. lra.
Qed.

(** load tables on disjoint sets of nodes do superpose *)
Lemma applied_disjoint l1 l2 i d :
  (forall r1 r2, In r1 l1 -> In r2 l2 -> nth 0 r1 0 <> nth 0 r2 0) ->
  applied (l1 ++ l2) i d = applied l1 i d + applied l2 i d.
Proof.
  intros Hd.
  destruct (Exists_dec (fun r => nth 0 r 0 = INR i) l2 (fun r => Req_EM_T (nth 0 r 0) (INR i))) as [H2|H2].
  - rewrite (applied_no_row l1), Rplus_0_l.
    + apply Exists_exists in H2. destruct H2 as [r [Hr He]].
      assert (Hsplit : forall l v w, (exists r, In r l /\ nth 0 r 0 = INR i) ->
        fold_left (fun v row => if Req_EM_T (nth 0 row 0) (INR i) then nth (d + 1) row 0 else v) l v =
        fold_left (fun v row => if Req_EM_T (nth 0 row 0) (INR i) then nth (d + 1) row 0 else v) l w).
      { clear. induction l as [|x l IH]; intros v w [r [Hr He]]; [destruct Hr|]. cbn [fold_left].
        destruct (Req_EM_T (nth 0 x 0) (INR i)); [reflexivity|]. apply IH.
        destruct Hr as [->|Hr]; [contradiction|]. eauto. }
      unfold applied. rewrite fold_left_app. apply Hsplit. eauto.
    + intros r Hr E. apply Exists_exists in H2. destruct H2 as [r2 [Hr2 He]].
      apply (Hd r r2 Hr Hr2). congruence.
  - rewrite (applied_no_row l2), Rplus_0_r.
    + unfold applied. rewrite fold_left_app. apply fold_no_row.
      intros r Hr E. apply H2. apply Exists_exists. eauto.
    + intros r Hr E. apply H2. apply Exists_exists. eauto.
Qed.

Lemma loads_disjoint cons d bc neq l1 l2 f1 f2 f :
  flags01 d cons -> numbering cons bc neq ->
  Forall (fun row => (d < length row)%nat /\ exists n, (n < length cons)%nat /\ nth 0 row 0 = INR n) (l1 ++ l2) ->
  (forall r1 r2, In r1 l1 -> In r2 l2 -> nth 0 r1 0 <> nth 0 r2 0) ->
  loadasem l1 bc neq d = Ok f1 -> loadasem l2 bc neq d = Ok f2 -> loadasem (l1 ++ l2) bc neq d = Ok f ->
  forall p, (p < neq)%nat -> nth p f 0 = nth p f1 0 + nth p f2 0.
Proof.
  intros Hf Hn HF Hdis E1 E2 E p Hp. pose proof HF as HF'. apply Forall_app in HF'. destruct HF' as [HF1 HF2].
  destruct (loadasem_applied _ _ _ _ _ Hf Hn HF1) as (g1 & G1 & _ & V1).
  destruct (loadasem_applied _ _ _ _ _ Hf Hn HF2) as (g2 & G2 & _ & V2).
  destruct (loadasem_applied _ _ _ _ _ Hf Hn HF) as (g & G & _ & V).
  assert (g1 = f1) by congruence. assert (g2 = f2) by congruence. assert (g = f) by congruence. subst.
  destruct (numbering_bc_ok _ _ _ _ Hf Hn) as (_ & _ & _ & Hs). destruct (Hs p Hp) as (i & j & Hi & Hj & Hz).
  rewrite (numbering_length _ _ _ Hn) in Hi.
  assert (Hfl : length (nth i cons []) = d /\ Forall (fun c => c = 0 \/ c = -1) (nth i cons [])).
  { unfold flags01 in Hf. rewrite Forall_forall in Hf. apply Hf. apply nth_In. exact Hi. }
  destruct Hfl as [Hrl Hfl].
  assert (Hc : ent cons i j = 0).
  { rewrite Forall_forall in Hfl. destruct (Hfl (ent cons i j)) as [|E3]; [apply nth_In; lia|assumption|].
    exfalso. destruct (numbering_entry cons bc neq i j Hn Hi) as [A _]; [lia|]. specialize (A E3). lia. }
  specialize (V i j Hi Hj Hc). specialize (V1 i j Hi Hj Hc). specialize (V2 i j Hi Hj Hc).
  rewrite Hz, Nat2Z.id in *. rewrite V, V1, V2. apply applied_disjoint. exact Hdis.
Qed.

(** ** C10: completion *)
Lemma complete_disp_cons cons d bc neq (nodes : list (list R)) sol :
  flags01 d cons -> numbering cons bc neq -> length nodes = length cons -> length sol = neq ->
  exists U, complete_disp bc nodes sol d = Ok U /\ shape (length nodes) d U /\
    (forall i j, (i < length nodes)%nat -> (j < d)%nat ->
       (ent cons i j = -1 -> ent U i j = 0) /\
       (ent cons i j = 0 -> ent U i j = nth (Z.to_nat (zent bc i j)) sol 0)) /\
    (forall i j i' j', (i < length nodes)%nat -> (j < d)%nat -> (i' < length nodes)%nat -> (j' < d)%nat ->
       ent cons i j = 0 -> ent cons i' j' = 0 -> zent bc i j = zent bc i' j' -> i = i' /\ j = j').
Proof.
  intros Hf Hn Hl Hs. pose proof (numbering_length _ _ _ Hn) as Hlen.
  destruct (numbering_bc_ok _ _ _ _ Hf Hn) as (Hd & Hrg & Hinj & _).
  destruct (complete_disp_ok bc nodes sol d neq Hd) as (U & He & HU & HE); auto; try lia.
  assert (Hz : forall i j, (i < length nodes)%nat -> (j < d)%nat ->
     (ent cons i j = -1 -> zent bc i j = (-1)%Z) /\ (ent cons i j = 0 -> (0 <= zent bc i j)%Z)).
  { intros i j Hi Hj. rewrite Hl in Hi. apply (numbering_entry cons bc neq i j Hn Hi).
    unfold flags01 in Hf. rewrite Forall_forall in Hf.
    destruct (Hf (nth i cons [])) as [E _]; [apply nth_In; exact Hi|]. rewrite E. exact Hj. }
  exists U. split; [exact He|]. split; [exact HU|]. split.
  - intros i j Hi Hj. destruct (Hz i j Hi Hj) as [A B]. rewrite HE by assumption. split; intros Hc.
    + rewrite (A Hc). reflexivity.
    + specialize (B Hc). replace (zent bc i j =? -1)%Z with false by (symmetry; apply Z.eqb_neq; lia). reflexivity.
  - intros i j i' j' Hi Hj Hi' Hj' Hc Hc' E. destruct (Hz i j Hi Hj) as [_ B].
    apply Hinj; auto; try lia. 
Qed.

(** ** C11 *)
Lemma types_table t :
  ((1 <= t <= 8)%Z ->
     exists nd nn ng f, eletype t = Ok (nd, nn, ng) /\ @ele_fun R Num_R t = Ok f /\
       (nd = nn * (if (7 <=? t)%Z then 3 else 2))%nat) /\
  (~ (1 <= t <= 8)%Z ->
     (exists m, eletype t = Err (ValueError m)) /\ (exists m, @ele_fun R Num_R t = Err (ValueError m))).
Proof.
  split.
  - intros Ht. assert (Hc : (t = 1 \/ t = 2 \/ t = 3 \/ t = 4 \/ t = 5 \/ t = 6 \/ t = 7 \/ t = 8)%Z) by lia.
    destruct Hc as [->|[->|[->|[->|[->|[->|[->| ->]]]]]]]; cbn; do 4 eexists; repeat split.
  - intros Ht. destruct t as [|p|p]; [split; eexists; reflexivity| |split; eexists; reflexivity].
    do 4 (destruct p as [p|p|]; try (split; eexists; reflexivity); try (exfalso; apply Ht; lia)).
Qed.

Lemma types_shape t f nd nn ng coord params k m :
  @ele_fun R Num_R t = Ok f -> eletype t = Ok (nd, nn, ng) -> f coord params = Ok (k, M2 m) ->
  shape nd nd k /\ shape nd nd m.
Proof.
  intros He Ht Hf. destruct (ele_fun_shape _ _ _ _ _ _ _ _ _ He Ht Hf) as [Hk [[_ E]|[_ (M & E & HM)]]].
  - discriminate.
  - injection E as ->. split; assumption.
Qed.

Lemma points_table :
  (forall t rule, In (t, rule) [(1%Z, @gauss_nd R Num_R 2 2); (2%Z, gauss_tri 3); (3%Z, gauss_tri 2); (4%Z, gauss_nd 3 2)] ->
     exists nd nn pts wts, rule = Ok (pts, wts) /\ eletype t = Ok (nd, nn, length pts) /\ length wts = length pts) /\
  (forall t, (5 <= t <= 8)%Z -> exists nd, eletype t = Ok (nd, 2%nat, 3%nat)).
Proof.
  split.
  - intros t rule [E|[E|[E|[E|[]]]]]; apply pair_equal_spec in E as [<- <-]; do 4 eexists; (split; [reflexivity|]); split; reflexivity.
  - intros t Ht. assert (Hc : (t = 5 \/ t = 6 \/ t = 7 \/ t = 8)%Z) by lia.
    destruct Hc as [->|[->|[->| ->]]]; eexists; reflexivity.
Qed.
