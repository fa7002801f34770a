(** * Proofs about numbering and assembly *)
From Coq Require Import Reals List Arith Lia Lra Bool ZArith Permutation.
From Verif Require Import Num LinAlg Gauss Fem Uel Assem Spec LinR Base SpecAssem.
Import ListNotations.
Local Open Scope R_scope.

(** ** truncation of integers *)
Lemma Int_part_IZR z : Int_part (IZR z) = z.
Proof.
  destruct (base_Int_part (IZR z)) as [H1 H2].
  apply le_IZR in H1.
  assert (IZR (Int_part (IZR z)) > IZR (z - 1)) by (rewrite minus_IZR; lra).
  assert (z - 1 < Int_part (IZR z))%Z by (apply lt_IZR; lra). lia.
Qed.

Lemma Rtrunc_IZR z : Rtrunc (IZR z) = z.
Proof.
  unfold Rtrunc. destruct (Rle_dec 0 (IZR z)).
  - apply Int_part_IZR.
  - rewrite <- opp_IZR, Int_part_IZR. lia.
Qed.

(** ** eqcounter *)
Definition zflag (b : Z) : Prop := b = 0%Z \/ b = (-1)%Z.
Definition znum (c b : Z) : Prop := (c = -1 -> b = -1)%Z /\ (c = 0 -> 0 <= b)%Z.
Definition nonneg_b (b : Z) : bool := (0 <=? b)%Z.

Lemma eq_row_spec row n :
  Forall zflag row ->
  exists k row', eq_row (length row) row (Z.of_nat n) = Ok (Z.of_nat (n + k), row') /\
    Forall2 znum row row' /\
    filter nonneg_b row' = map Z.of_nat (seq n k) /\
    k = length (filter (fun c => (c =? 0)%Z) row).
Proof.
  revert n; induction row as [|b t IH]; intros n Hf; simpl.
  - exists 0%nat, []. rewrite Nat.add_0_r. repeat split. constructor.
  - inversion Hf as [|? ? Hb Ht]; subst.
    destruct Hb as [->| ->]; simpl.
    + destruct (IH (S n) Ht) as (k & t' & He & HF & Hl & Hk).
      replace (Z.of_nat n + 1)%Z with (Z.of_nat (S n)) by lia. rewrite He. simpl.
      exists (S k), (Z.of_nat n :: t'). repeat split.
      * do 2 f_equal. lia.
      * constructor; [|exact HF]. split; lia.
      * simpl. replace (nonneg_b (Z.of_nat n)) with true
          by (symmetry; apply Z.leb_le; lia).
        rewrite Hl. reflexivity.
      * lia.
    + destruct (IH n Ht) as (k & t' & He & HF & Hl & Hk). rewrite He. simpl.
      exists k, ((-1)%Z :: t'). repeat split.
      * constructor; [|exact HF]. split; lia.
      * exact Hl.
      * exact Hk.
Qed.

Lemma eq_rows_spec d rows n :
  Forall (fun row => length row = d /\ Forall zflag row) rows ->
  exists k rows', eq_rows d rows (Z.of_nat n) = Ok (Z.of_nat (n + k), rows') /\
    Forall2 (Forall2 znum) rows rows' /\
    filter nonneg_b (concat rows') = map Z.of_nat (seq n k) /\
    k = length (filter (fun c => (c =? 0)%Z) (concat rows)).
Proof.
  revert n; induction rows as [|row t IH]; intros n Hf; simpl.
  - exists 0%nat, []. rewrite Nat.add_0_r. repeat split. constructor.
  - inversion Hf as [|? ? [Hl Hr] Ht]; subst.
    destruct (eq_row_spec row n Hr) as (k1 & r1 & He1 & HF1 & Hq1 & Hk1).
    destruct (IH (n + k1)%nat Ht) as (k2 & r2 & He2 & HF2 & Hq2 & Hk2).
    rewrite He1. simpl. rewrite He2. simpl.
    exists (k1 + k2)%nat, (r1 :: r2). repeat split.
    + do 2 f_equal. lia.
    + constructor; assumption.
    + simpl. rewrite filter_app, Hq1, Hq2, <- map_app, <- seq_app. reflexivity.
    + rewrite filter_app, app_length. lia.
Qed.

Lemma Rtrunc_flag c : c = 0 \/ c = -1 -> zflag (Rtrunc c).
Proof.
  intros [->| ->]; unfold zflag.
  - left. apply (Rtrunc_IZR 0).
  - right. apply (Rtrunc_IZR (-1)).
Qed.

Lemma flags_trunc d cons : flags01 d cons ->
  Forall (fun row => length row = d /\ Forall zflag row) (map (map (@ntrunc R Num_R)) cons).
Proof.
  unfold flags01. intros Hf. apply Forall_map. eapply Forall_impl; [|exact Hf].
  intros row [Hl Hr]. split; [rewrite map_length; exact Hl|].
  apply Forall_map. eapply Forall_impl; [|exact Hr]. apply Rtrunc_flag.
Qed.

Lemma count_free_trunc d cons : flags01 d cons ->
  length (filter (fun c => (c =? 0)%Z) (concat (map (map (@ntrunc R Num_R)) cons))) = count_free cons.
Proof.
  intros Hf. unfold count_free. change (@ntrunc R Num_R) with Rtrunc. rewrite <- concat_map.
  assert (Hc : Forall (fun c => c = 0 \/ c = -1) (concat cons)).
  { apply Forall_concat. eapply Forall_impl; [|exact Hf]. intros r [_ Hr]. exact Hr. }
  clear Hf. induction Hc as [|c l Hc _ IH]; simpl; [reflexivity|].
  destruct Hc as [->| ->].
  - rewrite (Rtrunc_IZR 0). destruct (Req_EM_T 0 0) as [_|n]; [|exfalso; apply n; reflexivity].
    simpl. rewrite IH. reflexivity.
  - rewrite (Rtrunc_IZR (-1)). destruct (Req_EM_T (-1) 0) as [e|_]; [lra|].
    simpl. exact IH.
Qed.

Lemma eqcounter_numbering d cons :
  flags01 d cons ->
  exists bc, eqcounter cons d = Ok (Z.of_nat (count_free cons), bc) /\
             numbering cons bc (count_free cons).
Proof.
  intros Hf. pose proof (flags_trunc d cons Hf) as Hz.
  destruct (eq_rows_spec d _ 0 Hz) as (k & bc & He & HF & Hl & Hk).
  rewrite (count_free_trunc d cons Hf) in Hk. subst k.
  exists bc. unfold eqcounter. rewrite <- Nat.add_0_l at 1. split; [exact He|].
  split.
  - apply Forall2_map_l in HF. eapply Forall2_mono; [|exact HF].
    intros row br Hr. apply Forall2_map_l in Hr. eapply Forall2_mono; [|exact Hr].
    intros c b [H1 H2]. split; intros ->.
    + apply H1. apply (Rtrunc_IZR (-1)).
    + apply H2. apply (Rtrunc_IZR 0).
  - exact Hl.
Qed.

(** eqcounter fails exactly when a row is too short *)
Lemma eq_row_total d row n : (d <= length row)%nat -> exists r, eq_row d row n = Ok r.
Proof.
  revert row n; induction d as [|d IH]; intros row n Hd; simpl; [eauto|].
  destruct row as [|b t]; simpl in Hd; [lia|].
  destruct (b =? 0)%Z.
  - destruct (IH t (n + 1)%Z) as [[a c] Hr]; [lia|]. rewrite Hr. simpl. eauto.
  - destruct (IH t n) as [[a c] Hr]; [lia|]. rewrite Hr. simpl. eauto.
Qed.

Lemma eq_row_short d row n : (length row < d)%nat -> eq_row d row n = Err IndexError.
Proof.
  revert row n; induction d as [|d IH]; intros row n Hd; simpl; [lia|].
  destruct row as [|b t]; simpl in Hd; [reflexivity|].
  destruct (b =? 0)%Z; rewrite IH by lia; reflexivity.
Qed.

(** consequences of a numbering *)
Lemma numbering_shape cons bc neq : numbering cons bc neq ->
  Forall2 (fun c b => length b = length c) cons bc.
Proof.
  intros [HF _]. induction HF as [|c b cons bc Hcb _ IH]; constructor; [|exact IH].
  symmetry. eapply Forall2_len; exact Hcb.
Qed.

Lemma numbering_flag d cons bc neq : flags01 d cons -> numbering cons bc neq ->
  Forall (Forall (fun b => b = (-1)%Z \/ (0 <= b < Z.of_nat neq)%Z)) bc.
Proof.
  intros Hf [HF Hl].
  assert (Hall : forall b, In b (concat bc) -> (0 <= b)%Z -> (0 <= b < Z.of_nat neq)%Z).
  { intros b Hb H0. assert (Hin : In b (filter (fun b => (0 <=? b)%Z) (concat bc))).
    { apply filter_In. split; [exact Hb|]. apply Z.leb_le. exact H0. }
    rewrite Hl in Hin. apply in_map_iff in Hin. destruct Hin as [k [<- Hk]].
    apply in_seq in Hk. lia. }
  clear Hl. induction HF as [|c b cons bc Hcb HF IH]; constructor.
  - assert (Hall' : forall z, In z b -> (0 <= z)%Z -> (0 <= z < Z.of_nat neq)%Z).
    { intros z Hz. apply Hall. simpl. apply in_or_app. left; exact Hz. }
    inversion Hf as [|? ? [_ Hc] _]; subst. clear -Hcb Hall' Hc.
    induction Hcb as [|c0 b0 c b H0 Hcb IH]; constructor.
    + inversion Hc as [|? ? Hc0 _]; subst. destruct H0 as [H1 H2].
      destruct Hc0 as [E|E]; [right|left; auto].
      apply Hall'; [left; reflexivity|]. auto.
    + apply IH; [|inversion Hc; assumption]. intros z Hz; apply Hall'; right; exact Hz.
  - apply IH; [inversion Hf; assumption|]. intros z Hz; apply Hall.
    simpl. apply in_or_app. right; exact Hz.
Qed.

(** ** dense assembly *)
Lemma shape_upd_row p q M i f :
  shape p q M -> (i < p)%nat -> (forall r, length r = q -> length (f r) = q) ->
  shape p q (upd M i f).
Proof.
  intros [HL HF] Hi Hf. split; [rewrite upd_length; exact HL|].
  apply Forall_forall. intros r Hr. apply In_nth with (d := []) in Hr.
  destruct Hr as [j [Hj Hr]]. rewrite upd_length in Hj.
  rewrite upd_nth in Hr by lia. rewrite Forall_forall in HF.
  destruct (j =? i)%nat; subst r.
  - apply Hf. apply HF. apply nth_In. lia.
  - apply HF. apply nth_In. exact Hj.
Qed.

Lemma np_add2_ok neq K (p q : Z) v :
  shape neq neq K -> (0 <= p < Z.of_nat neq)%Z -> (0 <= q < Z.of_nat neq)%Z ->
  exists K', np_add2 K p q v = Ok K' /\ shape neq neq K' /\
    forall i j, (i < neq)%nat -> (j < neq)%nat ->
      ent K' i j = ent K i j +
        (if (p =? Z.of_nat i)%Z && (q =? Z.of_nat j)%Z then v else 0).
Proof.
  intros HS Hp Hq. destruct HS as [HL HF] eqn:E; clear E.
  assert (Hrow : length (nth (Z.to_nat p) K []) = neq) by (apply (shape_rows neq); auto; lia).
  unfold np_add2. rewrite (np_get_nonneg K p []) by (rewrite HL; exact Hp). simpl.
  rewrite np_upd_nonneg by (rewrite Hrow; exact Hq). simpl.
  rewrite np_upd_nonneg by (rewrite HL; exact Hp).
  eexists. split; [reflexivity|]. split.
  - apply shape_upd_row; [exact HS|lia|]. intros _ _. rewrite upd_length. exact Hrow.
  - intros i j Hi Hj. unfold ent. rewrite upd_nth by lia.
    destruct (Nat.eqb_spec i (Z.to_nat p)) as [Ei|Ei].
    + replace (p =? Z.of_nat i)%Z with true by (symmetry; apply Z.eqb_eq; lia). cbn [andb].
      rewrite upd_nth by lia. subst i.
      destruct (Nat.eqb_spec j (Z.to_nat q)) as [Ej|Ej].
      * replace (q =? Z.of_nat j)%Z with true by (symmetry; apply Z.eqb_eq; lia).
        subst j. reflexivity.
      * replace (q =? Z.of_nat j)%Z with false by (symmetry; apply Z.eqb_neq; lia). lra.
    + replace (p =? Z.of_nat i)%Z with false by (symmetry; apply Z.eqb_neq; lia). cbn [andb]. lra.
Qed.

Lemma np_get2_ok p q M i j : shape p q M -> (i < p)%nat -> (j < q)%nat ->
  np_get2 M (Z.of_nat i) (Z.of_nat j) = Ok (ent M i j).
Proof.
  intros HS Hi Hj. unfold np_get2. destruct HS as [HL HF] eqn:E; clear E.
  rewrite (np_get_nth M i []) by lia. simpl.
  rewrite (np_get_nth (nth i M []) j 0); [reflexivity|].
  rewrite (shape_rows p q M i HS Hi). exact Hj.
Qed.

Lemma firstn_nth {A} (l : list A) n i d : (i < n)%nat -> nth i (firstn n l) d = nth i l d.
Proof.
  revert n i; induction l as [|a l IH]; intros [|n] [|i] Hi; simpl; try lia; auto.
  apply IH. lia.
Qed.

Section DenseElem.
  Variables (neq : nat) (l : local).
  Hypothesis Hok : local_ok neq l.
  Let n := l_n l.
  Let dme := firstn n (l_op l).

  Lemma dme_get r : (r < n)%nat -> np_get dme (Z.of_nat r) = Ok (l_eq l r).
  Proof.
    intros Hr. destruct Hok as (_ & _ & Hlen & _).
    rewrite (np_get_nth dme r (-1)%Z).
    - unfold dme, l_eq. rewrite firstn_nth by exact Hr. reflexivity.
    - unfold dme. rewrite firstn_length. fold n in Hlen. lia.
  Qed.

  (* contributions of row r, columns < m *)
  Definition rowsum (k : list (list R)) (r m : nat) (p q : nat) : R :=
    rsum m (fun c => if (l_eq l r =? Z.of_nat p)%Z && (l_eq l c =? Z.of_nat q)%Z
                     then ent k r c else 0).

  Definition upto (K K' : list (list R)) (f : nat -> nat -> R) : Prop :=
    shape neq neq K' /\
    forall p q, (p < neq)%nat -> (q < neq)%nat -> ent K' p q = ent K p q + f p q.

  Lemma dense_elem_ok K M :
    shape neq neq K -> shape neq neq M ->
    exists K' M', dense_elem dme (l_K l) (M2 (l_M l)) (K, M) = Ok (K', M') /\
      upto K K' (scatter l (l_K l)) /\ upto M M' (scatter l (l_M l)).
  Proof.
    intros SK SM. unfold dense_elem.
    change (length (l_K l)) with n.
    destruct Hok as (HK & HM & Hlen & Hrange). fold n in HK, HM, Hlen, Hrange.
    enough (Hgen : forall m, (m <= n)%nat -> exists K' M',
      foldM
      (fun KM row =>
         glob_row <- np_get dme (Z.of_nat row) ;;
         if (glob_row =? -1)%Z then Ok KM
         else
           foldM
             (fun KM col =>
                glob_col <- np_get dme (Z.of_nat col) ;;
                if (glob_col =? -1)%Z then Ok KM
                else
                  let (K, M) := (KM : list (list R) * list (list R)) in
                  kv <- np_get2 (l_K l) (Z.of_nat row) (Z.of_nat col) ;;
                  K' <- np_add2 K glob_row glob_col kv ;;
                  mv <- mass_get (M2 (l_M l)) (Z.of_nat row) (Z.of_nat col) ;;
                  M' <- np_add2 M glob_row glob_col mv ;;
                  Ok (K', M'))
             (seq 0 n) KM)
      (seq 0 m) (K, M) = Ok (K', M') /\
      upto K K' (fun p q => rsum m (fun r => rowsum (l_K l) r n p q)) /\
      upto M M' (fun p q => rsum m (fun r => rowsum (l_M l) r n p q))).
    { destruct (Hgen n (le_n n)) as (K' & M' & He & HuK & HuM).
      exists K', M'. split; [exact He|]. split; assumption. }
    induction m as [|m IH]; intros Hm.
    - exists K, M. split; [reflexivity|]. split; (split; [assumption|]); intros; simpl; lra.
    - destruct IH as (K1 & M1 & He1 & [SK1 HK1] & [SM1 HM1]); [lia|].
      rewrite foldM_seq_S, He1. cbn [bind]. rewrite dme_get by lia. cbn [bind].
      destruct (Z.eqb_spec (l_eq l m) (-1)) as [Er|Er].
      + exists K1, M1. split; [reflexivity|].
        split; (split; [assumption|]); intros p q Hp Hq; cbn [rsum].
        * rewrite HK1 by assumption.
          enough (rowsum (l_K l) m n p q = 0) by lra. apply rsum_zero. intros c _.
          replace (l_eq l m =? Z.of_nat p)%Z with false by (symmetry; apply Z.eqb_neq; lia). reflexivity.
        * rewrite HM1 by assumption.
          enough (rowsum (l_M l) m n p q = 0) by lra. apply rsum_zero. intros c _.
          replace (l_eq l m =? Z.of_nat p)%Z with false by (symmetry; apply Z.eqb_neq; lia). reflexivity.
      + enough (Hcol : forall w, (w <= n)%nat -> exists K' M',
          foldM
             (fun KM col =>
                glob_col <- np_get dme (Z.of_nat col) ;;
                if (glob_col =? -1)%Z then Ok KM
                else
                  let (K, M) := (KM : list (list R) * list (list R)) in
                  kv <- np_get2 (l_K l) (Z.of_nat m) (Z.of_nat col) ;;
                  K' <- np_add2 K (l_eq l m) glob_col kv ;;
                  mv <- mass_get (M2 (l_M l)) (Z.of_nat m) (Z.of_nat col) ;;
                  M' <- np_add2 M (l_eq l m) glob_col mv ;;
                  Ok (K', M'))
             (seq 0 w) (K1, M1) = Ok (K', M') /\
          upto K1 K' (rowsum (l_K l) m w) /\ upto M1 M' (rowsum (l_M l) m w)).
        { destruct (Hcol n (le_n n)) as (K2 & M2' & He2 & [SK2 HK2] & [SM2 HM2]).
          exists K2, M2'. split; [exact He2|].
          split; (split; [assumption|]); intros p q Hp Hq; cbn [rsum].
          - rewrite HK2, HK1 by assumption. lra.
          - rewrite HM2, HM1 by assumption. lra. }
        induction w as [|w IHw]; intros Hw.
        * exists K1, M1. split; [reflexivity|].
          split; (split; [assumption|]); intros; unfold rowsum; simpl; lra.
        * destruct IHw as (K2 & M2' & He2 & [SK2 HK2] & [SM2 HM2]); [lia|].
          rewrite foldM_seq_S, He2. cbn [bind]. rewrite dme_get by lia. cbn [bind].
          destruct (Z.eqb_spec (l_eq l w) (-1)) as [Ec|Ec].
          -- exists K2, M2'. split; [reflexivity|].
             split; (split; [assumption|]); intros p q Hp Hq; unfold rowsum; cbn [rsum].
             ++ rewrite HK2 by assumption. unfold rowsum.
                replace (l_eq l w =? Z.of_nat q)%Z with false by (symmetry; apply Z.eqb_neq; lia).
                rewrite andb_false_r. lra.
             ++ rewrite HM2 by assumption. unfold rowsum.
                replace (l_eq l w =? Z.of_nat q)%Z with false by (symmetry; apply Z.eqb_neq; lia).
                rewrite andb_false_r. lra.
          -- rewrite (np_get2_ok n n) by (auto; lia). cbn [bind].
             assert (Rr : (0 <= l_eq l m < Z.of_nat neq)%Z) by (specialize (Hrange m); lia).
             assert (Rc : (0 <= l_eq l w < Z.of_nat neq)%Z) by (specialize (Hrange w); lia).
             destruct (np_add2_ok neq K2 (l_eq l m) (l_eq l w) (ent (l_K l) m w) SK2 Rr Rc)
               as (K3 & HeK & SK3 & HK3).
             rewrite HeK. cbn [bind mass_get]. rewrite (np_get2_ok n n) by (auto; lia). cbn [bind].
             destruct (np_add2_ok neq M2' (l_eq l m) (l_eq l w) (ent (l_M l) m w) SM2 Rr Rc)
               as (M3 & HeM & SM3 & HM3).
             rewrite HeM. cbn [bind]. exists K3, M3. split; [reflexivity|].
             split; (split; [assumption|]); intros p q Hp Hq; unfold rowsum; cbn [rsum].
             ++ rewrite HK3, HK2 by assumption. unfold rowsum. lra.
             ++ rewrite HM3, HM2 by assumption. unfold rowsum. lra.
  Qed.
End DenseElem.

Lemma nth_error_skip {A} (l1 : list A) a l2 d : nth (length l1) (l1 ++ a :: l2) d = a.
Proof. rewrite app_nth2, Nat.sub_diag by lia. reflexivity. Qed.

(** [elem_rows] pairs element rows with rows of the operator *)
Lemma elem_rows_combine elements assem_op :
  length elements = length assem_op ->
  elem_rows elements assem_op = map (fun ea => (fst ea, Ok (snd ea))) (combine elements assem_op).
Proof.
  intros HL. unfold elem_rows. apply nth_ext with (d := ([], Err IndexError)) (d' := ([], Err IndexError)).
  - rewrite !map_length, seq_length, combine_length. lia.
  - rewrite map_length, seq_length. intros i Hi.
    rewrite nth_indep with (d' := (fun i => (nth i elements [], np_get assem_op (Z.of_nat i))) 0%nat)
      by (rewrite map_length, seq_length; exact Hi).
    rewrite (map_nth (fun i => (nth i elements [], np_get assem_op (Z.of_nat i))) (seq 0 (length elements)) 0%nat).
    rewrite seq_nth by exact Hi. cbn [plus].
    rewrite (np_get_nth assem_op i []) by lia.
    rewrite nth_indep with (d' := (fun ea => (fst ea, Ok (snd ea))) ([], []))
      by (rewrite map_length, combine_length; lia).
    rewrite (map_nth (fun ea : list Z * list Z => (fst ea, @Ok (list Z) (snd ea))) (combine elements assem_op) ([], [])).
    rewrite combine_nth by exact HL. reflexivity.
Qed.

Lemma combine_map_locals elements locs (P : list Z -> local -> Prop) :
  Forall2 P elements locs -> length elements = length (map l_op locs).
Proof. intros HF. rewrite map_length. eapply Forall2_len; exact HF. Qed.

Lemma shape_zeros p q : shape p q (zeros p q).
Proof. apply shape_mk_mat. Qed.

Lemma dense_assem_ok elements mats nodes neq assem_op uel locs :
  locals_of elements mats nodes assem_op uel locs ->
  Forall (local_ok neq) locs ->
  exists K M, dense_assem elements mats nodes neq assem_op uel = Ok (K, M) /\
    shape neq neq K /\ shape neq neq M /\
    (forall p q, (p < neq)%nat -> (q < neq)%nat ->
       ent K p q = lsum (fun l => scatter l (l_K l) p q) locs) /\
    (forall p q, (p < neq)%nat -> (q < neq)%nat ->
       ent M p q = lsum (fun l => scatter l (l_M l) p q) locs).
Proof.
  intros [HF ->] HO. unfold dense_assem.
  rewrite elem_rows_combine by (eapply combine_map_locals; exact HF).
  enough (Hgen : forall K0 M0, shape neq neq K0 -> shape neq neq M0 ->
    exists K M, foldM
      (fun KM er =>
         let (elem, arow) := (er : list Z * res (list Z)) in
         '(kloc, mloc) <- retriever elem mats nodes uel ;;
         arow <- arow ;;
         dense_elem (firstn (length kloc) arow) kloc mloc KM)
      (map (fun ea => (fst ea, Ok (snd ea))) (combine elements (map l_op locs))) (K0, M0) = Ok (K, M) /\
    upto neq K0 K (fun p q => lsum (fun l => scatter l (l_K l) p q) locs) /\
    upto neq M0 M (fun p q => lsum (fun l => scatter l (l_M l) p q) locs)).
  { destruct (Hgen _ _ (shape_zeros neq neq) (shape_zeros neq neq)) as (K & M & He & [SK HK] & [SM HM]).
    exists K, M. repeat split; auto.
    - apply SK. - apply SK. - apply SM. - apply SM.
    - intros p q Hp Hq. rewrite HK, ent_zeros by assumption. lra.
    - intros p q Hp Hq. rewrite HM, ent_zeros by assumption. lra. }
  induction HF as [|elem l elements locs Hr HF IH]; intros K0 M0 SK SM.
  - exists K0, M0. split; [reflexivity|]. split; (split; [assumption|]); intros; simpl; lra.
  - inversion HO as [|? ? Hl HO']; subst. cbn [map combine foldM fst snd].
    rewrite Hr. cbn [bind].
    destruct (dense_elem_ok neq l Hl K0 M0 SK SM) as (K1 & M1 & He & [SK1 HK1] & [SM1 HM1]).
    unfold l_n in He. rewrite He. cbn [bind].
    destruct (IH HO' K1 M1 SK1 SM1) as (K2 & M2' & He2 & [SK2 HK2] & [SM2 HM2]).
    exists K2, M2'. split; [exact He2|].
    split; (split; [assumption|]); intros p q Hp Hq; cbn [lsum fold_right].
    + rewrite HK2, HK1 by assumption. unfold lsum. lra.
    + rewrite HM2, HM1 by assumption. unfold lsum. lra.
Qed.
