(** * Lemmas: assembly in any arithmetic *)
From Coq Require Import Reals List ZArith Arith Bool Lia Lra.
From Verif Require Import Num LinAlg Fem Uel Assem Spec SpecAny LinR Base AssemProofs.
Import ListNotations.

Section Any.
  Context {T : Type} {NT : Num T}.

  Lemma trow_length p q (M : list (list T)) i : tshape p q M -> (i < p)%nat -> length (nth i M []) = q.
  Proof. intros [L F] Hi. rewrite Forall_forall in F. apply F, nth_In. lia. Qed.
  Lemma tget2 p q (M : list (list T)) i j : tshape p q M -> (i < p)%nat -> (j < q)%nat -> np_get2 M (Z.of_nat i) (Z.of_nat j) = Ok (tent M i j).
  Proof.
    intros S Hi Hj. unfold np_get2. rewrite (np_get_nth M i []) by (rewrite (proj1 S); exact Hi). cbn [bind].
    rewrite (np_get_nth (nth i M []) j n0); [reflexivity|]. rewrite (trow_length p q M i S Hi). exact Hj.
  Qed.
  Lemma tshape_upd p q (M : list (list T)) i f : tshape p q M -> (forall r, length r = q -> length (f r) = q) -> tshape p q (upd M i f).
  Proof.
    intros [HL HF] Hf. split; [rewrite upd_length; exact HL|]. clear HL. revert i. induction HF as [|r l Hr HF IH]; intros [|i]; cbn; constructor; auto.
  Qed.
  Lemma tadd2 neq (K : list (list T)) (p q : Z) v : tshape neq neq K -> (0 <= p < Z.of_nat neq)%Z -> (0 <= q < Z.of_nat neq)%Z ->
    exists K', np_add2 K p q v = Ok K' /\ tshape neq neq K' /\ forall i j, (i < neq)%nat -> (j < neq)%nat ->
      tent K' i j = if (p =? Z.of_nat i)%Z && (q =? Z.of_nat j)%Z then nadd (tent K i j) v else tent K i j.
  Proof.
    intros HS Hp Hq. pose proof (proj1 HS) as HL.
    assert (Hrow : length (nth (Z.to_nat p) K []) = neq) by (apply (trow_length neq neq); [exact HS|lia]).
    unfold np_add2. rewrite (np_get_nonneg K p []) by (rewrite HL; exact Hp). cbn [bind].
    rewrite np_upd_nonneg by (rewrite Hrow; exact Hq). cbn [bind].
    rewrite np_upd_nonneg by (rewrite HL; exact Hp).
    eexists. split; [reflexivity|]. split.
    - apply tshape_upd; [exact HS|]. intros _ _. rewrite upd_length. exact Hrow.
    - intros i j Hi Hj. unfold tent. rewrite upd_nth by lia.
      destruct (Nat.eqb_spec i (Z.to_nat p)) as [Ei|Ei].
      + replace (p =? Z.of_nat i)%Z with true by (symmetry; apply Z.eqb_eq; lia). cbn [andb].
        rewrite upd_nth by lia. subst i.
        destruct (Nat.eqb_spec j (Z.to_nat q)) as [Ej|Ej].
        * replace (q =? Z.of_nat j)%Z with true by (symmetry; apply Z.eqb_eq; lia). subst j. reflexivity.
        * replace (q =? Z.of_nat j)%Z with false by (symmetry; apply Z.eqb_neq; lia). reflexivity.
      + replace (p =? Z.of_nat i)%Z with false by (symmetry; apply Z.eqb_neq; lia). reflexivity.
  Qed.

  Section Elem.
    Variables (neq : nat) (l : tlocal T).
    Hypothesis Hok : t_ok neq l.
    Let n := t_n l.
    Let dme := firstn n (t_op l).
    Lemma tdme r : (r < n)%nat -> np_get dme (Z.of_nat r) = Ok (t_eq l r).
    Proof.
      intros Hr. destruct Hok as (_ & _ & Hlen & _). rewrite (np_get_nth dme r (-1)%Z).
      - unfold dme, t_eq. rewrite firstn_nth by exact Hr. reflexivity.
      - unfold dme. rewrite firstn_length. fold n in Hlen. lia.
    Qed.
    Definition picked (sel : list (list T)) (p q : nat) (rcs : list (nat * nat)) : list T :=
      map (fun rc => tent sel (fst rc) (snd rc)) (filter (fun rc => (t_eq l (fst rc) =? Z.of_nat p)%Z && (t_eq l (snd rc) =? Z.of_nat q)%Z) rcs).
    Lemma picked_app sel p q a b : picked sel p q (a ++ b) = picked sel p q a ++ picked sel p q b.
    Proof. unfold picked. rewrite filter_app, map_app. reflexivity. Qed.
    Definition added (K K' : list (list T)) (f : nat -> nat -> list T) : Prop :=
      tshape neq neq K' /\ forall p q, (p < neq)%nat -> (q < neq)%nat -> tent K' p q = fold_left nadd (f p q) (tent K p q).

    Lemma trow_loop r cs : (r < n)%nat -> t_eq l r <> (-1)%Z -> Forall (fun c => (c < n)%nat) cs -> forall K M, tshape neq neq K -> tshape neq neq M ->
      exists K' M', foldM (fun KM col =>
                glob_col <- np_get dme (Z.of_nat col) ;;
                if (glob_col =? -1)%Z then Ok KM
                else
                  let (K, M) := (KM : mat * mat) in
                  kv <- np_get2 (t_K l) (Z.of_nat r) (Z.of_nat col) ;;
                  K' <- np_add2 K (t_eq l r) glob_col kv ;;
                  mv <- mass_get (M2 (t_M l)) (Z.of_nat r) (Z.of_nat col) ;;
                  M' <- np_add2 M (t_eq l r) glob_col mv ;;
                  Ok (K', M')) cs (K, M) = Ok (K', M') /\
        added K K' (fun p q => picked (t_K l) p q (map (pair r) cs)) /\ added M M' (fun p q => picked (t_M l) p q (map (pair r) cs)).
    Proof.
      intros Hr Hne HF. destruct Hok as (HK & HM & Hlen & Hrange). fold n in HK, HM, Hrange. induction HF as [|c cs Hc HF IH]; intros K M SK SM.
      - exists K, M. split; [reflexivity|]. split; (split; [assumption|]); reflexivity.
      - cbn [foldM]. rewrite (tdme c Hc). cbn [bind]. destruct (Z.eqb_spec (t_eq l c) (-1)) as [E|E].
        + cbn [bind]. destruct (IH K M SK SM) as (K' & M' & He & [S1 H1] & [S2 H2]). exists K', M'. split; [exact He|].
          assert (P : forall sel p q, picked sel p q (map (pair r) (c :: cs)) = picked sel p q (map (pair r) cs)).
          { intros. unfold picked. cbn [map filter fst snd]. rewrite E. replace (-1 =? Z.of_nat q)%Z with false by (symmetry; apply Z.eqb_neq; lia). rewrite andb_false_r. reflexivity. }
          split; (split; [assumption|]); intros; rewrite P; auto.
        + rewrite (tget2 n n _ r c HK Hr Hc). cbn [bind]. pose proof (Hrange r Hr). pose proof (Hrange c Hc).
          destruct (tadd2 neq K (t_eq l r) (t_eq l c) (tent (t_K l) r c) SK ltac:(lia) ltac:(lia)) as (K1 & E1 & SK1 & H1). rewrite E1. cbn [bind mass_get].
          rewrite (tget2 n n _ r c HM Hr Hc). cbn [bind].
          destruct (tadd2 neq M (t_eq l r) (t_eq l c) (tent (t_M l) r c) SM ltac:(lia) ltac:(lia)) as (M1 & E2 & SM1 & H2). rewrite E2. cbn [bind].
          destruct (IH K1 M1 SK1 SM1) as (K' & M' & He & [S1 H1'] & [S2 H2']). exists K', M'. split; [exact He|].
          split; (split; [assumption|]); intros p q Hp Hq; unfold picked in *; cbn [map filter fst snd].
          * rewrite H1', H1 by assumption. destruct ((t_eq l r =? Z.of_nat p)%Z && (t_eq l c =? Z.of_nat q)%Z); reflexivity.
          * rewrite H2', H2 by assumption. destruct ((t_eq l r =? Z.of_nat p)%Z && (t_eq l c =? Z.of_nat q)%Z); reflexivity.
    Qed.
    Lemma telem_loop rs : Forall (fun r => (r < n)%nat) rs -> forall K M, tshape neq neq K -> tshape neq neq M ->
      exists K' M', foldM (fun KM row =>
         glob_row <- np_get dme (Z.of_nat row) ;;
         if (glob_row =? -1)%Z then Ok KM
         else
           foldM
             (fun KM col =>
                glob_col <- np_get dme (Z.of_nat col) ;;
                if (glob_col =? -1)%Z then Ok KM
                else
                  let (K, M) := (KM : mat * mat) in
                  kv <- np_get2 (t_K l) (Z.of_nat row) (Z.of_nat col) ;;
                  K' <- np_add2 K glob_row glob_col kv ;;
                  mv <- mass_get (M2 (t_M l)) (Z.of_nat row) (Z.of_nat col) ;;
                  M' <- np_add2 M glob_row glob_col mv ;;
                  Ok (K', M'))
             (seq 0 n) KM) rs (K, M) = Ok (K', M') /\
        added K K' (fun p q => picked (t_K l) p q (list_prod rs (seq 0 n))) /\ added M M' (fun p q => picked (t_M l) p q (list_prod rs (seq 0 n))).
    Proof.
      intros HF. induction HF as [|r rs Hr HF IH]; intros K M SK SM.
      - exists K, M. split; [reflexivity|]. split; (split; [assumption|]); reflexivity.
      - cbn [foldM]. rewrite (tdme r Hr). cbn [bind]. destruct (Z.eqb_spec (t_eq l r) (-1)) as [E|E].
        + cbn [bind]. destruct (IH K M SK SM) as (K' & M' & He & [S1 H1] & [S2 H2]). exists K', M'. split; [exact He|].
          assert (P : forall sel p q, picked sel p q (list_prod (r :: rs) (seq 0 n)) = picked sel p q (list_prod rs (seq 0 n))).
          { intros. cbn [list_prod]. rewrite picked_app. replace (picked sel p q (map (fun y => (r, y)) (seq 0 n))) with (@nil T); [reflexivity|].
            unfold picked. clear - E. induction (seq 0 n) as [|c cs IH]; [reflexivity|]. cbn [map filter fst snd]. rewrite E. replace (-1 =? Z.of_nat p)%Z with false by (symmetry; apply Z.eqb_neq; lia). cbn [andb]. exact IH. }
          split; (split; [assumption|]); intros; rewrite P; auto.
        + destruct (trow_loop r (seq 0 n) Hr E) with (K := K) (M := M) as (K1 & M1 & E1 & [SK1 H1] & [SM1 H2]); [apply Forall_forall; intros c Hc; apply in_seq in Hc; lia|assumption|assumption|].
          rewrite E1. cbn [bind]. destruct (IH K1 M1 SK1 SM1) as (K' & M' & He & [S1 H1'] & [S2 H2']). exists K', M'. split; [exact He|].
          split; (split; [assumption|]); intros p q Hp Hq; cbn [list_prod]; rewrite picked_app, fold_left_app.
          * rewrite H1', H1 by assumption. reflexivity.
          * rewrite H2', H2 by assumption. reflexivity.
    Qed.
    Lemma tdense_elem K M : tshape neq neq K -> tshape neq neq M ->
      exists K' M', dense_elem (firstn (length (t_K l)) (t_op l)) (t_K l) (M2 (t_M l)) (K, M) = Ok (K', M') /\ added K K' (fun p q => terms t_K p q l) /\ added M M' (fun p q => terms t_M p q l).
    Proof. intros SK SM. apply telem_loop; [apply Forall_forall; intros c Hc; apply in_seq in Hc; destruct Hc as [_ Hc]; exact Hc|assumption|assumption]. Qed.
  End Elem.

  Lemma tent_mk n m f i j : (i < n)%nat -> (j < m)%nat -> tent (mk_mat n m f) i j = f i j.
  Proof.
    intros Hi Hj. unfold tent, mk_mat. rewrite (nth_indep _ [] ((fun i => mk_vec m (f i)) 0%nat)) by (rewrite map_length, seq_length; exact Hi).
    rewrite (map_nth (fun i => mk_vec m (f i))), seq_nth by exact Hi. unfold mk_vec. rewrite (nth_indep _ n0 (f (0 + i)%nat 0%nat)) by (rewrite map_length, seq_length; exact Hj). rewrite map_nth, seq_nth by exact Hj. reflexivity.
  Qed.
  Lemma tshape_mk n m (f : nat -> nat -> T) : tshape n m (mk_mat n m f).
  Proof. unfold mk_mat, tshape. rewrite map_length, seq_length. split; [reflexivity|]. apply Forall_forall. intros r Hr. apply in_map_iff in Hr as (i & <- & _). unfold mk_vec. rewrite map_length, seq_length. reflexivity. Qed.
  Lemma tzeros p q : tshape p q (zeros p q).
  Proof. apply tshape_mk. Qed.
  Lemma tent_zeros p q i j : (i < p)%nat -> (j < q)%nat -> tent (zeros p q) i j = n0.
  Proof. intros Hi Hj. unfold zeros. rewrite tent_mk by assumption. reflexivity. Qed.
  Lemma any_dense elements mats nodes neq assem_op uel locs : t_mesh elements mats nodes assem_op uel locs -> Forall (t_ok neq) locs ->
    exists K M, dense_assem elements mats nodes neq assem_op uel = Ok (K, M) /\ tshape neq neq K /\ tshape neq neq M /\
      forall p q, (p < neq)%nat -> (q < neq)%nat -> tent K p q = running_sum (all_terms t_K p q locs) /\ tent M p q = running_sum (all_terms t_M p q locs).
  Proof.
    intros [HF ->] HO. unfold dense_assem. rewrite elem_rows_combine by (rewrite map_length; eapply Forall2_len; exact HF).
    enough (Hgen : forall K0 M0, tshape neq neq K0 -> tshape neq neq M0 ->
      exists K M, foldM
        (fun KM er =>
           let (elem, arow) := (er : list Z * res (list Z)) in
           '(kloc, mloc) <- retriever elem mats nodes uel ;;
           arow <- arow ;;
           dense_elem (firstn (length kloc) arow) kloc mloc KM)
        (map (fun ea => (fst ea, Ok (snd ea))) (combine elements (map t_op locs))) (K0, M0) = Ok (K, M) /\
      added neq K0 K (fun p q => all_terms t_K p q locs) /\ added neq M0 M (fun p q => all_terms t_M p q locs)).
    { destruct (Hgen _ _ (tzeros neq neq) (tzeros neq neq)) as (K & M & He & [SK HK] & [SM HM]).
      exists K, M. split; [exact He|]. split; [exact SK|]. split; [exact SM|]. intros p q Hp Hq. rewrite HK, HM, tent_zeros by assumption. split; reflexivity. }
    induction HF as [|elem l elements locs Hr HF IH]; intros K0 M0 SK SM.
    - exists K0, M0. split; [reflexivity|]. split; (split; [assumption|]); intros; reflexivity.
    - inversion HO as [|? ? Hl HO']; subst. cbn [map combine foldM fst snd]. rewrite Hr. cbn [bind].
      destruct (tdense_elem neq l Hl K0 M0 SK SM) as (K1 & M1 & He & [SK1 HK1] & [SM1 HM1]). rewrite He. cbn [bind].
      destruct (IH HO' K1 M1 SK1 SM1) as (K2 & M2' & He2 & [SK2 HK2] & [SM2 HM2]). exists K2, M2'. split; [exact He2|].
      split; (split; [assumption|]); intros p q Hp Hq; unfold all_terms in *; cbn [flat_map]; rewrite fold_left_app.
      + rewrite HK2, HK1 by assumption. reflexivity.
      + rewrite HM2, HM1 by assumption. reflexivity.
  Qed.

  (** coordinate lists *)
  Definition used (l : tlocal T) (rc : nat * nat) : bool := negb (t_eq l (fst rc) =? -1)%Z && negb (t_eq l (snd rc) =? -1)%Z.
  Definition quad_of (l : tlocal T) (rc : nat * nat) : Z * Z * T * T := (t_eq l (fst rc), t_eq l (snd rc), tent (t_K l) (fst rc) (snd rc), tent (t_M l) (fst rc) (snd rc)).
  Definition quads (l : tlocal T) : list (Z * Z * T * T) := map (quad_of l) (filter (used l) (list_prod (seq 0 (t_n l)) (seq 0 (t_n l)))).
  Lemma tsparse_elem neq l acc : t_ok neq l -> sparse_elem (firstn (length (t_K l)) (t_op l)) (t_K l) (M2 (t_M l)) acc = Ok (acc ++ quads l).
  Proof.
    intros Hok. pose proof (tdme neq l Hok) as D. unfold sparse_elem, quads. fold (t_n l). set (n := t_n l) in *.
    pose proof Hok as (HK & HM & Hlen & _). fold n in HK, HM.
    assert (Row : forall r, (r < n)%nat -> t_eq l r <> (-1)%Z -> forall cs, Forall (fun c => (c < n)%nat) cs -> forall acc,
      foldM (fun acc col =>
                glob_col <- np_get (firstn n (t_op l)) (Z.of_nat col) ;;
                if (glob_col =? -1)%Z then Ok acc
                else
                  kv <- np_get2 (t_K l) (Z.of_nat r) (Z.of_nat col) ;;
                  mv <- mass_get (M2 (t_M l)) (Z.of_nat r) (Z.of_nat col) ;;
                  Ok (acc ++ [(t_eq l r, glob_col, kv, mv)])%list) cs acc = Ok (acc ++ map (quad_of l) (filter (used l) (map (pair r) cs)))).
    { intros r Hr Hne cs HF. induction HF as [|c cs Hc HF IH]; intros a; [cbn; rewrite app_nil_r; reflexivity|].
      cbn [foldM map filter]. rewrite (D c Hc). cbn [bind]. unfold used at 1. cbn [fst snd].
      replace (t_eq l r =? -1)%Z with false by (symmetry; apply Z.eqb_neq; exact Hne). cbn [negb andb].
      destruct (t_eq l c =? -1)%Z; cbn [negb bind].
      - apply IH.
      - rewrite (tget2 n n _ r c HK Hr Hc). cbn [bind mass_get]. rewrite (tget2 n n _ r c HM Hr Hc). cbn [bind]. rewrite IH. cbn [map]. unfold quad_of at 2. cbn [fst snd]. rewrite <- app_assoc. reflexivity. }
    assert (Gen : forall rs, Forall (fun r => (r < n)%nat) rs -> forall acc,
      foldM (fun acc row =>
         glob_row <- np_get (firstn n (t_op l)) (Z.of_nat row) ;;
         if (glob_row =? -1)%Z then Ok acc
         else
           foldM
             (fun acc col =>
                glob_col <- np_get (firstn n (t_op l)) (Z.of_nat col) ;;
                if (glob_col =? -1)%Z then Ok acc
                else
                  kv <- np_get2 (t_K l) (Z.of_nat row) (Z.of_nat col) ;;
                  mv <- mass_get (M2 (t_M l)) (Z.of_nat row) (Z.of_nat col) ;;
                  Ok (acc ++ [(glob_row, glob_col, kv, mv)])%list)
             (seq 0 n) acc) rs acc = Ok (acc ++ map (quad_of l) (filter (used l) (list_prod rs (seq 0 n))))).
    { intros rs HF. induction HF as [|r rs Hr HF IH]; intros a; [cbn; rewrite app_nil_r; reflexivity|].
      cbn [foldM list_prod]. rewrite (D r Hr). cbn [bind]. rewrite filter_app, map_app, app_assoc.
      destruct (Z.eqb_spec (t_eq l r) (-1)) as [E|E]; cbn [bind].
      - replace (filter (used l) (map (fun y => (r, y)) (seq 0 n))) with (@nil (nat * nat)); [cbn [map]; rewrite app_nil_r; apply IH|].
        clear - E. induction (seq 0 n) as [|c cs IH]; [reflexivity|]. cbn [map filter]. unfold used at 1. cbn [fst snd]. rewrite E. cbn [Z.eqb Pos.eqb negb andb]. exact IH.
      - rewrite Row; [|exact Hr|exact E|apply Forall_forall; intros c Hc; apply in_seq in Hc; lia]. cbn [bind]. apply IH. }
    apply Gen. apply Forall_forall; intros c Hc; apply in_seq in Hc; lia.
  Qed.
  Lemma filter_filter {A} (f g : A -> bool) l : filter f (filter g l) = filter (fun x => g x && f x) l.
  Proof. induction l as [|a l IH]; [reflexivity|]. cbn [filter]. destruct (g a); cbn [filter andb]; [destruct (f a); [f_equal|]|]; exact IH. Qed.
  Lemma filter_map_comm {A B} (f : A -> B) (p : B -> bool) l : filter p (map f l) = map f (filter (fun a => p (f a)) l).
  Proof. induction l as [|a l IH]; [reflexivity|]. cbn [map filter]. destruct (p (f a)); cbn [map]; rewrite IH; reflexivity. Qed.
  Lemma quads_terms l p q :
    map snd (filter (fun e => let '(r, c, _) := e in (r =? Z.of_nat p)%Z && (c =? Z.of_nat q)%Z) (map (fun e => let '(r, c, k, _) := e in (r, c, k)) (quads l))) = terms t_K p q l /\
    map snd (filter (fun e => let '(r, c, _) := e in (r =? Z.of_nat p)%Z && (c =? Z.of_nat q)%Z) (map (fun e => let '(r, c, _, m) := e in (r, c, m)) (quads l))) = terms t_M p q l.
  Proof.
    unfold quads, terms.
    assert (F : forall l0, filter (fun rc => used l rc && ((t_eq l (fst rc) =? Z.of_nat p)%Z && (t_eq l (snd rc) =? Z.of_nat q)%Z)) l0 = filter (fun rc => (t_eq l (fst rc) =? Z.of_nat p)%Z && (t_eq l (snd rc) =? Z.of_nat q)%Z) l0).
    { intros. apply filter_ext. intros [r c]. unfold used. cbn [fst snd].
      destruct (Z.eqb_spec (t_eq l r) (Z.of_nat p)) as [Ep|]; [|rewrite !andb_false_r; reflexivity]. destruct (Z.eqb_spec (t_eq l c) (Z.of_nat q)) as [Eq|]; [|rewrite !andb_false_r; reflexivity].
      rewrite Ep, Eq. replace (Z.of_nat p =? -1)%Z with false by (symmetry; apply Z.eqb_neq; lia). replace (Z.of_nat q =? -1)%Z with false by (symmetry; apply Z.eqb_neq; lia). reflexivity. }
    split; rewrite map_map, filter_map_comm, filter_filter, map_map; cbn [quad_of]; rewrite F; reflexivity.
  Qed.
  Lemma t_quads_in neq l e : t_ok neq l -> In e (quads l) -> let '(r, c, _, _) := e in (0 <= r < Z.of_nat neq)%Z /\ (0 <= c < Z.of_nat neq)%Z.
  Proof.
    intros (_ & _ & _ & Hr) He. unfold quads in He. apply in_map_iff in He as ([r c] & <- & Hf). apply filter_In in Hf as [Hp Hu]. apply in_prod_iff in Hp as [Hp Hq]. apply in_seq in Hp, Hq.
    unfold used in Hu. cbn [fst snd] in Hu. apply andb_true_iff in Hu as [U1 U2]. apply negb_true_iff, Z.eqb_neq in U1, U2. cbn [quad_of fst snd]. pose proof (Hr r ltac:(lia)). pose proof (Hr c ltac:(lia)). lia.
  Qed.
  Lemma tcoo neq (ents : list (Z * Z * T)) : (forall e, In e ents -> let '(r, c, _) := e in (0 <= r < Z.of_nat neq)%Z /\ (0 <= c < Z.of_nat neq)%Z) ->
    coo_tocsr neq ents = Ok (mk_mat neq neq (fun i j => running_sum (map snd (filter (fun e => let '(r, c, _) := e in (r =? Z.of_nat i)%Z && (c =? Z.of_nat j)%Z) ents)))).
  Proof.
    intros Hr. unfold coo_tocsr. rewrite (proj2 (forallb_forall _ ents)); [reflexivity|].
    intros [[r c] v] He. destruct (Hr _ He) as [H1 H2]. repeat (apply andb_true_iff; split); try (apply Z.leb_le; lia); apply Z.ltb_lt; lia.
  Qed.
  Lemma any_sparse elements mats nodes neq assem_op uel locs : t_mesh elements mats nodes assem_op uel locs -> Forall (t_ok neq) locs ->
    exists K M, sparse_assem elements mats nodes neq assem_op uel = Ok (K, M) /\ tshape neq neq K /\ tshape neq neq M /\
      forall p q, (p < neq)%nat -> (q < neq)%nat -> tent K p q = running_sum (all_terms t_K p q locs) /\ tent M p q = running_sum (all_terms t_M p q locs).
  Proof.
    intros [HF ->] HO. unfold sparse_assem. rewrite elem_rows_combine by (rewrite map_length; eapply Forall2_len; exact HF).
    assert (Hgen : forall acc, foldM
        (fun acc er =>
           let (elem, arow) := (er : list Z * res (list Z)) in
           '(kloc, mloc) <- retriever elem mats nodes uel ;;
           arow <- arow ;;
           sparse_elem (firstn (length kloc) arow) kloc mloc acc)
        (map (fun ea => (fst ea, Ok (snd ea))) (combine elements (map t_op locs))) acc = Ok (acc ++ flat_map quads locs)).
    { induction HF as [|elem l elements locs Hr HF IH]; intros acc; [cbn; rewrite app_nil_r; reflexivity|].
      inversion HO as [|? ? Hl HO']; subst. cbn [map combine foldM fst snd flat_map]. rewrite Hr. cbn [bind]. rewrite (tsparse_elem neq l acc Hl). cbn [bind]. rewrite IH by exact HO'. rewrite app_assoc. reflexivity. }
    rewrite Hgen. cbn [bind app].
    assert (Q : forall e, In e (flat_map quads locs) -> let '(r, c, _, _) := e in (0 <= r < Z.of_nat neq)%Z /\ (0 <= c < Z.of_nat neq)%Z).
    { intros e He. apply in_flat_map in He as (l & Hl & He). rewrite Forall_forall in HO. exact (t_quads_in neq l e (HO l Hl) He). }
    rewrite tcoo by (intros e He; apply in_map_iff in He as ([[[r c] k] m] & <- & He); exact (Q _ He)). cbn [bind].
    rewrite tcoo by (intros e He; apply in_map_iff in He as ([[[r c] k] m] & <- & He); exact (Q _ He)). cbn [bind].
    eexists _, _. split; [reflexivity|]. split; [apply tshape_mk|]. split; [apply tshape_mk|].
    intros p q Hp Hq. rewrite !tent_mk by assumption. unfold all_terms. clear.
    split; f_equal; induction locs as [|l locs IH]; try reflexivity; cbn [flat_map]; rewrite map_app, filter_app, map_app, IH; f_equal; apply quads_terms.
  Qed.
  Lemma tshape_ext n m (A B : list (list T)) : tshape n m A -> tshape n m B -> (forall i j, (i < n)%nat -> (j < m)%nat -> tent A i j = tent B i j) -> A = B.
  Proof.
    intros SA SB H. apply nth_ext with (d := []) (d' := []); [rewrite (proj1 SA), (proj1 SB); reflexivity|].
    intros i Hi. rewrite (proj1 SA) in Hi. apply nth_ext with (d := n0) (d' := n0); [rewrite (trow_length n m A), (trow_length n m B) by assumption; reflexivity|].
    intros j Hj. rewrite (trow_length n m A i SA Hi) in Hj. exact (H i j Hi Hj).
  Qed.
  Lemma any_storage elements mats nodes neq assem_op uel locs : t_mesh elements mats nodes assem_op uel locs -> Forall (t_ok neq) locs ->
    exists K M, dense_assem elements mats nodes neq assem_op uel = Ok (K, M) /\ sparse_assem elements mats nodes neq assem_op uel = Ok (K, M).
  Proof.
    intros HM HO. destruct (any_dense _ _ _ _ _ _ _ HM HO) as (K & M & E & SK & SM & H). destruct (any_sparse _ _ _ _ _ _ _ HM HO) as (K' & M' & E' & SK' & SM' & H').
    exists K, M. split; [exact E|]. rewrite E'. do 2 f_equal; eapply tshape_ext; try eassumption; intros i j Hi Hj; [rewrite (proj1 (H i j Hi Hj))|rewrite (proj2 (H i j Hi Hj))]; apply (H' i j Hi Hj).
  Qed.

  (** ** symmetry *)
  Lemma filter_one {A} (f : A -> bool) (l : list A) a : NoDup l -> In a l -> (forall b, In b l -> f b = true -> b = a) -> f a = true -> filter f l = [a].
  Proof.
    intros ND Hin U Fa. induction ND as [|b l Hb ND IH]; [destruct Hin|]. cbn [filter]. destruct (f b) eqn:Eb.
    - assert (b = a) by (apply U; [left; reflexivity|exact Eb]). subst b. f_equal.
      rewrite <- (filter_ext_in (fun _ => false)); [clear; induction l; auto|]. intros c Hc. destruct (f c) eqn:Ec; [|reflexivity]. exfalso. apply Hb. rewrite <- (U c); [exact Hc|right; exact Hc|exact Ec].
    - destruct Hin as [->|Hin]; [congruence|]. apply IH; [exact Hin|]. intros c Hc. apply U. right. exact Hc.
  Qed.
  Lemma NoDup_list_prod {A B} (l : list A) (m : list B) : NoDup l -> NoDup m -> NoDup (list_prod l m).
  Proof.
    intros Nl Nm. induction Nl as [|a l Ha Nl IH]; [constructor|]. cbn [list_prod].
    assert (N1 : NoDup (map (fun y => (a, y)) m)) by (apply FinFun.Injective_map_NoDup; [intros x y E; congruence|exact Nm]).
    assert (D : forall x, In x (map (fun y => (a, y)) m) -> ~ In x (list_prod l m)).
    { intros x Hx Hy. apply in_map_iff in Hx as (y & <- & _). apply in_prod_iff in Hy as [Hy _]. contradiction. }
    clear - N1 D IH. induction (map (fun y => (a, y)) m) as [|x xs IHx]; [exact IH|]. cbn. inversion N1; subst. constructor; [|apply IHx; [assumption|intros; apply D; right; assumption]].
    intros Hin. apply in_app_iff in Hin as [Hin|Hin]; [contradiction|]. apply (D x); [left; reflexivity|exact Hin].
  Qed.
  Lemma terms_sym sel l p q : eqs_once l -> tsymmetric (t_n l) (sel l) -> terms sel p q l = terms sel q p l.
  Proof.
    intros HU HS. unfold terms. set (P := list_prod _ _).
    destruct (filter (fun rc => (t_eq l (fst rc) =? Z.of_nat p)%Z && (t_eq l (snd rc) =? Z.of_nat q)%Z) P) as [|[r c] t] eqn:E.
    - replace (filter (fun rc => (t_eq l (fst rc) =? Z.of_nat q)%Z && (t_eq l (snd rc) =? Z.of_nat p)%Z) P) with (@nil (nat * nat)); [reflexivity|].
      symmetry. destruct (filter (fun rc => (t_eq l (fst rc) =? Z.of_nat q)%Z && (t_eq l (snd rc) =? Z.of_nat p)%Z) P) as [|[r c] t] eqn:E2; [reflexivity|].
      assert (In (r, c) ((r, c) :: t)) as Hin by (left; reflexivity). rewrite <- E2 in Hin. apply filter_In in Hin as [H1 H2]. cbn [fst snd] in H2. apply andb_true_iff in H2.
      assert (In (c, r) []) as []. rewrite <- E. apply filter_In. split; [apply in_prod_iff in H1; apply in_prod_iff; tauto|]. cbn [fst snd]. apply andb_true_iff. tauto.
    - assert (In (r, c) ((r, c) :: t)) as Hin by (left; reflexivity). rewrite <- E in Hin. apply filter_In in Hin as [H1 H2]. cbn [fst snd] in H2. apply andb_true_iff in H2 as [H2 H3]. apply Z.eqb_eq in H2, H3.
      apply in_prod_iff in H1 as [Hr Hc]. unfold P in *. pose proof Hr as Hr'. pose proof Hc as Hc'. apply in_seq in Hr', Hc'.
      assert (ND : NoDup (list_prod (seq 0 (t_n l)) (seq 0 (t_n l)))) by (apply NoDup_list_prod; apply seq_NoDup).
      assert (G : forall a b, In a (seq 0 (t_n l)) -> In b (seq 0 (t_n l)) -> forall p q, t_eq l a = Z.of_nat p -> t_eq l b = Z.of_nat q -> filter (fun rc => (t_eq l (fst rc) =? Z.of_nat p)%Z && (t_eq l (snd rc) =? Z.of_nat q)%Z) (list_prod (seq 0 (t_n l)) (seq 0 (t_n l))) = [(a, b)]).
      { intros a b Ha Hb p' q' Ea Eb. apply filter_one; [exact ND|apply in_prod_iff; auto| |cbn [fst snd]; rewrite Ea, Eb, !Z.eqb_refl; reflexivity].
        intros [a' b'] Hin Hf. apply in_prod_iff in Hin as [Ha' Hb']. cbn [fst snd] in Hf. apply andb_true_iff in Hf as [F1 F2]. apply Z.eqb_eq in F1, F2. apply in_seq in Ha, Hb, Ha', Hb'.
        f_equal; apply HU; lia. }
      rewrite (G r c Hr Hc p q H2 H3) in E. injection E as <-. rewrite (G c r Hc Hr q p H3 H2). cbn [map fst snd]. f_equal. apply HS; lia.
  Qed.
  Lemma any_symmetric elements mats nodes neq assem_op uel locs : t_mesh elements mats nodes assem_op uel locs -> Forall (t_ok neq) locs ->
    Forall (fun l => eqs_once l /\ tsymmetric (t_n l) (t_K l) /\ tsymmetric (t_n l) (t_M l)) locs ->
    exists K M, dense_assem elements mats nodes neq assem_op uel = Ok (K, M) /\ tsymmetric neq K /\ tsymmetric neq M.
  Proof.
    intros HM HO HF. destruct (any_dense _ _ _ _ _ _ _ HM HO) as (K & M & E & SK & SM & H). exists K, M. split; [exact E|].
    assert (A : forall p q, all_terms t_K p q locs = all_terms t_K q p locs /\ all_terms t_M p q locs = all_terms t_M q p locs).
    { intros p q. unfold all_terms. clear - HF. induction HF as [|l locs (HU & HK & HM) HF [I1 I2]]; [split; reflexivity|]. cbn [flat_map]. rewrite I1, I2, (terms_sym t_K l p q HU HK), (terms_sym t_M l p q HU HM). split; reflexivity. }
    split; intros p q Hp Hq; [rewrite (proj1 (H p q Hp Hq)), (proj1 (H q p Hq Hp)), (proj1 (A p q))|rewrite (proj2 (H p q Hp Hq)), (proj2 (H q p Hq Hp)), (proj2 (A p q))]; reflexivity.
  Qed.
End Any.

Local Open Scope R_scope.

(** ** rounded sums *)
Lemma rnd_abs u rnd x : rounding u rnd -> Rabs (rnd x) <= (1 + u) * Rabs x.
Proof.
  intros [Hu H]. specialize (H x). replace (rnd x) with (x + (rnd x - x)) by ring. eapply Rle_trans; [apply Rabs_triang|]. lra.
Qed.
Lemma pow_ge1 u m : 0 <= u -> 1 <= (1 + u) ^ m.
Proof. intros Hu. apply pow_R1_Rle. lra. Qed.
Lemma rounded_fold u rnd (l : list R) : rounding u rnd -> forall a,
  Rabs (fold_left (fun x y => rnd (x + y)) l a - (a + lsum (fun x => x) l)) <= ((1 + u) ^ length l - 1) * (Rabs a + lsum Rabs l).
Proof.
  intros HR. pose proof HR as [Hu H]. induction l as [|x l IH]; intros a.
  - cbn [fold_left length pow]. unfold lsum. cbn [map fold_right]. rewrite Rplus_0_r, Rminus_diag_eq by reflexivity. rewrite Rabs_R0. lra.
  - cbn [fold_left length]. change (lsum (fun x => x) (x :: l)) with (x + lsum (fun x => x) l). change (lsum Rabs (x :: l)) with (Rabs x + lsum Rabs l).
    specialize (IH (rnd (a + x))). pose proof (H (a + x)) as He. pose proof (rnd_abs u rnd (a + x) HR) as Ha. pose proof (Rabs_triang a x) as Ht.
    set (s := lsum (fun x => x) l) in *. set (B := lsum Rabs l) in *. set (F := fold_left _ _ _) in *.
    replace (F - (a + (x + s))) with ((F - (rnd (a + x) + s)) + (rnd (a + x) - (a + x))) by ring.
    eapply Rle_trans; [apply Rabs_triang|]. pose proof (pow_ge1 u (length l) (proj1 Hu)) as Hp. set (P := (1 + u) ^ length l) in *.
    assert (HB : 0 <= B) by (unfold B; clear; induction l as [|y l IH]; [unfold lsum; cbn; lra|]; change (lsum Rabs (y :: l)) with (Rabs y + lsum Rabs l); pose proof (Rabs_pos y); lra).
    cbn [pow]. fold P. pose proof (Rabs_pos a). pose proof (Rabs_pos x). pose proof (Rabs_pos (a + x)). pose proof (Rabs_pos (rnd (a + x))).
    set (c := Rabs a + Rabs x) in *. replace (Rabs a + (Rabs x + B)) with (c + B) by (unfold c; ring).
    assert (Hc : Rabs (a + x) <= c) by exact Ht.
    assert (Q1 : (P - 1) * (Rabs (rnd (a + x)) + B) <= (P - 1) * ((1 + u) * c + B)) by (apply Rmult_le_compat_l; [lra|]; nra).
    assert (Q2 : u * Rabs (a + x) <= u * c) by (apply Rmult_le_compat_l; lra).
    assert (Q3 : 0 <= u * P * B) by (apply Rmult_le_pos; [nra|exact HB]).
    lra.
Qed.
Lemma rounded_sum u rnd (l : list R) : rounding u rnd ->
  Rabs (@running_sum R (Num_F rnd) l - lsum (fun x => x) l) <= ((1 + u) ^ length l - 1) * lsum Rabs l.
Proof. intros HR. pose proof (rounded_fold u rnd l HR 0) as H. rewrite Rabs_R0, !Rplus_0_l in H. exact H. Qed.
Lemma any_rounding u rnd elements mats nodes neq assem_op uel locs : rounding u rnd -> @t_mesh R (Num_F rnd) elements mats nodes assem_op uel locs -> Forall (@t_ok R neq) locs ->
  exists K M, @dense_assem R (Num_F rnd) elements mats nodes neq assem_op uel = Ok (K, M) /\ forall p q, (p < neq)%nat -> (q < neq)%nat ->
    Rabs (ent K p q - lsum (fun x => x) (@all_terms R (Num_F rnd) (@t_K R) p q locs)) <= ((1 + u) ^ length (@all_terms R (Num_F rnd) (@t_K R) p q locs) - 1) * lsum Rabs (@all_terms R (Num_F rnd) (@t_K R) p q locs) /\
    Rabs (ent M p q - lsum (fun x => x) (@all_terms R (Num_F rnd) (@t_M R) p q locs)) <= ((1 + u) ^ length (@all_terms R (Num_F rnd) (@t_M R) p q locs) - 1) * lsum Rabs (@all_terms R (Num_F rnd) (@t_M R) p q locs).
Proof.
  intros HR HM HO. destruct (@any_dense R (Num_F rnd) _ _ _ _ _ _ _ HM HO) as (K & M & E & _ & _ & H). exists K, M. split; [exact E|].
  intros p q Hp Hq. destruct (H p q Hp Hq) as [E1 E2]. change (ent K p q) with (@tent R (Num_F rnd) K p q). change (ent M p q) with (@tent R (Num_F rnd) M p q). rewrite E1, E2. split; apply rounded_sum; exact HR.
Qed.
Lemma exact_fold rnd l : forall a, (forall k, (k <= length l)%nat -> rnd (a + lsum (fun x => x) (firstn k l)) = a + lsum (fun x => x) (firstn k l)) ->
  fold_left (fun x y => rnd (x + y)) l a = a + lsum (fun x => x) l.
Proof.
  induction l as [|x l IH]; intros a H; [cbn; unfold lsum; cbn; lra|]. cbn [fold_left]. change (lsum (fun x => x) (x :: l)) with (x + lsum (fun x => x) l).
  pose proof (H 1%nat ltac:(cbn; lia)) as H1. cbn [firstn] in H1. change (lsum (fun x => x) [x]) with (x + 0) in H1. rewrite Rplus_0_r in H1. rewrite H1, IH; [ring|].
  intros k Hk. specialize (H (S k) ltac:(cbn; lia)). cbn [firstn] in H. change (lsum (fun x => x) (x :: firstn k l)) with (x + lsum (fun x => x) (firstn k l)) in H. rewrite !Rplus_assoc. exact H.
Qed.
Lemma any_exact rnd elements mats nodes neq assem_op uel locs : @t_mesh R (Num_F rnd) elements mats nodes assem_op uel locs -> Forall (@t_ok R neq) locs ->
  exists K M, @dense_assem R (Num_F rnd) elements mats nodes neq assem_op uel = Ok (K, M) /\ forall p q, (p < neq)%nat -> (q < neq)%nat ->
    (forall k, let s := lsum (fun x => x) (firstn k (@all_terms R (Num_F rnd) (@t_K R) p q locs)) in rnd s = s) -> ent K p q = lsum (fun x => x) (@all_terms R (Num_F rnd) (@t_K R) p q locs).
Proof.
  intros HM HO. destruct (@any_dense R (Num_F rnd) _ _ _ _ _ _ _ HM HO) as (K & M & E & _ & _ & H). exists K, M. split; [exact E|].
  intros p q Hp Hq HX. destruct (H p q Hp Hq) as [E1 _]. change (ent K p q) with (@tent R (Num_F rnd) K p q). rewrite E1.
  unfold running_sum. change (fold_left nadd ?l n0) with (fold_left (fun x y => rnd (x + y)) l 0). rewrite exact_fold; [ring|]. intros k _. rewrite Rplus_0_l. apply HX.
Qed.
(** errors of the element matrices and of the sums together *)
Lemma terms_pair rnd (locs : list (tlocal R * tlocal R)) (sel : tlocal R -> list (list R)) p q e :
  Forall (fun ll => t_op (fst ll) = t_op (snd ll) /\ t_n (fst ll) = t_n (snd ll) /\ forall i j, (i < t_n (snd ll))%nat -> (j < t_n (snd ll))%nat -> Rabs (ent (sel (fst ll)) i j - ent (sel (snd ll)) i j) <= e * Rabs (ent (sel (snd ll)) i j)) locs ->
  Forall2 (fun x y => Rabs (x - y) <= e * Rabs y) (@all_terms R (Num_F rnd) sel p q (map fst locs)) (@all_terms R Num_R sel p q (map snd locs)).
Proof.
  intros HF. unfold all_terms. induction HF as [|[a b] locs (Ho & Hn & He) HF IH]; [constructor|]. cbn [map flat_map fst snd] in *. apply Forall2_app; [|exact IH].
  unfold terms. rewrite Hn. unfold t_eq. rewrite Ho.
  assert (G : forall l, (forall rc, In rc l -> (fst rc < t_n b)%nat /\ (snd rc < t_n b)%nat) -> Forall2 (fun x y => Rabs (x - y) <= e * Rabs y)
    (map (fun rc => @tent R (Num_F rnd) (sel a) (fst rc) (snd rc)) l) (map (fun rc => @tent R Num_R (sel b) (fst rc) (snd rc)) l)).
  { induction l as [|[i j] l IHl]; intros Hl; [constructor|]. cbn [map fst snd]. constructor; [|apply IHl; intros; apply Hl; right; assumption].
    destruct (Hl (i, j) (or_introl eq_refl)) as [H1 H2]. apply (He i j H1 H2). }
  apply G. intros [i j] Hin. apply filter_In in Hin as [Hin _]. apply in_prod_iff in Hin as [H1 H2]. apply in_seq in H1, H2. cbn [fst snd]. lia.
Qed.
Lemma sums_close e l l' : 0 <= e -> Forall2 (fun x y => Rabs (x - y) <= e * Rabs y) l l' ->
  Rabs (lsum (fun x => x) l - lsum (fun x => x) l') <= e * lsum Rabs l' /\ lsum Rabs l <= (1 + e) * lsum Rabs l'.
Proof.
  intros He HF. induction HF as [|x y l l' Hxy HF [I1 I2]].
  - unfold lsum. cbn. rewrite Rminus_diag_eq by reflexivity. rewrite Rabs_R0. lra.
  - change (lsum (fun x => x) (x :: l)) with (x + lsum (fun x => x) l). change (lsum (fun x => x) (y :: l')) with (y + lsum (fun x => x) l').
    change (lsum Rabs (x :: l)) with (Rabs x + lsum Rabs l). change (lsum Rabs (y :: l')) with (Rabs y + lsum Rabs l').
    set (s := lsum (fun x => x) l) in *. set (s' := lsum (fun x => x) l') in *. split.
    + replace (x + s - (y + s')) with ((x - y) + (s - s')) by ring. eapply Rle_trans; [apply Rabs_triang|]. lra.
    + assert (Rabs x <= (1 + e) * Rabs y); [|lra]. replace x with (y + (x - y)) by ring. eapply Rle_trans; [apply Rabs_triang|]. lra.
Qed.
Lemma any_total u rnd e elements mats nodes neq assem_op uel (locs : list (tlocal R * tlocal R)) : rounding u rnd -> 0 <= e ->
  @t_mesh R (Num_F rnd) elements mats nodes assem_op uel (map fst locs) -> Forall (@t_ok R neq) (map fst locs) ->
  Forall (fun ll => t_op (fst ll) = t_op (snd ll) /\ t_n (fst ll) = t_n (snd ll) /\ forall i j, (i < t_n (snd ll))%nat -> (j < t_n (snd ll))%nat -> Rabs (ent (t_K (fst ll)) i j - ent (t_K (snd ll)) i j) <= e * Rabs (ent (t_K (snd ll)) i j)) locs ->
  exists K M, @dense_assem R (Num_F rnd) elements mats nodes neq assem_op uel = Ok (K, M) /\ forall p q, (p < neq)%nat -> (q < neq)%nat ->
    let ts := @all_terms R Num_R (@t_K R) p q (map snd locs) in
    Rabs (ent K p q - lsum (fun x => x) ts) <= ((1 + u) ^ length ts * (1 + e) - 1) * lsum Rabs ts.
Proof.
  intros HR He HM HO HF. destruct (any_rounding u rnd _ _ _ _ _ _ _ HR HM HO) as (K & M & E & H). exists K, M. split; [exact E|].
  intros p q Hp Hq ts. destruct (H p q Hp Hq) as [H1 _]. pose proof (terms_pair rnd locs (@t_K R) p q e HF) as TP. fold ts in TP.
  destruct (sums_close e _ _ He TP) as [C1 C2]. rewrite (Forall2_len _ _ _ TP) in H1. set (th := @all_terms R (Num_F rnd) _ p q _) in *.
  replace (ent K p q - lsum (fun x => x) ts) with ((ent K p q - lsum (fun x => x) th) + (lsum (fun x => x) th - lsum (fun x => x) ts)) by ring.
  eapply Rle_trans; [apply Rabs_triang|]. pose proof (pow_ge1 u (length ts) (proj1 (proj1 HR))) as Hp1. set (P := (1 + u) ^ length ts) in *.
  assert ((P - 1) * lsum Rabs th <= (P - 1) * ((1 + e) * lsum Rabs ts)) by (apply Rmult_le_compat_l; [lra|exact C2]).
  lra.
Qed.
(** loads and displacements are copied *)
Lemma any_loads rnd : @loadasem R (Num_F rnd) = @loadasem R Num_R.
Proof. reflexivity. Qed.
