(** * Proofs: sparse assembly, permutation invariance, global forms *)
From Coq Require Import Reals List Arith Lia Lra Bool ZArith Permutation.
From Verif Require Import Num LinAlg Gauss Fem Uel Assem Spec LinR Base SpecAssem AssemProofs.
Import ListNotations.
Local Open Scope R_scope.

(** ** coordinate lists *)
Definition selK (p q : nat) (e : Z * Z * R * R) : R :=
  let '(r, c, k, _) := e in if (r =? Z.of_nat p)%Z && (c =? Z.of_nat q)%Z then k else 0.
Definition selM (p q : nat) (e : Z * Z * R * R) : R :=
  let '(r, c, _, m) := e in if (r =? Z.of_nat p)%Z && (c =? Z.of_nat q)%Z then m else 0.
Definition in_rng (neq : nat) (e : Z * Z * R * R) : Prop :=
  let '(r, c, _, _) := e in (0 <= r < Z.of_nat neq)%Z /\ (0 <= c < Z.of_nat neq)%Z.

Lemma fold_left_Rplus l a : fold_left Rplus l a = a + lsum (fun x => x) l.
Proof.
  revert a; induction l as [|x l IH]; intros a; simpl; [lra|].
  rewrite IH. unfold lsum. lra.
Qed.

Lemma lsum_filter {A} (f : A -> R) (b : A -> bool) l :
  lsum f (filter b l) = lsum (fun a => if b a then f a else 0) l.
Proof.
  induction l as [|a l IH]; simpl; [reflexivity|].
  destruct (b a); simpl; rewrite IH; unfold lsum; lra.
Qed.

Lemma coo_entry p q (ents : list (Z * Z * R)) :
  fold_left (@nadd R Num_R) (map snd (filter (fun e => let '(r, c, _) := e in
        (r =? Z.of_nat p)%Z && (c =? Z.of_nat q)%Z) ents)) n0 =
  lsum (fun e => let '(r, c, v) := e in
        if (r =? Z.of_nat p)%Z && (c =? Z.of_nat q)%Z then v else 0) ents.
Proof.
  change (@nadd R Num_R) with Rplus. change (@n0 R Num_R) with 0.
  rewrite fold_left_Rplus, lsum_map, lsum_filter, Rplus_0_l.
  apply lsum_ext. intros [[r c] v] _. reflexivity.
Qed.

Lemma coo_tocsr_ok neq (ents : list (Z * Z * R)) :
  (forall r c v, In (r, c, v) ents -> (0 <= r < Z.of_nat neq)%Z /\ (0 <= c < Z.of_nat neq)%Z) ->
  exists K, coo_tocsr neq ents = Ok K /\ shape neq neq K /\
    forall p q, (p < neq)%nat -> (q < neq)%nat ->
      ent K p q = lsum (fun e => let '(r, c, v) := e in
        if (r =? Z.of_nat p)%Z && (c =? Z.of_nat q)%Z then v else 0) ents.
Proof.
  intros Hr. unfold coo_tocsr.
  rewrite (proj2 (forallb_forall _ ents)).
  - cbn [guard bind]. eexists; split; [reflexivity|]. split; [apply shape_mk_mat|].
    intros p q Hp Hq. rewrite ent_mk_mat by assumption. apply coo_entry.
  - intros [[r c] v] He. destruct (Hr r c v He) as [H1 H2].
    repeat (apply andb_true_iff; split); try (apply Z.leb_le; lia); apply Z.ltb_lt; lia.
Qed.

(** ** the two loops correspond *)
Definition rel (neq : nat) (KM : list (list R) * list (list R)) (ents : list (Z * Z * R * R)) : Prop :=
  let (K, M) := KM in
  shape neq neq K /\ shape neq neq M /\ Forall (in_rng neq) ents /\
  (forall p q, (p < neq)%nat -> (q < neq)%nat -> ent K p q = lsum (selK p q) ents) /\
  (forall p q, (p < neq)%nat -> (q < neq)%nat -> ent M p q = lsum (selM p q) ents).

Lemma rel_step neq k m row col KM ents r c :
  rel neq KM ents -> (0 <= r < Z.of_nat neq)%Z -> (0 <= c < Z.of_nat neq)%Z ->
  rres (rel neq)
    (let (K, M) := (KM : list (list R) * list (list R)) in
       kv <- np_get2 k row col ;;
       K' <- np_add2 K r c kv ;;
       mv <- mass_get m row col ;;
       M' <- np_add2 M r c mv ;;
       Ok (K', M'))
    (kv <- np_get2 k row col ;;
     mv <- mass_get m row col ;;
     Ok (ents ++ [(r, c, kv, mv)])).
Proof.
  intros Hrel Hr Hc. destruct KM as [K M]. destruct Hrel as (SK & SM & HI & HK & HM).
  destruct (np_get2 k row col) as [kv|e]; [|reflexivity]. cbn [bind].
  destruct (np_add2_ok neq K r c kv SK Hr Hc) as (K' & EK & SK' & HK').
  rewrite EK. cbn [bind].
  destruct (mass_get m row col) as [mv|e]; [|reflexivity]. cbn [bind].
  destruct (np_add2_ok neq M r c mv SM Hr Hc) as (M' & EM & SM' & HM').
  rewrite EM. cbn [bind rres rel]. repeat split; auto; try apply SK'; try apply SM'.
  - apply Forall_app. split; [exact HI|]. constructor; [|constructor]. split; assumption.
  - intros p q Hp Hq. rewrite HK', HK, lsum_app by assumption. cbn. lra.
  - intros p q Hp Hq. rewrite HM', HM, lsum_app by assumption. cbn. lra.
Qed.

Lemma elem_rel neq dme (k : list (list R)) m KM ents :
  (forall b, In b dme -> (-1 <= b < Z.of_nat neq)%Z) ->
  rel neq KM ents -> rres (rel neq) (dense_elem dme k m KM) (sparse_elem dme k m ents).
Proof.
  intros Hd HR. unfold dense_elem, sparse_elem.
  apply foldM_rel; [|exact HR]. intros KM1 e1 row _ HR1.
  destruct (np_get dme (Z.of_nat row)) as [r|e] eqn:Er; [|reflexivity]. cbn [bind].
  pose proof (Hd r (np_get_In _ _ _ Er)) as Hr.
  destruct (Z.eqb_spec r (-1)) as [_|Nr]; [exact HR1|].
  apply foldM_rel; [|exact HR1]. intros KM2 e2 col _ HR2.
  destruct (np_get dme (Z.of_nat col)) as [c|e] eqn:Ec; [|reflexivity]. cbn [bind].
  pose proof (Hd c (np_get_In _ _ _ Ec)) as Hc.
  destruct (Z.eqb_spec c (-1)) as [_|Nc]; [exact HR2|].
  apply rel_step; try assumption; lia.
Qed.

Lemma sparse_dense_agree elements mats nodes neq assem_op uel :
  op_in_range elements mats nodes neq assem_op uel ->
  sparse_assem elements mats nodes neq assem_op uel =
  dense_assem elements mats nodes neq assem_op uel.
Proof.
  intros Hop.
  assert (HR : rres (rel neq)
    (dense_assem elements mats nodes neq assem_op uel)
    (foldM
      (fun acc er =>
         let (elem, arow) := (er : list Z * res (list Z)) in
         '(kloc, mloc) <- retriever elem mats nodes uel ;;
         arow <- arow ;;
         sparse_elem (firstn (length kloc) arow) kloc mloc acc)
      (elem_rows elements assem_op) [])).
  { unfold dense_assem. apply foldM_rel.
    - intros KM ents [elem arow] Hin HR. unfold elem_rows in Hin.
      apply in_map_iff in Hin. destruct Hin as [i [E Hi]]. inversion E; subst elem arow; clear E.
      apply in_seq in Hi. destruct Hi as [_ Hi]. cbn in Hi.
      destruct (retriever (nth i elements []) mats nodes uel) as [[k m]|e] eqn:Er; [|reflexivity].
      cbn [bind].
      destruct (np_get assem_op (Z.of_nat i)) as [arow|e] eqn:Ea; [|reflexivity].
      cbn [bind]. apply elem_rel; [|exact HR].
      intros b Hb. destruct (np_get_nat_ok assem_op i arow [] Ea) as [Hi' ->].
      eapply Hop; [apply nth_error_nth'; exact Hi|apply nth_error_nth'; exact Hi'|exact Er|exact Hb].
    - cbn [rel]. repeat split; try apply shape_zeros; try constructor;
        intros; rewrite ent_zeros; reflexivity. }
  unfold sparse_assem.
  destruct (dense_assem elements mats nodes neq assem_op uel) as [[K M]|e];
    match type of HR with rres _ _ ?x => destruct x as [ents|e'] end; cbn [rres] in HR; try contradiction.
  - destruct HR as (SK & SM & HI & HK & HM). cbn [bind].
    destruct (coo_tocsr_ok neq (map (fun e => let '(r, c, k, _) := e in (r, c, k)) ents))
      as (K' & EK & SK' & HK').
    { intros r c v Hin. apply in_map_iff in Hin. destruct Hin as [[[[r' c'] k'] m'] [E Hin]].
      inversion E; subst. rewrite Forall_forall in HI. exact (HI _ Hin). }
    destruct (coo_tocsr_ok neq (map (fun e => let '(r, c, _, m) := e in (r, c, m)) ents))
      as (M' & EM & SM' & HM').
    { intros r c v Hin. apply in_map_iff in Hin. destruct Hin as [[[[r' c'] k'] m'] [E Hin]].
      inversion E; subst. rewrite Forall_forall in HI. exact (HI _ Hin). }
    rewrite EK. cbn [bind]. rewrite EM. cbn [bind]. do 2 f_equal.
    + apply (mat_ext neq neq); auto. intros p q Hp Hq. rewrite HK', HK, lsum_map by assumption.
      apply lsum_ext. intros [[[r c] k] m] _. reflexivity.
    + apply (mat_ext neq neq); auto. intros p q Hp Hq. rewrite HM', HM, lsum_map by assumption.
      apply lsum_ext. intros [[[r c] k] m] _. reflexivity.
  - cbn [bind]. congruence.
Qed.

(** ** permutation of the elements *)
Lemma sparse_elem_acc dme (k : list (list R)) m acc :
  sparse_elem dme k m acc = (e <- sparse_elem dme k m [] ;; Ok (acc ++ e)).
Proof.
  assert (HR : rres (fun x y => x = acc ++ y) (sparse_elem dme k m acc) (sparse_elem dme k m [])).
  { unfold sparse_elem. apply foldM_rel; [|symmetry; apply app_nil_r].
    intros a1 a2 row _ E. destruct (np_get dme (Z.of_nat row)); [|reflexivity]. cbn [bind].
    destruct (a =? -1)%Z; [exact E|].
    apply foldM_rel; [|exact E]. intros b1 b2 col _ E2.
    destruct (np_get dme (Z.of_nat col)); [|reflexivity]. cbn [bind].
    destruct (a0 =? -1)%Z; [exact E2|].
    destruct (np_get2 k (Z.of_nat row) (Z.of_nat col)); [|reflexivity]. cbn [bind].
    destruct (mass_get m (Z.of_nat row) (Z.of_nat col)); [|reflexivity]. cbn [bind rres].
    rewrite E2, app_assoc. reflexivity. }
  destruct (sparse_elem dme k m acc), (sparse_elem dme k m []); cbn in HR |- *; try contradiction; rewrite HR; reflexivity.
Qed.

Definition elem_ents (mats nodes : list (list R)) (uel : option (uel_fun R))
           (ea : list Z * list Z) : res (list (Z * Z * R * R)) :=
  '(kloc, mloc) <- retriever (fst ea) mats nodes uel ;;
  sparse_elem (firstn (length kloc) (snd ea)) kloc mloc [].

Lemma sparse_fold_mapM mats nodes uel l acc :
  foldM
      (fun acc er =>
         let (elem, arow) := (er : list Z * res (list Z)) in
         '(kloc, mloc) <- retriever elem mats nodes uel ;;
         arow <- arow ;;
         sparse_elem (firstn (length kloc) arow) kloc mloc acc)
      (map (fun ea => (fst ea, Ok (snd ea))) l) acc =
  (es <- mapM (elem_ents mats nodes uel) l ;; Ok (acc ++ concat es)).
Proof.
  revert acc; induction l as [|[elem arow] l IH]; intros acc; cbn [map foldM mapM fst snd].
  - cbn. rewrite app_nil_r. reflexivity.
  - unfold elem_ents at 1. cbn [fst snd].
    destruct (retriever elem mats nodes uel) as [[k m]|e]; [|reflexivity]. cbn [bind].
    rewrite sparse_elem_acc. destruct (sparse_elem (firstn (length k) arow) k m []) as [e|e]; [|reflexivity].
    cbn [bind]. rewrite IH. destruct (mapM (elem_ents mats nodes uel) l); [|reflexivity].
    cbn [bind concat]. rewrite app_assoc. reflexivity.
Qed.

Lemma lsum_Permutation {A} (f : A -> R) l l' : Permutation l l' -> lsum f l = lsum f l'.
Proof. induction 1; simpl; lra. Qed.

Lemma Permutation_concat {A} (l l' : list (list A)) :
  Permutation l l' -> Permutation (concat l) (concat l').
Proof.
  induction 1; simpl.
  - constructor.
  - apply Permutation_app_head. exact IHPermutation.
  - rewrite !app_assoc. apply Permutation_app_tail. apply Permutation_app_comm.
  - eapply perm_trans; eassumption.
Qed.

Lemma coo_tocsr_perm neq (e e' : list (Z * Z * R)) :
  Permutation e e' -> coo_tocsr neq e = coo_tocsr neq e'.
Proof.
  intros HP. unfold coo_tocsr.
  set (f := fun e0 : Z * Z * R => let '(r, c, _) := e0 in
     ((0 <=? r)%Z && (r <? Z.of_nat neq)%Z && (0 <=? c)%Z && (c <? Z.of_nat neq)%Z)).
  assert (Hb : forallb f e = forallb f e').
  { destruct (forallb f e) eqn:E1, (forallb f e') eqn:E2; auto.
    - rewrite forallb_forall in E1. rewrite <- E2. symmetry. apply forallb_forall.
      intros x Hx. apply E1. eapply Permutation_in; [apply Permutation_sym; exact HP|exact Hx].
    - rewrite forallb_forall in E2. rewrite <- E1. apply forallb_forall.
      intros x Hx. apply E2. eapply Permutation_in; [exact HP|exact Hx]. }
  rewrite Hb. destruct (forallb f e'); [|reflexivity]. cbn [guard bind]. f_equal.
  apply (mat_ext neq neq); try apply shape_mk_mat.
  intros p q Hp Hq. rewrite !ent_mk_mat by assumption.
  transitivity (lsum (fun e => let '(r, c, v) := e in
        if (r =? Z.of_nat p)%Z && (c =? Z.of_nat q)%Z then v else 0) e); [apply coo_entry|].
  rewrite (lsum_Permutation _ _ _ HP). symmetry. apply coo_entry.
Qed.

Lemma sparse_assem_perm elements mats nodes neq assem_op uel elements' assem_op' KM :
  length elements = length assem_op -> length elements' = length assem_op' ->
  Permutation (combine elements assem_op) (combine elements' assem_op') ->
  sparse_assem elements mats nodes neq assem_op uel = Ok KM ->
  sparse_assem elements' mats nodes neq assem_op' uel = Ok KM.
Proof.
  intros HL HL' HP. unfold sparse_assem. rewrite !elem_rows_combine by assumption.
  rewrite !sparse_fold_mapM. intros Hs.
  destruct (mapM (elem_ents mats nodes uel) (combine elements assem_op)) as [es|] eqn:Em; [|discriminate].
  destruct (mapM_Permutation _ _ _ _ HP Em) as [es' [Em' HPe]].
  rewrite Em'. cbn [bind] in *. cbn [app] in *.
  apply Permutation_concat in HPe.
  rewrite <- (coo_tocsr_perm neq _ _ (Permutation_map (fun e => let '(r, c, k, _) := e in (r, c, k)) HPe)).
  rewrite <- (coo_tocsr_perm neq _ _ (Permutation_map (fun e => let '(r, c, _, m) := e in (r, c, m)) HPe)).
  exact Hs.
Qed.

(** ** action of the global matrix *)
Definition eq_range (neq : nat) (l : local) : Prop :=
  forall r, (r < l_n l)%nat -> (-1 <= l_eq l r < Z.of_nat neq)%Z.

Lemma local_ok_range neq l : local_ok neq l -> eq_range neq l.
Proof. intros (_ & _ & _ & Hr). exact Hr. Qed.

Lemma local_ok_ranges neq locs : Forall (local_ok neq) locs -> Forall (eq_range neq) locs.
Proof. apply Forall_impl. apply local_ok_range. Qed.

Lemma rsum_if_eq neq (z : Z) (f : nat -> R) : (-1 <= z < Z.of_nat neq)%Z ->
  rsum neq (fun q => if (z =? Z.of_nat q)%Z then f q else 0) =
  if (z =? -1)%Z then 0 else f (Z.to_nat z).
Proof.
  intros Hz. destruct (Z.eqb_spec z (-1)) as [->|Hn].
  - apply rsum_zero. intros q _. replace (-1 =? Z.of_nat q)%Z with false
      by (symmetry; apply Z.eqb_neq; lia). reflexivity.
  - rewrite (rsum_single neq (Z.to_nat z)); [|lia|].
    + replace (z =? Z.of_nat (Z.to_nat z))%Z with true by (symmetry; apply Z.eqb_eq; lia). reflexivity.
    + intros i Hi Hne. replace (z =? Z.of_nat i)%Z with false by (symmetry; apply Z.eqb_neq; lia).
      reflexivity.
Qed.

Lemma scatter_act neq l k u p : eq_range neq l ->
  rsum neq (fun q => scatter l k p q * u q) =
  rsum (l_n l) (fun r => if (l_eq l r =? Z.of_nat p)%Z then act (l_n l) k (gather l u) r else 0).
Proof.
  intros Hr. unfold scatter.
  transitivity (rsum neq (fun q => rsum (l_n l) (fun r => rsum (l_n l) (fun c =>
    if (l_eq l r =? Z.of_nat p)%Z && (l_eq l c =? Z.of_nat q)%Z then ent k r c * u q else 0)))).
  { apply rsum_ext; intros q _. rewrite <- rsum_scal_r. apply rsum_ext; intros r _.
    rewrite <- rsum_scal_r. apply rsum_ext; intros c _.
    destruct ((l_eq l r =? Z.of_nat p)%Z && (l_eq l c =? Z.of_nat q)%Z); lra. }
  rewrite rsum_swap. apply rsum_ext; intros r Hrn.
  destruct (l_eq l r =? Z.of_nat p)%Z; cbn [andb].
  - rewrite rsum_swap. unfold act. apply rsum_ext; intros c Hc.
    rewrite (rsum_if_eq neq (l_eq l c) (fun q => ent k r c * u q)) by (apply Hr; exact Hc).
    unfold gather. destruct (l_eq l c =? -1)%Z; lra.
  - apply rsum_zero; intros q _. apply rsum_zero; intros c _. reflexivity.
Qed.

Definition elem_force (l : local) (k : list (list R)) (u : nat -> R) (p : nat) : R :=
  rsum (l_n l) (fun r => if (l_eq l r =? Z.of_nat p)%Z then act (l_n l) k (gather l u) r else 0).

Lemma act_sum neq (sel : local -> list (list R)) K locs u p :
  Forall (eq_range neq) locs -> (p < neq)%nat ->
  (forall p q, (p < neq)%nat -> (q < neq)%nat -> ent K p q = lsum (fun l => scatter l (sel l) p q) locs) ->
  act neq K u p = lsum (fun l => elem_force l (sel l) u p) locs.
Proof.
  intros HO Hp HK. unfold act.
  transitivity (rsum neq (fun q => lsum (fun l => scatter l (sel l) p q * u q) locs)).
  { apply rsum_ext; intros q Hq. rewrite HK by assumption.
    rewrite Rmult_comm, <- lsum_scal. apply lsum_ext; intros l _. lra. }
  rewrite <- lsum_rsum. apply lsum_ext. intros l Hl.
  rewrite Forall_forall in HO. apply scatter_act. apply HO; exact Hl.
Qed.

Lemma elem_force_form neq l k u v : eq_range neq l ->
  rsum neq (fun p => u p * elem_force l k v p) = form (l_n l) k (gather l u) (gather l v).
Proof.
  intros Hr. unfold elem_force, form.
  transitivity (rsum neq (fun p => rsum (l_n l) (fun r => if (l_eq l r =? Z.of_nat p)%Z
     then u p * act (l_n l) k (gather l v) r else 0))).
  { apply rsum_ext; intros p _. rewrite <- rsum_scal. apply rsum_ext; intros r _.
    destruct (l_eq l r =? Z.of_nat p)%Z; lra. }
  rewrite rsum_swap. apply rsum_ext; intros r Hrn.
  rewrite (rsum_if_eq neq (l_eq l r) (fun p => u p * act (l_n l) k (gather l v) r)) by (apply Hr; exact Hrn).
  unfold gather at 2. destruct (l_eq l r =? -1)%Z; lra.
Qed.

Lemma form_sum neq (sel : local -> list (list R)) K locs u v :
  Forall (eq_range neq) locs ->
  (forall p q, (p < neq)%nat -> (q < neq)%nat -> ent K p q = lsum (fun l => scatter l (sel l) p q) locs) ->
  form neq K u v = lsum (fun l => form (l_n l) (sel l) (gather l u) (gather l v)) locs.
Proof.
  intros HO HK. unfold form at 1.
  transitivity (rsum neq (fun p => lsum (fun l => u p * elem_force l (sel l) v p) locs)).
  { apply rsum_ext; intros p Hp. rewrite (act_sum neq sel K locs) by assumption.
    symmetry. apply lsum_scal. }
  rewrite <- lsum_rsum. apply lsum_ext. intros l Hl. rewrite Forall_forall in HO.
  apply elem_force_form. apply HO; exact Hl.
Qed.

Lemma symmetric_sum neq (sel : local -> list (list R)) K locs :
  Forall (eq_range neq) locs ->
  (forall p q, (p < neq)%nat -> (q < neq)%nat -> ent K p q = lsum (fun l => scatter l (sel l) p q) locs) ->
  Forall (fun l => symmetric (l_n l) (sel l)) locs -> symmetric neq K.
Proof.
  intros HO HK HS p q Hp Hq. rewrite !HK by assumption. apply lsum_ext. intros l Hl.
  rewrite Forall_forall in HS. unfold scatter. rewrite rsum_swap.
  apply rsum_ext; intros c Hc. apply rsum_ext; intros r Hr.
  rewrite (HS l Hl r c) by assumption. rewrite andb_comm. reflexivity.
Qed.

Lemma psd_sum neq (sel : local -> list (list R)) K locs :
  Forall (eq_range neq) locs ->
  (forall p q, (p < neq)%nat -> (q < neq)%nat -> ent K p q = lsum (fun l => scatter l (sel l) p q) locs) ->
  Forall (fun l => psd (l_n l) (sel l)) locs -> psd neq K.
Proof.
  intros HO HK HS u. rewrite (form_sum neq sel K locs) by assumption.
  apply lsum_nonneg. intros l Hl. rewrite Forall_forall in HS. apply HS; exact Hl.
Qed.
