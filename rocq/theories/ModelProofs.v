(** * Proofs about whole runs *)
From Coq Require Import Reals List Arith Lia Lra Bool ZArith Permutation.
From Verif Require Import Num LinAlg Gauss Fem Uel Assem Post Main Spec LinR Base SpecAssem
  AssemProofs AssemProofs2 AssemProofs3 ElemShape SpecModel.
Import ListNotations.
Local Open Scope R_scope.

(** ** successful sparse assembly *)
Lemma foldM_seq_inv {B} (P : nat -> B -> Prop) (f : B -> nat -> res B) n b b' :
  P 0%nat b ->
  (forall m c c', (m < n)%nat -> P m c -> f c m = Ok c' -> P (S m) c') ->
  foldM f (seq 0 n) b = Ok b' -> P n b'.
Proof.
  revert b'; induction n as [|n IH]; intros b' H0 Hs Hf.
  - cbn in Hf. apply Ok_inj in Hf. subst. exact H0.
  - rewrite foldM_seq_S in Hf. inv_ok Hf. apply (Hs n r); [lia| |exact Hf].
    apply IH; [exact H0| |exact Hr]. intros; eapply Hs; eauto.
Qed.

Lemma sparse_elem_inv op (k : list (list R)) m ents p q :
  shape (length k) (length k) k ->
  sparse_elem (firstn (length k) op) k m [] = Ok ents ->
  lsum (selK p q) ents = scatter (mkLocal op k []) k p q.
Proof.
  intros Sk. unfold sparse_elem, scatter. cbn [l_n l_K]. set (n := length k) in *.
  change (l_n (mkLocal op k [])) with n.
  intros Hf.
  refine (foldM_seq_inv (fun w acc => lsum (selK p q) acc =
    rsum w (fun r => rsum n (fun c =>
       if (l_eq (mkLocal op k []) r =? Z.of_nat p)%Z && (l_eq (mkLocal op k []) c =? Z.of_nat q)%Z
       then ent k r c else 0))) _ n [] ents eq_refl _ Hf).
  intros w acc acc' Hw HI Hstep. cbn beta in Hstep. cbn [rsum].
  inv_ok Hstep. destruct (np_get_nat_ok _ w r (-1)%Z Hr) as [_ Er].
  rewrite firstn_nth in Er by exact Hw.
  change (nth w op (-1)%Z) with (l_eq (mkLocal op k []) w) in Er.
  destruct (Z.eqb_spec r (-1)) as [E|E].
  - apply Ok_inj in Hstep. subst acc'. rewrite HI.
    enough (rsum n (fun c => if (l_eq (mkLocal op k []) w =? Z.of_nat p)%Z &&
       (l_eq (mkLocal op k []) c =? Z.of_nat q)%Z then ent k w c else 0) = 0) by lra.
    apply rsum_zero. intros c _. replace (l_eq (mkLocal op k []) w =? Z.of_nat p)%Z with false
      by (symmetry; apply Z.eqb_neq; lia). reflexivity.
  - rewrite <- HI.
    refine (foldM_seq_inv (fun v acc2 => lsum (selK p q) acc2 = lsum (selK p q) acc +
      rsum v (fun c => if (l_eq (mkLocal op k []) w =? Z.of_nat p)%Z &&
         (l_eq (mkLocal op k []) c =? Z.of_nat q)%Z then ent k w c else 0)) _ n acc acc' _ _ Hstep);
      [simpl; lra|].
    intros v a2 a3 Hv HI2 Hst. cbn beta in Hst. cbn [rsum]. inv_ok Hst.
    destruct (np_get_nat_ok _ v r0 (-1)%Z Hr0) as [_ Ec].
    rewrite firstn_nth in Ec by exact Hv.
    change (nth v op (-1)%Z) with (l_eq (mkLocal op k []) v) in Ec.
    destruct (Z.eqb_spec r0 (-1)) as [E2|E2].
    + apply Ok_inj in Hst. subst a3. rewrite HI2.
      replace (l_eq (mkLocal op k []) v =? Z.of_nat q)%Z with false by (symmetry; apply Z.eqb_neq; lia).
      rewrite andb_false_r. lra.
    + inv_ok Hst. rewrite (np_get2_ok n n) in Hr1 by assumption. apply Ok_inj in Hr1. subst r1.
      inv_ok Hst. apply Ok_inj in Hst. subst a3. rewrite lsum_app, HI2. cbn [lsum fold_right selK].
      rewrite <- Er, <- Ec. destruct ((r =? Z.of_nat p)%Z && (r0 =? Z.of_nat q)%Z); lra.
Qed.

Lemma lsum_concat {A} (f : A -> R) (ls : list (list A)) :
  lsum f (concat ls) = lsum (fun l => lsum f l) ls.
Proof.
  induction ls as [|l ls IH]; cbn [concat]; [reflexivity|].
  rewrite lsum_app, IH. reflexivity.
Qed.

Lemma lsum_Forall2 {A B} (f : A -> R) (g : B -> R) l l' :
  Forall2 (fun a b => f a = g b) l l' -> lsum f l = lsum g l'.
Proof. induction 1; cbn; [reflexivity|]. f_equal; auto. Qed.

Definition mk_loc (mats nodes : list (list R)) (er : list Z * list Z) : local :=
  mkLocal (snd er) (e_stiff mats nodes (fst er)) [].

Lemma sparse_assem_inv elements mats nodes neq assem_op K M :
  length elements = length assem_op ->
  (forall e k m, In e elements -> retriever e mats nodes None = Ok (k, m) -> shape (length k) (length k) k) ->
  sparse_assem elements mats nodes neq assem_op None = Ok (K, M) ->
  shape neq neq K /\
  Forall (fun e => exists m, retriever e mats nodes None = Ok (e_stiff mats nodes e, m)) elements /\
  forall p q, (p < neq)%nat -> (q < neq)%nat ->
    ent K p q = lsum (fun l => scatter l (l_K l) p q) (map (mk_loc mats nodes) (combine elements assem_op)).
Proof.
  intros HL Hsh Hs. unfold sparse_assem in Hs. rewrite elem_rows_combine, sparse_fold_mapM in Hs by exact HL.
  inv_ok Hs. rename r into ents. inv_ok Hr. rename r into es. apply Ok_inj in Hr. cbn [app] in Hr.
  inv_ok Hs. inv_ok Hs. apply Ok_pair_inj in Hs. destruct Hs as [<- <-].
  apply mapM_ok in Hr0.
  assert (HK : shape neq neq r /\ forall p q, (p < neq)%nat -> (q < neq)%nat ->
     ent r p q = lsum (selK p q) ents).
  { unfold coo_tocsr in Hr1. inv_ok Hr1. apply Ok_inj in Hr1. subst r. split; [apply shape_mk_mat|].
    intros p q Hp Hq. rewrite ent_mk_mat by assumption.
    transitivity (lsum (fun e => let '(r, c, v) := e in
        if (r =? Z.of_nat p)%Z && (c =? Z.of_nat q)%Z then v else 0)
        (map (fun e => let '(r, c, k, _) := e in (r, c, k)) ents)); [apply coo_entry|].
    rewrite lsum_map. apply lsum_ext. intros [[[a b] c] d] _. reflexivity. }
  destruct HK as [SK HK]. split; [exact SK|]. split.
  - assert (HF : Forall (fun ea => exists m, retriever (fst ea) mats nodes None = Ok (e_stiff mats nodes (fst ea), m))
             (combine elements assem_op)).
    { clear -Hr0. induction Hr0 as [|ea x l l' He _ IH]; constructor; [|exact IH].
      unfold elem_ents in He. inv_ok He. destruct r as [k m]. exists m. unfold e_stiff.
      rewrite Hr. reflexivity. }
    clear -HF HL. revert assem_op HL HF. induction elements as [|e els IH]; intros [|a op] HL HF; try discriminate; constructor.
    + inversion HF; subst. exact H1.
    + apply (IH op); [simpl in HL; lia|]. inversion HF; assumption.
  - intros p q Hp Hq. rewrite HK by assumption. rewrite <- Hr, lsum_concat, lsum_map. symmetry.
    apply lsum_Forall2.
    assert (Hin : forall ea, In ea (combine elements assem_op) -> In (fst ea) elements).
    { intros [e a] Hin. apply in_combine_l in Hin. exact Hin. }
    clear -Hr0 Hsh Hin. induction Hr0 as [|ea x l l' He _ IH]; constructor.
    + unfold elem_ents in He. inv_ok He. destruct r as [k m]. unfold mk_loc, e_stiff. rewrite Hr. cbn [l_K].
      symmetry. eapply sparse_elem_inv; [|exact He]. eapply Hsh; [|exact Hr]. apply Hin. left; reflexivity.
    + apply IH. intros ea' Hin'. apply Hin. right; exact Hin'.
Qed.

(** ** the equilibrium equation of a run *)
Lemma INR_Rtrunc n : Rtrunc (INR n) = Z.of_nat n.
Proof. rewrite INR_IZR_INZ. apply Rtrunc_IZR. Qed.

Lemma applied_last_load loads i d :
  Forall (fun row => exists n, nth 0 row 0 = INR n) loads ->
  applied loads i d = last_load loads 0 i d.
Proof.
  unfold applied, last_load. intros HF.
  enough (Hg : forall v, fold_left (fun v row => if Req_EM_T (nth 0 row 0) (INR i) then nth (d + 1) row 0 else v) loads v =
    fold_left (fun v load => if load_node load i then nth (d + 1) load 0 else v) loads v) by apply Hg.
  revert HF.
  induction loads as [|row loads IH]; intros HF v; cbn [fold_left]; [reflexivity|].
  inversion HF as [|? ? [n Hn] HF']; subst. rewrite IH by exact HF'. f_equal.
  unfold load_node. rewrite Hn, INR_Rtrunc.
  destruct (Req_EM_T (INR n) (INR i)) as [E|E].
  - apply INR_eq in E. subst n. rewrite Z.eqb_refl. reflexivity.
  - replace (Z.of_nat n =? Z.of_nat i)%Z with false; [reflexivity|].
    symmetry. apply Z.eqb_neq. intros E'. apply E. f_equal. lia.
Qed.

Lemma wf_loads md : wf_model md ->
  Forall (fun load => (2 < length load)%nat /\
            (0 <= Rtrunc (nth 0%nat load 0%R) < Z.of_nat (length (md_cons md)))%Z) (md_loads md).
Proof.
  intros (_ & HL & _ & HF). eapply Forall_impl; [|exact HF].
  intros row [Hl [n [Hn E]]]. split; [exact Hl|]. rewrite E, INR_Rtrunc. lia.
Qed.

(** what a successful run computes *)
Record run_facts (md : model) (out : outcome R) (bc : list (list Z)) (neq : nat)
       (op : list (list Z)) (K : list (list R)) (u : list R) : Prop := {
  rf_num : numbering (md_cons md) bc neq;
  rf_bc : bc_ok 2 neq bc;
  rf_len : length bc = length (md_nodes md);
  rf_op : Forall2 (row_spec bc 2 18) (md_elements md) op;
  rf_neq : out_neq out = Z.of_nat neq;
  rf_shape : shape neq neq K;
  rf_stiff : Forall (fun e => exists m, retriever e (md_mats md) (md_nodes md) None =
                     Ok (e_stiff (md_mats md) (md_nodes md) e, m) /\
                     shape (2 * e_n e) (2 * e_n e) (e_stiff (md_mats md) (md_nodes md) e) /\
                     (2 * e_n e <= 18)%nat) (md_elements md);
  rf_K : forall p q, (p < neq)%nat -> (q < neq)%nat ->
    ent K p q = lsum (fun l => scatter l (l_K l) p q)
                  (map (mk_loc (md_mats md) (md_nodes md)) (combine (md_elements md) op));
  rf_len_u : length u = neq;
  rf_sol : forall i d, (i < length (md_nodes md))%nat -> (d < 2)%nat -> (0 <= zent bc i d)%Z ->
    act neq K (fun q => nth q u 0) (Z.to_nat (zent bc i d)) = applied (md_loads md) i d;
  rf_table : forall i d, (i < length (md_nodes md))%nat -> (d < 2)%nat ->
    table out i d = if (zent bc i d =? -1)%Z then 0 else nth (Z.to_nat (zent bc i d)) u 0;
  rf_tshape : shape (length (md_nodes md)) 2 (out_disp out)
}.

Lemma run_inv sv md plot strains out :
  wf_model md -> solver_ok sv -> auto sv md plot strains = Ok out ->
  exists bc neq op K u, run_facts md out bc neq op K u.
Proof.
  intros Hwf Hsv Hrun. pose proof (wf_loads md Hwf) as Hloads.
  destruct Hwf as (Hf & HL & Hel & Hld).
  unfold auto, solids_auto, run in Hrun. inv_ok Hrun. destruct r as [[op bc] neqZ]. rename Hr into HDME.
  unfold DME in HDME. destruct (eqcounter_numbering 2 _ Hf) as [bc' [Heq Hnum]].
  rewrite Heq in HDME. cbn [bind] in HDME. inv_ok HDME. rename r into op', Hr into Hop.
  apply Ok_inj in HDME. injection HDME as -> -> <-.
  set (neq := count_free (md_cons md)) in *.
  rewrite Nat2Z.id in Hrun.
  pose proof (numbering_bc_ok _ _ _ _ Hf Hnum) as Hbc.
  pose proof (numbering_length _ _ _ Hnum) as Hlen.
  assert (Hbl : length bc = length (md_nodes md)) by congruence.
  apply mapM_ok in Hop.
  assert (Hrows : Forall2 (fun e row => (exists t nd nn ng, np_get e 1 = Ok t /\ eletype t = Ok (nd, nn, ng) /\
       nd = ((length e - 3) * 2)%nat) /\ row_spec bc 2 18 e row) (md_elements md) op).
  { clear -Hop Hel Hbc Hbl. induction Hop as [|e row els op He _ IH]; constructor.
    - inversion Hel as [|? ? He1 _]; subst.
      destruct (dme_row_inv bc e row) as (t & nd & nn & ng & H1 & H2 & H3 & H4); auto.
      + apply Hbc.
      + rewrite Hbl. exact He1.
      + split; [|exact H4]. exists t, nd, nn, ng. auto.
    - apply IH. inversion Hel; assumption. }
  inv_ok Hrun. destruct r as [gk gm]. cbn [assembler] in Hr. inv_ok Hr. destruct r as [K M].
  rename Hr0 into Hsp. apply Ok_pair_inj in Hr. destruct Hr as [<- <-].
  inv_ok Hrun. rename r into rhs, Hr into Hrhs.
  destruct (loadasem_ok (md_loads md) bc neq 2 Hbc) as (rhs' & Er & Lr & Hrv).
  { rewrite Hlen. exact Hloads. }
  rewrite Er in Hrhs. apply Ok_inj in Hrhs. subst rhs'.
  inv_ok Hrun. rename r into u, Hr into Hsol. cbn [static_sol] in Hsol.
  destruct (Hsv _ _ _ Hsol) as [Lu Hu]. rewrite Lr in Lu, Hu.
  inv_ok Hrun. inv_ok Hrun. rename r0 into U, Hr0 into HU.
  destruct (complete_disp_ok bc (md_nodes md) u 2 neq) as (U' & EU & SU & HUv); auto; try apply Hbc.
  rewrite EU in HU. apply Ok_inj in HU. subst U'.
  inv_ok Hrun. inv_ok Hrun. apply Ok_inj in Hrun.
  assert (Hout : out_disp out = U) by (subst out; reflexivity).
  assert (Hstiff : forall e, In e (md_elements md) -> forall k m, retriever e (md_mats md) (md_nodes md) None = Ok (k, m) ->
     shape (2 * e_n e) (2 * e_n e) k /\ (2 * e_n e <= 18)%nat).
  { intros e He k m Hret. apply retriever_builtin in Hret.
    destruct Hret as (t & im & pr & rows & f & Ht & _ & _ & _ & Hfn & Hk).
    assert (Hty : exists t nd nn ng, np_get e 1 = Ok t /\ eletype t = Ok (nd, nn, ng) /\ nd = ((length e - 3) * 2)%nat).
    { clear -Hrows He. induction Hrows as [|e' row els op [Hty _] _ IH]; [contradiction|].
      destruct He as [->|He]; [exact Hty|apply IH; exact He]. }
    destruct Hty as (t' & nd & nn & ng & Ht' & Hty & Hnd). rewrite Ht in Ht'. apply Ok_inj in Ht'. subst t'.
    destruct (ele_fun_shape t f nd nn ng _ _ k m Hfn Hty Hk) as [Sk _].
    replace (2 * e_n e)%nat with nd by (unfold e_n; lia). split; [exact Sk|].
    clear -Hty. unfold eletype in Hty.
    repeat (match type of Hty with context [match ?z with _ => _ end] => destruct z end);
      try discriminate; injection Hty as <- _ _; lia. }
  destruct (sparse_assem_inv (md_elements md) (md_mats md) (md_nodes md) neq op K M) as (SK & Hret & HK).
  { eapply Forall2_len; exact Hop. }
  { intros e k m He Hret. destruct (Hstiff e He k m Hret) as [Sk _].
    pose proof (proj1 Sk) as Lk. rewrite Lk. exact Sk. }
  { exact Hsp. }
  exists bc, neq, op, K, u. constructor; auto.
  - eapply Forall2_mono; [|exact Hrows]. intros e row [_ Hrow]. exact Hrow.
  - subst out. reflexivity.
  - apply Forall_forall. intros e He. rewrite Forall_forall in Hret. destruct (Hret e He) as [m Hm].
    exists m. split; [exact Hm|]. apply (Hstiff e He _ m Hm).
  - intros i d Hi Hd H0. assert (Hp : (Z.to_nat (zent bc i d) < neq)%nat).
    { destruct Hbc as (_ & Hrg & _). destruct (Hrg i d); lia. }
    rewrite Hu by exact Hp. rewrite Hrv by (auto; lia).
    symmetry. apply applied_last_load. eapply Forall_impl; [|exact Hld].
    intros row [_ [n [_ E]]]. exists n; exact E.
  - intros i d Hi Hd. unfold table. rewrite Hout. apply HUv; assumption.
  - rewrite Hout. exact SU.
Qed.

(** forces through equation numbers = forces at the nodes *)
Lemma elem_force_nodal bc neq mats nodes e row u U i d :
  bc_ok 2 neq bc ->
  Forall (fun z => (0 <= z < Z.of_nat (length bc))%Z) (skipn 3 e) ->
  row_spec bc 2 18 e row ->
  length (e_stiff mats nodes e) = (2 * e_n e)%nat ->
  (i < length bc)%nat -> (d < 2)%nat -> (0 <= zent bc i d)%Z ->
  (forall a b, (a < length bc)%nat -> (b < 2)%nat ->
     U a b = if (zent bc a b =? -1)%Z then 0 else u (Z.to_nat (zent bc a b))) ->
  elem_force (mk_loc mats nodes (e, row)) (e_stiff mats nodes e) u (Z.to_nat (zent bc i d)) =
  rsum (e_n e) (fun k => if (e_node e k =? i)%nat then e_force mats nodes U e (2 * k + d) else 0).
Proof.
  intros Hbc Hnodes (_ & Hrow & _) Hlen Hi Hd H0 HU.
  assert (Hnode : forall k, (k < e_n e)%nat -> (e_node e k < length bc)%nat).
  { intros k Hk. rewrite Forall_forall in Hnodes. unfold e_node.
    rewrite <- (nth_skipn e 3 k 0%Z).
    assert (In (nth k (skipn 3 e) 0%Z) (skipn 3 e)).
    { apply nth_In. rewrite skipn_length. exact Hk. }
    apply Hnodes in H. lia. }
  set (l := mk_loc mats nodes (e, row)). unfold elem_force.
  assert (Hln : l_n l = (2 * e_n e)%nat) by exact Hlen. rewrite Hln.
  assert (Heq : forall k b, (k < e_n e)%nat -> (b < 2)%nat -> l_eq l (2 * k + b) = zent bc (e_node e k) b).
  { intros k b Hk Hb. unfold l_eq, l. cbn [mk_loc l_op snd]. rewrite Nat.mul_comm.
    rewrite Hrow by assumption. reflexivity. }
  assert (Hg : forall j, (j < 2 * e_n e)%nat -> gather l u j = e_disp U e j).
  { intros j Hj. unfold e_disp.
    assert (Hk : (j / 2 < e_n e)%nat) by (apply Nat.div_lt_upper_bound; lia).
    assert (Hb : (j mod 2 < 2)%nat) by (apply Nat.mod_upper_bound; lia).
    rewrite HU by (auto; apply Hnode; exact Hk).
    rewrite <- Heq by assumption. rewrite <- Nat.div_mod by lia. reflexivity. }
  assert (Hact : forall r, act (2 * e_n e) (e_stiff mats nodes e) (gather l u) r = e_force mats nodes U e r).
  { intros r. apply act_ext. exact Hg. }
  rewrite rsum_even_odd. apply rsum_ext. intros k Hk.
  rewrite !Hact.
  pose proof (Heq k 0%nat Hk ltac:(lia)) as E0. rewrite Nat.add_0_r in E0.
  pose proof (Heq k 1%nat Hk ltac:(lia)) as E1. rewrite E0, E1.
  destruct Hbc as (_ & Hrg & Hinj & _).
  assert (Hcase : forall b, (b < 2)%nat ->
     (zent bc (e_node e k) b =? Z.of_nat (Z.to_nat (zent bc i d)))%Z = ((e_node e k =? i)%nat && (b =? d)%nat)).
  { intros b Hb. destruct (Z.eqb_spec (zent bc (e_node e k) b) (Z.of_nat (Z.to_nat (zent bc i d)))) as [E|E].
    - rewrite Z2Nat.id in E by exact H0.
      destruct (Hinj i d (e_node e k) b) as [-> ->]; auto. rewrite !Nat.eqb_refl. reflexivity.
    - destruct (Nat.eqb_spec (e_node e k) i) as [Ei|]; [|reflexivity].
      destruct (Nat.eqb_spec b d) as [Eb|]; [|reflexivity]. exfalso. apply E. subst. lia. }
  rewrite !Hcase by lia.
  destruct (e_node e k =? i)%nat; cbn [andb]; [|lra].
  assert (d = 0 \/ d = 1)%nat as [->| ->] by lia; cbn [Nat.eqb]; rewrite ?Nat.add_0_r; lra.
Qed.

Lemma mk_loc_range bc neq mats nodes e row :
  bc_ok 2 neq bc ->
  Forall (fun z => (0 <= z < Z.of_nat (length bc))%Z) (skipn 3 e) ->
  row_spec bc 2 18 e row -> length (e_stiff mats nodes e) = (2 * e_n e)%nat ->
  eq_range neq (mk_loc mats nodes (e, row)).
Proof.
  intros Hbc Hnodes (_ & Hrow & _) Hlen r Hr.
  change (l_n (mk_loc mats nodes (e, row))) with (length (e_stiff mats nodes e)) in Hr. rewrite Hlen in Hr.
  assert (Hk : (r / 2 < e_n e)%nat) by (apply Nat.div_lt_upper_bound; lia).
  assert (Hb : (r mod 2 < 2)%nat) by (apply Nat.mod_upper_bound; lia).
  unfold l_eq. cbn [mk_loc l_op snd]. rewrite (Nat.div_mod r 2) by lia. rewrite Nat.mul_comm.
  rewrite Hrow by assumption.
  destruct Hbc as (_ & Hrg & _). destruct (Hrg (node_of e (r / 2)) (r mod 2)) as [E|E]; auto; try lia.
  unfold node_of. rewrite Forall_forall in Hnodes. rewrite <- (nth_skipn e 3 (r / 2) 0%Z).
  assert (Hin : In (nth (r / 2) (skipn 3 e) 0%Z) (skipn 3 e)).
  { apply nth_In. rewrite skipn_length. exact Hk. }
  apply Hnodes in Hin. lia.
Qed.

(** K u at the equation of (i, d) is the internal force of the table *)
Lemma act_internal md out bc neq op K u0 u U i d :
  wf_model md -> run_facts md out bc neq op K u0 ->
  (forall a b, (a < length (md_nodes md))%nat -> (b < 2)%nat ->
     U a b = if (zent bc a b =? -1)%Z then 0 else u (Z.to_nat (zent bc a b))) ->
  (i < length (md_nodes md))%nat -> (d < 2)%nat -> (0 <= zent bc i d)%Z ->
  act neq K u (Z.to_nat (zent bc i d)) =
  internal_force (md_mats md) (md_nodes md) (md_elements md) U i d.
Proof.
  intros (_ & _ & Hel & _) F HU Hi Hd H0.
  assert (HF : Forall (eq_range neq) (map (mk_loc (md_mats md) (md_nodes md)) (combine (md_elements md) op))).
  { pose proof (rf_op _ _ _ _ _ _ _ F) as Hop. pose proof (rf_stiff _ _ _ _ _ _ _ F) as Hst.
    pose proof (rf_bc _ _ _ _ _ _ _ F) as Hbc. pose proof (rf_len _ _ _ _ _ _ _ F) as Hlen.
    rewrite <- Hlen in Hel. clear -Hop Hst Hel Hbc.
    induction Hop as [|e row els op Hrow _ IH]; cbn [combine map]; constructor.
    - inversion Hst as [|? ? [m [_ [Sk _]]] _]; subst. inversion Hel; subst.
      apply (mk_loc_range bc); auto. apply Sk.
    - inversion Hst; inversion Hel; subst; apply IH; assumption. }
  rewrite (act_sum neq l_K K (map (mk_loc (md_mats md) (md_nodes md)) (combine (md_elements md) op)) u); auto.
  - unfold internal_force. rewrite lsum_map.
    pose proof (rf_op _ _ _ _ _ _ _ F) as Hop. pose proof (rf_stiff _ _ _ _ _ _ _ F) as Hst.
    pose proof (rf_bc _ _ _ _ _ _ _ F) as Hbc. pose proof (rf_len _ _ _ _ _ _ _ F) as Hlen.
    rewrite <- Hlen in Hel, Hi, HU. clear -Hop Hst Hel Hbc Hi Hd H0 HU.
    induction Hop as [|e row els op Hrow _ IH]; cbn [combine lsum fold_right]; [reflexivity|].
    inversion Hst as [|? ? [m [_ [Sk _]]] Hst']; subst. inversion Hel as [|? ? He1 Hel']; subst.
    cbn [l_K mk_loc]. f_equal.
    + apply (elem_force_nodal bc neq); auto. apply Sk.
    + apply IH; assumption.
  - destruct (rf_bc _ _ _ _ _ _ _ F) as (_ & Hrg & _).
    destruct (Hrg i d); try lia. rewrite (rf_len _ _ _ _ _ _ _ F). exact Hi.
  - apply (rf_K _ _ _ _ _ _ _ F).
Qed.

Lemma cons_row md i : wf_model md -> (i < length (md_nodes md))%nat ->
  length (nth i (md_cons md) []) = 2%nat /\
  forall d, (d < 2)%nat -> ent (md_cons md) i d = 0 \/ ent (md_cons md) i d = -1.
Proof.
  intros (Hf & HL & _) Hi. unfold flags01 in Hf. rewrite Forall_forall in Hf.
  destruct (Hf (nth i (md_cons md) [])) as [H1 H2]; [apply nth_In; lia|].
  split; [exact H1|]. intros d Hd. rewrite Forall_forall in H2. apply H2. apply nth_In. lia.
Qed.

Lemma run_equilibrium sv md plot strains out :
  wf_model md -> solver_ok sv -> auto sv md plot strains = Ok out ->
  in_equilibrium md (table out).
Proof.
  intros Hwf Hsv Hrun. destruct (run_inv sv md plot strains out Hwf Hsv Hrun) as (bc & neq & op & K & u & F).
  intros i d Hi Hd. destruct (cons_row md i Hwf Hi) as [Hrow _].
  destruct (numbering_entry _ _ _ i d (rf_num _ _ _ _ _ _ _ F)) as [Hm1 H0].
  { destruct Hwf as (_ & HL & _). lia. } { lia. }
  split; intros Hc.
  - rewrite (rf_table _ _ _ _ _ _ _ F) by assumption. rewrite Hm1 by exact Hc. reflexivity.
  - specialize (H0 Hc). rewrite <- (rf_sol _ _ _ _ _ _ _ F) by assumption. symmetry.
    eapply act_internal; eauto. intros a b Ha Hb. apply (rf_table _ _ _ _ _ _ _ F); assumption.
Qed.

(** ** uniqueness, superposition *)
Lemma e_force_lin mats nodes U V a b e j :
  e_force mats nodes (fun i d => a * U i d + b * V i d) e j =
  a * e_force mats nodes U e j + b * e_force mats nodes V e j.
Proof.
  unfold e_force, act. rewrite <- !rsum_scal, <- rsum_plus. apply rsum_ext. intros c _.
  unfold e_disp. lra.
Qed.

Lemma internal_force_lin mats nodes elements U V a b i d :
  internal_force mats nodes elements (fun i d => a * U i d + b * V i d) i d =
  a * internal_force mats nodes elements U i d + b * internal_force mats nodes elements V i d.
Proof.
  unfold internal_force. rewrite <- !lsum_scal, <- lsum_plus. apply lsum_ext. intros e _.
  rewrite <- !rsum_scal, <- rsum_plus. apply rsum_ext. intros k _.
  rewrite e_force_lin. destruct (e_node e k =? i)%nat; lra.
Qed.

Lemma stable_unique md U V : stable md -> wf_model md -> in_equilibrium md U -> in_equilibrium md V ->
  forall i d, (i < length (md_nodes md))%nat -> (d < 2)%nat -> U i d = V i d.
Proof.
  intros Hst Hwf HU HV i d Hi Hd.
  enough (1 * U i d + (-1) * V i d = 0) by lra.
  apply (Hst (fun i d => 1 * U i d + (-1) * V i d)); auto.
  intros a b Ha Hb. destruct (HU a b Ha Hb) as [U1 U2], (HV a b Ha Hb) as [V1 V2]. split; intros Hc.
  - rewrite U1, V1 by exact Hc. lra.
  - rewrite internal_force_lin, U2, V2 by exact Hc. lra.
Qed.
