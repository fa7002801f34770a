(** * Proofs: runs with tied dofs *)
From Coq Require Import Reals List Arith Lia Lra Bool ZArith.
From Verif Require Import Num LinAlg Gauss Fem Uel Assem Post Main Script Spec LinR Base SpecAssem SpecModel SpecElem SpecModes SpecScript SpecStiff SpecTied
  AssemProofs AssemProofs2 AssemProofs3 AssemProofs4 ElemShape ElemCore ModelProofs MeshProofs StaticProofs ScriptProofs ScriptProofs2 StiffProofs RefineProofs TiedProofs.
Import ListNotations.
Local Open Scope R_scope.

Section Tied.
  Variables (p : problem) (bc : list (list Z)).
  Let neq := count_free (p_cons p).
  Let d := p_dofs p.
  Hypothesis Hd : (0 < d)%nat.
  Hypothesis HB : tied_bc d (p_cons p) bc.
  Hypothesis HL : length (p_cons p) = length (p_nodes p).

  Lemma tied_loc_range e row : Forall (fun z => (0 <= z < Z.of_nat (length bc))%Z) (skipn 3 e) -> row_spec bc d (p_max p) e row ->
    shape (d * e_n e) (d * e_n e) (p_stiff p e) -> eq_range neq (p_loc p (e, row)).
  Proof.
    intros Hn Hrow HK r Hr. rewrite (p_loc_n p e row HK) in Hr. destruct (p_split p Hd e r Hr) as (Hk & Hb & E). rewrite E.
    rewrite (p_loc_eq p bc e row Hrow) by assumption.
    destruct (tb_range _ _ _ HB (e_node e (r / d)) (r mod d)) as [Z|Z]; [rewrite <- (tb_len _ _ _ HB); exact (p_node p bc Hd e Hn _ Hk)|exact Hb| |].
    - fold d. lia.
    - fold d neq in Z |- *. lia.
  Qed.
  Lemma tied_elem_force e row u U q : Forall (fun z => (0 <= z < Z.of_nat (length bc))%Z) (skipn 3 e) -> row_spec bc d (p_max p) e row ->
    shape (d * e_n e) (d * e_n e) (p_stiff p e) -> spread bc d u U ->
    elem_force (p_loc p (e, row)) (p_stiff p e) u q =
    rsum (length (p_nodes p)) (fun i => rsum d (fun b => if shareb (p_cons p) i b q then
      rsum (e_n e) (fun k => if (e_node e k =? i)%nat then act (d * e_n e) (p_stiff p e) (p_disp p U e) (d * k + b) else 0) else 0)).
  Proof.
    intros Hn Hrow HK HU. pose proof (tb_len _ _ _ HB) as Hlen. unfold elem_force. rewrite (p_loc_n p e row HK). fold d.
    assert (Hact : forall r, act (d * e_n e) (p_stiff p e) (gather (p_loc p (e, row)) u) r = act (d * e_n e) (p_stiff p e) (p_disp p U e) r).
    { intros r. apply act_ext. exact (p_gather p bc Hd e row Hn Hrow u U HU). }
    rewrite rsum_split_mul.
    transitivity (rsum (e_n e) (fun k => rsum (length (p_nodes p)) (fun i => if (e_node e k =? i)%nat then
      rsum d (fun b => if shareb (p_cons p) i b q then act (d * e_n e) (p_stiff p e) (p_disp p U e) (d * k + b) else 0) else 0))).
    - apply rsum_ext. intros k Hk. pose proof (p_node p bc Hd e Hn k Hk) as Hi. rewrite Hlen in Hi. rewrite (rsum_single (length (p_nodes p)) (e_node e k)).
      + rewrite Nat.eqb_refl. apply rsum_ext. intros a Ha. pose proof (p_loc_eq p bc e row Hrow k a Hk Ha) as EQ. fold d in EQ. rewrite EQ, Hact, (tb_share _ _ _ HB _ a q Hi Ha). reflexivity.
      + lia.
      + intros i _ Hne. destruct (Nat.eqb_spec (e_node e k) i); [congruence|reflexivity].
    - rewrite rsum_swap. apply rsum_ext. intros i _.
      transitivity (rsum (e_n e) (fun k => rsum d (fun b => if shareb (p_cons p) i b q then
        (if (e_node e k =? i)%nat then act (d * e_n e) (p_stiff p e) (p_disp p U e) (d * k + b) else 0) else 0))).
      + apply rsum_ext. intros k _. destruct (e_node e k =? i)%nat; [reflexivity|]. symmetry. apply rsum_zero. intros b _. destruct (shareb (p_cons p) i b q); reflexivity.
      + rewrite rsum_swap. apply rsum_ext. intros b _. destruct (shareb (p_cons p) i b q); [reflexivity|]. apply rsum_zero. intros; reflexivity.
  Qed.
End Tied.

Record tied_facts (p : problem) (op bc : list (list Z)) (K M : list (list R)) : Prop := {
  tf_dme : DME (p_cons p) (p_elements p) (p_dofs p) (p_max p) (p_ndof p) = Ok (op, bc, Z.of_nat (count_free (p_cons p)));
  tf_asm : forall sparse, assembler (p_elements p) (p_mats p) (p_nodes p) (count_free (p_cons p)) op sparse (p_uel p) =
    Ok (if sparse then (Csr K, Csr M) else (Dense K, Dense M));
  tf_bc : tied_bc (p_dofs p) (p_cons p) bc;
  tf_K : shape (count_free (p_cons p)) (count_free (p_cons p)) K;
  tf_act : forall u U q, spread bc (p_dofs p) u U -> (q < count_free (p_cons p))%nat ->
    act (count_free (p_cons p)) K u q = over p q (p_internal p U)
}.
Lemma tied_system p : wf_tied p -> exists op bc K M, tied_facts p op bc K M.
Proof.
  intros Hwf. pose proof Hwf as (Hd & Hf & HL & Hel & _). destruct (tied_DME p Hwf) as (op & bc & HD & HB & Hop).
  set (neq := count_free (p_cons p)) in *. pose proof (tb_len _ _ _ HB) as Hlen.
  set (locs := map (p_loc p) (combine (p_elements p) op)).
  assert (Hrows : Forall2 (fun e row => Forall (fun z => (0 <= z < Z.of_nat (length bc))%Z) (skipn 3 e) /\ row_spec bc (p_dofs p) (p_max p) e row /\
     retriever e (p_mats p) (p_nodes p) (p_uel p) = Ok (p_stiff p e, M2 (p_mass p e)) /\ ((length e - 3) * p_dofs p <= p_max p)%nat /\
     shape (p_dofs p * e_n e) (p_dofs p * e_n e) (p_stiff p e) /\ shape (p_dofs p * e_n e) (p_dofs p * e_n e) (p_mass p e)) (p_elements p) op).
  { rewrite Hlen. clear -Hel Hop. induction Hop as [|e row els op Hrow _ IH]; constructor.
    - inversion Hel as [|? ? [(t & _ & _ & Hm & Hn) (k & m & Hr & Sk & Sm)] _]; subst.
      unfold p_stiff, p_mass. rewrite Hr. auto 10.
    - apply IH. inversion Hel; assumption. }
  assert (Hlocs : locals_of (p_elements p) (p_mats p) (p_nodes p) op (p_uel p) locs).
  { unfold locs. split.
    - clear -Hrows. induction Hrows as [|e row els op (_ & _ & Hr & _) _ IH]; cbn [combine map]; constructor; [exact Hr|exact IH].
    - clear -Hrows. induction Hrows as [|e row els op _ _ IH]; cbn [combine map]; [reflexivity|]. cbn [p_loc l_op snd]. f_equal. exact IH. }
  assert (Hrange : Forall (eq_range neq) locs).
  { unfold locs. clear -Hrows HB Hd HL. induction Hrows as [|e row els op (H1 & H2 & _ & _ & H3 & _) _ IH]; cbn [combine map]; constructor; [|exact IH].
    exact (tied_loc_range p bc Hd HB HL e row H1 H2 H3). }
  assert (Hok : Forall (local_ok neq) locs).
  { clear Hlocs. unfold locs in *. clear -Hrows Hrange. revert Hrange. induction Hrows as [|e row els op (_ & H2 & _ & Hm & H3 & H4) _ IH]; cbn [combine map]; intros HR; constructor.
    - inversion HR as [|? ? HR1 _]; subst. unfold local_ok. assert (En : l_n (p_loc p (e, row)) = (p_dofs p * e_n e)%nat) by exact (proj1 H3).
      rewrite En. split; [exact H3|]. split; [exact H4|]. split.
      + cbn [p_loc l_op snd]. rewrite (proj1 H2). unfold e_n. lia.
      + intros r Hr. apply HR1. rewrite En. exact Hr.
    - apply IH. inversion HR; assumption. }
  destruct (assembler_ok _ _ _ _ _ _ _ true Hlocs Hok) as (K & M & E1 & SK & SM & HE).
  destruct (assembler_ok _ _ _ _ _ _ _ false Hlocs Hok) as (K' & M' & E2 & SK' & SM' & HE').
  assert (K' = K) by (apply (mat_ext neq neq); auto; intros i j Hi Hj; rewrite (proj1 (HE' i j Hi Hj)), (proj1 (HE i j Hi Hj)); reflexivity).
  assert (M' = M) by (apply (mat_ext neq neq); auto; intros i j Hi Hj; rewrite (proj2 (HE' i j Hi Hj)), (proj2 (HE i j Hi Hj)); reflexivity).
  subst K' M'. exists op, bc, K, M. constructor; auto.
  - intros [|]; assumption.
  - intros u U q HU Hq. fold neq in Hq |- *.
    rewrite (act_sum neq l_K K locs u _ Hrange Hq); [|intros q0 q' Hq0 Hq'; apply HE; assumption].
    unfold over, p_internal, locs. rewrite lsum_map.
    transitivity (lsum (fun e => rsum (length (p_nodes p)) (fun i => rsum (p_dofs p) (fun b => if shareb (p_cons p) i b q then
      rsum (e_n e) (fun k => if (e_node e k =? i)%nat then act (p_dofs p * e_n e) (p_stiff p e) (p_disp p U e) (p_dofs p * k + b) else 0) else 0))) (p_elements p)).
    + clear -Hrows HB Hd HL HU. induction Hrows as [|e row els op (H1 & H2 & _ & _ & H3 & _) _ IH]; cbn [combine lsum fold_right]; [reflexivity|]. f_equal; [|exact IH].
      cbn [l_K p_loc fst]. exact (tied_elem_force p bc Hd HB HL e row u U q H1 H2 H3 HU).
    + rewrite lsum_rsum. apply rsum_ext. intros i _. rewrite lsum_rsum. apply rsum_ext. intros b _. destruct (shareb (p_cons p) i b q); [reflexivity|].
      apply lsum_all0. intros; reflexivity.
Qed.

(** ** loads *)
Lemma tied_load_row cons bc d rhs load node : tied_bc d cons bc -> length rhs = count_free cons -> (d < length load)%nat ->
  nth 0 load 0 = INR node -> (node < length cons)%nat ->
  exists rhs', load_row bc d rhs load = Ok rhs' /\ length rhs' = count_free cons /\
    forall q, nth q rhs' 0 = if (q <? count_free cons)%nat then fold_left (fun v a => if shareb cons node a q then nth (a + 1) load 0 else v) (seq 0 d) (nth q rhs 0) else 0.
Proof.
  intros HB Hrl Hload Hnode Hn. unfold load_row.
  change 0%Z with (Z.of_nat 0). rewrite (np_get_nth load 0 0) by lia. cbn [bind].
  change (ntrunc (nth 0 load 0)) with (Rtrunc (nth 0 load 0)). rewrite Hnode, INR_IZR_INZ, Rtrunc_IZR.
  pose proof (tb_len _ _ _ HB) as HL. pose proof (tb_row _ _ _ HB) as HR. 
  assert (Hrow : length (nth node bc []) = d) by (rewrite Forall_forall in HR; apply HR, nth_In; lia).
  enough (Hgen : forall m, (m <= d)%nat -> exists rhs',
    foldM (fun rhs dof => brow <- np_get bc (Z.of_nat node) ;; dof_id <- np_get brow (Z.of_nat dof) ;;
         if (dof_id =? -1)%Z then Ok rhs else v <- np_get load (Z.of_nat dof + 1)%Z ;; np_upd rhs dof_id (fun _ => v)) (seq 0 m) rhs = Ok rhs' /\ length rhs' = count_free cons /\
    forall q, (q < count_free cons)%nat -> nth q rhs' 0 = fold_left (fun v a => if shareb cons node a q then nth (a + 1) load 0 else v) (seq 0 m) (nth q rhs 0)).
  { destruct (Hgen d (le_n d)) as (rhs' & He & HL' & Hv). exists rhs'. split; [exact He|]. split; [exact HL'|]. intros q. destruct (Nat.ltb_spec q (count_free cons)).
    - apply Hv. assumption.
    - apply nth_overflow. lia. }
  induction m as [|m IH]; intros Hm.
  - exists rhs. split; [reflexivity|]. split; [exact Hrl|]. reflexivity.
  - destruct IH as (r1 & He & HL1 & Hv); [lia|]. rewrite foldM_seq_S, He. cbn [bind].
    rewrite (np_get_nth bc node []) by lia. cbn [bind].
    rewrite (np_get_nth _ m (-1)%Z) by lia. cbn [bind]. fold (zent bc node m).
    destruct (Z.eqb_spec (zent bc node m) (-1)) as [E|E].
    + exists r1. split; [reflexivity|]. split; [exact HL1|]. intros q Hq. rewrite seq_S, fold_left_app, <- Hv by exact Hq. cbn [fold_left Nat.add].
      rewrite <- (tb_share _ _ _ HB node m q Hn ltac:(lia)), E. destruct (Z.eqb_spec (-1) (Z.of_nat q)); [lia|reflexivity].
    + destruct (tb_range _ _ _ HB node m) as [|Hz]; [exact Hn|lia|contradiction|].
      replace (Z.of_nat m + 1)%Z with (Z.of_nat (m + 1)) by lia.
      rewrite (np_get_nth load (m + 1) 0) by lia. cbn [bind].
      rewrite np_upd_nonneg by lia. eexists; split; [reflexivity|]. split; [rewrite upd_length; exact HL1|].
      intros q Hq. rewrite upd_nth by lia. rewrite seq_S, fold_left_app, <- Hv by exact Hq. cbn [fold_left Nat.add].
      rewrite <- (tb_share _ _ _ HB node m q Hn ltac:(lia)).
      destruct (Nat.eqb_spec q (Z.to_nat (zent bc node m))) as [Ez|Ez], (Z.eqb_spec (zent bc node m) (Z.of_nat q)); try lia; reflexivity.
Qed.
Lemma fold_left_ext_in {A B} (f g : B -> A -> B) l b : (forall v a, In a l -> f v a = g v a) -> fold_left f l b = fold_left g l b.
Proof. revert b. induction l as [|a l IH]; intros b H; [reflexivity|]. cbn. rewrite H by (left; reflexivity). apply IH. intros v x Hx. apply H. right. exact Hx. Qed.
Lemma tied_loads p bc : wf_tied p -> tied_bc (p_dofs p) (p_cons p) bc -> exists rhs, loadasem (p_loads p) bc (count_free (p_cons p)) (p_dofs p) = Ok rhs /\
  length rhs = count_free (p_cons p) /\ forall q, (q < count_free (p_cons p))%nat -> nth q rhs 0 = tied_load p q.
Proof.
  intros (_ & _ & HL & _ & Hld) HB. unfold loadasem, tied_load.
  assert (Z0 : forall q, nth q (vzeros (count_free (p_cons p))) 0 = 0).
  { intros q. destruct (le_lt_dec (count_free (p_cons p)) q) as [Hq|Hq]; [apply nth_overflow; unfold vzeros; rewrite mk_vec_length; exact Hq|unfold vzeros; rewrite mk_vec_nth by exact Hq; reflexivity]. }
  enough (G : forall r0, length r0 = count_free (p_cons p) -> exists rhs, foldM (load_row bc (p_dofs p)) (p_loads p) r0 = Ok rhs /\ length rhs = count_free (p_cons p) /\
    forall q, (q < count_free (p_cons p))%nat -> nth q rhs 0 = fold_left (fun v row => fold_left (fun v d =>
    if existsb (fun i => (if Req_EM_T (nth 0 row 0) (INR i) then true else false) && shareb (p_cons p) i d q) (seq 0 (length (p_nodes p)))
    then nth (d + 1) row 0 else v) (seq 0 (p_dofs p)) v) (p_loads p) (nth q r0 0)).
  { destruct (G (vzeros (count_free (p_cons p)))) as (rhs & H1 & H2 & H3); [apply mk_vec_length|]. exists rhs. split; [exact H1|]. split; [exact H2|]. intros q Hq. rewrite (H3 q Hq), Z0. reflexivity. }
  induction Hld as [|row loads [Hl (n & Hn & En)] _ IH]; intros r0 L0; cbn [foldM].
  - exists r0. split; [reflexivity|]. split; [exact L0|]. reflexivity.
  - destruct (tied_load_row (p_cons p) bc (p_dofs p) r0 row n HB L0 Hl En ltac:(lia)) as (r1 & -> & L1 & H1). cbn [bind].
    destruct (IH r1 L1) as (rhs & E & L2 & H2). exists rhs. split; [exact E|]. split; [exact L2|]. intros q Hq. rewrite (H2 q Hq). cbn [fold_left]. f_equal.
    rewrite (H1 q). destruct (Nat.ltb_spec q (count_free (p_cons p))); [|lia].
    apply fold_left_ext_in. intros v a _.
    replace (existsb (fun i => (if Req_EM_T (nth 0 row 0) (INR i) then true else false) && shareb (p_cons p) i a q) (seq 0 (length (p_nodes p)))) with (shareb (p_cons p) n a q); [reflexivity|].
    symmetry. destruct (shareb (p_cons p) n a q) eqn:S.
    + apply existsb_exists. exists n. split; [apply in_seq; lia|]. rewrite S, En. destruct (Req_EM_T (INR n) (INR n)); [reflexivity|lra].
    + apply not_true_is_false. intros C. apply existsb_exists in C. destruct C as (i & _ & C). rewrite En in C. destruct (Req_EM_T (INR n) (INR i)) as [E0|]; [|discriminate].
      apply INR_eq in E0. subst i. cbn in C. congruence.
Qed.

(** ** runs *)
Lemma tied_run sv p sparse op bc K M : wf_tied p -> tied_facts p op bc K M ->
  exists rhs, length rhs = count_free (p_cons p) /\ (forall q, (q < count_free (p_cons p))%nat -> nth q rhs 0 = tied_load p q) /\
    p_script sv p sparse = (disp <- (if sparse then spsolve sv K rhs else npsolve sv K rhs) ;; complete_disp bc (p_nodes p) disp (p_dofs p)).
Proof.
  intros Hwf F. destruct (tied_loads p bc Hwf (tf_bc _ _ _ _ _ F)) as (rhs & Er & Lr & Hr).
  exists rhs. split; [exact Lr|]. split; [exact Hr|].
  unfold p_script, script. rewrite (tf_dme _ _ _ _ _ F). cbn [bind]. rewrite Nat2Z.id, (tf_asm _ _ _ _ _ F sparse), Er.
  destruct sparse; cbn [bind static_sol]; reflexivity.
Qed.
Lemma spread_tied p bc u U : wf_tied p -> tied_bc (p_dofs p) (p_cons p) bc -> spread bc (p_dofs p) u U -> tied p U.
Proof.
  intros (_ & _ & HL & _) HB HU. pose proof (tb_len _ _ _ HB) as Hlen. split.
  - intros i b [Hi Hb] C. rewrite (HU i b) by lia. rewrite (proj2 (tb_held _ _ _ HB i b ltac:(lia) Hb) C). reflexivity.
  - intros q i b i' b' [Hi Hb] [Hi' Hb'] S S'. rewrite (HU i b), (HU i' b') by lia.
    rewrite <- (tb_share _ _ _ HB) in S, S' by lia. apply Z.eqb_eq in S, S'. rewrite S, S'. reflexivity.
Qed.
Theorem tied_solved sv p sparse U : wf_tied p -> solvers_ok sv -> p_script sv p sparse = Ok U ->
  shape (length (p_nodes p)) (p_dofs p) U /\ tied_equilibrium p (ent U).
Proof.
  intros Hwf [S1 S2] H. destruct (tied_system p Hwf) as (op & bc & K & M & F). pose proof Hwf as (_ & _ & HL & _).
  destruct (tied_run sv p sparse op bc K M Hwf F) as (rhs & Lr & Hr & E). rewrite E in H. clear E.
  inv_ok H. rename r into u.
  assert (HS : length u = count_free (p_cons p) /\ forall q, (q < count_free (p_cons p))%nat -> act (count_free (p_cons p)) K (fun j => nth j u 0) q = nth q rhs 0).
  { rewrite <- Lr. destruct sparse; [exact (S1 _ _ _ Hr0)|exact (S2 _ _ _ Hr0)]. }
  destruct HS as [Lu Hu]. pose proof (tf_bc _ _ _ _ _ F) as HB. pose proof (tb_len _ _ _ HB) as Hlen.
  destruct (complete_disp_ok bc (p_nodes p) u (p_dofs p) (count_free (p_cons p))) as (U' & EU & SU & HUv); auto; try apply HB; try lia.
  { intros i j Hi Hj. apply (tb_range _ _ _ HB); lia. }
  rewrite EU in H. apply Ok_inj in H. subst U'. split; [exact SU|].
  assert (Hsp : spread bc (p_dofs p) (fun q => nth q u 0) (ent U)) by (intros a b Ha Hb; apply HUv; [lia|exact Hb]).
  split; [exact (spread_tied p bc _ _ Hwf HB Hsp)|]. intros q Hq. rewrite <- (tf_act _ _ _ _ _ F _ _ q Hsp Hq), (Hu q Hq). apply Hr. exact Hq.
Qed.
Theorem tied_runs sv p sparse : wf_tied p -> solvers_ok sv -> solvers_total sv -> tied_stable p -> exists U, p_script sv p sparse = Ok U.
Proof.
  intros Hwf [S1 S2] Ht Hst. destruct (tied_system p Hwf) as (op & bc & K & M & F). pose proof Hwf as (_ & _ & HL & _).
  destruct (tied_run sv p sparse op bc K M Hwf F) as (rhs & Lr & _ & E). pose proof (tf_bc _ _ _ _ _ F) as HB. pose proof (tb_len _ _ _ HB) as Hlen.
  assert (Hreg : regular (count_free (p_cons p)) K).
  { intros u Hu q Hq. destruct (tb_onto _ _ _ HB q Hq) as (i & b & Hi & Hb & Eq).
    assert (Z : spread_of bc u i b = 0).
    { apply Hst; [exact (spread_tied p bc u _ Hwf HB (spread_of_ok bc _ u))| |split; [lia|exact Hb]].
      intros q' Hq'. rewrite <- (tf_act _ _ _ _ _ F u _ q' (spread_of_ok bc _ u) Hq'). apply Hu. exact Hq'. }
    unfold spread_of in Z. rewrite Eq in Z. replace (Z.of_nat q =? -1)%Z with false in Z by (symmetry; apply Z.eqb_neq; lia). rewrite Nat2Z.id in Z. exact Z. }
  destruct (Ht _ K rhs (tf_K _ _ _ _ _ F) Lr Hreg) as [[x X] [y Y]].
  assert (G : forall u, length u = count_free (p_cons p) -> exists U, complete_disp bc (p_nodes p) u (p_dofs p) = Ok U).
  { intros u Hu. destruct (complete_disp_ok bc (p_nodes p) u (p_dofs p) (count_free (p_cons p))) as (U & EU & _); auto; try apply HB; try lia.
    - intros i j Hi Hj. apply (tb_range _ _ _ HB); lia.
    - exists U. exact EU. }
  rewrite E. destruct sparse; [rewrite X|rewrite Y]; cbn [bind]; apply G; rewrite <- Lr; [exact (proj1 (S1 _ _ _ X))|exact (proj1 (S2 _ _ _ Y))].
Qed.
