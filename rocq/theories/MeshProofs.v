(** * Proofs: meshes of built-in elements; balance of forces; energy; solver dispatch *)
From Coq Require Import String Reals List Arith Lia Lra Bool ZArith.
From Verif Require Import Num LinAlg Gauss Fem Uel Assem Post Main Spec LinR Base SpecAssem SpecModel AssemProofs AssemProofs2 AssemProofs3 AssemProofs4
  ElemShape ModelProofs ModelProofs2 BarProofs SpecElem ElemCore Sampled Elem2 Elem2Props BeamProofs ElemFinal2 ElemFinal3.
Import ListNotations.
Local Open Scope R_scope.

(** ** what a successful assembly says about each element *)
Lemma assembler_retrieved elements mats nodes neq op sparse gk gm : length op = length elements ->
  @assembler R Num_R elements mats nodes neq op sparse None = Ok (gk, gm) ->
  Forall (fun e => exists k m, retriever e mats nodes None = Ok (k, m)) elements.
Proof.
  intros HL HA. apply Forall_forall. intros e He. apply In_nth_error in He. destruct He as [i Hi].
  assert (Hlt : (i < length op)%nat) by (rewrite HL; apply nth_error_Some; congruence).
  destruct (nth_error op i) as [arow|] eqn:Ho; [|apply nth_error_None in Ho; lia].
  assert (Hin : In (e, @Ok (list Z) arow) (elem_rows elements op)).
  { unfold elem_rows. apply in_map_iff. exists i. split.
    - rewrite (np_get_error _ _ _ Ho). f_equal. apply nth_error_nth. exact Hi.
    - apply in_seq. split; [lia|]. apply nth_error_Some. congruence. }
  unfold assembler in HA. destruct sparse; inv_ok HA.
  - unfold sparse_assem in Hr. inv_ok Hr. eapply foldM_step in Hr0; [|exact Hin].
    destruct Hr0 as [c [c' Hs]]. cbv beta iota in Hs. inv_ok Hs. destruct r1 as [K m]. eauto.
  - unfold dense_assem in Hr. eapply foldM_step in Hr; [|exact Hin].
    destruct Hr as [c [c' Hs]]. cbv beta iota in Hs. inv_ok Hs. destruct r0 as [K m]. eauto.
Qed.

Lemma row_range bc d max neq (cons : list (list R)) e row r : bc_ok d neq bc -> length bc = length cons ->
  Forall (fun z => (0 <= z < Z.of_nat (length cons))%Z) (skipn 3 e) ->
  row_spec bc d max e row -> (r < (length e - 3) * d)%nat -> (-1 <= nth r row (-1)%Z < Z.of_nat neq)%Z.
Proof.
  intros Hbc HL Hn (_ & Hrow & _) Hr. assert (Hd : d <> 0%nat) by nia.
  assert (Hk : (r / d < length e - 3)%nat) by (apply Nat.div_lt_upper_bound; lia).
  assert (Hb : (r mod d < d)%nat) by (apply Nat.mod_upper_bound; lia).
  rewrite (Nat.div_mod r d) by lia. rewrite Nat.mul_comm. rewrite Hrow by assumption.
  destruct Hbc as (_ & Hrg & _). destruct (Hrg (node_of e (r / d)) (r mod d)) as [E|E]; auto; try lia.
  unfold node_of. rewrite Forall_forall in Hn. rewrite <- (nth_skipn e 3 (r / d) 0%Z).
  assert (Hin : In (nth (r / d) (skipn 3 e) 0%Z) (skipn 3 e)) by (apply nth_In; rewrite skipn_length; exact Hk).
  apply Hn in Hin. lia.
Qed.

Lemma mesh_locals d max cons elements mats nodes sparse op bc neq gk gm :
  flags01 d cons -> Forall (good_row d max None cons) elements ->
  DME cons elements d max None = Ok (op, bc, neq) ->
  assembler elements mats nodes (Z.to_nat neq) op sparse None = Ok (gk, gm) ->
  Forall (fun e => nth_error e 1 <> Some 5%Z) elements ->
  exists locs, locals_of elements mats nodes op None locs /\ Forall (local_ok (Z.to_nat neq)) locs.
Proof.
  intros HF HG HD HA H5. destruct (DME_ok d max None cons elements HF HG) as [op' [bc' [HD' [Hnum Hrows]]]].
  rewrite HD in HD'. apply Ok_inj in HD'. injection HD' as <- <- ->. rewrite Nat2Z.id in *.
  pose proof (numbering_bc_ok _ _ _ _ HF Hnum) as Hbc. pose proof (numbering_length _ _ _ Hnum) as Hlen.
  pose proof (Forall2_len _ _ _ Hrows) as HL.
  pose proof (assembler_retrieved _ _ _ _ _ _ _ _ (eq_sym HL) HA) as Hret. clear HA HL HD.
  induction Hrows as [|e row es rows Hrow _ IH]; [exists []; split; [split; constructor|constructor]|].
  inversion HG as [|? ? [t [Ht [Hd [Hmax Hnodes]]]] HG']; subst. inversion H5 as [|? ? Hn5 H5']; subst.
  inversion Hret as [|? ? [k [m Hk]] Hret']; subst. destruct (IH HG' H5' Hret') as [locs [[H1 H2] H3]].
  unfold dofs_of in Hd. inv_ok Hd. destruct r as [[nd nn] ng]. apply Ok_inj in Hd. subst nd.
  pose proof Hk as Hk0. apply retriever_builtin in Hk. destruct Hk as (t' & im & pr & rs & f & Ht' & _ & _ & _ & Hf & Hk).
  change 1%Z with (Z.of_nat 1) in Ht'. rewrite (np_get_error _ _ _ Ht) in Ht'. apply Ok_inj in Ht'. subst t'.
  destruct (ele_fun_shape _ _ _ _ _ _ _ _ _ Hf Hr Hk) as [Sk [[E _]|[_ [M [-> SM]]]]]; [subst t; contradiction|].
  exists (mkLocal row k M :: locs). split; [split; [constructor; assumption|cbn; rewrite H2; reflexivity]|].
  constructor; [|exact H3]. unfold local_ok, l_n, l_eq. cbn [l_K l_M l_op]. destruct Sk as [Lk Sk]. rewrite Lk.
  split; [split; [exact Lk|exact Sk]|]. split; [exact SM|]. split; [rewrite (proj1 Hrow); exact Hmax|].
  intros r Hr'. eapply row_range; eassumption.
Qed.

(** ** C06 *)
Definition material_rows_ok (mats : list (list R)) (elements : list (list Z)) : Prop :=
  forall elem t im params, In elem elements -> nth_error elem 1 = Some t -> nth_error elem 2 = Some im ->
     np_get mats im = Ok params -> material_ok t params.

Lemma not_spring elements mats nodes neq op sparse gk gm : length op = length elements ->
  @assembler R Num_R elements mats nodes neq op sparse None = Ok (gk, gm) ->
  material_rows_ok mats elements -> Forall (fun e => nth_error e 1 <> Some 5%Z) elements.
Proof.
  intros HL HA Hm. pose proof (assembler_retrieved _ _ _ _ _ _ _ _ HL HA) as HR.
  apply Forall_forall. intros e He Ht. rewrite Forall_forall in HR. destruct (HR e He) as [k [m Hk]].
  apply retriever_builtin in Hk. destruct Hk as (t' & im & pr & rs & f & Ht' & Hi & Hp & _).
  assert (G : forall (z : Z) (k : nat), np_get e (Z.of_nat k) = Ok z -> nth_error e k = Some z).
  { intros z j Hz. destruct (nth_error e j) eqn:E; [rewrite (np_get_error _ _ _ E) in Hz; congruence|].
    apply nth_error_None in E. rewrite np_get_overflow in Hz by lia. discriminate. }
  exact (Hm e 5%Z im pr He Ht (G im 2%nat Hi) Hp).
Qed.

Lemma mesh_sym_psd d max cons elements mats nodes sparse op bc neq gk gm :
  flags01 d cons -> Forall (good_row d max None cons) elements ->
  DME cons elements d max None = Ok (op, bc, neq) ->
  assembler elements mats nodes (Z.to_nat neq) op sparse None = Ok (gk, gm) ->
  (forall elem t im params, In elem elements -> nth_error elem 1 = Some t -> nth_error elem 2 = Some im ->
     np_get mats im = Ok params -> material_ok t params) ->
  let n := Z.to_nat neq in
  symmetric n (fst (mats_of (gk, gm))) /\ symmetric n (snd (mats_of (gk, gm))) /\
  psd n (fst (mats_of (gk, gm))) /\ psd n (snd (mats_of (gk, gm))).
Proof.
  intros HF HG HD HA Hm. cbv zeta.
  assert (HL : length op = length elements).
  { destruct (DME_ok d max None cons elements HF HG) as [op' [bc' [HD' [_ Hrows]]]].
    rewrite HD in HD'. apply Ok_inj in HD'. injection HD' as <- <- ->. symmetry. exact (Forall2_len _ _ _ Hrows). }
  pose proof (not_spring _ _ _ _ _ _ _ _ HL HA Hm) as H5.
  destruct (mesh_locals _ _ _ _ _ _ _ _ _ _ _ _ HF HG HD HA H5) as [locs [H1 H2]].
  exact (builtin_assembled _ _ _ _ _ _ _ _ _ H1 H2 HA Hm).
Qed.

(** ** C15: element forces are orthogonal to rigid motions *)
Lemma plane_params p coord params K m : In p planes -> pl_f p coord params = Ok (K, m) -> exists E nu rest, params = E :: nu :: rest.
Proof.
  intros Hp Hf. destruct (plane_summary p coord _ K m Hp Hf) as [E' [nu' [rho [M [Hpar _]]]]].
  assert (Ho : par_opt params = Some (E', nu', rho) -> exists E nu rest, params = E :: nu :: rest).
  { unfold par_opt. destruct params as [|a [|b r]]; try discriminate. eauto. }
  destruct Hp as [<-|[<-|[<-|[<-|[<-|[]]]]]]; try (apply Ho; exact Hpar).
  cbn in Hpar. unfold par3 in Hpar. destruct params as [|a [|b r]]; try discriminate. eauto.
Qed.

Lemma form_sym n K u v : symmetric n K -> form n K u v = form n K v u.
Proof.
  intros HS. unfold form, act.
  transitivity (rsum n (fun i => rsum n (fun j => u i * (ent K i j * v j)))).
  - apply rsum_ext. intros i Hi. rewrite rsum_scal. reflexivity.
  - rewrite rsum_swap. apply rsum_ext. intros j Hj. rewrite <- rsum_scal. apply rsum_ext. intros i Hi.
    rewrite (HS i j Hi Hj). ring.
Qed.

Lemma form_act0 n K u v : symmetric n K -> (forall i, (i < n)%nat -> act n K v i = 0) -> form n K v u = 0.
Proof.
  intros HS H. rewrite form_sym by exact HS. unfold form. transitivity (rsum n (fun _ => 0)); [|apply rsum_zero; reflexivity].
  apply rsum_ext. intros i Hi. rewrite H by exact Hi. ring.
Qed.

Lemma type_rigid t f nd nn ng coord params K m : (1 <= t <= 4 \/ t = 6)%Z -> @ele_fun R Num_R t = Ok f -> eletype t = Ok (nd, nn, ng) ->
  length coord = nn -> Forall (fun r => length r = 2%nat) coord ->
  f coord params = Ok (K, m) ->
  nd = (2 * nn)%nat /\ forall a b w u, form nd K (rigid2 coord a b w) u = 0.
Proof.
  intros Ht Hf He Hl Hc Hk.
  assert (Hpl : forall n, In (f, n) plane_list -> forall a b w u, form (2 * n) K (rigid2 coord a b w) u = 0).
  { intros n Hin a b w u. apply form_act0.
    - destruct (plane_of f n Hin) as [p [Hp [Ef <-]]]. rewrite <- Ef in Hk.
      destruct (plane_params p coord params K m Hp Hk) as [E [nu [rest ->]]].
      rewrite Ef in Hk. apply (plane_sym_psd f (pl_n p) Hin coord E nu rest K m Hk).
    - intros i Hi. exact (plane_rigid_free f n Hin coord params K m Hk a b w i Hi). }
  assert (Hbar : nn = 2%nat -> exists xa ya xb yb, coord = [[xa; ya]; [xb; yb]]).
  { intros ->. destruct coord as [|c0 [|c1 [|? ?]]]; try discriminate. inversion Hc as [|? ? H0 H1]; subst.
    inversion H1 as [|? ? H2 _]; subst. destruct c0 as [|xa [|ya [|? ?]]]; try discriminate.
    destruct c1 as [|xb [|yb [|? ?]]]; try discriminate. eauto. }
  assert (Hcase : (t = 1 \/ t = 2 \/ t = 3 \/ t = 4 \/ t = 6)%Z) by lia.
  destruct Hcase as [-> |[-> |[-> |[-> | ->]]]]; cbn in Hf, He; apply Ok_inj in Hf; subst f;
    apply Ok_inj in He; injection He as <- <- <-; (split; [reflexivity|]).
  - apply (Hpl 4%nat). cbn; tauto.
  - apply (Hpl 6%nat). cbn; tauto.
  - apply (Hpl 3%nat). cbn; tauto.
  - apply (Hpl 9%nat). cbn; tauto.
  - destruct (Hbar eq_refl) as (xa & ya & xb & yb & ->). intros a b w u.
    pose proof (truss_inv _ _ _ _ Hk) as Hi. destruct Hi as (nx & ny & L & E & A & r & _ & -> & _).
    apply form_act0.
    + apply (truss_sym_psd _ _ _ _ _ _ Hk).
    + apply (bars_rigid xa ya xb yb K m). left. eauto.
Qed.

Lemma rsum_node_sum N n (c : nat -> nat) (g : nat -> nat -> R) : (forall k, (k < n)%nat -> (c k < N)%nat) ->
  rsum N (fun i => rsum n (fun k => if (c k =? i)%nat then g k i else 0)) = rsum n (fun k => g k (c k)).
Proof.
  intros Hc. rewrite rsum_swap. apply rsum_ext. intros k Hk. specialize (Hc k Hk).
  rewrite (rsum_single N (c k)).
  - rewrite Nat.eqb_refl. reflexivity.
  - exact Hc.
  - intros i Hi Hne. replace (c k =? i)%nat with false by (symmetry; apply Nat.eqb_neq; congruence). reflexivity.
Qed.

Lemma rsum_pairs n (g : nat -> R) : rsum (2 * n) g = rsum n (fun k => g (2 * k)%nat + g (2 * k + 1)%nat).
Proof.
  induction n as [|n IH]; [reflexivity|]. replace (2 * S n)%nat with (S (S (2 * n))) by lia. cbn [rsum].
  rewrite IH. replace (2 * n + 1)%nat with (S (2 * n)) by lia. ring.
Qed.

Lemma mapM_rows (nodes : list (list R)) ids : Forall (fun z => (0 <= z < Z.of_nat (length nodes))%Z) ids ->
  mapM (np_get nodes) ids = Ok (map (fun z => nth (Z.to_nat z) nodes []) ids).
Proof.
  induction 1 as [|z l Hz _ IH]; [reflexivity|]. cbn [mapM map]. rewrite IH.
  rewrite <- (Z2Nat.id z) at 1 by lia. rewrite (np_get_nth _ _ []) by lia. reflexivity.
Qed.

Lemma elem_virtual md e : wf_model md -> node_rows_ok md -> In e (md_elements md) ->
  (exists t nd nn ng, nth_error e 1 = Some t /\ (1 <= t <= 4 \/ t = 6)%Z /\ eletype t = Ok (nd, nn, ng) /\ length e = (3 + nn)%nat) ->
  (exists k m, retriever e (md_mats md) (md_nodes md) None = Ok (k, m)) ->
  forall U a b w,
  rsum (length (md_nodes md)) (fun i =>
    node_rigid (md_nodes md) a b w i 0 * rsum (e_n e) (fun k => if (e_node e k =? i)%nat then e_force (md_mats md) (md_nodes md) U e (2 * k + 0) else 0)
    + node_rigid (md_nodes md) a b w i 1 * rsum (e_n e) (fun k => if (e_node e k =? i)%nat then e_force (md_mats md) (md_nodes md) U e (2 * k + 1) else 0)) = 0.
Proof.
  intros (_ & _ & Hel & _) Hn He (t & nd & nn & ng & Ht & Hrange & Hty & Hle) [k0 [m Hret]] U a b w.
  rewrite Forall_forall in Hel. specialize (Hel e He). rename Hel into Hids.
  pose proof Hret as Hret0. apply retriever_builtin in Hret. destruct Hret as (t' & im & pr & rs & f & Ht' & _ & _ & Hrs & Hf & Hk).
  change 1%Z with (Z.of_nat 1) in Ht'. rewrite (np_get_error _ _ _ Ht) in Ht'. apply Ok_inj in Ht'. subst t'.
  rewrite (mapM_rows _ _ Hids) in Hrs. apply Ok_inj in Hrs. subst rs.
  assert (Hen : e_n e = nn) by (unfold e_n; lia).
  assert (Hnode : forall k, (k < e_n e)%nat -> (e_node e k < length (md_nodes md))%nat).
  { intros k Hk'. rewrite Forall_forall in Hids. unfold e_node. rewrite <- (nth_skipn e 3 k 0%Z).
    assert (In (nth k (skipn 3 e) 0%Z) (skipn 3 e)) as Hin by (apply nth_In; rewrite skipn_length; exact Hk').
    apply Hids in Hin. lia. }
  set (coord := map (@tl R) (map (fun z => nth (Z.to_nat z) (md_nodes md) []) (skipn 3 e))) in *.
  assert (Hlc : length coord = nn) by (unfold coord; rewrite !map_length, skipn_length; lia).
  assert (Hrow : forall k, (k < nn)%nat -> nth k coord [] = tl (nth (e_node e k) (md_nodes md) [])).
  { intros k Hk'. unfold coord. rewrite map_map. rewrite (nth_indep _ [] ((fun z => tl (nth (Z.to_nat z) (md_nodes md) [])) 0%Z)).
    - rewrite (map_nth (fun z => tl (nth (Z.to_nat z) (md_nodes md) []))). rewrite nth_skipn. reflexivity.
    - rewrite map_length, skipn_length. lia. }
  assert (Hc2 : Forall (fun r => length r = 2%nat) coord).
  { apply Forall_forall. intros r Hin. apply (In_nth _ _ []) in Hin. destruct Hin as [k [Hk' <-]]. rewrite Hrow by lia.
    unfold node_rows_ok in Hn. rewrite Forall_forall in Hn. specialize (Hn (nth (e_node e k) (md_nodes md) [])).
    destruct (nth (e_node e k) (md_nodes md) []) as [|? [|? [|? [|? ?]]]] eqn:E; try reflexivity;
      (assert (HH : In (nth (e_node e k) (md_nodes md) []) (md_nodes md)) by (apply nth_In; apply Hnode; lia));
      rewrite E in HH; specialize (Hn HH); discriminate. }
  destruct (type_rigid t f nd nn ng coord pr k0 m Hrange Hf Hty Hlc Hc2 Hk) as [-> HR].
  assert (HS : e_stiff (md_mats md) (md_nodes md) e = k0) by (unfold e_stiff; rewrite Hret0; reflexivity).
  rewrite rsum_plus.
  assert (Hd : forall d, rsum (length (md_nodes md)) (fun i => node_rigid (md_nodes md) a b w i d *
      rsum (e_n e) (fun k => if (e_node e k =? i)%nat then e_force (md_mats md) (md_nodes md) U e (2 * k + d) else 0))
     = rsum nn (fun k => node_rigid (md_nodes md) a b w (e_node e k) d * e_force (md_mats md) (md_nodes md) U e (2 * k + d))).
  { intros d. rewrite <- Hen.
    rewrite <- (rsum_node_sum (length (md_nodes md)) (e_n e) (e_node e) (fun k i => node_rigid (md_nodes md) a b w i d * e_force (md_mats md) (md_nodes md) U e (2 * k + d))) by exact Hnode.
    apply rsum_ext. intros i _. rewrite <- rsum_scal. apply rsum_ext. intros k _. destruct (e_node e k =? i)%nat; ring. }
  rewrite !Hd, <- rsum_plus.
  transitivity (form (2 * nn) k0 (rigid2 coord a b w) (e_disp U e)); [|apply HR].
  unfold form. rewrite rsum_pairs. apply rsum_ext. intros k Hk'.
  unfold e_force. rewrite HS, Hen.
  assert (Hx : forall j, ent (md_nodes md) (e_node e k) (S j) = ent coord k j).
  { intros j. unfold ent. rewrite Hrow by exact Hk'. destruct (nth (e_node e k) (md_nodes md) []); [destruct j; reflexivity|reflexivity]. }
  unfold node_rigid. cbn [Nat.eqb]. rewrite !Hx, Nat.add_0_r. unfold rigid2, affine2.
  assert (Ev : forall ux uy, field2 ux uy (2 * k) = ux k).
  { intros. unfold field2. rewrite Nat.even_mul. cbn [Nat.even orb]. rewrite Nat.div2_double. reflexivity. }
  assert (Od : forall ux uy, field2 ux uy (2 * k + 1) = uy k).
  { intros. unfold field2. rewrite Nat.add_1_r, Nat.even_succ, <- Nat.negb_even, Nat.even_mul. cbn [Nat.even orb negb]. 
    rewrite Nat.div2_succ_double. reflexivity. }
  rewrite Ev, Od. unfold node_x, node_y. ring.
Qed.

Lemma lsum_rsum_swap {A} N (g : nat -> A -> R) l : rsum N (fun i => lsum (g i) l) = lsum (fun a => rsum N (fun i => g i a)) l.
Proof.
  induction l as [|x l IH]; cbn [lsum fold_right]; [apply rsum_zero; reflexivity|].
  rewrite rsum_plus. f_equal. exact IH.
Qed.
Lemma lsum_all0 {A} (g : A -> R) l : (forall a, In a l -> g a = 0) -> lsum g l = 0.
Proof.
  induction l as [|x l IH]; intros H; [reflexivity|]. cbn. rewrite (H x (or_introl eq_refl)), Rplus_0_l. apply IH. intros; apply H; right; assumption.
Qed.

Lemma forces_balance md : wf_model md -> node_rows_ok md -> continuum_or_truss md ->
  Forall (fun e => exists k m, retriever e (md_mats md) (md_nodes md) None = Ok (k, m)) (md_elements md) ->
  forall U a b w,
  rsum (length (md_nodes md)) (fun i => rsum 2 (fun d =>
    node_rigid (md_nodes md) a b w i d * internal_force (md_mats md) (md_nodes md) (md_elements md) U i d)) = 0.
Proof.
  intros Hwf Hn Hty Hret U a b w.
  transitivity (rsum (length (md_nodes md)) (fun i => lsum (fun e =>
    node_rigid (md_nodes md) a b w i 0 * rsum (e_n e) (fun k => if (e_node e k =? i)%nat then e_force (md_mats md) (md_nodes md) U e (2 * k + 0) else 0)
    + node_rigid (md_nodes md) a b w i 1 * rsum (e_n e) (fun k => if (e_node e k =? i)%nat then e_force (md_mats md) (md_nodes md) U e (2 * k + 1) else 0)) (md_elements md))).
  - apply rsum_ext. intros i _. rewrite lsum_plus, !lsum_scal. cbn [rsum]. rewrite Rplus_0_l. reflexivity.
  - rewrite lsum_rsum_swap. apply lsum_all0. intros e He.
    unfold continuum_or_truss in Hty. rewrite Forall_forall in Hty, Hret. destruct (Hty e He) as [t [Ht Hn']].
    apply elem_virtual; auto. unfold e_n in Hn'.
    assert (Hcase : (t = 1 \/ t = 2 \/ t = 3 \/ t = 4 \/ t = 6)%Z).
    { unfold type_nodes in Hn'. repeat (match type of Hn' with context [match ?z with _ => _ end] => destruct z end); try discriminate; lia. }
    destruct Hcase as [-> |[-> |[-> |[-> | ->]]]]; cbn in Hn'; injection Hn' as Hn'; do 4 eexists; (split; [exact Ht|]); (split; [lia|]);
      (split; [reflexivity|lia]).
Qed.

Lemma run_retrieved sv md plot strains out : wf_model md -> solver_ok sv -> auto sv md plot strains = Ok out ->
  Forall (fun e => exists k m, retriever e (md_mats md) (md_nodes md) None = Ok (k, m)) (md_elements md).
Proof.
  intros Hwf Hsv Hrun. destruct (run_inv sv md plot strains out Hwf Hsv Hrun) as (bc & neq & op & K & u & F).
  eapply Forall_impl; [|exact (rf_stiff _ _ _ _ _ _ _ F)]. intros e [m [H _]]. eauto.
Qed.

Lemma reactions_virtual sv md plot strains out : wf_model md -> node_rows_ok md -> continuum_or_truss md -> solver_ok sv ->
  auto sv md plot strains = Ok out -> forall a b w,
  rsum (length (md_nodes md)) (fun i => rsum 2 (fun d =>
    node_rigid (md_nodes md) a b w i d * (reaction md (table out) i d + applied (md_loads md) i d))) = 0.
Proof.
  intros Hwf Hn Hty Hsv Hrun a b w.
  rewrite <- (forces_balance md Hwf Hn Hty (run_retrieved _ _ _ _ _ Hwf Hsv Hrun) (table out) a b w).
  pose proof (run_equilibrium _ _ _ _ _ Hwf Hsv Hrun) as Heq.
  apply rsum_ext. intros i Hi. apply rsum_ext. intros d Hd. f_equal. unfold reaction.
  destruct (Heq i d Hi Hd) as [_ H0]. destruct (Req_EM_T (ent (md_cons md) i d) (-1)) as [E|E]; [lra|].
  destruct (cons_row md i Hwf Hi) as [_ Hc]. destruct (Hc d Hd) as [E0|E0]; [|contradiction]. rewrite (H0 E0). lra.
Qed.

Lemma reactions_balance sv md plot strains out d : wf_model md -> node_rows_ok md -> continuum_or_truss md -> solver_ok sv ->
  auto sv md plot strains = Ok out -> (d < 2)%nat ->
  rsum (length (md_nodes md)) (fun i => reaction md (table out) i d) + rsum (length (md_nodes md)) (fun i => applied (md_loads md) i d) = 0.
Proof.
  intros Hwf Hn Hty Hsv Hrun Hd. rewrite <- rsum_plus.
  assert (Ed : (d = 0 \/ d = 1)%nat) by lia. destruct Ed as [-> | ->].
  - rewrite <- (reactions_virtual _ _ _ _ _ Hwf Hn Hty Hsv Hrun 1 0 0). apply rsum_ext. intros i _. unfold node_rigid. cbn. ring.
  - rewrite <- (reactions_virtual _ _ _ _ _ Hwf Hn Hty Hsv Hrun 0 1 0). apply rsum_ext. intros i _. unfold node_rigid. cbn. ring.
Qed.

Lemma moments_balance sv md plot strains out : wf_model md -> node_rows_ok md -> continuum_or_truss md -> solver_ok sv ->
  auto sv md plot strains = Ok out ->
  let total i d := reaction md (table out) i d + applied (md_loads md) i d in
  rsum (length (md_nodes md)) (fun i => ent (md_nodes md) i 1 * total i 1%nat - ent (md_nodes md) i 2 * total i 0%nat) = 0.
Proof.
  intros Hwf Hn Hty Hsv Hrun. cbv zeta.
  rewrite <- (reactions_virtual _ _ _ _ _ Hwf Hn Hty Hsv Hrun 0 0 1). apply rsum_ext. intros i _. unfold node_rigid. cbn [rsum Nat.eqb]. ring.
Qed.

(** ** C16 *)
Lemma energy_work u K f : length f = length u ->
  (forall p, (p < length u)%nat -> act (length u) K (fun q => nth q u 0) p = nth p f 0) ->
  energy u K = - (1 / 2) * rsum (length u) (fun p => nth p f 0 * nth p u 0).
Proof. intros _ H. rewrite energy_form. f_equal. apply form_load. exact H. Qed.

Lemma energy_elements elements mats nodes neq op uel locs sparse gk gm u :
  locals_of elements mats nodes op uel locs -> Forall (local_ok neq) locs ->
  assembler elements mats nodes neq op sparse uel = Ok (gk, gm) -> length u = neq ->
  let v l := gather l (fun i => nth i u 0) in
  energy u (fst (mats_of (gk, gm))) = - (1 / 2) * lsum (fun l => form (l_n l) (l_K l) (v l) (v l)) locs.
Proof.
  intros HL HO HA <-. cbv zeta. rewrite energy_form. f_equal.
  apply (proj1 (proj2 (assembled_action _ _ _ _ _ _ _ _ _ _ HL HO HA))).
Qed.

Lemma energy_sign u K : psd (length u) K -> energy u K <= 0.
Proof. intros H. rewrite energy_form. specialize (H (fun i => nth i u 0)). lra. Qed.

Lemma energy_scale c u K : energy (map (Rmult c) u) K = c ^ 2 * energy u K.
Proof.
  rewrite !energy_form, map_length.
  rewrite (form_ext_lt _ _ _ (fun i => c * nth i u 0) _ (fun i => c * nth i u 0)).
  - rewrite form_scal. ring.
  - intros j Hj. rewrite (nth_indep _ 0 (c * 0)) by (rewrite map_length; exact Hj). apply (map_nth (Rmult c)).
  - intros j Hj. rewrite (nth_indep _ 0 (c * 0)) by (rewrite map_length; exact Hj). apply (map_nth (Rmult c)).
Qed.

(** ** C17 *)
Lemma dispatch elements mats nodes neq op uel gk gm (sp np : list (list R) -> list R -> res (list R)) f (sparse : bool) :
  assembler elements mats nodes neq op sparse uel = Ok (gk, gm) ->
  static_sol sp np gk f = (if sparse then sp else np) (fst (mats_of (gk, gm))) f /\
  static_sol sp np gm f = (if sparse then sp else np) (snd (mats_of (gk, gm))) f.
Proof.
  intros HA. unfold assembler in HA. destruct sparse; inv_ok HA; destruct r as [k m]; apply Ok_pair_inj in HA; destruct HA as [<- <-]; split; reflexivity.
Qed.

Lemma dispatch_other (sp np : list (list R) -> list R -> res (list R)) a f : static_sol sp np (OtherMat a) f = Err TypeError.
Proof. reflexivity. Qed.

Lemma same_answer elements mats nodes neq op uel gk gm gk' gm' sp np f x y :
  op_in_range elements mats nodes neq op uel -> sound sp -> sound np -> length f = neq ->
  assembler elements mats nodes neq op true uel = Ok (gk, gm) ->
  assembler elements mats nodes neq op false uel = Ok (gk', gm') ->
  regular neq (fst (mats_of (gk, gm))) ->
  static_sol sp np gk f = Ok x -> static_sol sp np gk' f = Ok y -> x = y.
Proof.
  intros Hop Hsp Hnp Hl HA HB Hreg Hx Hy.
  pose proof (assembler_agree elements mats nodes neq op uel Hop) as Hag. rewrite HA, HB in Hag.
  assert (E : gk = Csr (fst (mats_of (gk, gm))) /\ gk' = Dense (fst (mats_of (gk', gm')))).
  { unfold assembler in HA, HB. inv_ok HA; destruct r as [k m]; apply Ok_pair_inj in HA; destruct HA as [<- <-].
    inv_ok HB; destruct r as [k' m']; apply Ok_pair_inj in HB; destruct HB as [<- <-]. split; reflexivity. }
  destruct E as [E1 E2]. change (fst (mats_of (gk, gm))) with (fst (mats_of (gk, gk))) in *.
  change (fst (mats_of (gk', gm'))) with (fst (mats_of (gk', gk'))) in *.
  set (A := fst (mats_of (gk, gk))) in *. set (A' := fst (mats_of (gk', gk'))) in *. clearbody A A'. subst gk gk'.
  assert (Hk : A = A') by (destruct gm; try contradiction; destruct gm'; try contradiction; apply Hag).
  subst A'. cbn [static_sol] in Hx, Hy.
  destruct (Hsp _ _ _ Hx) as [Lx Sx]. destruct (Hnp _ _ _ Hy) as [Ly Sy]. rewrite Hl in *.
  apply (nth_ext _ _ 0 0); [congruence|]. intros i Hi.
  assert (Hd : nth i x 0 - nth i y 0 = 0); [|lra].
  apply (Hreg (fun q => nth q x 0 - nth q y 0)); [|lia].
  intros p Hp. specialize (Sx p Hp). specialize (Sy p Hp). unfold act in *.
  transitivity (rsum neq (fun j => ent A p j * nth j x 0) + -1 * rsum neq (fun j => ent A p j * nth j y 0)).
  - rewrite <- rsum_scal, <- rsum_plus. apply rsum_ext. intros j _. ring.
  - rewrite Sx, Sy. ring.
Qed.

(** ** C19 *)
Definition beam_cons : list (list R) := [[-1; -1; -1]; [0; 0; 0]].
Definition beam_nodes : list (list R) := [[0; 0; 0]; [1; 1; 0]].
Definition beam_elements : list (list Z) := [[0; 8; 0; 0; 1]]%Z.
Definition beam_mats : list (list R) := [[1; 1; 1]].

Lemma beam_dme : DME beam_cons beam_elements 2 18 None =
  Ok ([[-1; -1; -1; 0; 1; 0; 0; 0; 0; 0; 0; 0; 0; 0; 0; 0; 0; 0]]%Z, [[-1; -1; -1]; [0; 1; 0]]%Z, 2%Z).
Proof.
  unfold DME, eqcounter. cbn [beam_cons beam_elements map]. change (@ntrunc R Num_R) with Rtrunc.
  rewrite (Rtrunc_IZR 0), (Rtrunc_IZR (-1)). reflexivity.
Qed.

Lemma beam_free : count_free beam_cons = 3%nat.
Proof. unfold count_free, beam_cons. cbn. repeat (destruct (Req_EM_T _ _); try lra). reflexivity. Qed.

Lemma beam_neq sv loads plot strains out :
  solids_auto sv beam_nodes beam_cons beam_elements beam_mats loads plot strains = Ok out -> out_neq out = 2%Z.
Proof.
  unfold solids_auto, run. rewrite beam_dme. cbn [bind]. intros H. inv_ok H. destruct r as [gk gm].
  do 6 inv_ok H. apply Ok_inj in H. subst out. reflexivity.
Qed.

Lemma beam2D_spec_run : exists K M, retriever [0; 8; 0; 0; 1]%Z beam_mats beam_nodes None = Ok (K, M2 M) /\ shape 6 6 K /\ shape 6 6 M.
Proof.
  destruct (beams_sym_psd 0 0 1 0 ltac:(left; lra) 1 1 1 [] ltac:(lra) ltac:(left; reflexivity)) as [K [M [H _]]].
  exists K, M. assert (HR : retriever [0; 8; 0; 0; 1]%Z beam_mats beam_nodes None = Ok (K, M2 M)) by exact H.
  split; [exact HR|]. exact (types_shape 8 beam2D 6 2 _ _ _ K M eq_refl eq_refl H).
Qed.

Definition echo_solver : solvers R := {| spsolve := fun _ f => Ok f; npsolve := fun _ f => Ok f |}.
Lemma beam_run : exists out, solids_auto echo_solver beam_nodes beam_cons beam_elements beam_mats [] false false = Ok out.
Proof.
  unfold solids_auto, run. rewrite beam_dme. cbn [bind]. change (Z.to_nat 2) with 2%nat.
  destruct (beam2D_spec_run) as [K [M [HR [HK HM]]]].
  set (op := [-1; -1; -1; 0; 1; 0; 0; 0; 0; 0; 0; 0; 0; 0; 0; 0; 0; 0]%Z).
  assert (HL : locals_of beam_elements beam_mats beam_nodes [op] None [mkLocal op K M]).
  { split; [|reflexivity]. constructor; [exact HR|constructor]. }
  assert (HO : Forall (local_ok 2) [mkLocal op K M]).
  { constructor; [|constructor]. unfold local_ok, l_n. cbn [l_K l_M l_op]. rewrite (proj1 HK).
    split; [exact HK|]. split; [exact HM|]. split; [cbn; lia|].
    intros r Hr. do 6 (destruct r as [|r]; [cbn; lia|]). lia. }
  destruct (assembler_ok _ _ _ _ _ _ _ true HL HO) as (K' & M' & He & _). rewrite He. cbn [bind loadasem foldM static_sol echo_solver spsolve].
  assert (Hq : exists w, @not_equilibrium R Num_R 2 (entries (Csr K')) (vzeros 2) (vzeros 2) = Ok w).
  { unfold not_equilibrium. cbn [length Nat.eqb guard bind vzeros repeat]. unfold gmax. cbn [mk_mat seq map mk_vec concat app fold_left bind].
    match goal with |- exists w, ?g = Ok w => destruct g eqn:EE end; [eexists; reflexivity|]. destruct (nis0 _); discriminate. }
  destruct Hq as [w Hq]. rewrite Hq. cbn [bind]. eexists. reflexivity.
Qed.

Lemma beam_equations_lost : count_free beam_cons = 3%nat /\
  (exists out, solids_auto echo_solver beam_nodes beam_cons beam_elements beam_mats [] false false = Ok out) /\
  forall sv loads plot strains out,
    solids_auto sv beam_nodes beam_cons beam_elements beam_mats loads plot strains = Ok out -> out_neq out = 2%Z.
Proof. split; [exact beam_free|]. split; [exact beam_run|exact beam_neq]. Qed.
