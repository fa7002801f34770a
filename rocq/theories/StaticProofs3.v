(** * Lemmas: the driver succeeds on stable models; meaning of the warning *)
From Coq Require Import Reals List Arith Lia Lra Bool ZArith QArith.
From Verif Require Import Num LinAlg Fem Uel Assem Post Main Spec LinR Base SpecAssem SpecModel SpecElem SpecStatic
  ElemShape AssemProofs AssemProofs2 AssemProofs3 AssemProofs4 ModelProofs ModelProofs2 BarProofs ElemFinal3 MeshProofs StaticProofs.
Import ListNotations.
Local Open Scope R_scope.

Definition out0 (n : nat) (neq : nat) : outcome R :=
  {| out_nnodes := 0; out_nels := 0; out_neq := Z.of_nat neq; out_warn := false; out_plot := None;
     out_disp := mk_mat n 2 (fun _ _ => 0); out_strains := None |}.

Lemma vzeros_nth n q : nth q (@vzeros R Num_R n) 0 = 0.
Proof.
  unfold vzeros. destruct (Nat.lt_ge_cases q n) as [Hq|Hq]; [rewrite mk_vec_nth by exact Hq; reflexivity|].
  apply nth_overflow. rewrite mk_vec_length. exact Hq.
Qed.
Lemma nabs_Rabs x : @nabs R Num_R x = Rabs x.
Proof. unfold nabs. cbn. destruct (Rle_dec 0 x); [rewrite Rabs_right by lra|rewrite Rabs_left by lra]; reflexivity. Qed.

(** the system of a model, without its loads *)
Lemma sys_facts md op bc neqZ K M : wf_model md -> DME (md_cons md) (md_elements md) 2 18 None = Ok (op, bc, neqZ) ->
  sparse_assem (md_elements md) (md_mats md) (md_nodes md) (Z.to_nat neqZ) op None = Ok (K, M) ->
  run_facts (with_loads md []) (out0 (length (md_nodes md)) (count_free (md_cons md))) bc (count_free (md_cons md)) op K (vzeros (count_free (md_cons md))) /\
  neqZ = Z.of_nat (count_free (md_cons md)).
Proof.
  intros (Hf & HL & Hel & Hld) HDME Hsp.
  unfold DME in HDME. destruct (eqcounter_numbering 2 _ Hf) as [bc' [Heq Hnum]].
  rewrite Heq in HDME. cbn [bind] in HDME. inv_ok HDME. rename r into op', Hr into Hop.
  apply Ok_inj in HDME. injection HDME as -> -> <-.
  set (neq := count_free (md_cons md)) in *. rewrite Nat2Z.id in Hsp.
  pose proof (numbering_bc_ok _ _ _ _ Hf Hnum) as Hbc.
  pose proof (numbering_length _ _ _ Hnum) as Hlen.
  assert (Hbl : length bc = length (md_nodes md)) by congruence.
  apply mapM_ok in Hop.
  assert (Hrows : Forall2 (fun e row => (exists t nd nn ng, np_get e 1 = Ok t /\ eletype t = Ok (nd, nn, ng) /\
       nd = ((length e - 3) * 2)%nat) /\ row_spec bc 2 18 e row) (md_elements md) op).
  { clear -Hop Hel Hbc Hbl. induction Hop as [|e row els op He _ IH]; constructor.
    - inversion Hel as [|? ? He1 _]; subst.
      destruct (dme_row_inv bc e row) as (t & nd & nn & ng & H1 & H2 & H3 & H4); auto.
      + apply Hbc.
      + rewrite Hbl. exact He1.
      + split; [|exact H4]. exists t, nd, nn, ng. auto.
    - apply IH. inversion Hel; assumption. }
  assert (Hstiff : forall e, In e (md_elements md) -> forall k m, retriever e (md_mats md) (md_nodes md) None = Ok (k, m) ->
     shape (2 * e_n e) (2 * e_n e) k /\ (2 * e_n e <= 18)%nat).
  { intros e He k m Hret. apply retriever_builtin in Hret.
    destruct Hret as (t & im & pr & rows & f & Ht & _ & _ & _ & Hfn & Hk).
    assert (Hty : exists t nd nn ng, np_get e 1 = Ok t /\ eletype t = Ok (nd, nn, ng) /\ nd = ((length e - 3) * 2)%nat).
    { clear -Hrows He. induction Hrows as [|e' row els op [Hty _] _ IH]; [contradiction|].
      destruct He as [->|He]; [exact Hty|apply IH; exact He]. }
    destruct Hty as (t' & nd & nn & ng & Ht' & Hty & Hnd). rewrite Ht in Ht'. apply Ok_inj in Ht'. subst t'.
    destruct (ele_fun_shape t f nd nn ng _ _ k m Hfn Hty Hk) as [Sk _].
    replace (2 * e_n e)%nat with nd by (unfold e_n; lia). split; [exact Sk|].
    clear -Hty. unfold eletype in Hty.
    repeat (match type of Hty with context [match ?z with _ => _ end] => destruct z end);
      try discriminate; injection Hty as <- _ _; lia. }
  destruct (sparse_assem_inv (md_elements md) (md_mats md) (md_nodes md) neq op K M) as (SK & Hret & HK).
  { eapply Forall2_len; exact Hop. }
  { intros e k m He Hret. destruct (Hstiff e He k m Hret) as [Sk _].
    pose proof (proj1 Sk) as Lk. rewrite Lk. exact Sk. }
  { exact Hsp. }
  assert (Z0 : forall q, nth q (vzeros neq) 0 = 0).
  { intros q. apply vzeros_nth. }
  split; [|reflexivity]. constructor; auto.
  - eapply Forall2_mono; [|exact Hrows]. intros e row [_ Hrow]. exact Hrow.
  - apply Forall_forall. intros e He. rewrite Forall_forall in Hret. destruct (Hret e He) as [m Hm].
    exists m. split; [exact Hm|]. apply (Hstiff e He _ m Hm).
  - unfold vzeros. apply mk_vec_length.
  - intros i d Hi Hd H0. unfold act. apply rsum_zero. intros q _. rewrite Z0. ring.
  - intros i d Hi Hd. rewrite Z0. unfold table, out0. cbn [out_disp]. cbn [md_nodes with_loads] in Hi. rewrite ent_mk_mat by assumption.
    destruct (zent bc i d =? -1)%Z; reflexivity.
  - cbn [md_nodes with_loads out0 out_disp]. apply shape_mk_mat.
Qed.

Lemma wf_unload md : wf_model md -> wf_model (with_loads md []).
Proof. intros (A & B & C & _). split; [exact A|]. split; [exact B|]. split; [exact C|constructor]. Qed.

(** [act_internal] for a system built as in [sys_facts] *)
Lemma sys_act md out bc neq op K u0 u i d : wf_model md -> run_facts (with_loads md []) out bc neq op K u0 ->
  (i < length (md_nodes md))%nat -> (d < 2)%nat -> (0 <= zent bc i d)%Z ->
  act neq K u (Z.to_nat (zent bc i d)) =
  internal_force (md_mats md) (md_nodes md) (md_elements md)
    (fun a b => if (zent bc a b =? -1)%Z then 0 else u (Z.to_nat (zent bc a b))) i d.
Proof. intros Hwf F Hi Hd H0. apply (act_internal (with_loads md []) out bc neq op K u0 u _ i d (wf_unload md Hwf) F); auto. Qed.

Lemma sys_free md out bc neq op K u0 i d : wf_model md -> run_facts (with_loads md []) out bc neq op K u0 ->
  (i < length (md_nodes md))%nat -> (d < 2)%nat ->
  (ent (md_cons md) i d = -1 -> zent bc i d = (-1)%Z) /\ (ent (md_cons md) i d = 0 -> (0 <= zent bc i d < Z.of_nat neq)%Z) /\
  ((0 <= zent bc i d)%Z -> ent (md_cons md) i d = 0).
Proof.
  intros Hwf F Hi Hd.
  pose proof (cons_row md i Hwf Hi) as [Hl Hc].
  destruct (numbering_entry _ _ _ i d (rf_num _ _ _ _ _ _ _ F)) as [Hm1 H0].
  { destruct Hwf as (_ & HL & _). cbn [md_cons with_loads]. lia. } { cbn [md_cons with_loads]. rewrite Hl. exact Hd. }
  cbn [md_cons with_loads] in *.
  destruct (rf_bc _ _ _ _ _ _ _ F) as (_ & Hrg & _). rewrite (rf_len _ _ _ _ _ _ _ F) in Hrg. specialize (Hrg i d Hi Hd).
  split; [exact Hm1|]. split.
  - intros C. specialize (H0 C). lia.
  - intros Hz. destruct (Hc d Hd) as [C|C]; [exact C|]. specialize (Hm1 C). lia.
Qed.

Lemma sys_regular md out bc neq op K u0 : wf_model md -> stable md -> run_facts (with_loads md []) out bc neq op K u0 -> regular neq K.
Proof.
  intros Hwf Hst F u Hu p Hp.
  destruct (rf_bc _ _ _ _ _ _ _ F) as (_ & _ & _ & Hsur). destruct (Hsur p Hp) as (i & d & Hi & Hd & Hz).
  rewrite (rf_len _ _ _ _ _ _ _ F) in Hi.
  set (U := fun a b => if (zent bc a b =? -1)%Z then 0 else u (Z.to_nat (zent bc a b))).
  assert (HU : U i d = 0).
  { apply (Hst U); [|exact Hi|exact Hd]. intros a b Ha Hb. destruct (sys_free md _ _ _ _ _ _ a b Hwf F Ha Hb) as (S1 & S2 & S3). split.
    - intros C. unfold U. rewrite (S1 C). reflexivity.
    - intros C. specialize (S2 C). unfold U. rewrite <- (sys_act md _ _ _ _ _ _ u a b Hwf F Ha Hb) by lia. apply Hu. lia. }
  unfold U in HU. rewrite Hz in HU. replace (Z.of_nat p =? -1)%Z with false in HU by (symmetry; apply Z.eqb_neq; lia).
  rewrite Nat2Z.id in HU. exact HU.
Qed.

(** ** K.max() *)
Lemma fold_max_spec (l : list R) x : (forall y, In y (x :: l) -> y <= fold_left nmax l x) /\ In (fold_left nmax l x) (x :: l).
Proof.
  revert x. induction l as [|y l IH]; intros x; cbn [fold_left].
  - split; [intros y [<-|[]]; lra|left; reflexivity].
  - destruct (IH (nmax x y)) as [A B]. split.
    + intros z [<-|[<-|Hz]].
      * eapply Rle_trans; [|apply A; left; reflexivity]. unfold nmax. cbn. destruct (Rle_dec x y); lra.
      * eapply Rle_trans; [|apply A; left; reflexivity]. unfold nmax. cbn. destruct (Rle_dec x y); lra.
      * apply A. right. exact Hz.
    + destruct B as [B|B].
      * rewrite <- B. unfold nmax. cbn. destruct (Rle_dec x y); auto.
      * right. right. exact B.
Qed.

Lemma in_entries n (a : list (list R)) x : In x (concat (mk_mat n n (mget a))) <-> exists p q, (p < n)%nat /\ (q < n)%nat /\ ent a p q = x.
Proof.
  rewrite in_concat. split.
  - intros [row [Hr Hx]]. unfold mk_mat in Hr. apply in_map_iff in Hr. destruct Hr as [p [<- Hp]]. apply in_seq in Hp.
    unfold mk_vec in Hx. apply in_map_iff in Hx. destruct Hx as [q [<- Hq]]. apply in_seq in Hq. exists p, q. repeat split; lia.
  - intros (p & q & Hp & Hq & <-). exists (mk_vec n (fun j => mget a p j)). split.
    + unfold mk_mat. apply in_map_iff. exists p. split; [reflexivity|]. apply in_seq. lia.
    + unfold mk_vec. apply in_map_iff. exists q. split; [reflexivity|]. apply in_seq. lia.
Qed.

Lemma gmax_spec n (a : list (list R)) : (0 < n)%nat -> exists m, gmax n a = Ok m /\
  (forall p q, (p < n)%nat -> (q < n)%nat -> ent a p q <= m) /\ exists p q, (p < n)%nat /\ (q < n)%nat /\ ent a p q = m.
Proof.
  intros Hn. unfold gmax.
  assert (Hin : forall p q, (p < n)%nat -> (q < n)%nat -> In (ent a p q) (concat (mk_mat n n (mget a)))).
  { intros p q Hp Hq. apply in_entries. eauto. }
  pose proof (in_entries n a) as Hent.
  destruct (concat (mk_mat n n (mget a))) as [|x l]; [destruct (Hin 0%nat 0%nat Hn Hn)|].
  destruct (fold_max_spec l x) as [A B]. eexists. split; [reflexivity|]. split.
  - intros p q Hp Hq. apply A. apply Hin; assumption.
  - apply Hent. exact B.
Qed.

(** ** what a run does, whatever the solver returned *)
Lemma close_spec a b : length a = length b ->
  (allclose a b = true <-> forall p, (p < length b)%nat -> Rabs (nth p a 0 - nth p b 0) <= 1 / 100000000 + 1 / 100000 * Rabs (nth p b 0)).
Proof.
  intros HL. unfold allclose. rewrite forallb_forall.
  assert (Hc : forall x y, @nleb R Num_R (nabs (nsub x y)) (nadd (nofQ 1e-8) (nmul (nofQ 1e-5) (nabs y))) = true <->
     Rabs (x - y) <= 1 / 100000000 + 1 / 100000 * Rabs y).
  { intros x y.
    replace (@nofQ R Num_R 1e-8) with (1 / 100000000) by (change (@nofQ R Num_R) with Q2R; unfold Q2R; cbn; lra).
    replace (@nofQ R Num_R 1e-5) with (1 / 100000) by (change (@nofQ R Num_R) with Q2R; unfold Q2R; cbn; lra). rewrite !nabs_Rabs. cbn. destruct (Rle_dec _ _); split; intros; auto; discriminate. }
  split.
  - intros H p Hp. apply Hc. apply (H (nth p a 0, nth p b 0)). rewrite <- combine_nth by exact HL. apply nth_In.
    rewrite combine_length. lia.
  - intros H [x y] Hin. apply Hc. cbn [fst snd]. apply (In_nth _ _ (0, 0)) in Hin. destruct Hin as [p [Hp E]].
    rewrite combine_length in Hp. rewrite combine_nth in E by exact HL. injection E as <- <-. apply H. lia.
Qed.

Lemma nis0_spec (m : R) : nis0 m = true <-> m = 0.
Proof.
  unfold nis0. cbn. destruct (Rle_dec m 0), (Rle_dec 0 m); cbn; split; intros; try discriminate; try lra; reflexivity.
Qed.

Lemma auto_inv sv md plot strains out : wf_model md -> auto sv md plot strains = Ok out ->
  let neq := count_free (md_cons md) in
  exists bc op K u f m,
    run_facts (with_loads md []) (out0 (length (md_nodes md)) neq) bc neq op K (vzeros neq) /\
    length u = neq /\ length f = neq /\ spsolve sv K f = Ok u /\
    (forall i d, (i < length (md_nodes md))%nat -> (d < 2)%nat -> (0 <= zent bc i d)%Z ->
       nth (Z.to_nat (zent bc i d)) f 0 = applied (md_loads md) i d) /\
    (forall i d, (i < length (md_nodes md))%nat -> (d < 2)%nat ->
       table out i d = if (zent bc i d =? -1)%Z then 0 else nth (Z.to_nat (zent bc i d)) u 0) /\
    gmax neq K = Ok m /\
    out_warn out = (if nis0 m then true else negb (allclose (map (fun x => x / m) (mvmul neq neq K u)) (map (fun x => x / m) f))).
Proof.
  intros Hwf Hrun neq. pose proof (wf_loads md Hwf) as Hloads.
  unfold auto, solids_auto, run in Hrun. inv_ok Hrun. destruct r as [[op bc] neqZ]. rename Hr into HDME.
  inv_ok Hrun. destruct r as [gk gm]. cbn [assembler] in Hr. inv_ok Hr. destruct r as [K M].
  rename Hr0 into Hsp. apply Ok_pair_inj in Hr. destruct Hr as [<- <-].
  destruct (sys_facts md op bc neqZ K M Hwf HDME Hsp) as [F ->]. fold neq in F, Hrun. rewrite Nat2Z.id in Hrun.
  pose proof (rf_bc _ _ _ _ _ _ _ F) as Hbc. pose proof (rf_len _ _ _ _ _ _ _ F) as Hlen. cbn [md_nodes with_loads] in Hlen.
  assert (Hc : length (md_cons md) = length (md_nodes md)) by apply Hwf.
  inv_ok Hrun. rename r into f, Hr into Hrhs.
  destruct (loadasem_ok (md_loads md) bc neq 2 Hbc) as (f' & Er & Lf & Hfv).
  { rewrite Hlen, <- Hc. exact Hloads. }
  rewrite Er in Hrhs. apply Ok_inj in Hrhs. subst f'.
  inv_ok Hrun. rename r into u, Hr into Hsol. cbn [static_sol] in Hsol.
  inv_ok Hrun. rename r into w, Hr into Hw.
  unfold not_equilibrium in Hw. inv_ok Hw. apply guard_ok in Hr. apply Nat.eqb_eq in Hr. rename Hr into Lu.
  inv_ok Hw. rename r0 into m, Hr into Hm. cbn [entries] in *.
  inv_ok Hrun. rename r0 into U, Hr into HU.
  destruct (complete_disp_ok bc (md_nodes md) u 2 neq) as (U' & EU & SU & HUv); auto; try apply Hbc.
  rewrite EU in HU. apply Ok_inj in HU. subst U'.
  inv_ok Hrun. inv_ok Hrun. apply Ok_inj in Hrun.
  assert (Hout : out_disp out = U) by (subst out; reflexivity).
  assert (Hwn : out_warn out = w) by (subst out; reflexivity).
  exists bc, op, K, u, f, m. split; [exact F|]. split; [exact Lu|]. split; [exact Lf|]. split; [exact Hsol|].
  split.
  { intros i d Hi Hd H0. rewrite Hfv by (auto; lia). symmetry. apply applied_last_load.
    destruct Hwf as (_ & _ & _ & Hld). eapply Forall_impl; [|exact Hld]. intros row [_ [n [_ E]]]. exists n; exact E. }
  split; [intros i d Hi Hd; unfold table; rewrite Hout; apply HUv; assumption|].
  split; [exact Hm|]. rewrite Hwn. destruct (nis0 m); apply Ok_inj in Hw; symmetry; exact Hw.
Qed.

Lemma div_nth (l : list R) m p : (p < length l)%nat -> nth p (map (fun x => x / m) l) 0 = nth p l 0 / m.
Proof. intros Hp. rewrite (nth_indep _ 0 ((fun x => x / m) 0)) by (rewrite map_length; exact Hp). rewrite (map_nth (fun x => x / m)). reflexivity. Qed.

(** an entry of the global matrix is the coupling of two free dofs *)
Lemma sys_coupling md out bc neq op K u0 p i d j b : wf_model md -> run_facts (with_loads md []) out bc neq op K u0 ->
  free md i d -> free md j b -> zent bc i d = Z.of_nat p -> ent K p (Z.to_nat (zent bc j b)) = coupling md i d j b.
Proof.
  intros Hwf F (Hi & Hd & Ci) (Hj & Hb & Cj) Hp.
  destruct (sys_free md _ _ _ _ _ _ i d Hwf F Hi Hd) as (_ & Ri & _). specialize (Ri Ci).
  destruct (sys_free md _ _ _ _ _ _ j b Hwf F Hj Hb) as (_ & Rj & _). specialize (Rj Cj).
  set (q := Z.to_nat (zent bc j b)). assert (Hq : (q < neq)%nat) by (unfold q; lia).
  pose proof (sys_act md _ _ _ _ _ _ (fun r => if (r =? q)%nat then 1 else 0) i d Hwf F Hi Hd ltac:(lia)) as HA.
  rewrite Hp, Nat2Z.id in HA.
  assert (E : act neq K (fun r => if (r =? q)%nat then 1 else 0) p = ent K p q).
  { unfold act. rewrite (rsum_single neq q); [rewrite Nat.eqb_refl; ring|exact Hq|].
    intros r _ Hr. replace (r =? q)%nat with false by (symmetry; apply Nat.eqb_neq; exact Hr). ring. }
  rewrite <- E, HA. unfold coupling. apply internal_force_ext. intros e k c He Hk Hc.
  pose proof (e_node_lt md e k Hwf He Hk) as Hn.
  destruct (rf_bc _ _ _ _ _ _ _ F) as (_ & Hrg & Hinj & _). rewrite (rf_len _ _ _ _ _ _ _ F) in Hrg, Hinj.
  cbn [md_nodes with_loads] in *.
  destruct (Hrg (e_node e k) c Hn Hc) as [Hz|Hz].
  - rewrite Hz. cbn [Z.eqb]. destruct (Nat.eqb_spec (e_node e k) j) as [E1|]; [|reflexivity].
    destruct (Nat.eqb_spec c b) as [E2|]; [|reflexivity]. rewrite E1, E2 in Hz. lia.
  - replace (zent bc (e_node e k) c =? -1)%Z with false by (symmetry; apply Z.eqb_neq; lia).
    destruct (Nat.eqb_spec (Z.to_nat (zent bc (e_node e k) c)) q) as [E1|E1].
    + destruct (Hinj j b (e_node e k) c Hj Hb Hn Hc) as [-> ->]; [lia|unfold q in E1; lia|]. rewrite !Nat.eqb_refl. reflexivity.
    + destruct (Nat.eqb_spec (e_node e k) j) as [E2|]; [|reflexivity]. destruct (Nat.eqb_spec c b) as [E3|]; [|reflexivity].
      exfalso. apply E1. unfold q. rewrite E2, E3. reflexivity.
Qed.

(** every equation belongs to a free dof *)
Lemma sys_eq md out bc neq op K u0 p : wf_model md -> run_facts (with_loads md []) out bc neq op K u0 -> (p < neq)%nat ->
  exists i d, free md i d /\ zent bc i d = Z.of_nat p.
Proof.
  intros Hwf F Hp. pose proof (rf_bc _ _ _ _ _ _ _ F) as (_ & _ & _ & Hsur). destruct (Hsur p Hp) as (i & d & Hi & Hd & Hz).
  rewrite (rf_len _ _ _ _ _ _ _ F) in Hi. exists i, d. split; [|exact Hz]. split; [exact Hi|]. split; [exact Hd|].
  apply (sys_free md _ _ _ _ _ _ i d Hwf F Hi Hd). lia.
Qed.

Lemma sys_largest md out bc neq op K u0 m : wf_model md -> run_facts (with_loads md []) out bc neq op K u0 ->
  (forall p q, (p < neq)%nat -> (q < neq)%nat -> ent K p q <= m) -> (exists p q, (p < neq)%nat /\ (q < neq)%nat /\ ent K p q = m) ->
  largest_coupling md m.
Proof.
  intros Hwf F H1 (p & q & Hp & Hq & Hm). split.
  - intros i d j b Fi Fj. pose proof Fi as (Hi & Hd & Ci). pose proof Fj as (Hj & Hb & Cj).
    destruct (sys_free md _ _ _ _ _ _ i d Hwf F Hi Hd) as (_ & Ri & _). specialize (Ri Ci).
    destruct (sys_free md _ _ _ _ _ _ j b Hwf F Hj Hb) as (_ & Rj & _). specialize (Rj Cj).
    rewrite <- (sys_coupling md _ _ _ _ _ _ (Z.to_nat (zent bc i d)) i d j b Hwf F Fi Fj) by lia. apply H1; lia.
  - destruct (sys_eq md _ _ _ _ _ _ p Hwf F Hp) as (i & d & Fi & Ei). destruct (sys_eq md _ _ _ _ _ _ q Hwf F Hq) as (j & b & Fj & Ej).
    exists i, d, j, b. split; [exact Fi|]. split; [exact Fj|]. rewrite <- (sys_coupling md _ _ _ _ _ _ p i d j b Hwf F Fi Fj Ei).
    rewrite Ej, Nat2Z.id. exact Hm.
Qed.

Lemma warning_meaning sv md plot strains out : wf_model md -> auto sv md plot strains = Ok out ->
  exists m, largest_coupling md m /\ (m = 0 -> out_warn out = true) /\
    (m <> 0 -> (out_warn out = false <-> forall i d, free md i d ->
       Rabs (internal_force (md_mats md) (md_nodes md) (md_elements md) (table out) i d / m - applied (md_loads md) i d / m)
         <= 1 / 100000000 + 1 / 100000 * Rabs (applied (md_loads md) i d / m))).
Proof.
  intros Hwf Hrun. destruct (auto_inv sv md plot strains out Hwf Hrun) as (bc & op & K & u & f & m & F & Lu & Lf & _ & Hf & Ht & Hm & Hw).
  set (neq := count_free (md_cons md)) in *.
  assert (Hn : (0 < neq)%nat) by (destruct (Nat.eq_dec neq 0) as [E|]; [rewrite E in Hm; cbn in Hm; discriminate|lia]).
  destruct (gmax_spec neq K Hn) as (m' & Hm' & M1 & M2). rewrite Hm in Hm'. apply Ok_inj in Hm'. subst m'.
  exists m. split; [exact (sys_largest md _ _ _ _ _ _ m Hwf F M1 M2)|]. split.
  - intros H0. rewrite Hw. rewrite (proj2 (nis0_spec m) H0). reflexivity.
  - intros H0. rewrite Hw. destruct (nis0 m) eqn:E; [apply nis0_spec in E; contradiction|].
    rewrite negb_false_iff. 
    assert (LK : length (mvmul neq neq K u) = neq) by (unfold mvmul; apply mk_vec_length).
    assert (HK : forall p, (p < neq)%nat -> nth p (mvmul neq neq K u) 0 = act neq K (fun q => nth q u 0) p).
    { intros p Hp. unfold mvmul. rewrite mk_vec_nth by exact Hp. rewrite sumn_rsum. reflexivity. }
    assert (HI : forall i d, free md i d -> act neq K (fun q => nth q u 0) (Z.to_nat (zent bc i d)) =
       internal_force (md_mats md) (md_nodes md) (md_elements md) (table out) i d).
    { intros i d (Hi & Hd & C). destruct (sys_free md _ _ _ _ _ _ i d Hwf F Hi Hd) as (_ & R0 & _). specialize (R0 C).
      rewrite (sys_act md _ _ _ _ _ _ (fun q => nth q u 0) i d Hwf F Hi Hd) by lia. apply internal_force_ext.
      intros e k c He Hk Hc. symmetry. apply Ht; [exact (e_node_lt md e k Hwf He Hk)|exact Hc]. }
    rewrite close_spec by (rewrite !map_length, LK, Lf; reflexivity). rewrite map_length, Lf. split.
    + intros H i d Fr. pose proof Fr as (Hi & Hd & C). destruct (sys_free md _ _ _ _ _ _ i d Hwf F Hi Hd) as (_ & R0 & _). specialize (R0 C).
      specialize (H (Z.to_nat (zent bc i d)) ltac:(lia)). rewrite !div_nth in H by (rewrite ?LK, ?Lf; lia).
      rewrite HK in H by lia. rewrite (HI i d Fr), (Hf i d Hi Hd) in H by lia. exact H.
    + intros H p Hp. destruct (sys_eq md _ _ _ _ _ _ p Hwf F Hp) as (i & d & Fr & Ez). pose proof Fr as (Hi & Hd & C).
      specialize (H i d Fr). rewrite !div_nth by (rewrite ?LK, ?Lf; lia). rewrite HK by exact Hp.
      rewrite <- (HI i d Fr), <- (Hf i d Hi Hd), Ez, Nat2Z.id in H by lia. exact H.
Qed.

(** the diagonal of a regular symmetric positive semidefinite matrix is positive; here through the energy *)
Lemma coupling_positive sv md plot strains out m : wf_model md -> solver_ok sv -> materials_ok md -> stable md ->
  auto sv md plot strains = Ok out -> largest_coupling md m -> 0 < m.
Proof.
  intros Hwf Hsv Hmat Hst Hrun [H1 (i & d & _ & _ & (Hi & Hd & Ci) & _)].
  set (V := fun a c => if ((a =? i) && (c =? d))%nat then 1 else 0).
  pose proof (H1 i d i d (conj Hi (conj Hd Ci)) (conj Hi (conj Hd Ci))) as Hle. unfold coupling in Hle. fold V in Hle.
  pose proof (virtual_work md V V Hwf) as VW.
  rewrite (rsum_single _ i) in VW; [|exact Hi|intros i' _ Hne; apply rsum_zero; intros d' _; unfold V at 1;
    replace (i' =? i)%nat with false by (symmetry; apply Nat.eqb_neq; exact Hne); cbn [andb]; ring].
  rewrite (rsum_single _ d) in VW; [|exact Hd|intros d' _ Hne; unfold V at 1; rewrite Nat.eqb_refl;
    replace (d' =? d)%nat with false by (symmetry; apply Nat.eqb_neq; exact Hne); cbn [andb]; ring].
  assert (V1 : V i d = 1) by (unfold V; rewrite !Nat.eqb_refl; reflexivity).
  rewrite V1, Rmult_1_l in VW.
  destruct (strain_energy_nonneg sv md plot strains out V Hsv Hwf Hmat Hrun) as [P Z].
  unfold strain_energy in P, Z. rewrite <- VW in P, Z.
  destruct (Rle_lt_or_eq_dec 0 (internal_force (md_mats md) (md_nodes md) (md_elements md) V i d)) as [Hlt|Heq]; [lra|lra|].
  exfalso. rewrite <- Heq in Z. specialize (Z ltac:(lra)).
  enough (V i d = 0) by lra. apply (Hst V); [|exact Hi|exact Hd]. intros a b Ha Hb. split.
  - intros C. unfold V. destruct (Nat.eqb_spec a i) as [->|]; [|reflexivity]. destruct (Nat.eqb_spec b d) as [->|]; [lra|reflexivity].
  - intros C. pose proof (virtual_work md (fun a' b' => if ((a' =? a) && (b' =? b))%nat then 1 else 0) V Hwf) as VW'.
    rewrite lsum_all0 in VW' by (intros e He; apply (Z e _ He)).
    rewrite (rsum_single _ a) in VW'; [|exact Ha|intros i' _ Hne; apply rsum_zero; intros d' _;
      replace (i' =? a)%nat with false by (symmetry; apply Nat.eqb_neq; exact Hne); cbn [andb]; ring].
    rewrite (rsum_single _ b) in VW'; [|exact Hb|intros d' _ Hne; rewrite Nat.eqb_refl;
      replace (d' =? b)%nat with false by (symmetry; apply Nat.eqb_neq; exact Hne); cbn [andb]; ring].
    rewrite !Nat.eqb_refl in VW'. cbn [andb] in VW'. lra.
Qed.

Lemma no_warning sv md plot strains out : wf_model md -> solver_ok sv -> materials_ok md -> stable md ->
  auto sv md plot strains = Ok out -> out_warn out = false.
Proof.
  intros Hwf Hsv Hmat Hst Hrun. destruct (warning_meaning sv md plot strains out Hwf Hrun) as (m & Hm & _ & H).
  pose proof (coupling_positive sv md plot strains out m Hwf Hsv Hmat Hst Hrun Hm) as Hp.
  apply H; [lra|]. intros i d (Hi & Hd & C).
  rewrite (proj2 (run_equilibrium _ _ _ _ _ Hwf Hsv Hrun i d Hi Hd) C). rewrite Rminus_diag_eq by reflexivity.
  rewrite Rabs_R0. pose proof (Rabs_pos (applied (md_loads md) i d / m)). lra.
Qed.

Lemma model_runs sv md : wf_model md -> accepted md -> stable md -> solver_ok sv -> solver_total sv ->
  (exists i d, free md i d) -> exists out, auto sv md false false = Ok out.
Proof.
  intros Hwf Hacc Hst Hsv Htot (i0 & d0 & Fr). pose proof Hwf as (Hf & Hc & _).
  assert (HG : Forall (good_row 2 18 None (md_cons md)) (md_elements md)).
  { eapply Forall_impl; [|exact Hacc]. intros e [H _]. exact H. }
  destruct (DME_ok 2 18 None (md_cons md) (md_elements md) Hf HG) as (op & bc & HD & Hnum & Hrows).
  set (neq := count_free (md_cons md)) in *.
  pose proof (numbering_bc_ok _ _ _ _ Hf Hnum) as Hbc. pose proof (numbering_length _ _ _ Hnum) as Hlen.
  assert (HLO : exists locs, locals_of (md_elements md) (md_mats md) (md_nodes md) op None locs /\ Forall (local_ok neq) locs).
  { clear HD. unfold accepted in Hacc. induction Hrows as [|e row es rows Hrow _ IH]; [exists []; split; [split; constructor|constructor]|].
    inversion HG as [|? ? [t [Ht [Hd [Hmax Hnodes]]]] HG']; subst. inversion Hacc as [|? ? [_ [k [m Hk]]] Hacc']; subst.
    destruct IH as [locs [[L1 L2] L3]]; [exact Hacc'|exact HG'|].
    unfold dofs_of in Hd. inv_ok Hd. destruct r as [[nd nn] ng]. apply Ok_inj in Hd. subst nd.
    pose proof Hk as Hk0. apply retriever_builtin in Hk. destruct Hk as (t' & im & pr & rs & fe & Ht' & _ & _ & _ & Hfe & Hk).
    change 1%Z with (Z.of_nat 1) in Ht'. rewrite (np_get_error _ _ _ Ht) in Ht'. apply Ok_inj in Ht'. subst t'.
    destruct (types_shape _ _ _ _ _ _ _ _ _ Hfe Hr Hk) as [Sk Sm].
    exists (mkLocal row k m :: locs). split; [split; [constructor; assumption|cbn; rewrite L2; reflexivity]|].
    constructor; [|exact L3]. unfold local_ok, l_n, l_eq. cbn [l_K l_M l_op]. destruct Sk as [Lk Sk]. rewrite Lk.
    split; [split; [exact Lk|exact Sk]|]. split; [exact Sm|]. split; [rewrite (proj1 Hrow); exact Hmax|].
    intros r Hr'. eapply row_range; eassumption. }
  destruct HLO as (locs & HL & HO). destruct (assembler_ok _ _ _ _ _ _ _ true HL HO) as (K & M & He & _).
  assert (Hsp : sparse_assem (md_elements md) (md_mats md) (md_nodes md) neq op None = Ok (K, M)).
  { cbn [assembler] in He. inv_ok He. destruct r as [K' M']. apply Ok_pair_inj in He. destruct He as [E1 E2]. congruence. }
  destruct (sys_facts md op bc (Z.of_nat neq) K M Hwf HD) as [F _]; [rewrite Nat2Z.id; exact Hsp|]. fold neq in F.
  destruct (loadasem_ok (md_loads md) bc neq 2 Hbc) as (f & Er & Lf & Hfv).
  { rewrite Hlen. exact (wf_loads md Hwf). }
  destruct (Htot neq K f (rf_shape _ _ _ _ _ _ _ F) Lf (sys_regular md _ _ _ _ _ _ Hwf Hst F)) as [u Hu].
  assert (Lu : length u = neq) by (rewrite <- Lf; apply (Hsv K f u Hu)).
  assert (Hn : (0 < neq)%nat).
  { destruct Fr as (Hi & Hd & C). destruct (sys_free md _ _ _ _ _ _ i0 d0 Hwf F Hi Hd) as (_ & R0 & _). specialize (R0 C). lia. }
  destruct (gmax_spec neq K Hn) as (m & Hm & _).
  assert (Hw : exists w, not_equilibrium neq K u f = Ok w).
  { unfold not_equilibrium. rewrite Lu, Nat.eqb_refl. cbn [guard bind]. rewrite Hm. cbn [bind]. destruct (nis0 m); eexists; reflexivity. }
  destruct Hw as [w Hw].
  destruct (complete_disp_ok bc (md_nodes md) u 2 neq) as (U & EU & _); auto; try apply Hbc; [congruence|].
  unfold auto, solids_auto, run. rewrite HD. cbn [bind]. rewrite Nat2Z.id, He. cbn [bind]. rewrite Er. cbn [bind static_sol].
  rewrite Hu. cbn [bind entries]. rewrite Hw. cbn [bind]. rewrite EU. cbn [bind]. eexists. reflexivity.
Qed.
