(** * Proofs: analyses with any number of dofs per node *)
From Coq Require Import Reals List Arith Lia Lra Bool ZArith.
From Verif Require Import Num LinAlg Gauss Fem Uel Assem Post Main Script Spec LinR Base SpecAssem SpecModel SpecElem SpecModes SpecScript
  AssemProofs AssemProofs2 AssemProofs3 AssemProofs4 ElemShape ModelProofs MeshProofs StaticProofs.
Import ListNotations.
Local Open Scope R_scope.

Definition p_loc (p : problem) (er : list Z * list Z) : local := mkLocal (snd er) (p_stiff p (fst er)) (p_mass p (fst er)).

(** ** elements *)
Section Elem.
  Variables (p : problem) (neq : nat) (bc : list (list Z)).
  Hypothesis Hd : (0 < p_dofs p)%nat.
  Hypothesis Hbc : bc_ok (p_dofs p) neq bc.
  Let d := p_dofs p.

  Variables (e row : list Z).
  Hypothesis Hnodes : Forall (fun z => (0 <= z < Z.of_nat (length bc))%Z) (skipn 3 e).
  Hypothesis Hrow : row_spec bc d (p_max p) e row.
  Hypothesis HK : shape (d * e_n e) (d * e_n e) (p_stiff p e).

  Lemma p_node k : (k < e_n e)%nat -> (e_node e k < length bc)%nat.
  Proof.
    intros Hk. unfold e_node. rewrite <- (nth_skipn e 3 k 0%Z). rewrite Forall_forall in Hnodes.
    assert (Hin : In (nth k (skipn 3 e) 0%Z) (skipn 3 e)) by (apply nth_In; rewrite skipn_length; exact Hk).
    apply Hnodes in Hin. lia.
  Qed.
  Lemma p_loc_n : l_n (p_loc p (e, row)) = (d * e_n e)%nat.
  Proof. exact (proj1 HK). Qed.
  Lemma p_loc_eq k b : (k < e_n e)%nat -> (b < d)%nat -> l_eq (p_loc p (e, row)) (d * k + b) = zent bc (e_node e k) b.
  Proof. intros Hk Hb. unfold l_eq. cbn [p_loc l_op snd]. rewrite Nat.mul_comm. destruct Hrow as (_ & H & _). rewrite H by assumption. reflexivity. Qed.
  Lemma p_split j : (j < d * e_n e)%nat -> (j / d < e_n e)%nat /\ (j mod d < d)%nat /\ j = (d * (j / d) + j mod d)%nat.
  Proof. intros Hj. split; [apply Nat.div_lt_upper_bound; unfold d in *; lia|]. split; [apply Nat.mod_upper_bound; unfold d; lia|]. apply Nat.div_mod. unfold d; lia. Qed.
  Lemma p_loc_range : eq_range neq (p_loc p (e, row)).
  Proof.
    intros r Hr. rewrite p_loc_n in Hr. destruct (p_split r Hr) as (Hk & Hb & E). rewrite E, p_loc_eq by assumption.
    destruct Hbc as (_ & Hrg & _). destruct (Hrg (e_node e (r / d)) (r mod d)) as [Z|Z]; [apply p_node; exact Hk|exact Hb|lia|lia].
  Qed.
  Variables (u : nat -> R) (U : nat -> nat -> R).
  Hypothesis HU : forall a b, (a < length bc)%nat -> (b < d)%nat -> U a b = if (zent bc a b =? -1)%Z then 0 else u (Z.to_nat (zent bc a b)).
  Lemma p_gather j : (j < d * e_n e)%nat -> gather (p_loc p (e, row)) u j = p_disp p U e j.
  Proof.
    intros Hj. destruct (p_split j Hj) as (Hk & Hb & E). unfold p_disp. fold d. rewrite HU by (auto; apply p_node; exact Hk).
    assert (EQ : l_eq (p_loc p (e, row)) j = zent bc (e_node e (j / d)) (j mod d)) by (rewrite E at 1; apply p_loc_eq; assumption).
    unfold gather. rewrite EQ. reflexivity.
  Qed.
  Lemma p_elem_force i b : (i < length bc)%nat -> (b < d)%nat -> (0 <= zent bc i b)%Z ->
    elem_force (p_loc p (e, row)) (p_stiff p e) u (Z.to_nat (zent bc i b)) =
    rsum (e_n e) (fun k => if (e_node e k =? i)%nat then act (d * e_n e) (p_stiff p e) (p_disp p U e) (d * k + b) else 0).
  Proof.
    intros Hi Hb H0. unfold elem_force. rewrite p_loc_n.
    assert (Hact : forall r, act (d * e_n e) (p_stiff p e) (gather (p_loc p (e, row)) u) r = act (d * e_n e) (p_stiff p e) (p_disp p U e) r) by (intros r; apply act_ext; exact p_gather).
    rewrite rsum_split_mul. apply rsum_ext. intros k Hk.
    transitivity (rsum d (fun a => if ((e_node e k =? i)%nat && (a =? b)%nat) then act (d * e_n e) (p_stiff p e) (p_disp p U e) (d * k + a) else 0)).
    - apply rsum_ext. intros a Ha. rewrite p_loc_eq by assumption. rewrite Hact.
      destruct Hbc as (_ & _ & Hinj & _).
      destruct (Z.eqb_spec (zent bc (e_node e k) a) (Z.of_nat (Z.to_nat (zent bc i b)))) as [E|E].
      + rewrite Z2Nat.id in E by exact H0. destruct (Hinj i b (e_node e k) a) as [<- <-]; auto using p_node. rewrite !Nat.eqb_refl. reflexivity.
      + destruct (Nat.eqb_spec (e_node e k) i) as [Ei|]; [|reflexivity]. destruct (Nat.eqb_spec a b) as [Ea|]; [|reflexivity].
        exfalso. apply E. subst. lia.
    - destruct (e_node e k =? i)%nat; cbn [andb].
      + rewrite (rsum_single d b); [rewrite Nat.eqb_refl; reflexivity|exact Hb|]. intros a Ha Hne. destruct (Nat.eqb_spec a b); [contradiction|reflexivity].
      + apply rsum_zero. intros; reflexivity.
  Qed.
End Elem.

(** ** the assembled system *)
Definition spread (bc : list (list Z)) (d : nat) (u : nat -> R) (U : nat -> nat -> R) : Prop :=
  forall a b, (a < length bc)%nat -> (b < d)%nat -> U a b = if (zent bc a b =? -1)%Z then 0 else u (Z.to_nat (zent bc a b)).

Record p_facts (p : problem) (op bc : list (list Z)) (K M : list (list R)) : Prop := {
  pf_dme : DME (p_cons p) (p_elements p) (p_dofs p) (p_max p) (p_ndof p) = Ok (op, bc, Z.of_nat (count_free (p_cons p)));
  pf_asm : forall sparse, assembler (p_elements p) (p_mats p) (p_nodes p) (count_free (p_cons p)) op sparse (p_uel p) =
    Ok (if sparse then (Csr K, Csr M) else (Dense K, Dense M));
  pf_num : numbering (p_cons p) bc (count_free (p_cons p));
  pf_bc : bc_ok (p_dofs p) (count_free (p_cons p)) bc;
  pf_len : length bc = length (p_nodes p);
  pf_K : shape (count_free (p_cons p)) (count_free (p_cons p)) K;
  pf_M : shape (count_free (p_cons p)) (count_free (p_cons p)) M;
  pf_act : forall u U i b, spread bc (p_dofs p) u U -> p_dof p i b -> (0 <= zent bc i b)%Z ->
    act (count_free (p_cons p)) K u (Z.to_nat (zent bc i b)) = p_internal p U i b;
  pf_energy : forall u U v V, spread bc (p_dofs p) u U -> spread bc (p_dofs p) v V ->
    form (count_free (p_cons p)) K u v = p_energy p U V /\ form (count_free (p_cons p)) M u v = p_kinetic p U V
}.

Lemma p_system p : wf_problem p -> exists op bc K M, p_facts p op bc K M.
Proof.
  intros (Hd & Hf & HL & Hel & _).
  destruct (DME_ok (p_dofs p) (p_max p) (p_ndof p) (p_cons p) (p_elements p) Hf) as (op & bc & HD & Hnum & Hop).
  { eapply Forall_impl; [|exact Hel]. intros e [H _]. exact H. }
  set (neq := count_free (p_cons p)) in *.
  pose proof (numbering_bc_ok _ _ _ _ Hf Hnum) as Hbc. pose proof (numbering_length _ _ _ Hnum) as Hlen.
  assert (Hbl : length bc = length (p_nodes p)) by congruence.
  set (locs := map (p_loc p) (combine (p_elements p) op)).
  assert (Hrows : Forall2 (fun e row => Forall (fun z => (0 <= z < Z.of_nat (length bc))%Z) (skipn 3 e) /\ row_spec bc (p_dofs p) (p_max p) e row /\
     retriever e (p_mats p) (p_nodes p) (p_uel p) = Ok (p_stiff p e, M2 (p_mass p e)) /\ ((length e - 3) * p_dofs p <= p_max p)%nat /\
     shape (p_dofs p * e_n e) (p_dofs p * e_n e) (p_stiff p e) /\ shape (p_dofs p * e_n e) (p_dofs p * e_n e) (p_mass p e)) (p_elements p) op).
  { rewrite Hlen. clear -Hel Hop. induction Hop as [|e row els op Hrow _ IH]; constructor.
    - inversion Hel as [|? ? [(t & _ & _ & Hm & Hn) (k & m & Hr & Sk & Sm)] _]; subst.
      unfold p_stiff, p_mass. rewrite Hr. auto 10.
    - apply IH. inversion Hel; assumption. }
  assert (Hlocs : locals_of (p_elements p) (p_mats p) (p_nodes p) op (p_uel p) locs).
  { unfold locs. split.
    - clear -Hrows. induction Hrows as [|e row els op (_ & _ & Hr & _) _ IH]; cbn [combine map]; constructor; [exact Hr|exact IH].
    - clear -Hrows. induction Hrows as [|e row els op _ _ IH]; cbn [combine map]; [reflexivity|]. cbn [p_loc l_op snd]. f_equal. exact IH. }
  assert (Hrange : Forall (eq_range neq) locs).
  { unfold locs. clear -Hrows Hbc Hbl Hd. induction Hrows as [|e row els op (H1 & H2 & _ & _ & H3 & _) _ IH]; cbn [combine map]; constructor; [|exact IH].
    exact (p_loc_range p neq bc Hd Hbc e row H1 H2 H3). }
  assert (Hok : Forall (local_ok neq) locs).
  { clear Hlocs. unfold locs in *. clear -Hrows Hrange. revert Hrange. induction Hrows as [|e row els op (_ & H2 & _ & Hm & H3 & H4) _ IH]; cbn [combine map]; intros HR; constructor.
    - inversion HR as [|? ? HR1 _]; subst. unfold local_ok. assert (En : l_n (p_loc p (e, row)) = (p_dofs p * e_n e)%nat) by exact (proj1 H3).
      rewrite En. split; [exact H3|]. split; [exact H4|]. split.
      + cbn [p_loc l_op snd]. rewrite (proj1 H2). unfold e_n. lia.
      + intros r Hr. apply HR1. rewrite En. exact Hr.
    - apply IH. inversion HR; assumption. }
  destruct (assembler_ok _ _ _ _ _ _ _ true Hlocs Hok) as (K & M & E1 & SK & SM & HE).
  destruct (assembler_ok _ _ _ _ _ _ _ false Hlocs Hok) as (K' & M' & E2 & SK' & SM' & HE').
  assert (K' = K) by (apply (mat_ext neq neq); auto; intros i j Hi Hj; rewrite (proj1 (HE' i j Hi Hj)), (proj1 (HE i j Hi Hj)); reflexivity).
  assert (M' = M) by (apply (mat_ext neq neq); auto; intros i j Hi Hj; rewrite (proj2 (HE' i j Hi Hj)), (proj2 (HE i j Hi Hj)); reflexivity).
  subst K' M'. exists op, bc, K, M. constructor; auto.
  - intros [|]; assumption.
  - intros u U i b HU [Hi Hb] H0. rewrite <- Hbl in Hi. fold neq.
    rewrite (act_sum neq l_K K locs u _ Hrange); [| |intros q q' Hq Hq'; apply HE; assumption].
    + unfold p_internal, locs. rewrite lsum_map. clear -Hrows Hbc Hbl Hd HU Hi Hb H0.
      induction Hrows as [|e row els op (H1 & H2 & _ & _ & H3 & _) _ IH]; cbn [combine lsum fold_right]; [reflexivity|]. f_equal; [|exact IH].
      cbn [l_K p_loc fst]. exact (p_elem_force p neq bc Hd Hbc e row H1 H2 H3 u U HU i b Hi Hb H0).
    + destruct Hbc as (_ & Hrg & _). destruct (Hrg i b Hi Hb); lia.
  - intros u U v V HU HV. fold neq. split.
    + rewrite (form_sum neq l_K K locs u v Hrange) by (intros q q' Hq Hq'; apply HE; assumption).
      unfold p_energy, locs. rewrite lsum_map. clear -Hrows Hbc Hbl Hd HU HV.
      induction Hrows as [|e row els op (H1 & H2 & _ & _ & H3 & _) _ IH]; cbn [combine lsum fold_right]; [reflexivity|]. f_equal; [|exact IH].
      cbn [l_K p_loc fst]. rewrite (p_loc_n p e row H3). apply form_ext.
      * exact (p_gather p bc Hd e row H1 H2 u U HU).
      * exact (p_gather p bc Hd e row H1 H2 v V HV).
    + rewrite (form_sum neq l_M M locs u v Hrange) by (intros q q' Hq Hq'; apply HE; assumption).
      unfold p_kinetic, locs. rewrite lsum_map. clear -Hrows Hbc Hbl Hd HU HV.
      induction Hrows as [|e row els op (H1 & H2 & _ & _ & H3 & _) _ IH]; cbn [combine lsum fold_right]; [reflexivity|]. f_equal; [|exact IH].
      cbn [l_M p_loc fst]. rewrite (p_loc_n p e row H3). apply form_ext.
      * exact (p_gather p bc Hd e row H1 H2 u U HU).
      * exact (p_gather p bc Hd e row H1 H2 v V HV).
Qed.

Lemma p_flag p i b : wf_problem p -> p_dof p i b -> (ent (p_cons p) i b = 0 \/ ent (p_cons p) i b = -1) /\ (i < length (p_cons p))%nat /\ (b < length (nth i (p_cons p) []))%nat.
Proof.
  intros (_ & Hf & HL & _) [Hi Hb]. unfold flags01 in Hf. rewrite Forall_forall in Hf.
  destruct (Hf (nth i (p_cons p) [])) as [H1 H2]; [apply nth_In; lia|]. split; [|split; lia].
  rewrite Forall_forall in H2. apply H2. apply nth_In. lia.
Qed.
Lemma p_entry p op bc K M i b : wf_problem p -> p_facts p op bc K M -> p_dof p i b ->
  (ent (p_cons p) i b = -1 -> zent bc i b = (-1)%Z) /\ (ent (p_cons p) i b = 0 -> (0 <= zent bc i b)%Z).
Proof. intros Hwf F H. destruct (p_flag p i b Hwf H) as (_ & Hi & Hb). exact (numbering_entry _ _ _ i b (pf_num _ _ _ _ _ F) Hi Hb). Qed.

Definition spread_of (bc : list (list Z)) (u : nat -> R) (a b : nat) : R := if (zent bc a b =? -1)%Z then 0 else u (Z.to_nat (zent bc a b)).
Lemma spread_of_ok bc d u : spread bc d u (spread_of bc u).
Proof. intros a b _ _. reflexivity. Qed.
(** every admissible table is spread from a vector *)
Lemma admissible_spread p op bc K M U : wf_problem p -> p_facts p op bc K M -> p_admissible p U ->
  exists u, spread bc (p_dofs p) u U.
Proof.
  intros Hwf F HU. pose proof (pf_bc _ _ _ _ _ F) as (_ & Hrg & Hinj & Hsur). pose proof (pf_len _ _ _ _ _ F) as Hlen.
  (* equation q belongs to one dof *)
  exists (fun q => rsum (length bc) (fun i => rsum (p_dofs p) (fun b => if (zent bc i b =? Z.of_nat q)%Z then U i b else 0))).
  intros a b Ha Hb. destruct (Z.eqb_spec (zent bc a b) (-1)) as [E|E].
  - assert (Hdof : p_dof p a b) by (split; [lia|exact Hb]). apply HU; [exact Hdof|].
    destruct (p_flag p a b Hwf Hdof) as [[C|C] _]; [|exact C]. destruct (p_entry p op bc K M a b Hwf F Hdof) as [_ H0]. specialize (H0 C). lia.
  - assert (H0 : (0 <= zent bc a b)%Z) by (destruct (Hrg a b Ha Hb); lia).
    assert (Hpt : forall i c, (i < length bc)%nat -> (c < p_dofs p)%nat -> zent bc i c = Z.of_nat (Z.to_nat (zent bc a b)) -> i = a /\ c = b).
    { intros i c Hi Hc Eq. rewrite Z2Nat.id in Eq by exact H0. destruct (Hinj a b i c Ha Hb Hi Hc H0 (eq_sym Eq)) as [-> ->]. split; reflexivity. }
    rewrite (rsum_single (length bc) a _ Ha).
    + rewrite (rsum_single (p_dofs p) b _ Hb).
      * rewrite Z2Nat.id by exact H0. rewrite Z.eqb_refl. reflexivity.
      * intros c Hc Hne. destruct (Z.eqb_spec (zent bc a c) (Z.of_nat (Z.to_nat (zent bc a b)))) as [Eq|]; [|reflexivity]. destruct (Hpt a c Ha Hc Eq) as [_ Ec]. contradiction.
    + intros i Hi Hne. apply rsum_zero. intros c Hc. destruct (Z.eqb_spec (zent bc i c) (Z.of_nat (Z.to_nat (zent bc a b)))) as [Eq|]; [|reflexivity]. destruct (Hpt i c Hi Hc Eq) as [Ei _]. contradiction.
Qed.

(** ** stability and regularity *)
Lemma stable_regular p op bc K M : wf_problem p -> p_facts p op bc K M -> (p_stable p <-> regular (count_free (p_cons p)) K).
Proof.
  intros Hwf F. pose proof (pf_bc _ _ _ _ _ F) as (_ & Hrg & Hinj & Hsur). pose proof (pf_len _ _ _ _ _ F) as Hlen. split.
  - intros Hst u Hu q Hq. destruct (Hsur q Hq) as (i & b & Hi & Hb & Eq).
    assert (Z : spread_of bc u i b = 0).
    { apply Hst; [|split; [lia|exact Hb]]. intros i' b' Hdof. destruct (p_entry p op bc K M i' b' Hwf F Hdof) as [Hm H0]. split; intros C.
      - unfold spread_of. rewrite (Hm C). reflexivity.
      - specialize (H0 C). rewrite <- (pf_act _ _ _ _ _ F u _ i' b' (spread_of_ok bc _ u) Hdof H0). apply Hu.
        destruct Hdof as [Hi' Hb']. rewrite <- Hlen in Hi'. destruct (Hrg i' b' Hi' Hb'); lia. }
    unfold spread_of in Z. rewrite Eq in Z. replace (Z.of_nat q =? -1)%Z with false in Z by (symmetry; apply Z.eqb_neq; lia). rewrite Nat2Z.id in Z. exact Z.
  - intros Hreg U HU i b Hdof.
    assert (Ha : p_admissible p U) by (intros i' b' H' C; exact (proj1 (HU i' b' H') C)).
    destruct (admissible_spread p op bc K M U Hwf F Ha) as [u Hu].
    assert (Z : forall q, (q < count_free (p_cons p))%nat -> u q = 0).
    { apply Hreg. intros q Hq. destruct (Hsur q Hq) as (i' & b' & Hi' & Hb' & Eq).
      assert (Hdof' : p_dof p i' b') by (split; [lia|exact Hb']). replace q with (Z.to_nat (zent bc i' b')) by (rewrite Eq; apply Nat2Z.id).
      rewrite (pf_act _ _ _ _ _ F u U i' b' Hu Hdof') by lia. apply (HU i' b' Hdof').
      destruct (p_flag p i' b' Hwf Hdof') as [[C|C] _]; [exact C|]. destruct (p_entry p op bc K M i' b' Hwf F Hdof') as [Hm _]. specialize (Hm C). lia. }
    destruct Hdof as [Hi Hb]. rewrite <- Hlen in Hi. rewrite (Hu i b Hi Hb). destruct (Z.eqb_spec (zent bc i b) (-1)); [reflexivity|]. apply Z. destruct (Hrg i b Hi Hb); lia.
Qed.

(** ** the script *)
Lemma p_run sv p sparse op bc K M : wf_problem p -> p_facts p op bc K M ->
  exists rhs, length rhs = count_free (p_cons p) /\
    (forall i b, p_dof p i b -> ent (p_cons p) i b = 0 -> nth (Z.to_nat (zent bc i b)) rhs 0 = applied (p_loads p) i b) /\
    p_script sv p sparse = (disp <- (if sparse then spsolve sv K rhs else npsolve sv K rhs) ;; complete_disp bc (p_nodes p) disp (p_dofs p)).
Proof.
  intros Hwf F. pose proof Hwf as (Hd & Hf & HL & _ & Hld).
  destruct (loadasem_applied (p_cons p) (p_dofs p) bc (count_free (p_cons p)) (p_loads p) Hf (pf_num _ _ _ _ _ F)) as (rhs & Er & Lr & Hr).
  { rewrite HL. exact Hld. }
  exists rhs. split; [exact Lr|]. split; [intros i b [Hi Hb] C; apply Hr; [lia|exact Hb|exact C]|].
  unfold p_script, script. rewrite (pf_dme _ _ _ _ _ F). cbn [bind]. rewrite Nat2Z.id, (pf_asm _ _ _ _ _ F sparse), Er.
  destruct sparse; cbn [bind static_sol]; reflexivity.
Qed.

Lemma p_solved sv p sparse op bc K M U : wf_problem p -> solvers_ok sv -> p_facts p op bc K M -> p_script sv p sparse = Ok U ->
  p_equilibrium p (ent U) /\ shape (length (p_nodes p)) (p_dofs p) U.
Proof.
  intros Hwf [S1 S2] F H. destruct (p_run sv p sparse op bc K M Hwf F) as (rhs & Lr & Hr & E). rewrite E in H. clear E.
  inv_ok H. rename r into u.
  assert (HS : length u = count_free (p_cons p) /\ forall q, (q < count_free (p_cons p))%nat -> act (count_free (p_cons p)) K (fun j => nth j u 0) q = nth q rhs 0).
  { rewrite <- Lr. destruct sparse; [exact (S1 _ _ _ Hr0)|exact (S2 _ _ _ Hr0)]. }
  destruct HS as [Lu Hu]. pose proof (pf_bc _ _ _ _ _ F) as Hbc. pose proof (pf_len _ _ _ _ _ F) as Hlen.
  destruct (complete_disp_ok bc (p_nodes p) u (p_dofs p) (count_free (p_cons p))) as (U' & EU & SU & HUv); auto; try apply Hbc.
  rewrite EU in H. apply Ok_inj in H. subst U'. split; [|exact SU].
  assert (Hsp : spread bc (p_dofs p) (fun q => nth q u 0) (ent U)) by (intros a b Ha Hb; apply HUv; [lia|exact Hb]).
  intros i b Hdof. destruct (p_entry p op bc K M i b Hwf F Hdof) as [Hm H0]. split; intros C.
  - destruct Hdof as [Hi Hb]. rewrite HUv by assumption. rewrite (Hm C). reflexivity.
  - specialize (H0 C). rewrite <- (pf_act _ _ _ _ _ F _ _ i b Hsp Hdof H0). rewrite Hu.
    + apply Hr; assumption.
    + destruct Hdof as [Hi Hb]. rewrite <- Hlen in Hi. destruct Hbc as (_ & Hrg & _). destruct (Hrg i b Hi Hb); lia.
Qed.
