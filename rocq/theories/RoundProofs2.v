(** * Lemmas: accuracy of assembled trusses in rounded arithmetic *)
From Coq Require Import Reals List ZArith Arith Bool Lia Lra.
From Verif Require Import Num LinAlg Fem Uel Assem Spec SpecAssem SpecModel SpecTruss SpecAny LinR Base AssemProofs AssemProofs3 AssemProofs4 MeshProofs ElemFinal2 StaticProofs TrussProofs AnyProofs RoundProofs.
Import ListNotations.
Local Open Scope R_scope.

Lemma psd_offdiag n K r s : symmetric n K -> psd n K -> (r < n)%nat -> (s < n)%nat -> Rabs (ent K r s) <= (ent K r r + ent K s s) / 2.
Proof.
  intros HS HP Hr Hs.
  assert (G : forall c, 0 <= ent K r r + 2 * c * ent K r s + c * c * ent K s s).
  { intros c. pose proof (HP (fun i => 1 * unitv r i + c * unitv s i)) as H. rewrite form_add_l, !form_add_r, !form_unit, !act_unit in H by assumption. rewrite (HS s r) in H by assumption. lra. }
  pose proof (G 1). pose proof (G (-1)). apply Rabs_le. lra.
Qed.
Lemma lsum_nonneg {A} (f : A -> R) l : (forall a, In a l -> 0 <= f a) -> 0 <= lsum f l.
Proof. intros H. induction l as [|a l IH]; [unfold lsum; cbn; lra|]. change (lsum f (a :: l)) with (f a + lsum f l). pose proof (H a (or_introl eq_refl)). assert (0 <= lsum f l) by (apply IH; intros; apply H; right; assumption). lra. Qed.

Section One.
  Variable l : tlocal R.
  Hypotheses (Ho : eqs_once l) (HS : symmetric (t_n l) (t_K l)) (HP : psd (t_n l) (t_K l)).
  Notation tms := (@terms R Num_R (@t_K R)).
  Lemma terms_cases p q : tms p q l = [] \/ exists r s, (r < t_n l)%nat /\ (s < t_n l)%nat /\ tms p q l = [ent (t_K l) r s] /\ tms p p l = [ent (t_K l) r r] /\ tms q q l = [ent (t_K l) s s].
  Proof.
    unfold terms. set (P := list_prod _ _).
    assert (ND : NoDup P) by (apply NoDup_list_prod; apply seq_NoDup).
    assert (G : forall a b, In (a, b) P -> forall p q, t_eq l a = Z.of_nat p -> t_eq l b = Z.of_nat q -> filter (fun rc => (t_eq l (fst rc) =? Z.of_nat p)%Z && (t_eq l (snd rc) =? Z.of_nat q)%Z) P = [(a, b)]).
    { intros a b Hab p' q' Ea Eb. apply filter_one; [exact ND|exact Hab| |cbn [fst snd]; rewrite Ea, Eb, !Z.eqb_refl; reflexivity].
      intros [a' b'] Hin Hf. apply in_prod_iff in Hin as [Ha' Hb']. apply in_prod_iff in Hab as [Ha Hb]. cbn [fst snd] in Hf. apply andb_true_iff in Hf as [F1 F2]. apply Z.eqb_eq in F1, F2. apply in_seq in Ha, Hb, Ha', Hb'.
      f_equal; apply Ho; lia. }
    destruct (filter (fun rc => (t_eq l (fst rc) =? Z.of_nat p)%Z && (t_eq l (snd rc) =? Z.of_nat q)%Z) P) as [|[r s] t] eqn:E; [left; reflexivity|right].
    assert (In (r, s) ((r, s) :: t)) as Hin by (left; reflexivity). rewrite <- E in Hin. apply filter_In in Hin as [H1 H2]. cbn [fst snd] in H2. apply andb_true_iff in H2 as [H2 H3]. apply Z.eqb_eq in H2, H3.
    pose proof H1 as H1'. apply in_prod_iff in H1' as [Hr Hs]. exists r, s. pose proof Hr as Hr'. pose proof Hs as Hs'. apply in_seq in Hr', Hs'. split; [lia|]. split; [lia|].
    rewrite (G r s H1 p q H2 H3) in E. injection E as <-. rewrite (G r r), (G s s) by (try assumption; apply in_prod_iff; auto). repeat split; reflexivity.
  Qed.
  Lemma terms_one p q : (length (tms p q l) <= 1)%nat /\ lsum Rabs (tms p q l) <= (lsum (fun x => x) (tms p p l) + lsum (fun x => x) (tms q q l)) / 2 /\ lsum Rabs (tms p p l) = lsum (fun x => x) (tms p p l).
  Proof.
    assert (D : forall r, (r < t_n l)%nat -> 0 <= ent (t_K l) r r) by (intros r Hr; pose proof (psd_offdiag _ _ r r HS HP Hr Hr); pose proof (Rabs_pos (ent (t_K l) r r)); lra).
    assert (N : forall p, 0 <= lsum (fun x => x) (tms p p l) /\ lsum Rabs (tms p p l) = lsum (fun x => x) (tms p p l)).
    { intros p'. destruct (terms_cases p' p') as [E|(r & s & Hr & Hs & E & E1 & _)]; [rewrite E; unfold lsum; cbn; lra|]. rewrite E1. unfold lsum. cbn. rewrite Rabs_pos_eq by (apply D; exact Hr). pose proof (D r Hr). lra. }
    split; [destruct (terms_cases p q) as [E|(r & s & _ & _ & E & _)]; rewrite E; cbn; lia|]. split; [|apply N].
    destruct (terms_cases p q) as [E|(r & s & Hr & Hs & E & E1 & E2)].
    - rewrite E. pose proof (proj1 (N p)). pose proof (proj1 (N q)). unfold lsum at 1. cbn. lra.
    - rewrite E, E1, E2. unfold lsum. cbn. pose proof (psd_offdiag _ _ r s HS HP Hr Hs). lra.
  Qed.
End One.
Lemma lsum_flat_map {A} (f : R -> R) (g : A -> list R) l : lsum f (flat_map g l) = lsum (fun a => lsum f (g a)) l.
Proof. induction l as [|a l IH]; [reflexivity|]. cbn [flat_map]. rewrite lsum_app, IH. reflexivity. Qed.
Lemma all_terms_bounds (locs : list (tlocal R)) p q : Forall (fun l => eqs_once l /\ symmetric (t_n l) (t_K l) /\ psd (t_n l) (t_K l)) locs ->
  (length (@all_terms R Num_R (@t_K R) p q locs) <= length locs)%nat /\
  lsum Rabs (@all_terms R Num_R (@t_K R) p q locs) <= (lsum (fun x => x) (@all_terms R Num_R (@t_K R) p p locs) + lsum (fun x => x) (@all_terms R Num_R (@t_K R) q q locs)) / 2.
Proof.
  intros HF. unfold all_terms. rewrite !lsum_flat_map. induction HF as [|l locs (H1 & H2 & H3) HF [I1 I2]]; [split; [cbn; lia|unfold lsum; cbn; lra]|].
  destruct (terms_one l H1 H2 H3 p q) as (T1 & T2 & _). cbn [flat_map length]. rewrite app_length. split; [lia|].
  repeat match goal with |- context [lsum ?f (l :: locs)] => change (lsum f (l :: locs)) with (f l + lsum f locs) end. cbn beta. lra.
Qed.
Lemma sum_R l : @running_sum R Num_R l = lsum (fun x => x) l.
Proof. unfold running_sum. change (@nadd R Num_R) with Rplus. change (@n0 R Num_R) with 0. rewrite AssemProofs2.fold_left_Rplus. apply Rplus_0_l. Qed.

Definition pair_ok (u : R) (neq : nat) (ll : tlocal R * tlocal R) : Prop :=
  t_ok neq (fst ll) /\ t_ok neq (snd ll) /\ t_op (fst ll) = t_op (snd ll) /\ t_n (fst ll) = 4%nat /\ t_n (snd ll) = 4%nat /\
  entries_close (gamma 25 u) 4 (t_K (fst ll)) (t_K (snd ll)) /\ eqs_once (snd ll) /\ symmetric 4 (t_K (snd ll)) /\ psd 4 (t_K (snd ll)).

Section Mesh.
  Variables (u : R) (rnd : R -> R).
  Hypotheses (HR : rounding u rnd) (H25 : INR 25 * u < 1).
  Lemma gamma_nonneg : 0 <= gamma 25 u.
  Proof. destruct HR as [[Hu _] _]. unfold gamma. pose proof (pos_INR 25). apply Rmult_le_pos; [nra|]. left. apply Rinv_0_lt_compat. lra. Qed.
  Lemma truss_pairs md : wf_model md -> truss_model md -> exists op bc neq locs, @DME R (Num_F rnd) (md_cons md) (md_elements md) 2 18 None = Ok (op, bc, Z.of_nat neq) /\ @DME R Num_R (md_cons md) (md_elements md) 2 18 None = Ok (op, bc, Z.of_nat neq) /\
    @t_mesh R (Num_F rnd) (md_elements md) (md_mats md) (md_nodes md) op None (map fst locs) /\ @t_mesh R Num_R (md_elements md) (md_mats md) (md_nodes md) op None (map snd locs) /\ Forall (pair_ok u neq) locs.
  Proof.
    intros Hwf Ht. pose proof Hwf as (Hf & Hc & Hel & _). pose proof (truss_accepted md Hwf Ht) as Hacc.
    assert (HG : Forall (good_row 2 18 None (md_cons md)) (md_elements md)) by (eapply Forall_impl; [|exact Hacc]; intros e [H _]; exact H).
    destruct (DME_ok 2 18 None (md_cons md) (md_elements md) Hf HG) as (op & bc & HD & Hnum & Hrows). set (neq := count_free (md_cons md)) in *.
    pose proof (numbering_bc_ok _ _ _ _ Hf Hnum) as Hbc. pose proof (numbering_length _ _ _ Hnum) as Hlen.
    exists op, bc, neq.
    enough (X : exists locs, @t_mesh R (Num_F rnd) (md_elements md) (md_mats md) (md_nodes md) op None (map fst locs) /\ @t_mesh R Num_R (md_elements md) (md_mats md) (md_nodes md) op None (map snd locs) /\ Forall (pair_ok u neq) locs)
      by (destruct X as (locs & X); exists locs; split; [exact HD|]; split; [exact HD|exact X]).
    destruct Ht as [Hr3 Hb]. clear HD HG Hacc.
    induction Hrows as [|e row es rows Hrow _ IH]; [exists []; split; [split; constructor|]; split; [split; constructor|constructor]|].
    inversion Hb as [|? ? (id & im & a & b & E & A & rest & -> & Hm & Him & HE & HA & Hne) Hb']; subst. inversion Hel as [|? ? Hn Hel']; subst.
    destruct (IH Hb' Hel') as (locs & [F1 E1] & [F2 E2] & F3). cbn [skipn] in Hn. pose proof (mapM_rows _ _ Hn) as Hrw. cbn [map] in Hrw.
    assert (Na : (Z.to_nat a < length (md_nodes md))%nat) by (inversion Hn; subst; lia). assert (Nb : (Z.to_nat b < length (md_nodes md))%nat) by (inversion Hn as [|? ? _ Hn2]; inversion Hn2; subst; lia).
    rewrite Forall_forall in Hr3. pose proof (Hr3 _ (nth_In (md_nodes md) [] Na)) as L0. pose proof (Hr3 _ (nth_In (md_nodes md) [] Nb)) as L1.
    unfold ent in Hne. destruct (nth (Z.to_nat a) (md_nodes md) []) as [|i0 [|x0 [|y0 [|]]]] eqn:Ra; try discriminate. destruct (nth (Z.to_nat b) (md_nodes md) []) as [|i1 [|x1 [|y1 [|]]]] eqn:Rb; try discriminate. cbn [nth] in Hne.
    destruct (truss_close u rnd HR x0 y0 x1 y1 Hne E A rest) as (K & M & K' & M' & EF & ER & C). destruct (C H25) as [CK CM].
    assert (Hz : (0 <= E * A)) by nra. destruct (truss_sym_psd _ _ _ _ _ _ ER) as [SK PK]. specialize (PK Hz).
    assert (Hrd : forall r, (r < 4)%nat -> nth r row (-1)%Z = zent bc (Z.to_nat (if (r <? 2)%nat then a else b)) (r mod 2)).
    { destruct Hrow as (_ & Hrow & _). intros r Hr. rewrite (Nat.div_mod r 2) at 1 by lia. rewrite Nat.mul_comm. rewrite Hrow; [|change (length [id; 6%Z; im; a; b] - 3)%nat with 2%nat; apply Nat.div_lt_upper_bound; lia|apply Nat.mod_upper_bound; lia]. f_equal.
      destruct r as [|[|[|[|]]]]; try lia; reflexivity. }
    assert (Hab : Z.to_nat a <> Z.to_nat b) by (intros Eab; rewrite Eab, Rb in Ra; injection Ra as -> -> ->; destruct Hne; congruence).
    exists ((mkT row K M, mkT row K' M') :: locs). cbn [map fst snd].
    assert (Rng : forall r, (r < 4)%nat -> (-1 <= nth r row (-1)%Z < Z.of_nat neq)%Z).
    { intros r Hr. apply (row_range bc 2 18 neq (md_cons md) [id; 6%Z; im; a; b] row r Hbc Hlen); [rewrite Hc; exact Hn|exact Hrow|cbn; lia]. }
    split; [split; [constructor; [|exact F1]|cbn [map t_op]; rewrite E1; reflexivity]|].
    { unfold retriever. change (np_get [id; 6%Z; im; a; b] 1) with (Ok 6%Z). change (np_get [id; 6%Z; im; a; b] 2) with (Ok im). cbn [bind]. rewrite Hm. cbn [bind skipn]. rewrite Hrw. cbn [bind map tl].
      change (@ele_fun R (Num_F rnd) 6) with (Ok (@truss2D R (Num_F rnd))). cbn [bind]. exact EF. }
    split; [split; [constructor; [|exact F2]|cbn [map t_op]; rewrite E2; reflexivity]|].
    { unfold retriever. change (np_get [id; 6%Z; im; a; b] 1) with (Ok 6%Z). change (np_get [id; 6%Z; im; a; b] 2) with (Ok im). cbn [bind]. rewrite Hm. cbn [bind skipn]. rewrite Hrw. cbn [bind map tl].
      change (@ele_fun R Num_R 6) with (Ok (@truss2D R Num_R)). cbn [bind]. exact ER. }
    constructor; [|exact F3]. pose proof CK as (SK1 & SK2 & _). pose proof CM as (SM1 & SM2 & _).
    assert (n1 : t_n (mkT row K M) = 4%nat) by exact (proj1 SK1). assert (n2 : t_n (mkT row K' M') = 4%nat) by exact (proj1 SK2).
    assert (Lr : (4 <= length row)%nat) by (rewrite (proj1 Hrow); lia).
    split; [|split; [|split; [reflexivity|split; [exact n1|split; [exact n2|split; [exact CK|split; [|split; [exact SK|exact PK]]]]]]]]; cbn [fst snd].
    - split; [rewrite n1; exact SK1|]. split; [rewrite n1; exact SM1|]. rewrite n1. split; [exact Lr|exact Rng].
    - split; [rewrite n2; exact SK2|]. split; [rewrite n2; exact SM2|]. rewrite n2. split; [exact Lr|exact Rng].
    - intros r s. rewrite n2. intros Hr' Hs' Ers Enz. unfold t_eq in *. cbn [t_op] in *. rewrite (Hrd r Hr') in *. rewrite (Hrd s Hs') in *.
      destruct Hbc as (_ & Hrg & Hinj & _). assert (Hlb : length bc = length (md_nodes md)) by congruence.
      assert (Hi : forall r, (Z.to_nat (if (r <? 2)%nat then a else b) < length bc)%nat) by (intros r'; rewrite Hlb; destruct (r' <? 2)%nat; assumption).
      destruct (Hrg _ _ (Hi r) (Nat.mod_upper_bound r 2 ltac:(lia))) as [|Hrg']; [contradiction|].
      destruct (Hinj _ _ _ _ (Hi r) (Nat.mod_upper_bound r 2 ltac:(lia)) (Hi s) (Nat.mod_upper_bound s 2 ltac:(lia)) (proj1 Hrg') Ers) as [I1 I2].
      destruct r as [|[|[|[|]]]]; try lia; destruct s as [|[|[|[|]]]]; try lia; cbn in I1, I2; try reflexivity; try discriminate; exfalso; apply Hab; congruence.
  Qed.
  Lemma truss_rounded md : wf_model md -> truss_model md -> exists op bc neq Kf Mf K M,
    @DME R (Num_F rnd) (md_cons md) (md_elements md) 2 18 None = Ok (op, bc, Z.of_nat neq) /\ @DME R Num_R (md_cons md) (md_elements md) 2 18 None = Ok (op, bc, Z.of_nat neq) /\
    @dense_assem R (Num_F rnd) (md_elements md) (md_mats md) (md_nodes md) neq op None = Ok (Kf, Mf) /\ @dense_assem R Num_R (md_elements md) (md_mats md) (md_nodes md) neq op None = Ok (K, M) /\
    forall p q, (p < neq)%nat -> (q < neq)%nat -> Rabs (ent Kf p q - ent K p q) <= ((1 + u) ^ length (md_elements md) * (1 + gamma 25 u) - 1) * ((ent K p p + ent K q q) / 2).
  Proof.
    intros Hwf Ht. destruct (truss_pairs md Hwf Ht) as (op & bc & neq & locs & D1 & D2 & MF & MR & HP).
    assert (OF : Forall (t_ok neq) (map fst locs)) by (apply Forall_map; eapply Forall_impl; [|exact HP]; intros ll H; apply H).
    assert (OR : Forall (t_ok neq) (map snd locs)) by (apply Forall_map; eapply Forall_impl; [|exact HP]; intros ll H; apply H).
    destruct (any_total u rnd (gamma 25 u) _ _ _ neq _ _ locs HR gamma_nonneg MF OF) as (Kf & Mf & EF & HT).
    { eapply Forall_impl; [|exact HP]. intros ll (_ & _ & O1 & N1 & N2 & (_ & _ & C) & _). split; [exact O1|]. split; [congruence|]. rewrite N2. exact C. }
    destruct (@any_dense R Num_R _ _ _ neq _ _ _ MR OR) as (K & M & ER & _ & _ & HK).
    exists op, bc, neq, Kf, Mf, K, M. split; [exact D1|]. split; [exact D2|]. split; [exact EF|]. split; [exact ER|]. intros p q Hp Hq.
    assert (HE : forall p q, (p < neq)%nat -> (q < neq)%nat -> ent K p q = lsum (fun x => x) (@all_terms R Num_R (@t_K R) p q (map snd locs))).
    { intros i j Hi Hj. rewrite <- sum_R. apply (HK i j Hi Hj). }
    specialize (HT p q Hp Hq). cbv zeta in HT. rewrite <- HE in HT by assumption. eapply Rle_trans; [exact HT|].
    destruct (all_terms_bounds (map snd locs) p q) as [B1 B2].
    { apply Forall_map. eapply Forall_impl; [|exact HP]. intros ll (_ & _ & _ & _ & N2 & _ & E1 & S1 & P1). rewrite N2. auto. }
    rewrite <- !HE in B2 by assumption. assert (LL : length (map snd locs) = length (md_elements md)) by (symmetry; eapply Forall2_len; exact (proj1 MR)). rewrite LL in B1.
    pose proof gamma_nonneg as Hg. pose proof (proj1 HR) as Hu. set (ts := all_terms _ _ _ _) in *. set (g := gamma 25 u) in *.
    assert (P1 : 1 <= (1 + u) ^ length ts) by (apply pow_ge1; lra).
    assert (P2 : (1 + u) ^ length ts <= (1 + u) ^ length (md_elements md)) by (apply Rle_pow; [lra|exact B1]).
    apply Rmult_le_compat; [nra|apply lsum_nonneg; intros; apply Rabs_pos| |exact B2]. assert ((1 + u) ^ length ts * (1 + g) <= (1 + u) ^ length (md_elements md) * (1 + g)) by (apply Rmult_le_compat_r; lra). lra.
  Qed.
End Mesh.
