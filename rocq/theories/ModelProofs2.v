(** * Proofs: superposition, patch fields, relabelling, energy, the two drivers *)
From Coq Require Import String Reals List Arith Lia Lra Bool ZArith Permutation QArith Qreals.
From Verif Require Import Num LinAlg Gauss Fem Uel Assem Post Pre TextIO Main Spec LinR Base SpecAssem
  AssemProofs AssemProofs2 AssemProofs3 ElemShape SpecModel ModelProofs.
Import ListNotations.
Local Open Scope R_scope.

Lemma Forall2_In_l {A B} (P : A -> B -> Prop) l l' :
  Forall2 P l l' -> Forall2 (fun a b => In a l /\ P a b) l l'.
Proof.
  induction 1 as [|a b l l' H HF IH]; constructor; [split; [left; reflexivity|exact H]|].
  eapply Forall2_mono; [|exact IH]. intros x y [Hx Hp]. split; [right; exact Hx|exact Hp].
Qed.

(** ** superposition *)
Lemma internal_force_ext mats nodes elements U V i d :
  (forall e k b, In e elements -> (k < e_n e)%nat -> (b < 2)%nat -> U (e_node e k) b = V (e_node e k) b) ->
  internal_force mats nodes elements U i d = internal_force mats nodes elements V i d.
Proof.
  intros Hx. unfold internal_force. apply lsum_ext. intros e He. apply rsum_ext. intros k Hk.
  destruct (e_node e k =? i)%nat; [|reflexivity]. unfold e_force. apply act_ext.
  intros j Hj. unfold e_disp. apply Hx; auto.
  - apply Nat.div_lt_upper_bound; lia.
  - apply Nat.mod_upper_bound; lia.
Qed.

Lemma superposition sv md l1 l2 l3 a b p1 s1 p2 s2 p3 s3 o1 o2 o3 :
  solver_ok sv -> stable md ->
  wf_model (with_loads md l1) -> wf_model (with_loads md l2) -> wf_model (with_loads md l3) ->
  (forall i d, (i < length (md_nodes md))%nat -> (d < 2)%nat ->
     applied l3 i d = a * applied l1 i d + b * applied l2 i d) ->
  auto sv (with_loads md l1) p1 s1 = Ok o1 ->
  auto sv (with_loads md l2) p2 s2 = Ok o2 ->
  auto sv (with_loads md l3) p3 s3 = Ok o3 ->
  forall i d, (i < length (md_nodes md))%nat -> (d < 2)%nat ->
    table o3 i d = a * table o1 i d + b * table o2 i d.
Proof.
  intros Hsv Hst W1 W2 W3 Hl R1 R2 R3.
  apply run_equilibrium in R1; auto. apply run_equilibrium in R2; auto. apply run_equilibrium in R3; auto.
  apply (stable_unique (with_loads md l3) (table o3) (fun i d => a * table o1 i d + b * table o2 i d)); auto.
  intros i d Hi Hd. destruct (R1 i d Hi Hd) as [A1 B1], (R2 i d Hi Hd) as [A2 B2]. split; intros Hc.
  - rewrite A1, A2 by exact Hc. lra.
  - rewrite internal_force_lin. cbn [with_loads md_mats md_nodes md_elements md_loads md_cons] in *.
    rewrite B1, B2, Hl by assumption. reflexivity.
Qed.

Lemma applied_comb a b l1 l2 i d :
  Forall2 (fun r1 r2 => nth 0 r1 0 = nth 0 r2 0) l1 l2 -> (d < 2)%nat ->
  applied (comb_loads a b l1 l2) i d = a * applied l1 i d + b * applied l2 i d.
Proof.
  intros HF Hd. unfold applied, comb_loads.
  enough (Hg : forall v1 v2,
    fold_left (fun v row => if Req_EM_T (nth 0 row 0) (INR i) then nth (d + 1) row 0 else v)
      (map (fun rr => [nth 0 (fst rr) 0; a * nth 1 (fst rr) 0 + b * nth 1 (snd rr) 0;
                  a * nth 2 (fst rr) 0 + b * nth 2 (snd rr) 0]) (combine l1 l2)) (a * v1 + b * v2) =
    a * fold_left (fun v row => if Req_EM_T (nth 0 row 0) (INR i) then nth (d + 1) row 0 else v) l1 v1 +
    b * fold_left (fun v row => if Req_EM_T (nth 0 row 0) (INR i) then nth (d + 1) row 0 else v) l2 v2).
  { rewrite <- Hg. do 2 f_equal; lra. }
  induction HF as [|r1 r2 l1 l2 He HF IH]; intros v1 v2; cbn [combine map fold_left]; [reflexivity|].
  rewrite <- IH. f_equal. cbn [fst snd nth]. rewrite <- He.
  destruct (Req_EM_T (nth 0 r1 0) (INR i)); [|reflexivity].
  assert (d = 0 \/ d = 1)%nat as [->| ->] by lia; reflexivity.
Qed.

Lemma patch sv md plot strains out U :
  wf_model md -> solver_ok sv -> stable md -> in_equilibrium md U ->
  auto sv md plot strains = Ok out ->
  forall i d, (i < length (md_nodes md))%nat -> (d < 2)%nat -> table out i d = U i d.
Proof.
  intros Hwf Hsv Hst HU Hrun. apply stable_unique; auto. eapply run_equilibrium; eauto.
Qed.

(** ** relabelling *)
Lemma np_get_prefix (e e' : list Z) (k : nat) :
  (k < 3)%nat -> firstn 3 e' = firstn 3 e -> np_get e' (Z.of_nat k) = np_get e (Z.of_nat k).
Proof.
  intros Hk He.
  assert (Hlen : forall l : list Z, length (firstn 3 l) = Nat.min 3 (length l)) by (intros; apply firstn_length).
  assert (HL : Nat.min 3 (length e') = Nat.min 3 (length e)) by (rewrite <- !Hlen, He; reflexivity).
  destruct (Nat.lt_ge_cases k (length e)) as [H1|H1].
  - rewrite (np_get_nth e k 0%Z), (np_get_nth e' k 0%Z) by lia.
    rewrite <- (firstn_nth e' 3 k 0%Z), <- (firstn_nth e 3 k 0%Z), He by exact Hk. reflexivity.
  - rewrite (np_get_overflow e), (np_get_overflow e') by lia. reflexivity.
Qed.

Section Relabel.
  Variables (s t : nat -> nat) (md md' : model).
  Hypothesis Hrl : relabelling s t md md'.
  Hypothesis Hwf : wf_model md.
  Let n := length (md_nodes md).

  Lemma relabel_retriever e e' :
    In e (md_elements md) ->
    firstn 3 e' = firstn 3 e -> skipn 3 e' = map (fun z => Z.of_nat (s (Z.to_nat z))) (skipn 3 e) ->
    retriever e' (md_mats md') (md_nodes md') None = retriever e (md_mats md) (md_nodes md) None.
  Proof.
    intros He H3 Hs. unfold retriever.
    change 1%Z with (Z.of_nat 1). change 2%Z with (Z.of_nat 2).
    rewrite (np_get_prefix e e' 1), (np_get_prefix e e' 2) by (auto; lia).
    apply bind_ext; intros ty _. apply bind_ext; intros im _. rewrite (rl_mats _ _ _ _ Hrl).
    apply bind_ext; intros params _.
    assert (Hn : Forall (fun z => (0 <= z < Z.of_nat n)%Z) (skipn 3 e)).
    { destruct Hwf as (_ & _ & Hel & _). rewrite Forall_forall in Hel. apply Hel. exact He. }
    rewrite Hs, mapM_map.
    rewrite (mapM_total _ (fun z => nth (s (Z.to_nat z)) (md_nodes md') [])).
    - rewrite (mapM_total (np_get (md_nodes md)) (fun z => nth (Z.to_nat z) (md_nodes md) [])).
      + cbn [bind]. rewrite !map_map.
        replace (map (fun x => tl (nth (s (Z.to_nat x)) (md_nodes md') [])) (skipn 3 e))
          with (map (fun x => tl (nth (Z.to_nat x) (md_nodes md) [])) (skipn 3 e)); [reflexivity|].
        apply map_ext_in. intros z Hz. rewrite Forall_forall in Hn. apply Hn in Hz.
        symmetry. apply (rl_nodes _ _ _ _ Hrl). fold n. lia.
      + intros z Hz. rewrite Forall_forall in Hn. apply Hn in Hz. apply np_get_nonneg. fold n. lia.
    - intros z Hz. rewrite Forall_forall in Hn. apply Hn in Hz. apply np_get_nth.
      rewrite (rl_len _ _ _ _ Hrl). apply (rl_s _ _ _ _ Hrl). fold n. lia.
  Qed.

  Lemma relabel_node e e' k :
    firstn 3 e' = firstn 3 e -> skipn 3 e' = map (fun z => Z.of_nat (s (Z.to_nat z))) (skipn 3 e) ->
    (k < e_n e)%nat -> e_node e' k = s (e_node e k).
  Proof.
    intros H3 Hs Hk. unfold e_node. rewrite <- !nth_skipn, Hs.
    rewrite nth_indep with (d' := (fun z => Z.of_nat (s (Z.to_nat z))) 0%Z)
      by (rewrite map_length, skipn_length; exact Hk).
    rewrite (map_nth (fun z => Z.of_nat (s (Z.to_nat z)))). rewrite Nat2Z.id. reflexivity.
  Qed.

  Lemma relabel_en (e e' : list Z) : skipn 3 e' = map (fun z => Z.of_nat (s (Z.to_nat z))) (skipn 3 e) -> e_n e' = e_n e.
  Proof. intros Hs. unfold e_n. rewrite <- !skipn_length, Hs, map_length. reflexivity. Qed.

  Lemma e_node_lt e k : In e (md_elements md) -> (k < e_n e)%nat -> (e_node e k < n)%nat.
  Proof.
    intros He Hk. destruct Hwf as (_ & _ & Hel & _). rewrite Forall_forall in Hel.
    specialize (Hel e He). rewrite Forall_forall in Hel. unfold e_node. rewrite <- nth_skipn.
    assert (Hin : In (nth k (skipn 3 e) 0%Z) (skipn 3 e)) by (apply nth_In; rewrite skipn_length; exact Hk).
    apply Hel in Hin. fold n in Hin. lia.
  Qed.

  Lemma relabel_internal (U U' : nat -> nat -> R) i d :
    (forall i d, (i < n)%nat -> (d < 2)%nat -> U' (s i) d = U i d) -> (i < n)%nat ->
    internal_force (md_mats md') (md_nodes md') (md_elements md') U' (s i) d =
    internal_force (md_mats md) (md_nodes md) (md_elements md) U i d.
  Proof.
    intros HU Hi. unfold internal_force. symmetry. apply lsum_Forall2.
    assert (HF : Forall2 (fun e e' => In e (md_elements md) /\ firstn 3 e' = firstn 3 e /\
      skipn 3 e' = map (fun z => Z.of_nat (s (Z.to_nat z))) (skipn 3 e)) (md_elements md) (md_elements md')).
    { apply Forall2_In_l. exact (rl_elems _ _ _ _ Hrl). }
    eapply Forall2_mono; [|exact HF]. intros e e' (He & H3 & Hs). cbv beta.
    rewrite (relabel_en e e' Hs). apply rsum_ext. intros k Hk.
    rewrite (relabel_node e e' k H3 Hs Hk).
    assert (Hek := e_node_lt e k He Hk).
    replace (s (e_node e k) =? s i)%nat with (e_node e k =? i)%nat.
    - destruct (e_node e k =? i)%nat; [|reflexivity]. unfold e_force, e_stiff.
      rewrite (relabel_en e e' Hs), (relabel_retriever e e' He H3 Hs).
      apply act_ext. intros j Hj. unfold e_disp.
      assert (j / 2 < e_n e)%nat by (apply Nat.div_lt_upper_bound; lia).
      rewrite (relabel_node e e' (j / 2) H3 Hs) by assumption. symmetry. apply HU.
      + apply e_node_lt; assumption.
      + apply Nat.mod_upper_bound; lia.
    - destruct (Nat.eqb_spec (e_node e k) i) as [->|Hne]; [symmetry; apply Nat.eqb_refl|].
      symmetry. apply Nat.eqb_neq. intros E. apply Hne.
      destruct (rl_s _ _ _ _ Hrl (e_node e k) Hek) as [_ E1]. destruct (rl_s _ _ _ _ Hrl i Hi) as [_ E2].
      congruence.
  Qed.

  Lemma relabel_applied i d : (i < n)%nat ->
    applied (md_loads md') (s i) d = applied (md_loads md) i d.
  Proof.
    intros Hi. unfold applied. pose proof (rl_loads _ _ _ _ Hrl) as HF.
    enough (Hg : forall v, fold_left (fun v row => if Req_EM_T (nth 0 row 0) (INR (s i)) then nth (d + 1) row 0 else v)
        (md_loads md') v =
      fold_left (fun v row => if Req_EM_T (nth 0 row 0) (INR i) then nth (d + 1) row 0 else v) (md_loads md) v)
      by apply Hg.
    induction HF as [|r r' l l' [Htl [m [Hm [E1 E2]]]] HF IH]; intros v; cbn [fold_left]; [reflexivity|].
    rewrite IH. f_equal. rewrite E1, E2.
    assert (Hnth : nth (d + 1) r' 0 = nth (d + 1) r 0).
    { replace (d + 1)%nat with (S d) by lia. destruct r as [|x r], r' as [|x' r']; cbn in Htl |- *; subst; try reflexivity; destruct d; reflexivity. }
    destruct (Req_EM_T (INR (s m)) (INR (s i))) as [E|E], (Req_EM_T (INR m) (INR i)) as [E'|E'];
      auto; exfalso.
    - apply INR_eq in E. apply E'. f_equal.
      destruct (rl_s _ _ _ _ Hrl m Hm) as [_ F1]. destruct (rl_s _ _ _ _ Hrl i Hi) as [_ F2]. congruence.
    - apply INR_eq in E'. subst. apply E. reflexivity.
  Qed.

  Lemma relabel_equilibrium (U U' : nat -> nat -> R) :
    (forall i d, (i < n)%nat -> (d < 2)%nat -> U' (s i) d = U i d) ->
    in_equilibrium md U <-> in_equilibrium md' U'.
  Proof.
    intros HU. split; intros HE i d Hi Hd.
    - rewrite (rl_len _ _ _ _ Hrl) in Hi. destruct (rl_t _ _ _ _ Hrl i Hi) as [Ht Hst].
      fold n in Ht, Hi. destruct (HE (t i) d Ht Hd) as [H1 H2]. rewrite <- Hst.
      unfold ent. rewrite (rl_cons _ _ _ _ Hrl) by exact Ht. fold (ent (md_cons md) (t i) d). split; intros Hc.
      + rewrite HU by assumption. apply H1. exact Hc.
      + rewrite (relabel_internal U U'), relabel_applied by assumption. apply H2. exact Hc.
    - destruct (rl_s _ _ _ _ Hrl i Hi) as [Hs _]. rewrite <- (rl_len _ _ _ _ Hrl) in Hs.
      destruct (HE (s i) d Hs Hd) as [H1 H2]. unfold ent in H1, H2.
      rewrite (rl_cons _ _ _ _ Hrl) in H1, H2 by exact Hi. split; intros Hc.
      + rewrite <- HU by assumption. apply H1. exact Hc.
      + rewrite (relabel_internal U U'), relabel_applied in H2 by assumption. apply H2. exact Hc.
  Qed.

  Lemma relabel_run sv p1 s1 p2 s2 o o' :
    wf_model md' -> solver_ok sv -> stable md ->
    auto sv md p1 s1 = Ok o -> auto sv md' p2 s2 = Ok o' ->
    forall i d, (i < n)%nat -> (d < 2)%nat -> table o' (s i) d = table o i d.
  Proof.
    intros Hwf' Hsv Hst R1 R2.
    apply run_equilibrium in R1; auto. apply run_equilibrium in R2; auto.
    apply (stable_unique md (fun i d => table o' (s i) d)); auto.
    eapply (relabel_equilibrium _ (table o')); auto.
  Qed.
End Relabel.

(** ** energy *)
Lemma energy_form u K : energy u K = - (1 / 2) * form (length u) K (fun i => nth i u 0) (fun i => nth i u 0).
Proof.
  unfold energy, vdot. rewrite sumn_rsum.
  replace (@nofQ R Num_R (-0.5)) with (- (1 / 2)) by (cbn; q2r; lra).
  change (@nmul R Num_R) with Rmult. f_equal. unfold form. apply rsum_ext. intros i Hi.
  unfold mvmul, vget. rewrite mk_vec_nth by exact Hi. rewrite sumn_rsum. unfold act.
  change (@n0 R Num_R) with 0. rewrite Rmult_comm. f_equal.
Qed.

Lemma form_load n K u f :
  (forall p, (p < n)%nat -> act n K u p = f p) -> form n K u u = rsum n (fun i => f i * u i).
Proof. intros Hf. unfold form. apply rsum_ext. intros i Hi. rewrite Hf by exact Hi. lra. Qed.

Lemma form_scal n K c u v : form n K (fun i => c * u i) (fun i => c * v i) = c ^ 2 * form n K u v.
Proof.
  rewrite !form_double. rewrite <- rsum_scal. apply rsum_ext; intros i _. rewrite <- rsum_scal.
  apply rsum_ext; intros j _. ring.
Qed.

(** ** the text-file driver *)
Lemma np_get_firstn {A} (l : list A) n k : (k < n)%nat -> (n <= length l)%nat ->
  np_get (firstn n l) (Z.of_nat k) = np_get l (Z.of_nat k).
Proof.
  intros Hk Hn. destruct l as [|a l]; [cbn in Hn; lia|].
  rewrite (np_get_nth (a :: l) k a), (np_get_nth (firstn n (a :: l)) k a) by (rewrite ?firstn_length; lia).
  rewrite firstn_nth by exact Hk. reflexivity.
Qed.

Lemma np_get_map {A B} (f : A -> B) l z :
  np_get (map f l) z = match np_get l z with Ok a => Ok (f a) | Err e => Err e end.
Proof.
  unfold np_get. rewrite map_length. destruct (np_index (length l) z) as [k|]; [|reflexivity].
  rewrite nth_error_map. destruct (nth_error l k); reflexivity.
Qed.

Section GuiAuto.
  Variable nodes : list (list R).
  Hypothesis Hn : Forall (fun row => length row = 5%nat) nodes.

  Lemma take_col_cut ids c : (c = 1 \/ c = 2)%Z ->
    take_col (map (firstn 3) nodes) ids c = take_col nodes ids c.
  Proof.
    intros Hc. unfold take_col. apply mapM_ext. intros i _. unfold np_get2. rewrite np_get_map.
    destruct (np_get nodes i) as [row|] eqn:E; [|reflexivity]. cbn [bind].
    apply np_get_In in E. rewrite Forall_forall in Hn. apply Hn in E.
    destruct Hc as [->| ->].
    - apply (np_get_firstn row 3 1); lia.
    - apply (np_get_firstn row 3 2); lia.
  Qed.

  Lemma mapM_col_cut c : (c = 1 \/ c = 2)%Z ->
    mapM (fun row => np_get row c) (map (firstn 3) nodes) = mapM (fun row => np_get row c) nodes.
  Proof.
    intros Hc. rewrite mapM_map. apply mapM_ext. intros row Hrow. rewrite Forall_forall in Hn. apply Hn in Hrow.
    destruct Hc as [->| ->].
    - apply (np_get_firstn row 3 1); lia.
    - apply (np_get_firstn row 3 2); lia.
  Qed.

  Lemma mesh2tri_cut elements : mesh2tri (map (firstn 3) nodes) elements = mesh2tri nodes elements.
  Proof. unfold mesh2tri. rewrite !mapM_col_cut by auto. reflexivity. Qed.

  Lemma fields_plot_cut elements disp E Sg :
    fields_plot elements (map (firstn 3) nodes) disp E Sg = fields_plot elements nodes disp E Sg.
  Proof.
    unfold fields_plot. apply bind_ext; intros types _.
    destruct (has_type types 5 || has_type types 6 || has_type types 7); [reflexivity|].
    unfold plot_node_field. rewrite mesh2tri_cut. destruct E, Sg; reflexivity.
  Qed.

  Lemma strain_nodes_cut elements mats sol :
    strain_nodes (map (firstn 3) nodes) elements mats sol = strain_nodes nodes elements mats sol.
  Proof.
    unfold strain_nodes.
    assert (R : strain_rows (map (firstn 3) nodes) elements mats sol = strain_rows nodes elements mats sol);
      [|now rewrite R]. unfold strain_rows. rewrite map_length.
    apply bind_ext; intros e0 _. apply bind_ext; intros iet _. apply bind_ext; intros [[nd nn] ng] _.
    replace (foldM (strain_elem iet nd nn (map (firstn 3) nodes) mats sol) elements
      (zeros (length nodes) 3, zeros (length nodes) 3, repeat 0%Z (length nodes)))
      with (foldM (strain_elem iet nd nn nodes mats sol) elements
      (zeros (length nodes) 3, zeros (length nodes) 3, repeat 0%Z (length nodes))); [reflexivity|].
    apply foldM_ext. intros st elem _. unfold strain_elem.
    apply bind_ext; intros im _. apply bind_ext; intros row _.
    destruct row as [|y [|p [|]]]; try reflexivity.
    rewrite !take_col_cut by auto. reflexivity.
  Qed.

  Lemma run_cut sv cons mats elements loads plot strains :
    run sv cons (map (firstn 3) nodes) nodes mats elements loads plot strains =
    run sv cons (map (firstn 3) nodes) (map (firstn 3) nodes) mats elements loads plot strains.
  Proof.
    unfold run. apply bind_ext; intros [[op bc] neq] _. apply bind_ext; intros [k m] _.
    apply bind_ext; intros rhs _. apply bind_ext; intros u _. apply bind_ext; intros w _.
    unfold complete_disp. rewrite map_length. apply bind_ext; intros U _.
    rewrite strain_nodes_cut. apply bind_ext; intros st _.
    rewrite fields_plot_cut. reflexivity.
  Qed.
End GuiAuto.

Lemma gui_auto sv fs gui prompt plot strains folder nodes mats elements loads :
  Forall (fun row => length row = 5%nat) nodes ->
  readin fs folder = Ok (nodes, mats, elements, loads) ->
  solids_GUI sv fs gui prompt plot strains (Some folder) =
  solids_auto sv (map (firstn 3) nodes) (map (skipn 3) nodes) elements mats loads plot strains.
Proof.
  intros Hn Hr. unfold solids_GUI. rewrite Hr. cbn [bind]. unfold solids_auto.
  rewrite run_cut by exact Hn. f_equal.
  apply map_ext_in. intros row Hrow. rewrite Forall_forall in Hn. apply Hn in Hrow.
  unfold last2. rewrite Hrow. reflexivity.
Qed.
