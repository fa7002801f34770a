(** * Proofs: what ties cost, and flags that are refused *)
From Coq Require Import Reals List Arith Lia Lra Bool ZArith.
From Verif Require Import Num LinAlg Gauss Fem Uel Assem Post Main Script Spec LinR Base SpecAssem SpecModel SpecElem SpecModes SpecScript SpecMass SpecStiff SpecTied
  AssemProofs AssemProofs2 AssemProofs3 AssemProofs4 ElemShape ElemCore ModelProofs MeshProofs SpecStatic StaticProofs StaticProofs3 ScriptProofs ScriptProofs2 StiffProofs RefineProofs TiedProofs TiedProofs2.
Import ListNotations.
Local Open Scope R_scope.

(** ** cutting the ties *)
Lemma untied_ent p i j : (i < length (p_cons p))%nat -> (j < length (nth i (p_cons p) []))%nat ->
  ent (p_cons (untied p)) i j = if Req_EM_T (ent (p_cons p) i j) (-1) then -1 else 0.
Proof.
  intros Hi Hj. cbn [p_cons untied]. unfold ent. set (f := fun c => if Req_EM_T c (-1) then -1 else 0).
  rewrite (nth_indep _ [] (map f [])) by (rewrite map_length; exact Hi). rewrite map_nth.
  rewrite (nth_indep _ 0 (f 0)) by (rewrite map_length; exact Hj). rewrite map_nth. reflexivity.
Qed.
Lemma untied_wf p : wf_tied p -> wf_problem (untied p).
Proof.
  intros (Hd & HT & HL & Hel & Hld). split; [exact Hd|]. split.
  - unfold flags01. cbn [p_cons untied p_dofs]. apply Forall_map. eapply Forall_impl; [|exact HT]. intros row [H1 _]. split; [rewrite map_length; exact H1|].
    apply Forall_map. apply Forall_forall. intros c _. destruct (Req_EM_T c (-1)); auto.
  - split; [cbn [p_cons untied p_nodes]; rewrite map_length; exact HL|]. split; [|exact Hld].
    eapply Forall_impl; [|exact Hel]. intros e [(t & H1 & H2 & H3 & H4) H5]. split; [|exact H5].
    exists t. cbn [p_cons untied]. rewrite map_length. auto.
Qed.
Lemma untied_admissible p U : wf_tied p -> p_admissible p U <-> p_admissible (untied p) U.
Proof.
  intros (_ & HT & HL & _). split; intros H i j [Hi Hj] E; apply H; try (split; assumption); pose proof (tied_length _ _ i HT ltac:(cbn [untied p_nodes] in Hi; lia)) as HR.
  - rewrite untied_ent in E; [|cbn [untied p_nodes] in Hi; lia|cbn [untied p_dofs] in Hj; lia]. destruct (Req_EM_T (ent (p_cons p) i j) (-1)); [assumption|lra].
  - rewrite untied_ent; [|lia|lia]. destruct (Req_EM_T (ent (p_cons p) i j) (-1)); [reflexivity|contradiction].
Qed.

(** ** virtual work *)
Lemma over_zero_work p V g : wf_tied p -> tied p V -> (forall q, (q < count_free (p_cons p))%nat -> over p q g = 0) ->
  rsum (length (p_nodes p)) (fun i => rsum (p_dofs p) (fun d => V i d * g i d)) = 0.
Proof.
  intros Hwf [HA HV] Hg. destruct (tied_DME p Hwf) as (_ & bc & _ & HB & _). pose proof Hwf as (_ & HT & HL & _).
  transitivity (rsum (length (p_nodes p)) (fun i => rsum (p_dofs p) (fun d => rsum (count_free (p_cons p)) (fun q => if shareb (p_cons p) i d q then V i d * g i d else 0)))).
  - apply rsum_ext. intros i Hi. apply rsum_ext. intros d Hd. destruct (tb_range _ _ _ HB i d ltac:(lia) Hd) as [Z|Z].
    + rewrite (HA i d (conj Hi Hd)) by (apply (tb_held _ _ _ HB); [lia|exact Hd|exact Z]). rewrite rsum_zero; [ring|]. intros q _. destruct (shareb (p_cons p) i d q); ring.
    + rewrite (rsum_single (count_free (p_cons p)) (Z.to_nat (zent bc i d))); [| lia |].
      * rewrite <- (tb_share _ _ _ HB) by (assumption || lia). destruct (Z.eqb_spec (zent bc i d) (Z.of_nat (Z.to_nat (zent bc i d)))); [reflexivity|lia].
      * intros q _ Hq. rewrite <- (tb_share _ _ _ HB) by (assumption || lia). destruct (Z.eqb_spec (zent bc i d) (Z.of_nat q)); [lia|reflexivity].
  - rewrite (rsum_ext (length (p_nodes p)) _ (fun i => rsum (count_free (p_cons p)) (fun q => rsum (p_dofs p) (fun d => if shareb (p_cons p) i d q then V i d * g i d else 0)))) by (intros i _; apply rsum_swap).
    rewrite rsum_swap. apply rsum_zero. intros q Hq. destruct (tb_onto _ _ _ HB q Hq) as (i0 & d0 & Hi0 & Hd0 & E0).
    assert (S0 : shareb (p_cons p) i0 d0 q = true) by (rewrite <- (tb_share _ _ _ HB) by assumption; rewrite E0; apply Z.eqb_refl).
    transitivity (V i0 d0 * over p q g); [|rewrite (Hg q Hq); ring]. unfold over. rewrite <- rsum_scal. apply rsum_ext. intros i Hi. rewrite <- rsum_scal. apply rsum_ext. intros d Hd.
    assert (D0 : p_dof p i0 d0) by (split; [rewrite <- HL; exact Hi0|exact Hd0]).
    destruct (shareb (p_cons p) i d q) eqn:S; [|ring]. rewrite (HV q i d i0 d0 (conj Hi Hd) D0 S S0). reflexivity.
Qed.
Lemma over_minus p q f g : over p q (fun i d => f i d - g i d) = over p q f - over p q g.
Proof.
  unfold over. rewrite <- rsum_minus. apply rsum_ext. intros i _. rewrite <- rsum_minus. apply rsum_ext. intros d _. destruct (shareb (p_cons p) i d q); ring.
Qed.
(** the loads of every equation are the sum of the loads of its dofs *)
Lemma tied_work p U V : wf_tied p -> (forall q, (q < count_free (p_cons p))%nat -> tied_load p q = over p q (applied (p_loads p))) ->
  tied_equilibrium p U -> tied p V -> p_energy p V U = p_load_work p V.
Proof.
  intros Hwf Hl [_ HU] HV. rewrite <- (p_virtual_work (untied p) U V (untied_wf p Hwf) : _ = p_energy p V U). unfold p_load_work.
  pose proof (over_zero_work p V (fun i d => p_internal p U i d - applied (p_loads p) i d) Hwf HV) as Z.
  assert (Z' : rsum (length (p_nodes p)) (fun i => rsum (p_dofs p) (fun d => V i d * (p_internal p U i d - applied (p_loads p) i d))) = 0).
  { apply Z. intros q Hq. rewrite over_minus, (HU q Hq), (Hl q Hq). ring. }
  apply Rminus_diag_uniq. etransitivity; [|exact Z']. cbn [untied p_nodes p_dofs]. rewrite <- rsum_minus. apply rsum_ext. intros i _. rewrite <- rsum_minus. apply rsum_ext. intros d _.
  change (p_internal (untied p)) with (p_internal p). ring.
Qed.
Theorem tied_less p U W : wf_tied p -> p_psd p -> (forall q, (q < count_free (p_cons p))%nat -> tied_load p q = over p q (applied (p_loads p))) ->
  tied_equilibrium p U -> p_equilibrium (untied p) W ->
  p_load_work p W - p_load_work p U = p_energy p (fun i d => W i d - U i d) (fun i d => W i d - U i d) /\ p_load_work p U <= p_load_work p W.
Proof.
  intros Hwf Hp Hl HU HW. pose proof (untied_wf p Hwf) as Wf.
  assert (E : p_load_work p W - p_load_work p U = p_energy p (fun i d => W i d - U i d) (fun i d => W i d - U i d)).
  { rewrite (energy_diff p W U Hp).
    rewrite (p_work' (untied p) W W Wf HW (equilibrium_admissible _ _ HW) : p_energy p W W = p_load_work p W).
    rewrite (p_work' (untied p) W U Wf HW (proj1 (untied_admissible p U Hwf) (proj1 (proj1 HU))) : p_energy p U W = p_load_work p U).
    rewrite (tied_work p U U Hwf Hl HU (proj1 HU)). ring. }
  split; [exact E|]. pose proof (p_energy_nonneg p (fun i d => W i d - U i d) Hp). lra.
Qed.
Theorem tied_from_untied p : wf_tied p -> p_psd p -> p_stable (untied p) -> tied_stable p.
Proof.
  intros Hwf Hp Hs U HU H0. pose proof (untied_wf p Hwf) as Wf.
  apply (proj1 (p_stable_energy (untied p) Wf Hp) Hs U (proj1 (untied_admissible p U Hwf) (proj1 HU))).
  assert (Z : p_energy p U U = 0).
  { rewrite <- (p_virtual_work (untied p) U U Wf : _ = p_energy p U U). exact (over_zero_work p U (p_internal p U) Hwf HU H0). }
  intros e He. cbn [untied p_elements] in He. change (form (p_dofs p * e_n e) (p_stiff p e) (p_disp p U e) (p_disp p U e) = 0).
  assert (NN : forall e', In e' (p_elements p) -> 0 <= form (p_dofs p * e_n e') (p_stiff p e') (p_disp p U e') (p_disp p U e')) by (intros e' He'; apply (Hp e' He')).
  unfold p_energy in Z. clear -Z NN He. revert NN Z He. induction (p_elements p) as [|a l IH]; intros NN Z He; [contradiction|].
  change (lsum ?f (?a :: ?t)) with (f a + lsum f t) in Z. cbv beta in Z.
  assert (Y : 0 <= lsum (fun e => form (p_dofs p * e_n e) (p_stiff p e) (p_disp p U e) (p_disp p U e)) l) by (apply lsum_nonneg0; intros e' He'; apply NN; right; exact He').
  pose proof (NN a (or_introl eq_refl)) as X. destruct He as [<-|He]; [lra|]. apply IH; [intros e' He'; apply NN; right; exact He'|lra|exact He].
Qed.

(** ** solids_auto *)
Lemma auto_script sv md plot strains out : auto sv md plot strains = Ok out -> p_script sv (plane_problem md) true = Ok (out_disp out).
Proof.
  intros H. unfold auto, solids_auto, run in H. unfold p_script, script, plane_problem. cbn [p_dofs p_max p_ndof p_uel p_nodes p_cons p_elements p_mats p_loads].
  destruct (DME (md_cons md) (md_elements md) 2 18 None) as [[[op bc] neq]|] eqn:E1; [|discriminate]. cbn [bind] in *.
  destruct (assembler (md_elements md) (md_mats md) (md_nodes md) (Z.to_nat neq) op true None) as [[K M]|] eqn:E2; [|discriminate]. cbn [bind] in *.
  destruct (loadasem (md_loads md) bc (Z.to_nat neq) 2) as [rhs|] eqn:E3; [|discriminate]. cbn [bind] in *.
  destruct (static_sol (spsolve sv) (npsolve sv) K rhs) as [u|] eqn:E4; [|discriminate]. cbn [bind] in *.
  inv_ok H. inv_ok H. inv_ok H. inv_ok H. apply Ok_inj in H. subst out. cbn [out_disp]. assumption.
Qed.
Lemma script_npsolve sv sv' p : spsolve sv = spsolve sv' -> p_script sv p true = p_script sv' p true.
Proof.
  intros E. unfold p_script, script. destruct (DME (p_cons p) (p_elements p) (p_dofs p) (p_max p) (p_ndof p)) as [[[op bc] neq]|]; [|reflexivity]. cbn [bind].
  unfold assembler. destruct (sparse_assem (p_elements p) (p_mats p) (p_nodes p) (Z.to_nat neq) op (p_uel p)) as [[K M]|]; [|reflexivity]. cbn [bind].
  destruct (loadasem (p_loads p) bc (Z.to_nat neq) (p_dofs p)); [|reflexivity]. cbn [bind static_sol]. rewrite E. reflexivity.
Qed.
Theorem tied_auto sv md plot strains out : wf_tied (plane_problem md) -> solver_ok sv -> auto sv md plot strains = Ok out ->
  shape (length (md_nodes md)) 2 (out_disp out) /\ tied_equilibrium (plane_problem md) (table out).
Proof.
  intros Hwf Hs H. apply auto_script in H.
  set (sv' := {| spsolve := spsolve sv; npsolve := spsolve sv |}). rewrite (script_npsolve sv sv' _ eq_refl) in H.
  exact (tied_solved sv' (plane_problem md) true (out_disp out) Hwf (conj Hs Hs) H).
Qed.

(** ** flags out of range *)
Lemma load_length bc d n loads rhs : loadasem loads bc n d = Ok rhs -> length rhs = n.
Proof.
  unfold loadasem. intros H. assert (L0 : length (vzeros n) = n) by (unfold vzeros; apply mk_vec_length).
  revert L0 H. generalize (vzeros n). induction loads as [|l loads IH]; intros r0 L0 H; cbn [foldM] in H.
  - apply Ok_inj in H. subst. reflexivity.
  - apply bind_ok in H. destruct H as (r1 & H1 & H). refine (IH r1 _ H). clear IH H. unfold load_row in H1. apply bind_ok in H1. destruct H1 as (nd & _ & H1).
    revert r0 L0 H1. generalize (seq 0 d). intros js. induction js as [|j js IH]; intros r0 L0 H1; cbn [foldM] in H1; [apply Ok_inj in H1; congruence|].
    apply bind_ok in H1. destruct H1 as (r2 & H2 & H1). refine (IH r2 _ H1). clear IH H1.
    apply bind_ok in H2. destruct H2 as (br & _ & H2). apply bind_ok in H2. destruct H2 as (z & _ & H2). destruct (z =? -1)%Z; [apply Ok_inj in H2; congruence|].
    apply bind_ok in H2. destruct H2 as (v & _ & H2). unfold np_upd in H2. destruct (np_index (length r0) z); [|discriminate]. apply Ok_inj in H2. subst r2. rewrite upd_length. exact L0.
Qed.
Theorem flag_too_large sv p sparse i j k U : (0 < p_dofs p)%nat -> whole_flags (p_dofs p) (p_cons p) -> length (p_cons p) = length (p_nodes p) -> solvers_ok sv ->
  p_dof p i j -> ent (p_cons p) i j = INR k -> (1 <= k)%nat -> (count_free (p_cons p) <= k)%nat -> p_script sv p sparse <> Ok U.
Proof.
  intros Hd HW HL [S1 S2] [Hi Hj] Ek Hk Hc H. destruct (eq_rows_gen (p_dofs p) (p_cons p) 0 HW) as (bc & HE & Hlen & HR & HZ).
  unfold p_script, script, DME in H. change (eqcounter (p_cons p) (p_dofs p)) with (eq_rows (p_dofs p) (map (map Rtrunc) (p_cons p)) 0%Z) in H. rewrite HE in H. cbn [bind] in H.
  apply bind_ok in H. destruct H as ([[op bc'] neq] & H0 & H). apply bind_ok in H0. destruct H0 as (op' & _ & H0). apply Ok_inj in H0. injection H0 as <- <- <-.
  rewrite ?Z.add_0_l, Nat2Z.id in H. change (rcount (concat (p_cons p))) with (count_free (p_cons p)) in H.
  apply bind_ok in H. destruct H as ([K M] & _ & H). apply bind_ok in H. destruct H as (rhs & Hl & H). apply load_length in Hl.
  apply bind_ok in H. destruct H as (u & Hu & H).
  assert (Lu : length u = count_free (p_cons p)).
  { rewrite <- Hl. unfold static_sol in Hu. destruct K; [exact (proj1 (S2 _ _ _ Hu))|exact (proj1 (S1 _ _ _ Hu))|discriminate]. }
  unfold complete_disp in H. destruct (mapM_nth_error _ _ _ i i H) as (row & _ & Hrow); [rewrite (nth_error_nth' _ 0%nat) by (rewrite seq_length; exact Hi); rewrite seq_nth by exact Hi; reflexivity|].
  destruct (mapM_nth_error _ _ _ j j Hrow) as (v & _ & Hv); [rewrite (nth_error_nth' _ 0%nat) by (rewrite seq_length; exact Hj); rewrite seq_nth by exact Hj; reflexivity|].
  assert (Hib : (i < length bc)%nat) by lia.
  rewrite (np_get_nth bc i []) in Hv by exact Hib. cbn [bind] in Hv.
  assert (Hrl : length (nth i bc []) = p_dofs p) by (rewrite Forall_forall in HR; apply HR, nth_In; exact Hib).
  rewrite (np_get_nth _ j (-1)%Z) in Hv by lia. cbn [bind] in Hv. fold (zent bc i j) in Hv. rewrite (HZ i j ltac:(lia) Hj), Ek in Hv.
  unfold isz in Hv. destruct (Req_EM_T (INR k) 0) as [E0|_]; [apply (INR_eq k 0) in E0; lia|]. rewrite INR_IZR_INZ, Rtrunc_IZR in Hv.
  destruct (Z.eqb_spec (Z.of_nat k) (-1)); [lia|]. rewrite np_get_overflow in Hv by lia. discriminate.
Qed.

Lemma foldM_incl {A B} (f : list B -> A -> res (list B)) l b b' : (forall b a b', f b a = Ok b' -> incl b b') -> foldM f l b = Ok b' ->
  incl b b' /\ forall a, In a l -> exists b1 b2, f b1 a = Ok b2 /\ incl b2 b'.
Proof.
  intros Hf. revert b. induction l as [|a l IH]; intros b H; cbn [foldM] in H.
  - apply Ok_inj in H. subst. split; [apply incl_refl|]. intros a [].
  - apply bind_ok in H. destruct H as (b1 & H1 & H). destruct (IH b1 H) as [I1 I2]. split; [eapply incl_tran; [exact (Hf _ _ _ H1)|exact I1]|].
    intros a' [<-|Ha]; [exists b, b1; split; [exact H1|exact I1]|exact (I2 a' Ha)].
Qed.
Lemma sparse_row_incl dme (kloc : list (list R)) mloc row z js (acc acc' : coo R) :
  foldM (fun acc col => glob_col <- np_get dme (Z.of_nat col) ;; if (glob_col =? -1)%Z then Ok acc
     else kv <- np_get2 kloc (Z.of_nat row) (Z.of_nat col) ;; mv <- mass_get mloc (Z.of_nat row) (Z.of_nat col) ;; Ok (acc ++ [(z, glob_col, kv, mv)])%list) js acc = Ok acc' ->
  incl acc acc' /\ forall c z', In c js -> np_get dme (Z.of_nat c) = Ok z' -> z' <> (-1)%Z -> exists kv mv, In (z, z', kv, mv) acc'.
Proof.
  intros H. apply foldM_incl in H.
  - destruct H as [H1 H2]. split; [exact H1|]. intros c z' Hc Hz Hn. destruct (H2 c Hc) as (b1 & b2 & E & I). rewrite Hz in E. cbn [bind] in E.
    destruct (Z.eqb_spec z' (-1)); [contradiction|]. apply bind_ok in E. destruct E as (kv & _ & E). apply bind_ok in E. destruct E as (mv & _ & E). apply Ok_inj in E.
    exists kv, mv. apply I. rewrite <- E. apply in_or_app. right. left. reflexivity.
  - intros b c b' E. apply bind_ok in E. destruct E as (z' & _ & E). destruct (z' =? -1)%Z; [apply Ok_inj in E; subst; apply incl_refl|].
    apply bind_ok in E. destruct E as (kv & _ & E). apply bind_ok in E. destruct E as (mv & _ & E). apply Ok_inj in E. subst b'. apply incl_appl. apply incl_refl.
Qed.
Lemma sparse_elem_incl dme (kloc : list (list R)) mloc (acc acc' : coo R) : sparse_elem dme kloc mloc acc = Ok acc' ->
  incl acc acc' /\ forall r z, (r < length kloc)%nat -> np_get dme (Z.of_nat r) = Ok z -> z <> (-1)%Z -> exists kv mv, In (z, z, kv, mv) acc'.
Proof.
  unfold sparse_elem. intros H. apply foldM_incl in H.
  - destruct H as [H1 H2]. split; [exact H1|]. intros r z Hr Hz Hn. destruct (H2 r) as (b1 & b2 & E & I); [apply in_seq; lia|]. rewrite Hz in E. cbn [bind] in E.
    destruct (Z.eqb_spec z (-1)); [contradiction|]. apply sparse_row_incl in E. destruct (proj2 E r z) as (kv & mv & J); [apply in_seq; lia|exact Hz|exact Hn|].
    exists kv, mv. apply I. exact J.
  - intros b r b' E. apply bind_ok in E. destruct E as (z & _ & E). destruct (z =? -1)%Z; [apply Ok_inj in E; subst; apply incl_refl|]. exact (proj1 (sparse_row_incl _ _ _ _ _ _ _ _ E)).
Qed.
Lemma sparse_assem_range elements mats nodes neq op uel km i e row K M r : @sparse_assem R Num_R elements mats nodes neq op uel = Ok km ->
  nth_error elements i = Some e -> nth_error op i = Some row -> retriever e mats nodes uel = Ok (K, M) -> (r < length K)%nat -> (r < length row)%nat ->
  nth r row (-1)%Z = (-1)%Z \/ (0 <= nth r row (-1) < Z.of_nat neq)%Z.
Proof.
  intros H He Hop Hret HrK Hrr. destruct (Z.eq_dec (nth r row (-1)%Z) (-1)) as [|Hn]; [left; assumption|]. right.
  unfold sparse_assem in H. apply bind_ok in H. destruct H as (ents & H1 & H). apply bind_ok in H. destruct H as (st & H2 & _).
  apply foldM_incl in H1.
  - destruct H1 as [_ H1]. destruct (H1 (e, Ok row)) as (b1 & b2 & E & I).
    { unfold elem_rows. apply in_map_iff. exists i. assert (Hi : (i < length elements)%nat) by (apply nth_error_Some; congruence).
      split; [|apply in_seq; lia]. rewrite (nth_error_nth elements i [] He). f_equal. rewrite (np_get_nth op i []) by (apply nth_error_Some; congruence). rewrite (nth_error_nth op i [] Hop). reflexivity. }
    rewrite Hret in E. cbn [bind] in E. apply sparse_elem_incl in E. destruct (proj2 E r (nth r row (-1)%Z)) as (kv & mv & J); [exact HrK| |exact Hn|].
    { rewrite (np_get_nth _ r (-1)%Z) by (rewrite firstn_length; lia). f_equal. apply firstn_nth; exact HrK. }
    unfold coo_tocsr in H2. apply bind_ok in H2. destruct H2 as (g & G & _). apply guard_ok in G. rewrite forallb_forall in G.
    specialize (G (nth r row (-1)%Z, nth r row (-1)%Z, kv)). cbv beta iota in G.
    assert (X : In (nth r row (-1)%Z, nth r row (-1)%Z, kv) (map (fun e0 : Z * Z * R * R => let '(r0, c, k, _) := e0 in (r0, c, k)) ents)).
    { apply in_map_iff. exists (nth r row (-1)%Z, nth r row (-1)%Z, kv, mv). split; [reflexivity|]. apply I. exact J. }
    specialize (G X). apply andb_prop in G as [G _]. apply andb_prop in G as [G _]. apply andb_prop in G as [G1 G2]. apply Z.leb_le in G1. apply Z.ltb_lt in G2. lia.
  - intros b [e' ar] b' E. apply bind_ok in E. destruct E as ([k m] & _ & E). apply bind_ok in E. destruct E as (ar' & _ & E). exact (proj1 (sparse_elem_incl _ _ _ _ _ E)).
Qed.
(** in the sparse mode, which [solids_auto] uses, flags below -1 of nodes with elements are refused as well *)
Theorem flag_too_small sv p e k i j z U : (0 < p_dofs p)%nat -> whole_flags (p_dofs p) (p_cons p) -> length (p_cons p) = length (p_nodes p) ->
  In e (p_elements p) -> good_row (p_dofs p) (p_max p) (p_ndof p) (p_cons p) e -> shape (p_dofs p * e_n e) (p_dofs p * e_n e) (p_stiff p e) -> (k < e_n e)%nat -> e_node e k = i ->
  (j < p_dofs p)%nat -> ent (p_cons p) i j = IZR z -> (z < -1)%Z -> p_script sv p true <> Ok U.
Proof.
  intros Hd HW HL Hin (t & Ht & Hnd & Hm & HF) SK Hk <- Hj Ez Hz H. destruct (eq_rows_gen (p_dofs p) (p_cons p) 0 HW) as (bc & HE & Hlen & HR & HZ).
  unfold p_script, script, DME in H. change (eqcounter (p_cons p) (p_dofs p)) with (eq_rows (p_dofs p) (map (map Rtrunc) (p_cons p)) 0%Z) in H. rewrite HE in H. cbn [bind] in H.
  apply bind_ok in H. destruct H as ([[op bc'] neq] & H0 & H). apply bind_ok in H0. destruct H0 as (op' & Hop & H0). apply Ok_inj in H0. injection H0 as <- <- <-.
  rewrite ?Z.add_0_l, Nat2Z.id in H. apply bind_ok in H. destruct H as ([K M] & HA & _). unfold assembler in HA. apply bind_ok in HA. destruct HA as (km & HA & _).
  destruct (In_nth_error _ _ Hin) as [n Hn]. destruct (mapM_nth_error _ _ _ n e Hop Hn) as (row & Hrow & Hdme).
  destruct (dme_row_ok bc (p_dofs p) (p_max p) (p_ndof p) e t _ HR Ht Hnd) as (row' & Hr & Hs); [rewrite Hlen; exact HF|reflexivity|exact Hm|].
  rewrite Hr in Hdme. apply Ok_inj in Hdme. subst row'.
  pose proof Hs as (L1 & _). pose proof (p_loc_eq p bc e row Hs k j Hk Hj) as EQ. unfold l_eq in EQ. cbn [p_loc l_op snd] in EQ.
  assert (Hrng : (p_dofs p * k + j < p_dofs p * e_n e)%nat) by nia.
  destruct (retriever e (p_mats p) (p_nodes p) (p_uel p)) as [[K0 M0]|] eqn:Eret.
  - unfold p_stiff in SK. rewrite Eret in SK.
    assert (X : nth (p_dofs p * k + j) row (-1)%Z = (-1)%Z \/ (0 <= nth (p_dofs p * k + j) row (-1) < Z.of_nat (rcount (concat (p_cons p))))%Z).
    { eapply (sparse_assem_range _ _ _ _ _ _ km n e row K0 M0); [exact HA|exact Hn|exact Hrow|exact Eret|rewrite (proj1 SK); exact Hrng|rewrite L1; unfold e_n in Hrng; lia]. }
    rewrite EQ in X. assert (Hi : (e_node e k < length (p_cons p))%nat).
    { rewrite <- Hlen. rewrite <- Hlen in HF. exact (p_node p bc Hd e HF k Hk). }
    rewrite (HZ _ j Hi Hj), Ez in X. unfold isz in X. destruct (Req_EM_T (IZR z) 0) as [E0|_]; [apply eq_IZR in E0; lia|]. rewrite Rtrunc_IZR in X. lia.
  - unfold p_stiff in SK. rewrite Eret in SK. destruct SK as [L0 _]. cbn in L0. lia.
Qed.
Theorem tied_auto_runs sv md : wf_tied (plane_problem md) -> solver_ok sv -> solver_total sv -> tied_stable (plane_problem md) -> (0 < count_free (md_cons md))%nat ->
  exists out, auto sv md false false = Ok out.
Proof.
  intros Hwf Hs Ht Hst Hn. set (p := plane_problem md) in *. set (sv' := {| spsolve := spsolve sv; npsolve := spsolve sv |}).
  assert (HT' : solvers_total sv') by (intros n A f SA Lf Hr; destruct (Ht n A f SA Lf Hr) as [x Hx]; split; exists x; exact Hx).
  destruct (tied_runs sv' p true Hwf (conj Hs Hs) HT' Hst) as [U HU]. rewrite (script_npsolve sv' sv _ eq_refl) in HU.
  destruct (tied_system p Hwf) as (op & bc & K & M & F). destruct (tied_loads p bc Hwf (tf_bc _ _ _ _ _ F)) as (rhs & Er & Lr & _).
  unfold p_script, script in HU. rewrite (tf_dme _ _ _ _ _ F) in HU. cbn [bind] in HU. rewrite Nat2Z.id, (tf_asm _ _ _ _ _ F true), Er in HU. cbn [bind static_sol] in HU.
  apply bind_ok in HU. destruct HU as (u & Hu & EU). assert (Lu : length u = count_free (p_cons p)) by (rewrite <- Lr; exact (proj1 (Hs _ _ _ Hu))).
  destruct (gmax_spec (count_free (p_cons p)) K Hn) as (m & Hm & _).
  assert (Hw : exists w, not_equilibrium (count_free (p_cons p)) K u rhs = Ok w).
  { unfold not_equilibrium. rewrite Lu, Nat.eqb_refl. cbn [guard bind]. rewrite Hm. cbn [bind]. destruct (nis0 m); eexists; reflexivity. }
  destruct Hw as [w Hw]. unfold auto, solids_auto, run.
  change (DME (md_cons md) (md_elements md) 2 18 None) with (DME (p_cons p) (p_elements p) (p_dofs p) (p_max p) (p_ndof p)). rewrite (tf_dme _ _ _ _ _ F). cbn [bind]. rewrite Nat2Z.id.
  change (assembler (md_elements md) (md_mats md) (md_nodes md) (count_free (p_cons p)) op true None) with (assembler (p_elements p) (p_mats p) (p_nodes p) (count_free (p_cons p)) op true (p_uel p)).
  rewrite (tf_asm _ _ _ _ _ F true). cbn [bind].
  change (loadasem (md_loads md) bc (count_free (p_cons p)) 2) with (loadasem (p_loads p) bc (count_free (p_cons p)) (p_dofs p)). rewrite Er. cbn [bind static_sol]. rewrite Hu. cbn [bind entries]. rewrite Hw. cbn [bind].
  change (complete_disp bc (md_nodes md) u 2) with (complete_disp bc (p_nodes p) u (p_dofs p)). rewrite EU. cbn [bind]. eexists. reflexivity.
Qed.
