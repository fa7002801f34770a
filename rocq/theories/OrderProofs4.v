(** * Lemmas: meshes whose elements start from other nodes *)
From Coq Require Import String Reals List Arith Lia Lra Bool ZArith QArith Qreals Relations.
From Verif Require Import Num LinAlg Gauss Fem Uel Assem Post Main Script Spec LinR Base SpecAssem SpecModel SpecElem SpecShape SpecStatic SpecScript SpecMass SpecOrder
  ShapeProofs ElemCore ElemShape Sampled Elem2 Elem2Props Elem3Props ElemAxi BarProofs Elem3 MatProofs ElemFinal3 AssemProofs AssemProofs3 ModelProofs ScriptProofs ScriptProofs2 OrderProofs OrderProofs2 OrderProofs3.
Import ListNotations.
Local Open Scope R_scope.

Lemma turns_shape f d s coord params K M : In (f, d, s) (turns ++ simplex_turns) -> f coord params = Ok (K, M2 M) ->
  shape (d * length s) (d * length s) K /\ shape (d * length s) (d * length s) M.
Proof.
  intros Hin Hf. assert (HP : forall p, In p planes -> pl_f p coord params = Ok (K, M2 M) -> shape (2 * pl_n p) (2 * pl_n p) K /\ shape (2 * pl_n p) (2 * pl_n p) M).
  { intros p Hp H. destruct (plane_summary p coord params K _ Hp H) as (E & nu & rho & M0 & _ & _ & _ & Hm & HS). injection Hm as ->.
    exact (conj (sa_shK _ _ _ _ _ _ _ _ HS) (sa_shM _ _ _ _ _ _ _ _ HS)). }
  assert (HQ : forall p, In p solids -> so_f p coord params = Ok (K, M2 M) -> shape (3 * so_n p) (3 * so_n p) K /\ shape (3 * so_n p) (3 * so_n p) M).
  { intros p Hp H. destruct (solid_summary p coord params K _ Hp H) as (E & nu & rho & M0 & _ & _ & _ & _ & Hm & HS). injection Hm as ->.
    exact (conj (sa_shK _ _ _ _ _ _ _ _ HS) (sa_shM _ _ _ _ _ _ _ _ HS)). }
  cbn [turns simplex_turns app] in Hin.
  destruct Hin as [Hin|Hin]; [injection Hin as <- <- <-; apply (HP pl_quad4); [cbn; tauto|exact Hf]|].
  destruct Hin as [Hin|Hin]; [injection Hin as <- <- <-; apply (HP pl_quad8); [cbn; tauto|exact Hf]|].
  destruct Hin as [Hin|Hin]; [injection Hin as <- <- <-; apply (HP pl_quad9); [cbn; tauto|exact Hf]|].
  destruct Hin as [Hin|Hin]; [injection Hin as <- <- <-|].
  { destruct (axi_sampled coord params K _ Hf) as (E & nu & rho & M0 & _ & _ & _ & _ & Hm & HS). injection Hm as ->.
    exact (conj (sa_shK _ _ _ _ _ _ _ _ HS) (sa_shM _ _ _ _ _ _ _ _ HS)). }
  destruct Hin as [Hin|Hin]; [injection Hin as <- <- <-; apply (HQ so_hex8); [cbn; tauto|exact Hf]|].
  destruct Hin as [Hin|Hin]; [injection Hin as <- <- <-; apply (HQ so_hex8); [cbn; tauto|exact Hf]|].
  destruct Hin as [Hin|Hin]; [injection Hin as <- <- <-|].
  { apply truss_inv in Hf. destruct Hf as (nx & ny & L & E & A & rest & _ & _ & -> & Hm). injection Hm as ->. cbn [length Nat.mul Nat.add].
    split; [apply congr_shape|]. split; [reflexivity|]. repeat (apply Forall_cons; [reflexivity|]). apply Forall_nil. }
  destruct Hin as [Hin|Hin]; [injection Hin as <- <- <-|].
  { unfold beam2DU in Hf. inv_ok Hf. destruct r as [[nx ny] L]. destruct params as [|E [|I rest]]; try discriminate. inv_ok Hf. destruct r as [dens area].
    injection Hf as <- <-. split; apply congr_shape. }
  destruct Hin as [Hin|Hin]; [injection Hin as <- <- <-|].
  { cbv beta in Hf. unfold beam2D in Hf. inv_ok Hf. destruct r as [[nx ny] L]. destruct params as [|E [|I [|A rest]]]; try discriminate. cbn [firstn] in Hf. inv_ok Hf.
    destruct rest as [|rho rest]; cbn [map bcast_mul bind] in Hf; injection Hf as <- <-; split; apply congr_shape. }
  destruct Hin as [Hin|Hin]; [injection Hin as <- <- <-; apply (HP pl_tri3); [cbn; tauto|exact Hf]|].
  destruct Hin as [Hin|Hin]; [injection Hin as <- <- <-; apply (HQ so_tet4); [cbn; tauto|exact Hf]|].
  destruct Hin as [Hin|Hin]; [injection Hin as <- <- <-; apply (HQ so_tet4); [cbn; tauto|exact Hf]|].
  destruct Hin.
Qed.

Lemma div_mod_lt j d n : (0 < d)%nat -> (j < d * n)%nat -> (j / d < n)%nat /\ (j mod d < d)%nat /\ j = (d * (j / d) + j mod d)%nat.
Proof. intros Hd Hj. split; [apply Nat.div_lt_upper_bound; lia|]. split; [apply Nat.mod_upper_bound; lia|]. apply Nat.div_mod. lia. Qed.

Section Rows.
  Variable p : problem.
  Hypothesis Hd : (0 < p_dofs p)%nat.
  Hypothesis HL : length (p_cons p) = length (p_nodes p).
  Hypothesis Hrect : rectangular (p_nodes p).

  Definition row_ok (e : list Z) : Prop := good_row (p_dofs p) (p_max p) (p_ndof p) (p_cons p) e /\
     exists k m, retriever e (p_mats p) (p_nodes p) (p_uel p) = Ok (k, M2 m) /\
       shape (p_dofs p * e_n e) (p_dofs p * e_n e) k /\ shape (p_dofs p * e_n e) (p_dofs p * e_n e) m.
  Definition same_row (kin : Prop) (e e' : list Z) : Prop :=
    e_n e' = e_n e /\ (row_ok e -> row_ok e' /\
      (forall U V, form (p_dofs p * e_n e') (p_stiff p e') (p_disp p U e') (p_disp p V e') = form (p_dofs p * e_n e) (p_stiff p e) (p_disp p U e) (p_disp p V e)) /\
      (kin -> forall U V, form (p_dofs p * e_n e') (p_mass p e') (p_disp p U e') (p_disp p V e') = form (p_dofs p * e_n e) (p_mass p e) (p_disp p U e) (p_disp p V e))).

  Lemma coords_of zs : Forall (fun z => (0 <= z < Z.of_nat (length (p_nodes p)))%Z) zs ->
    mapM (np_get (p_nodes p)) zs = Ok (map (fun z => nth (Z.to_nat z) (p_nodes p) []) zs).
  Proof.
    induction 1 as [|z zs [H1 H2] _ IH]; [reflexivity|]. cbn [mapM map].
    replace (np_get (p_nodes p) z) with (Ok (nth (Z.to_nat z) (p_nodes p) [])).
    - cbn [bind]. rewrite IH. reflexivity.
    - symmetry. rewrite <- (Z2Nat.id z H1) at 1. apply np_get_nth. lia.
  Qed.
  Definition cds (zs : list Z) : list (list R) := map (fun z => tl (nth (Z.to_nat z) (p_nodes p) [])) zs.
  Lemma ret_of e t im params f : Forall (fun z => (0 <= z < Z.of_nat (length (p_nodes p)))%Z) (skipn 3 e) ->
    nth_error e 1 = Some t -> nth_error e 2 = Some im -> np_get (p_mats p) im = Ok params -> (p_uel p = Some f \/ p_uel p = None /\ ele_fun t = Ok f) ->
    retriever e (p_mats p) (p_nodes p) (p_uel p) = f (cds (skipn 3 e)) params.
  Proof.
    intros Hz Et Ei Em Ef. unfold retriever. replace (np_get e 1) with (Ok t) by (symmetry; exact (np_get_error e 1 t Et)). cbn [bind].
    replace (np_get e 2) with (Ok im) by (symmetry; exact (np_get_error e 2 im Ei)). cbn [bind]. rewrite Em. cbn [bind].
    rewrite (coords_of _ Hz). cbn [bind]. destruct Ef as [->|[-> Ef]]; [|rewrite Ef]; cbn [bind]; unfold cds; rewrite map_map; reflexivity.
  Qed.
  Lemma cds_pick s zs : (forall k, In k s -> (k < length zs)%nat) -> cds (pick 0%Z s zs) = pick [] s (cds zs).
  Proof.
    intros Hs. unfold cds, pick. rewrite map_map. apply map_ext_in. intros k Hk.
    rewrite (nth_indep (map (fun z => tl (nth (Z.to_nat z) (p_nodes p) [])) zs) [] (tl (nth (Z.to_nat 0) (p_nodes p) []))) by (rewrite map_length; apply Hs; exact Hk).
    rewrite (map_nth (fun z => tl (nth (Z.to_nat z) (p_nodes p) []))). reflexivity.
  Qed.
  Lemma cds_rect zs : Forall (fun z => (0 <= z < Z.of_nat (length (p_nodes p)))%Z) zs -> rectangular (cds zs).
  Proof.
    intros Hz. destruct Hrect as [c Hc]. exists (c - 1)%nat. rewrite Forall_forall in *. intros r Hr. unfold cds in Hr. apply in_map_iff in Hr.
    destruct Hr as (z & <- & Hin). destruct (Hz z Hin) as [H1 H2].
    assert (Hl : length (nth (Z.to_nat z) (p_nodes p) []) = c) by (apply Hc, nth_In; lia). rewrite <- Hl. destruct (nth _ _ _); cbn; lia.
  Qed.

  Lemma turn_row orders e e' : (forall x, In x orders -> In x (turns ++ simplex_turns)) -> turn orders p e e' ->
    same_row (forall x, In x orders -> In x turns) e e'.
  Proof.
    intros Hord (g & s & Hu & Hin & Hs & ->). destruct Hu as (t & im & params & f & Et & Ei & Em & Ef & Hfg).
    assert (L3 : (3 <= length e)%nat) by (assert (2 < length e)%nat by (apply nth_error_Some; congruence); lia).
    pose proof (Hord _ Hin) as Hin'. destruct (turns_order _ _ _ Hin') as [HO _].
    set (e' := firstn 3 e ++ pick 0%Z s (skipn 3 e)).
    assert (Esk : skipn 3 e' = pick 0%Z s (skipn 3 e)).
    { unfold e'. rewrite skipn_app. rewrite firstn_length, Nat.min_l by exact L3. rewrite skipn_all2 by (rewrite firstn_length; lia). reflexivity. }
    assert (Elen : length e' = length e).
    { unfold e'. rewrite app_length, pick_length, firstn_length, Nat.min_l by exact L3. unfold e_n in Hs. lia. }
    assert (En : e_n e' = e_n e) by (unfold e_n; lia).
    assert (Hlt : forall k, In k s -> (k < length (skipn 3 e))%nat).
    { intros k Hk. apply (In_nth _ _ 0%nat) in Hk. destruct Hk as (q & Hq & <-). rewrite skipn_length. destruct HO as (_ & _ & HO). specialize (HO q Hq). unfold e_n in Hs. lia. }
    assert (Et' : nth_error e' 1 = Some t) by (unfold e'; rewrite nth_error_app1 by (rewrite firstn_length; lia); destruct e as [|? [|? ?]]; try discriminate; exact Et).
    assert (Ei' : nth_error e' 2 = Some im) by (unfold e'; rewrite nth_error_app1 by (rewrite firstn_length; lia); destruct e as [|? [|? [|? ?]]]; try discriminate; exact Ei).
    assert (Enode : forall k, (k < e_n e)%nat -> e_node e' k = e_node e (nth k s 0%nat)).
    { intros k Hk. unfold e_node. rewrite <- !(nth_skipn _ 3 _ 0%Z). rewrite Esk. unfold pick.
      rewrite (nth_indep _ 0%Z ((fun k => nth k (skipn 3 e) 0%Z) 0%nat)) by (rewrite map_length; lia). rewrite (map_nth (fun k => nth k (skipn 3 e) 0%Z)). reflexivity. }
    split; [exact En|]. intros [(t' & Ht' & Hnd & Hmax & Hz) (k & m & Hret & Sk & Sm)].
    assert (Hz1 : Forall (fun z => (0 <= z < Z.of_nat (length (p_nodes p)))%Z) (skipn 3 e)) by (rewrite <- HL; exact Hz).
    assert (Hz' : Forall (fun z => (0 <= z < Z.of_nat (length (p_cons p)))%Z) (skipn 3 e')).
    { rewrite Esk. rewrite Forall_forall in *. intros z Hin0. unfold pick in Hin0. apply in_map_iff in Hin0. destruct Hin0 as (q & <- & Hq). apply Hz, nth_In, Hlt, Hq. }
    assert (Hz1' : Forall (fun z => (0 <= z < Z.of_nat (length (p_nodes p)))%Z) (skipn 3 e')) by (rewrite <- HL; exact Hz').
    pose proof (ret_of e t im params f Hz1 Et Ei Em Ef) as R1. pose proof (ret_of e' t im params f Hz1' Et' Ei' Em Ef) as R2.
    assert (Lc : length (cds (skipn 3 e)) = e_n e) by (unfold cds; rewrite map_length, skipn_length; reflexivity).
    rewrite (Hfg _ Lc) in R1. rewrite Hfg in R2 by (unfold cds; rewrite map_length, skipn_length; exact En).
    rewrite Esk, (cds_pick s _ Hlt) in R2. pose proof Hret as Hret0. rewrite R1 in Hret0.
    destruct (turns_keep g (p_dofs p) s (cds (skipn 3 e)) params k m Hin' (eq_trans Lc (eq_sym Hs)) (cds_rect _ Hz1) Hret0) as (K' & M' & Hrun & HK & HM).
    destruct (turns_shape _ _ _ _ _ _ _ Hin' Hrun) as [S1 S2]. rewrite Hs in S1, S2. rewrite Hrun in R2.
    assert (Hdisp : forall U j, (j < p_dofs p * e_n e)%nat -> p_disp p U e' j = pf (p_dofs p) s (p_disp p U e) j).
    { intros U j Hj. destruct (div_mod_lt j _ _ Hd Hj) as (H1 & H2 & H3). rewrite H3. rewrite pf_at by exact H2. rewrite !p_disp_split by assumption.
      rewrite Enode by exact H1. reflexivity. }
    split; [|split].
    - split; [exists t'; rewrite Elen; split; [congruence|]; auto|]. exists K', M'. rewrite En. auto.
    - intros U V. unfold p_stiff. rewrite R2, Hret, En. rewrite <- Hs, <- (HK (p_disp p U e) (p_disp p V e)), Hs. apply form_ext; intros j Hj; apply Hdisp; exact Hj.
    - intros Hk U V. unfold p_mass. rewrite R2, Hret, En. rewrite <- Hs, <- (HM (Hk _ Hin) (p_disp p U e) (p_disp p V e)), Hs. apply form_ext; intros j Hj; apply Hdisp; exact Hj.
  Qed.
  Lemma relisted_row orders e e' : (forall x, In x orders -> In x (turns ++ simplex_turns)) -> relisted orders p e e' ->
    same_row (forall x, In x orders -> In x turns) e e'.
  Proof.
    intros Hord. induction 1 as [x y H|x|x y z _ [N1 IH1] _ [N2 IH2]].
    - exact (turn_row orders x y Hord H).
    - split; [reflexivity|]. intros H. split; [exact H|]. split; intros; reflexivity.
    - split; [congruence|]. intros H. destruct (IH1 H) as (H2 & HK1 & HM1). destruct (IH2 H2) as (H3 & HK2 & HM2). split; [exact H3|]. split.
      + intros U V. rewrite HK2. apply HK1.
      + intros Hk U V. rewrite (HM2 Hk). apply (HM1 Hk).
  Qed.
End Rows.

(** ** the mesh *)
Lemma relisted_wf orders p els : (forall x, In x orders -> In x (turns ++ simplex_turns)) -> wf_problem p -> rectangular (p_nodes p) ->
  Forall2 (relisted orders p) (p_elements p) els ->
  wf_problem (with_elements p els) /\ (forall U V, p_energy (with_elements p els) U V = p_energy p U V) /\
  ((forall x, In x orders -> In x turns) -> forall U V, p_kinetic (with_elements p els) U V = p_kinetic p U V).
Proof.
  intros Hord (Hd & Hf & HL & Hel & Hld) Hr HR.
  assert (G : Forall2 (fun e e' => row_ok p e /\ row_ok p e' /\
      (forall U V, form (p_dofs p * e_n e') (p_stiff p e') (p_disp p U e') (p_disp p V e') = form (p_dofs p * e_n e) (p_stiff p e) (p_disp p U e) (p_disp p V e)) /\
      ((forall x, In x orders -> In x turns) -> forall U V, form (p_dofs p * e_n e') (p_mass p e') (p_disp p U e') (p_disp p V e') = form (p_dofs p * e_n e) (p_mass p e) (p_disp p U e) (p_disp p V e))) (p_elements p) els).
  { clear Hld. induction HR as [|e e' l l' H _ IH]; [constructor|]. inversion Hel as [|? ? H1 H2]; subst. constructor; [|exact (IH H2)].
    destruct (relisted_row p Hd HL Hr orders e e' Hord H) as [_ HS]. split; [exact H1|exact (HS H1)]. }
  clear HR Hel. split; [|split].
  - split; [exact Hd|]. split; [exact Hf|]. split; [exact HL|]. split; [|exact Hld]. cbn [with_elements p_elements].
    induction G as [|e e' l l' (_ & H & _) _ IH]; [constructor|]. constructor; [exact H|exact IH].
  - intros U V. unfold p_energy. cbn [with_elements p_elements]. induction G as [|e e' l l' (_ & _ & H & _) _ IH]; [reflexivity|].
    cbn [lsum fold_right]. f_equal; [exact (H U V)|exact IH].
  - intros Hk U V. unfold p_kinetic. cbn [with_elements p_elements]. induction G as [|e e' l l' (_ & _ & _ & H) _ IH]; [reflexivity|].
    cbn [lsum fold_right]. f_equal; [exact (H Hk U V)|exact IH].
Qed.

Section Relisted.
  Variable orders : list (uel_fun R * nat * list nat).
  Variable p : problem.
  Variable els : list (list Z).
  Hypothesis Hord : forall x, In x orders -> In x (turns ++ simplex_turns).
  Hypothesis Hwf : wf_problem p.
  Hypothesis Hr : rectangular (p_nodes p).
  Hypothesis HR : Forall2 (relisted orders p) (p_elements p) els.
  Let p' := with_elements p els.

  Lemma relisted_internal U i d : p_dof p i d -> p_internal p' U i d = p_internal p U i d.
  Proof.
    intros [Hi Hb]. destruct (relisted_wf orders p els Hord Hwf Hr HR) as (Hwf' & HE & _).
    set (V := fun a b => if (a =? i)%nat then if (b =? d)%nat then 1 else 0 else 0).
    assert (G : forall q, p_nodes q = p_nodes p -> p_dofs q = p_dofs p -> wf_problem q -> p_energy q V U = p_internal q U i d).
    { intros q E1 E2 Hq. rewrite <- (p_virtual_work q U V Hq), E1, E2. rewrite (rsum_single _ i); [|exact Hi|].
      - rewrite (rsum_single _ d); [|exact Hb|].
        + unfold V. rewrite !Nat.eqb_refl. ring.
        + intros b Hb' Hne. unfold V. rewrite Nat.eqb_refl. destruct (Nat.eqb_spec b d); [contradiction|ring].
      - intros a Ha Hne. apply rsum_zero. intros b _. unfold V. destruct (Nat.eqb_spec a i); [contradiction|ring]. }
    rewrite <- (G p eq_refl eq_refl Hwf), <- (G p' eq_refl eq_refl Hwf'). apply HE.
  Qed.
  Lemma relisted_stable : p_stable p' <-> p_stable p.
  Proof.
    split; intros HS U HU i d Hdof.
    - apply (HS U); [|exact Hdof]. intros i' d' H'. destruct (HU i' d' H') as [H1 H2]. split; [exact H1|]. intros C. rewrite (relisted_internal U i' d' H'). exact (H2 C).
    - apply (HS U); [|exact Hdof]. intros i' d' H'. destruct (HU i' d' H') as [H1 H2]. split; [exact H1|]. intros C. rewrite <- (relisted_internal U i' d' H'). exact (H2 C).
  Qed.
  Lemma relisted_mode lam U : (forall x, In x orders -> In x turns) -> (p_mode p' lam U <-> p_mode p lam U).
  Proof.
    intros Hk. destruct (relisted_wf orders p els Hord Hwf Hr HR) as (_ & HE & HM). specialize (HM Hk).
    unfold p_mode. split; intros (H1 & H2 & H3); (split; [exact H1|]; split; [exact H2|]; intros V HV; specialize (H3 V HV)).
    - fold p' in HE, HM. rewrite HE, HM in H3. exact H3.
    - fold p' in HE, HM. rewrite HE, HM. exact H3.
  Qed.
  Lemma relisted_facts op bc K M : p_facts p op bc K M -> exists op' M', p_facts p' op' bc K M' /\ ((forall x, In x orders -> In x turns) -> M' = M).
  Proof.
    intros F. destruct (relisted_wf orders p els Hord Hwf Hr HR) as (Hwf' & HE & HM). fold p' in Hwf', HE, HM.
    destruct (p_system p' Hwf') as (op' & bc' & K' & M' & F').
    assert (bc' = bc).
    { pose proof (pf_dme _ _ _ _ _ F) as D. pose proof (pf_dme _ _ _ _ _ F') as D'. unfold DME in D, D'. cbn [p' with_elements p_cons p_dofs] in D'.
      inv_ok D. destruct r as [neq b]. rewrite Hr0 in D'. cbn [bind] in D'. inv_ok D. inv_ok D'. injection D as <- <-. injection D' as _ <- _. congruence. }
    subst bc'.
    assert (K' = K).
    { apply (form_matrix_unique _ _ _ (pf_K _ _ _ _ _ F') (pf_K _ _ _ _ _ F)). intros u v.
      rewrite (proj1 (pf_energy _ _ _ _ _ F' u (spread_of bc u) v (spread_of bc v) (spread_of_ok _ _ u) (spread_of_ok _ _ v))).
      cbn [p' with_elements p_cons]. rewrite (proj1 (pf_energy _ _ _ _ _ F u (spread_of bc u) v (spread_of bc v) (spread_of_ok _ _ u) (spread_of_ok _ _ v))). apply HE. }
    subst K'. exists op', M'. split; [exact F'|]. intros Hk.
    apply (form_matrix_unique _ _ _ (pf_M _ _ _ _ _ F') (pf_M _ _ _ _ _ F)). intros u v.
    rewrite (proj2 (pf_energy _ _ _ _ _ F' u (spread_of bc u) v (spread_of bc v) (spread_of_ok _ _ u) (spread_of_ok _ _ v))).
    cbn [p' with_elements p_cons]. rewrite (proj2 (pf_energy _ _ _ _ _ F u (spread_of bc u) v (spread_of bc v) (spread_of_ok _ _ u) (spread_of_ok _ _ v))). exact (HM Hk _ _).
  Qed.
  Lemma relisted_script sv sparse : p_script sv p' sparse = p_script sv p sparse.
  Proof.
    destruct (p_system p Hwf) as (op & bc & K & M & F). destruct (relisted_facts op bc K M F) as (op' & M' & F' & _).
    unfold p_script, script. rewrite (pf_dme _ _ _ _ _ F), (pf_dme _ _ _ _ _ F'). cbn [bind]. rewrite !Nat2Z.id.
    rewrite (pf_asm _ _ _ _ _ F sparse), (pf_asm _ _ _ _ _ F' sparse). destruct sparse; reflexivity.
  Qed.
  Lemma relisted_matrices sparse : (forall x, In x orders -> In x turns) -> p_matrices p' sparse = p_matrices p sparse.
  Proof.
    intros Hk. destruct (p_system p Hwf) as (op & bc & K & M & F). destruct (relisted_facts op bc K M F) as (op' & M' & F' & HM). rewrite (HM Hk) in F'.
    rewrite (p_matrices_eq _ _ _ _ _ sparse F), (p_matrices_eq _ _ _ _ _ sparse F'). reflexivity.
  Qed.
End Relisted.

(** ** the driver *)
Lemma relisted_auto md els : wf_problem (plane_problem md) -> rectangular (md_nodes md) ->
  Forall2 (relisted (turns ++ simplex_turns) (plane_problem md)) (md_elements md) els ->
  let md' := mkModel (md_nodes md) (md_cons md) els (md_mats md) (md_loads md) in
  forall sv, auto sv md' false false = auto sv md false false /\
    forall plot strains plot' strains' out out', auto sv md plot strains = Ok out -> auto sv md' plot' strains' = Ok out' ->
      out_disp out' = out_disp out /\ out_neq out' = out_neq out /\ out_warn out' = out_warn out.
Proof.
  intros Hwf Hr HR md' sv. set (p := plane_problem md).
  destruct (p_system p Hwf) as (op & bc & K & M & F).
  destruct (relisted_facts (turns ++ simplex_turns) p els (fun x Hx => Hx) Hwf Hr HR op bc K M F) as (op' & M' & F' & _).
  pose proof (pf_dme _ _ _ _ _ F) as D. pose proof (pf_dme _ _ _ _ _ F') as D'. pose proof (pf_asm _ _ _ _ _ F true) as A. pose proof (pf_asm _ _ _ _ _ F' true) as A'.
  cbn [p plane_problem with_elements p_cons p_dofs p_max p_ndof p_elements p_uel p_mats p_nodes] in D, D', A, A'.
  assert (HL : length els = length (md_elements md)) by (symmetry; clear - HR; induction HR; cbn; congruence).
  unfold auto, solids_auto, run. cbn [md_nodes md_cons md_elements md_mats md_loads md']. rewrite D, D'. cbn [bind]. rewrite !Nat2Z.id, A, A'. cbn [bind]. split.
  - rewrite HL. reflexivity.
  - intros plot strains plot' strains' out out' H H'.
    inv_ok H. rewrite Hr0 in H'. cbn [bind] in H'. inv_ok H. rewrite Hr1 in H'. cbn [bind] in H'. inv_ok H. rewrite Hr2 in H'. cbn [bind] in H'.
    inv_ok H. rewrite Hr3 in H'. cbn [bind] in H'. inv_ok H. inv_ok H. inv_ok H'. inv_ok H'. injection H as <-. injection H' as <-. cbn. auto.
Qed.
