(** * Proofs: negative flags in the dense mode *)
From Coq Require Import Reals List Arith Lia Lra Bool ZArith.
From Verif Require Import Num LinAlg Gauss Fem Uel Assem Post Main Script Spec LinR Base SpecAssem SpecModel SpecElem SpecModes SpecScript SpecTied
  AssemProofs AssemProofs3 AssemProofs4 ModelProofs ScriptProofs ScriptProofs2 TiedProofs TiedProofs3.
Import ListNotations.
Local Open Scope R_scope.

Definition wr (n : nat) (z z' : Z) : Prop := z' = z \/ ((- Z.of_nat n < z < -1)%Z /\ z' = (z + Z.of_nat n)%Z).
Lemma wr_index n z z' : wr n z z' -> np_index n z = np_index n z'.
Proof.
  intros [->|[H ->]]; [reflexivity|]. unfold np_index.
  replace (0 <=? z)%Z with false by (symmetry; apply Z.leb_gt; lia). replace (z <? 0)%Z with true by (symmetry; apply Z.ltb_lt; lia).
  replace (- Z.of_nat n <=? z)%Z with true by (symmetry; apply Z.leb_le; lia). replace (0 <=? z + Z.of_nat n)%Z with true by (symmetry; apply Z.leb_le; lia).
  replace (z + Z.of_nat n <? Z.of_nat n)%Z with true by (symmetry; apply Z.ltb_lt; lia). cbn. f_equal. lia.
Qed.
Lemma wr_held n z z' : wr n z z' -> (z =? -1)%Z = (z' =? -1)%Z.
Proof. intros [->|[H ->]]; [reflexivity|]. destruct (Z.eqb_spec z (-1)), (Z.eqb_spec (z + Z.of_nat n) (-1)); lia || reflexivity. Qed.
Lemma wr_get {A} n (l : list A) z z' : length l = n -> wr n z z' -> np_get l z = np_get l z'.
Proof. intros Hl H. unfold np_get. rewrite Hl, (wr_index n z z' H). reflexivity. Qed.
Lemma wr_upd {A} n (l : list A) z z' f : length l = n -> wr n z z' -> np_upd l z f = np_upd l z' f.
Proof. intros Hl H. unfold np_upd. rewrite Hl, (wr_index n z z' H). reflexivity. Qed.
Lemma rres_get {A B} (r : A -> B -> Prop) l l' i : Forall2 r l l' -> rres r (np_get l i) (np_get l' i).
Proof.
  intros H. unfold np_get. rewrite (Forall2_len _ _ _ H). destruct (np_index (length l') i) as [k|]; [|reflexivity]. revert k. induction H as [|a b l l' Hab _ IH]; intros [|k]; cbn; auto.
Qed.
Lemma rres_bindw {A B C D} (r : A -> B -> Prop) (s : C -> D -> Prop) a b f g : rres r a b -> (forall x y, r x y -> rres s (f x) (g y)) -> rres s (bind a f) (bind b g).
Proof. intros H K. destruct a, b; cbn in *; try contradiction; [apply K; exact H|exact H]. Qed.
Lemma rres_mapM {A B C} (r : B -> C -> Prop) (f : A -> res B) (g : A -> res C) l : (forall a, In a l -> rres r (f a) (g a)) -> rres (Forall2 r) (mapM f l) (mapM g l).
Proof.
  induction l as [|a l IH]; intros H; [constructor|]. cbn [mapM]. apply (rres_bindw r); [apply H; left; reflexivity|]. intros x y Hxy.
  apply (rres_bindw (Forall2 r)); [apply IH; intros a' Ha; apply H; right; exact Ha|]. intros xs ys Hs. constructor; assumption.
Qed.
Lemma rres_eq {A} (a b : res A) : rres eq a b -> a = b.
Proof. destruct a, b; cbn; intros H; congruence || contradiction. Qed.
Lemma Forall2_concat {A B} (r : A -> B -> Prop) l l' : Forall2 (Forall2 r) l l' -> Forall2 r (concat l) (concat l').
Proof. induction 1; cbn; [constructor|]. apply Forall2_app; assumption. Qed.
Lemma Forall2_refl {A} (r : A -> A -> Prop) l : (forall a, r a a) -> Forall2 r l l.
Proof. intros H. induction l; constructor; auto. Qed.
Lemma wr_refl n z : wr n z z.
Proof. left. reflexivity. Qed.
Lemma slice_wr n row ndof f f' : Forall2 (wr n) f f' -> rres (Forall2 (wr n)) (slice_assign row ndof f) (slice_assign row ndof f').
Proof.
  intros H. unfold slice_assign. rewrite (Forall2_len _ _ _ H). destruct (length f' =? Nat.min ndof (length row))%nat.
  - cbn. apply Forall2_app; [exact H|apply Forall2_refl, wr_refl].
  - inversion H as [|a b l l' Hab Hl]; subst; [reflexivity|]. inversion Hl; subst; [|reflexivity]. cbn. apply Forall2_app; [|apply Forall2_refl, wr_refl].
    induction (Nat.min ndof (length row)); cbn; constructor; assumption.
Qed.
Lemma dme_wr n bc bc' max nd elem : Forall2 (Forall2 (wr n)) bc bc' -> rres (Forall2 (wr n)) (dme_row bc max nd elem) (dme_row bc' max nd elem).
Proof.
  intros H. unfold dme_row. apply (rres_bindw eq); [apply rres_refl|]. intros iet ? <-. apply (rres_bindw eq); [apply rres_refl|]. intros k ? <-.
  apply (rres_bindw (Forall2 (Forall2 (wr n)))); [apply rres_mapM; intros a _; apply rres_get; exact H|]. intros rows rows' Hr. apply slice_wr. apply Forall2_concat. exact Hr.
Qed.
Lemma foldM_inv {A B} (P : B -> Prop) (f g : B -> A -> res B) l b : (forall b a, P b -> f b a = g b a /\ forall b', f b a = Ok b' -> P b') -> P b ->
  foldM f l b = foldM g l b /\ forall b', foldM f l b = Ok b' -> P b'.
Proof.
  intros H. revert b. induction l as [|a l IH]; intros b Hb; cbn [foldM]; [split; [reflexivity|intros b' E; apply Ok_inj in E; subst; exact Hb]|].
  destruct (H b a Hb) as [E1 E2]. rewrite <- E1. destruct (f b a) as [b1|e]; cbn [bind]; [|split; [reflexivity|discriminate]]. exact (IH b1 (E2 b1 eq_refl)).
Qed.
Definition sq (n : nat) (KM : list (list R) * list (list R)) : Prop := shape n n (fst KM) /\ shape n n (snd KM).
Lemma add2_wr n (K : list (list R)) r r' c c' v : shape n n K -> wr n r r' -> wr n c c' -> np_add2 K r c v = np_add2 K r' c' v /\ forall K', np_add2 K r c v = Ok K' -> shape n n K'.
Proof.
  intros [HL HF] Hr Hc. unfold np_add2. rewrite <- (wr_get n K r r' HL Hr). destruct (np_get K r) as [row|] eqn:E; cbn [bind]; [|split; [reflexivity|discriminate]].
  assert (Lr : length row = n) by (rewrite Forall_forall in HF; apply HF; exact (np_get_In _ _ _ E)).
  rewrite <- (wr_upd n row c c' _ Lr Hc). destruct (np_upd row c (fun x => (x + v)%num)) as [row'|] eqn:E2; cbn [bind]; [|split; [reflexivity|discriminate]].
  rewrite <- (wr_upd n K r r' _ HL Hr). split; [reflexivity|]. intros K' EK.
  unfold np_upd in E2, EK. destruct (np_index (length row) c); [|discriminate]. apply Ok_inj in E2. destruct (np_index (length K) r) as [k|]; [|discriminate]. apply Ok_inj in EK. subst row' K'.
  split; [rewrite upd_length; exact HL|]. clear -HF Lr. revert k. induction HF as [|x l Hx HF IH]; intros [|k]; cbn; constructor; auto. rewrite upd_length. exact Lr.
Qed.
Lemma dense_wr n dme dme' kloc mloc KM : Forall2 (wr n) dme dme' -> sq n KM ->
  dense_elem dme kloc mloc KM = dense_elem dme' kloc mloc KM /\ forall KM', dense_elem dme kloc mloc KM = Ok KM' -> sq n KM'.
Proof.
  intros Hd HS. unfold dense_elem. apply foldM_inv; [|exact HS]. clear KM HS. intros KM r HS.
  pose proof (rres_get (wr n) dme dme' (Z.of_nat r) Hd) as Hr. destruct (np_get dme (Z.of_nat r)) as [z|], (np_get dme' (Z.of_nat r)) as [z'|]; cbn [rres] in Hr; try contradiction; cbn [bind];
    [|split; [congruence|discriminate]].
  rewrite <- (wr_held n z z' Hr). destruct (z =? -1)%Z; [split; [reflexivity|intros b' E; apply Ok_inj in E; subst; exact HS]|].
  apply foldM_inv; [|exact HS]. clear KM HS. intros [K M] c [SK SM]. cbn [fst snd] in SK, SM.
  pose proof (rres_get (wr n) dme dme' (Z.of_nat c) Hd) as Hc. destruct (np_get dme (Z.of_nat c)) as [y|], (np_get dme' (Z.of_nat c)) as [y'|]; cbn [rres] in Hc; try contradiction; cbn [bind];
    [|split; [congruence|discriminate]].
  rewrite <- (wr_held n y y' Hc). destruct (y =? -1)%Z; [split; [reflexivity|intros b' E; apply Ok_inj in E; subst; split; assumption]|].
  destruct (np_get2 kloc (Z.of_nat r) (Z.of_nat c)) as [kv|]; cbn [bind]; [|split; [reflexivity|discriminate]].
  destruct (add2_wr n K z z' y y' kv SK Hr Hc) as [E1 S1]. rewrite <- E1. destruct (np_add2 K z y kv) as [K'|]; cbn [bind]; [|split; [reflexivity|discriminate]].
  destruct (mass_get mloc (Z.of_nat r) (Z.of_nat c)) as [mv|]; cbn [bind]; [|split; [reflexivity|discriminate]].
  destruct (add2_wr n M z z' y y' mv SM Hr Hc) as [E2 S2]. rewrite <- E2. destruct (np_add2 M z y mv) as [M'|]; cbn [bind]; [|split; [reflexivity|discriminate]].
  split; [reflexivity|]. intros b' E. apply Ok_inj in E. subst b'. split; [exact (S1 K' eq_refl)|exact (S2 M' eq_refl)].
Qed.
Lemma firstn_Forall2 {A B} (r : A -> B -> Prop) k l l' : Forall2 r l l' -> Forall2 r (firstn k l) (firstn k l').
Proof. intros H. revert k. induction H; intros [|k]; cbn; constructor; auto. Qed.
Lemma dense_assem_wr elements mats nodes n op op' uel : Forall2 (Forall2 (wr n)) op op' ->
  @dense_assem R Num_R elements mats nodes n op uel = @dense_assem R Num_R elements mats nodes n op' uel.
Proof.
  intros H. unfold dense_assem, elem_rows. assert (HS : sq n (zeros n n, zeros n n)) by (split; apply shape_mk_mat).
  revert HS. generalize (zeros n n, zeros n n) as KM. generalize (seq 0 (length elements)) as l. induction l as [|i l IH]; intros KM HS; [reflexivity|]. cbn [map foldM].
  destruct (retriever (nth i elements []) mats nodes uel) as [[kloc mloc]|]; cbn [bind]; [|reflexivity].
  pose proof (rres_get _ op op' (Z.of_nat i) H) as Hr. destruct (np_get op (Z.of_nat i)) as [r|], (np_get op' (Z.of_nat i)) as [r'|]; cbn [rres] in Hr; try contradiction; cbn [bind]; [|congruence].
  destruct (dense_wr n _ _ kloc mloc KM (firstn_Forall2 _ (length kloc) _ _ Hr) HS) as [E S]. rewrite <- E.
  destruct (dense_elem (firstn (length kloc) r) kloc mloc KM) as [KM'|]; cbn [bind]; [|reflexivity]. exact (IH KM' (S KM' eq_refl)).
Qed.
Lemma load_wr n bc bc' d loads : Forall2 (Forall2 (wr n)) bc bc' -> @loadasem R Num_R loads bc n d = loadasem loads bc' n d.
Proof.
  intros H. unfold loadasem. apply (foldM_inv (fun rhs => length rhs = n)); [|unfold vzeros; apply mk_vec_length]. intros rhs load Hl. unfold load_row.
  destruct (np_get load 0) as [l0|]; cbn [bind]; [|split; [reflexivity|discriminate]].
  apply foldM_inv; [|exact Hl]. clear rhs Hl. intros rhs j Hl.
  pose proof (rres_get _ bc bc' (ntrunc l0) H) as Hr. destruct (np_get bc (ntrunc l0)) as [r|], (np_get bc' (ntrunc l0)) as [r'|]; cbn [rres] in Hr; try contradiction; cbn [bind]; [|split; [congruence|discriminate]].
  pose proof (rres_get _ r r' (Z.of_nat j) Hr) as Hz. destruct (np_get r (Z.of_nat j)) as [z|], (np_get r' (Z.of_nat j)) as [z'|]; cbn [rres] in Hz; try contradiction; cbn [bind]; [|split; [congruence|discriminate]].
  rewrite <- (wr_held n z z' Hz). destruct (z =? -1)%Z; [split; [reflexivity|intros b' E; apply Ok_inj in E; congruence]|].
  destruct (np_get load (Z.of_nat j + 1)) as [v|]; cbn [bind]; [|split; [reflexivity|discriminate]]. rewrite <- (wr_upd n rhs z z' _ Hl Hz). split; [reflexivity|].
  intros b' E. unfold np_upd in E. destruct (np_index (length rhs) z); [|discriminate]. apply Ok_inj in E. subst b'. rewrite upd_length. exact Hl.
Qed.
Lemma complete_wr n bc bc' nodes (u : list R) d : Forall2 (Forall2 (wr n)) bc bc' -> length u = n -> complete_disp bc nodes u d = complete_disp bc' nodes u d.
Proof.
  intros H Hu. unfold complete_disp. apply mapM_ext. intros i _. apply mapM_ext. intros j _.
  pose proof (rres_get _ bc bc' (Z.of_nat i) H) as Hr. destruct (np_get bc (Z.of_nat i)) as [r|], (np_get bc' (Z.of_nat i)) as [r'|]; cbn [rres] in Hr; try contradiction; cbn [bind]; [|congruence].
  pose proof (rres_get _ r r' (Z.of_nat j) Hr) as Hz. destruct (np_get r (Z.of_nat j)) as [z|], (np_get r' (Z.of_nat j)) as [z'|]; cbn [rres] in Hz; try contradiction; cbn [bind]; [|congruence].
  rewrite <- (wr_held n z z' Hz). destruct (z =? -1)%Z; [reflexivity|]. exact (wr_get n u z z' Hu Hz).
Qed.
Lemma count_wrapped n cons : Forall (Forall (fun c => c < -1 -> - INR n < c)) cons ->
  Forall2 (Forall2 (fun c c' => isz c = isz c')) cons (map (map (fun c => if Rlt_dec c (-1) then c + INR n else c)) cons).
Proof.
  induction 1 as [|row cons Hr _ IH]; cbn [map]; constructor; [|exact IH]. clear IH. induction Hr as [|c row Hc _ IH]; cbn [map]; constructor; [|exact IH].
  destruct (Rlt_dec c (-1)) as [H|H]; [|reflexivity]. specialize (Hc H). unfold isz. destruct (Req_EM_T c 0), (Req_EM_T (c + INR n) 0); lra || reflexivity.
Qed.
Lemma rcount_isz l l' : Forall2 (fun c c' => isz c = isz c') l l' -> rcount l = rcount l'.
Proof. unfold rcount. induction 1 as [|a b l l' H _ IH]; [reflexivity|]. cbn [filter]. rewrite H. destruct (isz b); cbn [length]; lia. Qed.
Lemma Forall2_of_nth {A B} (r : A -> B -> Prop) l l' a b : length l = length l' -> (forall i, (i < length l)%nat -> r (nth i l a) (nth i l' b)) -> Forall2 r l l'.
Proof.
  revert l'. induction l as [|x l IH]; intros [|y l'] HL H; try discriminate; constructor; [exact (H 0%nat ltac:(cbn; lia))|]. apply IH; [cbn in HL; lia|]. intros i Hi. exact (H (S i) ltac:(cbn; lia)).
Qed.
Theorem dense_wraps sv p : solvers_ok sv -> whole_flags (p_dofs p) (p_cons p) -> Forall (Forall (fun c => c < -1 -> - INR (count_free (p_cons p)) < c)) (p_cons p) ->
  p_script sv p false = p_script sv (wrapped p) false.
Proof.
  intros [_ S2] HW HB. set (n := count_free (p_cons p)) in *. set (g := fun c => if Rlt_dec c (-1) then c + INR n else c).
  assert (HW' : whole_flags (p_dofs p) (map (map g) (p_cons p))).
  { unfold whole_flags in *. apply Forall_map. eapply Forall_impl; [|exact HW]. intros row [HL HF]. split; [rewrite map_length; exact HL|]. apply Forall_map.
    eapply Forall_impl; [|exact HF]. intros c [z ->]. unfold g. destruct (Rlt_dec (IZR z) (-1)); [exists (z + Z.of_nat n)%Z; rewrite plus_IZR, INR_IZR_INZ; reflexivity|exists z; reflexivity]. }
  pose proof (count_wrapped n (p_cons p) HB) as HC. fold g in HC.
  assert (En : count_free (map (map g) (p_cons p)) = n) by (symmetry; apply rcount_isz; apply Forall2_concat; exact HC).
  destruct (eq_rows_gen (p_dofs p) (p_cons p) 0 HW) as (bc & HE & Hlen & HR & HZ). destruct (eq_rows_gen (p_dofs p) (map (map g) (p_cons p)) 0 HW') as (bc' & HE' & Hlen' & HR' & HZ').
  rewrite map_length in Hlen'.
  assert (Hbc : Forall2 (Forall2 (wr n)) bc bc').
  { rewrite Forall_forall in HR, HR'. apply (Forall2_of_nth _ _ _ [] []); [lia|]. intros i Hi.
    assert (L1 : length (nth i bc []) = p_dofs p) by (apply HR, nth_In; exact Hi). assert (L2 : length (nth i bc' []) = p_dofs p) by (apply HR', nth_In; lia).
    apply (Forall2_of_nth _ _ _ (-1)%Z (-1)%Z); [lia|]. intros j Hj. rewrite L1 in Hj. fold (zent bc i j). fold (zent bc' i j).
    assert (LR : length (nth i (p_cons p) []) = p_dofs p) by (unfold whole_flags in HW; rewrite Forall_forall in HW; apply HW; apply nth_In; lia).
    rewrite (HZ i j) by lia. rewrite (HZ' i j) by (rewrite ?map_length; lia).
    assert (Ee : ent (map (map g) (p_cons p)) i j = g (ent (p_cons p) i j)).
    { unfold ent. rewrite (nth_indep _ [] (map g [])) by (rewrite map_length; lia). rewrite map_nth. rewrite (nth_indep _ 0 (g 0)) by (rewrite map_length; lia). apply map_nth. }
    assert (Er : rank (map (map g) (p_cons p)) i j = rank (p_cons p) i j).
    { rewrite !rank_eq. f_equal; symmetry; apply rcount_isz.
      - rewrite firstn_map. apply Forall2_concat. rewrite <- firstn_map. apply firstn_Forall2. exact HC.
      - rewrite (nth_indep (map (map g) (p_cons p)) [] (map g [])) by (rewrite map_length; lia). rewrite map_nth. apply firstn_Forall2.
        clearbody g. clear -HC Hi Hlen. rewrite Hlen in Hi. clear Hlen. revert i Hi. revert HC. induction (p_cons p) as [|r l IH]; intros HC i Hi; [cbn in Hi; lia|]. cbn [map] in HC. inversion HC; subst. destruct i as [|i]; [assumption|]. apply IH; [assumption|cbn in Hi; lia]. }
    rewrite Ee, Er.
    assert (Hin : In (ent (p_cons p) i j) (nth i (p_cons p) [])) by (apply nth_In; lia).
    assert (Hir : In (nth i (p_cons p) []) (p_cons p)) by (apply nth_In; lia).
    unfold whole_flags in HW. rewrite Forall_forall in HW, HB. destruct (HW _ Hir) as [_ HWr]. specialize (HB _ Hir). rewrite Forall_forall in HWr, HB. destruct (HWr _ Hin) as [z Ez]. specialize (HB _ Hin). rewrite Ez in *.
    unfold g. destruct (Rlt_dec (IZR z) (-1)) as [H|H]; [|left; reflexivity]. specialize (HB H).
    rewrite INR_IZR_INZ in *. rewrite <- plus_IZR. unfold isz. destruct (Req_EM_T (IZR z) 0) as [E|_]; [lra|]. destruct (Req_EM_T (IZR (z + Z.of_nat n)) 0) as [E|_]; [rewrite plus_IZR in E; lra|].
    rewrite !Rtrunc_IZR. right. split; [|reflexivity]. rewrite <- opp_IZR in HB. apply lt_IZR in HB. apply lt_IZR in H. lia. }
  unfold p_script, script, DME. cbn [p_dofs p_max p_ndof p_uel p_nodes p_cons p_elements p_mats p_loads wrapped]. fold n. fold g.
  change (eqcounter (p_cons p) (p_dofs p)) with (eq_rows (p_dofs p) (map (map Rtrunc) (p_cons p)) 0%Z).
  change (eqcounter (map (map g) (p_cons p)) (p_dofs p)) with (eq_rows (p_dofs p) (map (map Rtrunc) (map (map g) (p_cons p))) 0%Z).
  rewrite HE, HE'. cbn [bind]. change (rcount (concat (p_cons p))) with n. change (rcount (concat (map (map g) (p_cons p)))) with (count_free (map (map g) (p_cons p))). rewrite En.
  pose proof (rres_mapM (Forall2 (wr n)) (dme_row bc (p_max p) (p_ndof p)) (dme_row bc' (p_max p) (p_ndof p)) (p_elements p) (fun e _ => dme_wr n bc bc' _ _ e Hbc)) as Hop.
  destruct (mapM (dme_row bc (p_max p) (p_ndof p)) (p_elements p)) as [op|], (mapM (dme_row bc' (p_max p) (p_ndof p)) (p_elements p)) as [op'|]; cbn [rres] in Hop; try contradiction; cbn [bind]; [|congruence].
  rewrite Z.add_0_l, Nat2Z.id. cbn [assembler]. rewrite <- (dense_assem_wr (p_elements p) (p_mats p) (p_nodes p) n op op' (p_uel p) Hop).
  destruct (dense_assem (p_elements p) (p_mats p) (p_nodes p) n op (p_uel p)) as [[K M]|]; cbn [bind]; [|reflexivity].
  rewrite <- (load_wr n bc bc' (p_dofs p) (p_loads p) Hbc). destruct (loadasem (p_loads p) bc n (p_dofs p)) as [rhs|] eqn:El; cbn [bind]; [|reflexivity]. cbn [static_sol].
  destruct (npsolve sv K rhs) as [u|] eqn:Eu; cbn [bind]; [|reflexivity]. apply (complete_wr n); [exact Hbc|]. rewrite <- (load_length _ _ _ _ _ El). exact (proj1 (S2 _ _ _ Eu)).
Qed.
