(** * Models of triangles whose nodes are written with four decimals *)
From Coq Require Import String Ascii QArith Qreals Reals List ZArith Arith Bool Lra Lia Relations.
From Verif Require Import Num LinAlg Gauss Fem Uel Assem Post Pre TextIO Template Main Spec SpecAssem SpecPre SpecText SpecElem SpecPost SpecModel SpecStatic SpecPatch SpecRun SpecTemplate SpecBrazil
  LinR Base ElemCore Sampled Elem2 MatProofs Elem2Props ShapeProofs ElemShape AssemProofs PostProofs ModelProofs ModelProofs2 ElemFinal ElemFinal2 ElemFinal3 MeshProofs
  StaticProofs StaticProofs2 StaticProofs3 ConvexProofs ImportProofs TextProofs TextGrammar TextWritten RunProofs TemplateProofs TemplateProofs2.
Import ListNotations.
Local Open Scope R_scope.

(** triangles with given material numbers, sides held in x and y; any loads *)
Definition tri_model (points : list (list R)) (eles : list (list Z)) (lines : list (list Z)) (bounds : list Z) (tx ty : Z) (mt : nat -> Z) (md : model) : Prop :=
  Forall (fun row => length row = 3%nat /\ Forall (fun z => (0 <= z < Z.of_nat (length points))%Z) row) eles /\
  Forall (Forall (fun z => (0 <= z < Z.of_nat (length points))%Z)) lines /\
  length (md_nodes md) = length points /\
  length (md_cons md) = length points /\
  (forall i, (i < length points)%nat -> exists x y fx fy, nth i (md_nodes md) [] = [INR i; x; y] /\ nth i (md_cons md) [] = [fx; fy] /\
     rounded_to 4 (ent points i 0) x /\ rounded_to 4 (ent points i 1) y /\
     flag_is (on_line lines bounds tx i) fx /\ flag_is (on_line lines bounds ty i) fy) /\
  length (md_elements md) = length eles /\
  (forall k, (k < length eles)%nat -> nth k (md_elements md) [] = [Z.of_nat k; 3; mt k]%Z ++ nth k eles []) /\
  (forall k, (k < length eles)%nat -> exists E nu, 0 < E /\ -1 < nu < 1 /\ np_get (md_mats md) (mt k) = Ok [E; nu]) /\
  Forall (fun row => (2 < length row)%nat /\ exists n, (n < length (md_nodes md))%nat /\ nth 0 row 0 = INR n) (md_loads md).

Section Model.
  Variables (points : list (list R)) (eles : list (list Z)) (lines : list (list Z)) (bounds : list Z) (tx ty : Z) (mt : nat -> Z) (md : model).
  Hypothesis HT : tri_model points eles lines bounds tx ty mt md.

  Lemma tr_line_lt tag i : on_line lines bounds tag i -> (i < length points)%nat.
  Proof.
    intros [row [Hr Hi]]. apply tagged_In in Hr. destruct HT as (_ & HR & _).
    rewrite Forall_forall in HR. specialize (HR row Hr). rewrite Forall_forall in HR. specialize (HR _ Hi). lia.
  Qed.
  Lemma tr_element e : In e (md_elements md) -> exists k, (k < length eles)%nat /\ In (nth k eles []) eles /\
    e = [Z.of_nat k; 3; mt k]%Z ++ nth k eles [] /\ length (nth k eles []) = 3%nat /\
    Forall (fun z => (0 <= z < Z.of_nat (length points))%Z) (nth k eles []).
  Proof.
    destruct HT as (HF & _ & _ & _ & _ & Le & Ne & _). intros He. apply (In_nth _ _ []) in He as [k [Hk <-]]. rewrite Le in Hk.
    exists k. split; [exact Hk|]. assert (Hin : In (nth k eles []) eles) by (apply nth_In; exact Hk). split; [exact Hin|]. split; [now apply Ne|].
    rewrite Forall_forall in HF. apply HF. exact Hin.
  Qed.
  Lemma tr_wf : wf_model md.
  Proof.
    destruct HT as (_ & _ & Ln & Lc & Hn & _ & _ & _ & Hld). split; [|split; [congruence|split]].
    - apply Forall_forall. intros row Hin. apply (In_nth _ _ []) in Hin as [i [Hi <-]]. destruct (Hn i ltac:(lia)) as (x & y & fx & fy & _ & -> & _ & _ & Fx & Fy).
      split; [reflexivity|]. apply (flag_z _ _ (on_line_dec _ _ _ _)) in Fx. apply (flag_z _ _ (on_line_dec _ _ _ _)) in Fy. constructor; [tauto|]. constructor; [tauto|constructor].
    - apply Forall_forall. intros e Hin. destruct (tr_element e Hin) as (k & _ & _ & -> & _ & HR). cbn [app skipn]. rewrite Ln. exact HR.
    - exact Hld.
  Qed.

  (** ** triangles after rounding *)
  Lemma tr_near i : (i < length points)%nat -> Rabs (ent (md_nodes md) i 1 - ent points i 0) <= 1 / 20000 /\ Rabs (ent (md_nodes md) i 2 - ent points i 1) <= 1 / 20000.
  Proof.
    destruct HT as (_ & _ & _ & _ & Hn & _). intros Hi. destruct (Hn i Hi) as (x & y & fx & fy & En & _ & Rx & Ry & _). unfold ent at 1 3. rewrite En. cbn [nth].
    apply rounded_near in Rx, Ry. cbn [pow] in Rx, Ry. split; lra.
  Qed.
  Lemma product_near a b a' b' e : 0 <= e -> Rabs (a' - a) <= e -> Rabs (b' - b) <= e -> Rabs (a' * b' - a * b) <= e * (Rabs a + Rabs b) + e * e.
  Proof.
    intros He Ha Hb. replace (a' * b' - a * b) with (a * (b' - b) + b * (a' - a) + (a' - a) * (b' - b)) by ring.
    pose proof (Rabs_triang (a * (b' - b) + b * (a' - a)) ((a' - a) * (b' - b))) as T1. pose proof (Rabs_triang (a * (b' - b)) (b * (a' - a))) as T2. rewrite !Rabs_mult in *.
    pose proof (Rabs_pos a). pose proof (Rabs_pos b). pose proof (Rabs_pos (a' - a)). pose proof (Rabs_pos (b' - b)). nra.
  Qed.
  Lemma diff_near x y x' y' e : Rabs (x' - x) <= e -> Rabs (y' - y) <= e -> Rabs ((x' - y') - (x - y)) <= 2 * e.
  Proof. unfold Rabs. repeat destruct (Rcase_abs _); lra. Qed.
  Lemma tr_turn e k : In e (md_elements md) -> e = [Z.of_nat k; 3; mt k]%Z ++ nth k eles [] -> length (nth k eles []) = 3%nat ->
    Forall (fun z => (0 <= z < Z.of_nat (length points))%Z) (nth k eles []) -> sturdy points (nth k eles []) -> 1 / 100000000 < turn 3 (e_coords (md_nodes md) e) 0.
  Proof.
    intros _ -> L HR HS. destruct (nth k eles []) as [|z0 [|z1 [|z2 [|]]]]; try discriminate. inversion HR as [|? ? R0 H1]; subst. inversion H1 as [|? ? R1 H2]; subst. inversion H2 as [|? ? R2 _]; subst.
    unfold sturdy in HS. cbn [nth] in HS. change (1 / 100000000 < (ent (md_nodes md) (Z.to_nat z1) 1 - ent (md_nodes md) (Z.to_nat z0) 1) * (ent (md_nodes md) (Z.to_nat z2) 2 - ent (md_nodes md) (Z.to_nat z0) 2) - (ent (md_nodes md) (Z.to_nat z2) 1 - ent (md_nodes md) (Z.to_nat z0) 1) * (ent (md_nodes md) (Z.to_nat z1) 2 - ent (md_nodes md) (Z.to_nat z0) 2)).
    destruct (tr_near (Z.to_nat z0) ltac:(lia)) as [X0 Y0]. destruct (tr_near (Z.to_nat z1) ltac:(lia)) as [X1 Y1]. destruct (tr_near (Z.to_nat z2) ltac:(lia)) as [X2 Y2].
    pose proof (diff_near _ _ _ _ _ X1 X0) as Da. pose proof (diff_near _ _ _ _ _ Y1 Y0) as Db. pose proof (diff_near _ _ _ _ _ X2 X0) as Dc. pose proof (diff_near _ _ _ _ _ Y2 Y0) as Dd.
    pose proof (product_near _ _ _ _ (2 * (1 / 20000)) ltac:(lra) Da Dd) as P1. pose proof (product_near _ _ _ _ (2 * (1 / 20000)) ltac:(lra) Dc Db) as P2.
    cbn [pow] in HS.
    set (a := ent points (Z.to_nat z1) 0 - ent points (Z.to_nat z0) 0) in *. set (b := ent points (Z.to_nat z1) 1 - ent points (Z.to_nat z0) 1) in *.
    set (c := ent points (Z.to_nat z2) 0 - ent points (Z.to_nat z0) 0) in *. set (d := ent points (Z.to_nat z2) 1 - ent points (Z.to_nat z0) 1) in *.
    set (q1 := (ent (md_nodes md) (Z.to_nat z1) 1 - ent (md_nodes md) (Z.to_nat z0) 1) * (ent (md_nodes md) (Z.to_nat z2) 2 - ent (md_nodes md) (Z.to_nat z0) 2)) in *.
    set (q2 := (ent (md_nodes md) (Z.to_nat z2) 1 - ent (md_nodes md) (Z.to_nat z0) 1) * (ent (md_nodes md) (Z.to_nat z1) 2 - ent (md_nodes md) (Z.to_nat z0) 2)) in *.
    assert (B1 : a * d - q1 <= 2 * (1 / 20000) * (Rabs a + Rabs d) + 2 * (1 / 20000) * (2 * (1 / 20000))) by (revert P1; unfold Rabs at 1; destruct (Rcase_abs _); lra).
    assert (B2 : q2 - c * b <= 2 * (1 / 20000) * (Rabs c + Rabs b) + 2 * (1 / 20000) * (2 * (1 / 20000))) by (revert P2; unfold Rabs at 1; destruct (Rcase_abs _); lra).
    lra.
  Qed.

  Hypothesis HS : Forall (sturdy points) eles.
  Lemma tr_node_row i : (i < length points)%nat -> nth i (md_nodes md) [] = [INR i; ent (md_nodes md) i 1; ent (md_nodes md) i 2].
  Proof. destruct HT as (_ & _ & _ & _ & Hn & _). intros Hi. destruct (Hn i Hi) as (x & y & fx & fy & En & _). unfold ent. rewrite En. reflexivity. Qed.
  Lemma tr_ret e : In e (md_elements md) -> exists K M, retriever e (md_mats md) (md_nodes md) None = Ok (K, M2 M).
  Proof.
    intros Hin. destruct (tr_element e Hin) as (k & Hk & Hrow & Ee & L & HR). rewrite Forall_forall in HS.
    pose proof (tr_turn e k Hin Ee L HR (HS _ Hrow)) as Ht.
    assert (HP : exists E nu, 0 < E /\ -1 < nu < 1 /\ np_get (md_mats md) (mt k) = Ok [E; nu]).
    { destruct HT as (_ & _ & _ & _ & _ & _ & _ & Hmt & _). exact (Hmt k Hk). }
    destruct HP as (E & nu & HE & Hnu & HP).
    assert (Lc : length (e_coords (md_nodes md) e) = 3%nat) by (rewrite Ee; unfold e_coords; rewrite map_length; exact L).
    destruct (plane_runs pl_tri3 (e_coords (md_nodes md) e) [E; nu] E nu (opt_dens [E; nu]) ltac:(cbn; tauto) eq_refl ltac:(nra)) as (K & M & HK).
    { split; [exact Lc|]. split; [rewrite Ee; unfold e_coords; destruct (nth k eles []) as [|z l]; [discriminate|reflexivity]|].
      intros r s w _. cbn [pl_n pl_sh pl_tri3]. rewrite (tri3_det _ _ _ 0 ltac:(lia)). exact Ht. }
    exists K, M. unfold retriever. rewrite Ee. cbn [app].
    rewrite (np_get_nonneg _ 1%Z 0%Z) by (cbn [length]; lia). rewrite (np_get_nonneg _ 2%Z 0%Z) by (cbn [length]; lia).
    change (Z.to_nat 1) with 1%nat. change (Z.to_nat 2) with 2%nat. cbn [bind nth]. rewrite HP. cbn [bind skipn].
    rewrite (mapM_total _ (fun z => nth (Z.to_nat z) (md_nodes md) [])).
    - cbn [bind]. change (@ele_fun R Num_R 3) with (Ok (@elast_tri3 R Num_R)). cbn [bind].
      replace (map (@tl R) (map (fun z => nth (Z.to_nat z) (md_nodes md) []) (nth k eles []))) with (e_coords (md_nodes md) e); [exact HK|].
      rewrite Ee. unfold e_coords. cbn [app skipn]. rewrite map_map. apply map_ext_in. intros z Hz. rewrite Forall_forall in HR. specialize (HR z Hz). rewrite (tr_node_row (Z.to_nat z)) by lia. reflexivity.
    - intros z Hz. apply np_get_nonneg. rewrite Forall_forall in HR. specialize (HR z Hz). destruct HT as (_ & _ & -> & _). lia.
  Qed.
  Lemma tr_accepted : accepted md.
  Proof.
    apply Forall_forall. intros e Hin. split; [|exact (tr_ret e Hin)]. destruct (tr_element e Hin) as (k & Hk & Hrow & Ee & L & HR). exists 3%Z.
    rewrite Ee. split; [reflexivity|]. cbn [app length skipn]. rewrite L. split; [reflexivity|]. split; [cbn; lia|]. destruct HT as (_ & _ & _ & -> & _). exact HR.
  Qed.
  Lemma tr_param e im params : In e (md_elements md) -> nth_error e 2 = Some im -> np_get (md_mats md) im = Ok params -> exists E nu, 0 < E /\ -1 < nu < 1 /\ params = [E; nu].
  Proof.
    intros Hin H2 Hp. destruct (tr_element e Hin) as (k & Hk & Hrow & -> & L & HR). cbn [app nth_error] in H2. injection H2 as <-.
    destruct HT as (_ & _ & _ & _ & _ & _ & _ & Hmt & _). destruct (Hmt k Hk) as (E & nu & HE & Hnu & HP). rewrite HP in Hp. apply Ok_inj in Hp. exists E, nu. auto.
  Qed.
  Lemma tr_materials : materials_ok md.
  Proof.
    intros e t im params Hin H1 H2 Hp. destruct (tr_param e im params Hin H2 Hp) as (E & nu & HE & Hnu & ->). destruct (tr_element e Hin) as (k & Hk & Hrow & -> & L & HR).
    cbn [app nth_error] in H1. injection H1 as <-. exists E, nu, []. split; [reflexivity|]. split; [lra|]. split; [lra|]. now left.
  Qed.
  Lemma tr_sound : Forall (sound_plane md) (md_elements md).
  Proof.
    apply Forall_forall. intros e Hin. destruct (tr_ret e Hin) as (K & M & HK). destruct (tr_element e Hin) as (k & Hk & Hrow & Ee & L & HR).
    split; [|split; [|exists K, (M2 M); exact HK]].
    - exists 3%Z. rewrite Ee. split; [reflexivity|]. right; left. split; [reflexivity|]. unfold e_n. cbn [app length]. rewrite L. reflexivity.
    - destruct (np_get (md_mats md) (mt k)) as [params|er] eqn:Ep.
      + destruct (tr_param e (mt k) params Hin) as (E & nu & HE & Hnu & ->); [rewrite Ee; reflexivity|exact Ep|].
        exists (mt k), E, nu, []. split; [rewrite Ee; reflexivity|]. split; [exact Ep|]. split; [exact HE|lra].
      + exfalso. unfold retriever in HK. rewrite Ee in HK. cbn [app] in HK. rewrite (np_get_nonneg _ 1%Z 0%Z) in HK by (cbn [length]; lia). rewrite (np_get_nonneg _ 2%Z 0%Z) in HK by (cbn [length]; lia).
        change (Z.to_nat 2) with 2%nat in HK. cbn [bind nth] in HK. rewrite Ep in HK. discriminate.
  Qed.
  Lemma tr_types : continuum_or_truss md.
  Proof.
    apply Forall_forall. intros e Hin. destruct (tr_element e Hin) as (k & Hk & Hrow & -> & L & HR). exists 3%Z. split; [reflexivity|]. unfold e_n. cbn [app length]. rewrite L. reflexivity.
  Qed.
  Lemma tr_rows : node_rows_ok md.
  Proof.
    apply Forall_forall. intros row Hin. apply (In_nth _ _ []) in Hin as [i [Hi <-]]. pose proof HT as (_ & _ & Ln & _). rewrite (tr_node_row i) by lia. reflexivity.
  Qed.

  (** two corners of a triangle are at different places *)
  Lemma tr_apart e k : In e (md_elements md) -> e = [Z.of_nat k; 3; mt k]%Z ++ nth k eles [] -> In (nth k eles []) eles -> length (nth k eles []) = 3%nat ->
    Forall (fun z => (0 <= z < Z.of_nat (length points))%Z) (nth k eles []) ->
    forall p q, (p < 3)%nat -> (q < 3)%nat -> p <> q ->
    ent (md_nodes md) (e_node e p) 1 <> ent (md_nodes md) (e_node e q) 1 \/ ent (md_nodes md) (e_node e p) 2 <> ent (md_nodes md) (e_node e q) 2.
  Proof.
    intros Hin Ee Hrow L HR p q Hp Hq Hpq. rewrite Forall_forall in HS. pose proof (tr_turn e k Hin Ee L HR (HS _ Hrow)) as Ht. clear HR. rewrite Ee in *.
    destruct (nth k eles []) as [|z0 [|z1 [|z2 [|]]]]; try discriminate.
    change (1 / 100000000 < (ent (md_nodes md) (Z.to_nat z1) 1 - ent (md_nodes md) (Z.to_nat z0) 1) * (ent (md_nodes md) (Z.to_nat z2) 2 - ent (md_nodes md) (Z.to_nat z0) 2) - (ent (md_nodes md) (Z.to_nat z2) 1 - ent (md_nodes md) (Z.to_nat z0) 1) * (ent (md_nodes md) (Z.to_nat z1) 2 - ent (md_nodes md) (Z.to_nat z0) 2)) in Ht.
    destruct (Req_EM_T (ent (md_nodes md) (e_node ([Z.of_nat k; 3; mt k]%Z ++ [z0; z1; z2]) p) 1) (ent (md_nodes md) (e_node ([Z.of_nat k; 3; mt k]%Z ++ [z0; z1; z2]) q) 1)) as [Ex|]; [right|now left].
    intros Ey. revert Ex Ey. unfold e_node. cbn [app Nat.add].
    assert (Cp : (p = 0 \/ p = 1 \/ p = 2)%nat) by lia. assert (Cq : (q = 0 \/ q = 1 \/ q = 2)%nat) by lia.
    destruct Cp as [->|[->| ->]]; destruct Cq as [->|[->| ->]]; try congruence; cbn [nth]; intros Ex Ey; first [rewrite Ex, Ey in Ht|rewrite <- Ex, <- Ey in Ht]; lra.
  Qed.
  Lemma tr_position e k z : e = [Z.of_nat k; 3; mt k]%Z ++ nth k eles [] -> length (nth k eles []) = 3%nat -> In z (nth k eles []) ->
    exists p, (p < 3)%nat /\ nth (3 + p) e 0%Z = z.
  Proof. intros -> L Hz. apply (In_nth _ _ 0%Z) in Hz as [p [Hp E]]. exists p. split; [lia|exact E]. Qed.

  Hypothesis HC : mesh_connected points eles.
  Lemma tr_linked r r' k k' : (k < length eles)%nat -> (k' < length eles)%nat -> r = nth k eles [] -> r' = nth k' eles [] -> neighbours r r' ->
    linked md (nth k (md_elements md) []) (nth k' (md_elements md) []).
  Proof.
    intros Hk Hk' -> -> (z1 & z2 & Hz & I1 & I2 & I1' & I2'). pose proof HT as (_ & _ & _ & _ & _ & Le & Ne & _).
    assert (G : forall j, (j < length eles)%nat -> In (nth j (md_elements md) []) (md_elements md) /\ In (nth j eles []) eles /\ length (nth j eles []) = 3%nat /\ Forall (fun z => (0 <= z < Z.of_nat (length points))%Z) (nth j eles [])).
    { intros j Hj. split; [apply nth_In; lia|]. assert (Hin : In (nth j eles []) eles) by (now apply nth_In). split; [exact Hin|].
      destruct HT as (HF & _). rewrite Forall_forall in HF. now apply HF. }
    destruct (G k Hk) as (In1 & Ie1 & L1 & R1). destruct (G k' Hk') as (In2 & Ie2 & L2 & R2).
    destruct (tr_position _ k z1 (Ne k Hk) L1 I1) as (p1 & P1 & Q1). destruct (tr_position _ k z2 (Ne k Hk) L1 I2) as (p2 & P2 & Q2).
    destruct (tr_position _ k' z1 (Ne k' Hk') L2 I1') as (p1' & P1' & Q1'). destruct (tr_position _ k' z2 (Ne k' Hk') L2 I2') as (p2' & P2' & Q2').
    assert (En : forall j, (j < length eles)%nat -> e_n (nth j (md_elements md) []) = 3%nat).
    { intros j Hj. unfold e_n. rewrite (Ne j Hj), app_length. destruct (G j Hj) as (_ & _ & -> & _). reflexivity. }
    exists p1, p2, p1', p2'. rewrite !En by assumption. do 4 (split; [assumption|]). unfold e_node at 1 2 3 4. rewrite Q1, Q2, Q1', Q2'. split; [reflexivity|]. split; [reflexivity|].
    apply (tr_apart _ k In1 (Ne k Hk) Ie1 L1 R1); [assumption..|]. intros K. subst p2. congruence.
  Qed.
  Lemma tr_connected : connected md.
  Proof.
    pose proof HT as (_ & _ & Ln & _ & _ & Le & Ne & _). destruct HC as [HC1 HC2]. split.
    - assert (G : forall r r', clos_refl_trans _ (fun a b => In b eles /\ neighbours a b) r r' -> In r eles -> In r' eles /\
        forall k k', (k < length eles)%nat -> (k' < length eles)%nat -> r = nth k eles [] -> r' = nth k' eles [] ->
          r <> r' -> clos_refl_trans _ (fun a b => In b (md_elements md) /\ linked md a b) (nth k (md_elements md) []) (nth k' (md_elements md) [])).
      { intros r r' H. apply clos_rt_rt1n in H. induction H as [r|r r1 r' [Hin Hn] Hrest IH]; intros Hr.
        - split; [exact Hr|]. intros; congruence.
        - destruct (IH Hin) as [Hr' IH']. split; [exact Hr'|]. intros k k' Hk Hk' Ek Ek' Hne.
          destruct (list_eq_dec Z.eq_dec r1 r') as [E1|N1].
          + subst r1. apply rt_step. split; [apply nth_In; lia|]. now apply (tr_linked r r').
          + apply (In_nth _ _ []) in Hin as [j [Hj Ej]]. apply rt_trans with (nth j (md_elements md) []); [|now apply IH'].
            apply rt_step. split; [apply nth_In; lia|]. now apply (tr_linked r r1). }
      intros e e' He He'. apply (In_nth _ _ []) in He as [k [Hk <-]]. apply (In_nth _ _ []) in He' as [k' [Hk' <-]]. rewrite Le in Hk, Hk'.
      destruct (list_eq_dec Z.eq_dec (nth k eles []) (nth k' eles [])) as [E|N].
      + apply rt_step. split; [apply nth_In; lia|]. apply (tr_linked (nth k eles []) (nth k' eles [])); try assumption; try reflexivity.
        rewrite <- E. assert (Hin : In (nth k eles []) eles) by (now apply nth_In). destruct HT as (HF & _). rewrite Forall_forall in HF. destruct (HF _ Hin) as [L3 HR].
        assert (Hd : exists p q, (p < 3)%nat /\ (q < 3)%nat /\ nth p (nth k eles []) 0%Z <> nth q (nth k eles []) 0%Z).
        { exists 0%nat, 1%nat. split; [lia|]. split; [lia|]. intros K.
          pose proof (tr_apart (nth k (md_elements md) []) k (nth_In (md_elements md) [] ltac:(rewrite Le; exact Hk)) (Ne k Hk) Hin L3 HR 0%nat 1%nat ltac:(lia) ltac:(lia) ltac:(lia)) as A.
          unfold e_node in A. rewrite (Ne k Hk) in A. change (nth (3 + ?j) ([?a; ?b; ?c] ++ ?l) 0%Z) with (nth j l 0%Z) in A. rewrite K in A. destruct A as [A|A]; now apply A. }
        destruct Hd as (p & q & Hp & Hq & Hd). exists (nth p (nth k eles []) 0%Z), (nth q (nth k eles []) 0%Z). split; [exact Hd|]. repeat split; apply nth_In; lia.
      + apply (proj2 (G (nth k eles []) (nth k' eles []) (HC1 _ _ (nth_In eles [] Hk) (nth_In eles [] Hk')) (nth_In eles [] Hk))); auto.
    - intros i Hi. rewrite Ln in Hi. destruct (HC2 i Hi) as (r & Hr & Hir). apply (In_nth _ _ []) in Hr as [k [Hk <-]].
      assert (Hin : In (nth k eles []) eles) by (now apply nth_In). destruct HT as (HF & _). rewrite Forall_forall in HF. destruct (HF _ Hin) as [L3 _].
      destruct (tr_position _ k _ (Ne k Hk) L3 Hir) as (p & Hp & Ep). exists (nth k (md_elements md) []), p. split; [apply nth_In; lia|].
      split; [unfold e_n; rewrite (Ne k Hk), app_length, L3; cbn; lia|]. unfold e_node. rewrite Ep. apply Nat2Z.id.
  Qed.

  Hypothesis HH : held_on tx ty points lines bounds.
  Lemma tr_flags i : (i < length points)%nat -> flag_is (on_line lines bounds tx i) (ent (md_cons md) i 0) /\ flag_is (on_line lines bounds ty i) (ent (md_cons md) i 1).
  Proof. destruct HT as (_ & _ & _ & _ & Hn & _). intros Hi. destruct (Hn i Hi) as (x & y & fx & fy & _ & Ec & _ & _ & Fx & Fy). unfold ent. rewrite Ec. cbn [nth]. auto. Qed.
  Lemma tr_supported : supported md.
  Proof.
    destruct HH as ((i & j & Oi & Oj & Hd) & k & Ok4). pose proof HT as (_ & _ & Ln & _). intros a b w H.
    pose proof (tr_line_lt _ _ Oi) as Li. pose proof (tr_line_lt _ _ Oj) as Lj. pose proof (tr_line_lt _ _ Ok4) as Lk.
    pose proof (H i 0%nat ltac:(lia) ltac:(lia) (proj1 (proj1 (tr_flags i Li)) Oi)) as H1. pose proof (H j 0%nat ltac:(lia) ltac:(lia) (proj1 (proj1 (tr_flags j Lj)) Oj)) as H2.
    pose proof (H k 1%nat ltac:(lia) ltac:(lia) (proj1 (proj2 (tr_flags k Lk)) Ok4)) as H3. unfold node_rigid in *. cbn [Nat.eqb] in *.
    destruct (tr_near i Li) as [_ Yi]. destruct (tr_near j Lj) as [_ Yj]. cbn [pow] in Hd.
    assert (D : 0 < ent (md_nodes md) j 2 - ent (md_nodes md) i 2) by (revert Yi Yj; unfold Rabs; repeat destruct (Rcase_abs _); lra).
    assert (W : w * (ent (md_nodes md) j 2 - ent (md_nodes md) i 2) = 0) by lra. apply Rmult_integral in W. destruct W as [->|W]; [|lra]. repeat split; lra.
  Qed.
  Lemma tr_stable : stable md.
  Proof. exact (supported_stable md tr_wf tr_sound tr_connected tr_supported). Qed.

  Theorem tr_run sv fs gui prompt : files_show fs (fun f => f) md -> (exists i, (i < length points)%nat /\ (~ on_line lines bounds tx i \/ ~ on_line lines bounds ty i)) ->
    solver_ok sv -> solver_total sv ->
    exists out, solids_GUI sv fs gui prompt false false (Some ""%string) = Ok out /\ in_equilibrium md (table out) /\ out_warn out = false /\
      forall d, (d < 2)%nat -> rsum (length points) (fun i => reaction md (table out) i d) + rsum (length points) (fun i => applied (md_loads md) i d) = 0.
  Proof.
    intros Hsh Hf Hsv Hst. pose proof HT as (_ & _ & Ln & _).
    assert (Hfree : exists i d, free md i d).
    { destruct Hf as (i & Hi & Hn). destruct (tr_flags i Hi) as [[_ F0] [_ F1]].
      destruct Hn as [Hn|Hn]; [exists i, 0%nat|exists i, 1%nat]; (split; [lia|split; [lia|auto]]). }
    destruct (files_run sv fs gui prompt ""%string md Hsh tr_wf tr_accepted tr_stable Hsv Hst Hfree) as (out & HO & HE).
    exists out. split; [exact HO|]. split; [exact HE|]. rewrite (files_argument sv fs gui prompt false false ""%string md Hsh) in HO.
    split; [exact (no_warning sv md false false out tr_wf Hsv tr_materials tr_stable HO)|].
    intros d Hd. rewrite <- Ln. exact (reactions_balance sv md false false out d tr_wf tr_rows tr_types Hsv HO Hd).
  Qed.
End Model.
