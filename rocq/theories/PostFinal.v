(** * Strains and stresses at the nodes: the statements (proof support) *)
From Coq Require Import String Reals List Arith Lia Lra ZArith QArith Qreals Bool.
From Verif Require Import Num LinAlg Gauss Fem Uel Assem Post Spec LinR Base SpecElem SpecModel SpecPost ElemCore Elem2 MatProofs ElemFinal PostProofs.
Import ListNotations.
Local Open Scope R_scope.

Definition recov : list (Z * nat * (R -> R -> list R * list (list R)) * res (list (list R) * list R)) :=
  [(1%Z, 4%nat, shape_quad4, gauss_nd 2 2); (2%Z, 6%nat, shape_tri6, gauss_tri 3); (3%Z, 3%nat, shape_tri3, gauss_tri 1)].
Definition recov_cap (t : Z) : nat := if (t =? 2)%Z then 7 else if (t =? 1)%Z then 4 else 3.

Lemma recov_good t n sh rule : In (t, n, sh, rule) recov -> good2 n sh /\ In sh plane_shapes /\
  In (t, n) [(1%Z, 4%nat); (2%Z, 6%nat); (3%Z, 3%nat)] /\
  forall pts wts nodes sol e, rule = Ok (pts, wts) -> e_n e = n ->
    (length pts = if (t =? 2)%Z then 7%nat else if (t =? 1)%Z then 4%nat else 1%nat) /\
    Forall (fun p => length p = 2%nat) pts /\
    strains_of t nodes sol e =
      ('(m, _) <- str_el_loop sh (recov_cap t) pts (e_coords nodes e) (mk_vec (2 * n) (e_field sol e)) ;; Ok m).
Proof.
  intros [E|[E|[E|[]]]]; apply pair_equal_spec in E as [E <-]; apply pair_equal_spec in E as [E <-];
    apply pair_equal_spec in E as [<- <-].
  - split; [exact (good2_all pl_quad4 ltac:(cbn; tauto))|]. split; [cbn; tauto|]. split; [cbn; tauto|].
    intros pts wts nodes sol e Hr Hn. unfold strains_of, element_strains, str_el4. cbn [Z.eqb Pos.eqb]. rewrite Hr, Hn.
    cbn [bind]. split; [|split; [|reflexivity]]; apply Ok_pair_inj in Hr as [<- _]; [reflexivity|].
    repeat constructor.
  - split; [exact (good2_all pl_tri6 ltac:(cbn; tauto))|]. split; [cbn; tauto|]. split; [cbn; tauto|].
    intros pts wts nodes sol e Hr Hn. unfold strains_of, element_strains, str_el6. cbn [Z.eqb Pos.eqb]. rewrite Hr, Hn.
    cbn [bind]. split; [|split; [|reflexivity]]; apply Ok_pair_inj in Hr as [<- _]; [reflexivity|].
    repeat constructor.
  - split; [exact (good2_all pl_tri3 ltac:(cbn; tauto))|]. split; [cbn; tauto|]. split; [cbn; tauto|].
    intros pts wts nodes sol e Hr Hn. unfold strains_of, element_strains, str_el3. cbn [Z.eqb Pos.eqb]. rewrite Hr, Hn.
    cbn [bind]. split; [|split; [|reflexivity]]; apply Ok_pair_inj in Hr as [<- _]; [reflexivity|].
    repeat constructor.
Qed.

Lemma e_n_mesh t n N elements e : mesh_of t n N elements -> In e elements -> e_n e = n.
Proof. intros HM Hin. unfold mesh_of in HM. rewrite Forall_forall in HM. destruct (HM e Hin) as [L _]. unfold e_n. lia. Qed.

Lemma e_coords_length nodes e : length (e_coords nodes e) = e_n e.
Proof. unfold e_coords, e_n. rewrite map_length, skipn_length. reflexivity. Qed.

(** the average *)
Theorem nodal_average t n sh rule pts wts N nodes elements mats sol E S : In (t, n, sh, rule) recov -> rule = Ok (pts, wts) ->
  mesh_of t n N elements -> length nodes = N -> length sol = N -> strain_rows nodes elements mats sol = Ok (E, S) ->
  exists eps : list Z -> nat -> nat -> R,
    (forall e k, In e elements -> (k < length pts)%nat ->
       strain_at sh (e_coords nodes e) (e_field sol e) (nth k pts []) (eps e k)) /\
    (forall e k c, In e elements -> (length pts <= k)%nat -> eps e k c = 0) /\
    forall i, (i < N)%nat ->
      (occurs elements i = 0 -> nth i E None = None /\ nth i S None = None) /\
      (occurs elements i <> 0 -> exists er sr, nth i E None = Some er /\ nth i S None = Some sr /\
        length er = 3%nat /\ length sr = 3%nat /\
        forall c, (c < 3)%nat ->
          nth c er 0 * occurs elements i = gathered elements i (fun e k => eps e k c) /\
          nth c sr 0 * occurs elements i =
            gathered elements i (fun e k => hooke2 (e_young mats e) (e_nu mats e) (eps e k) c)).
Proof.
  intros Hin Hrule HM LN LU H. destruct (recov_good _ _ _ _ Hin) as [Hg [_ [Ht HR]]].
  destruct (strain_rows_ok t n N nodes elements mats sol E S Ht LN LU HM H) as [A B]. cbv zeta in B.
  exists (fun e k c => match strains_of t nodes sol e with Ok m => ent m k c | Err _ => 0 end).
  assert (X : forall e, In e elements -> exists m xl, strains_of t nodes sol e = Ok m /\
    str_el_loop sh (recov_cap t) pts (e_coords nodes e) (mk_vec (2 * n) (e_field sol e)) = Ok (m, xl)).
  { intros e He. destruct (A e He) as [[m Hm] _].
    destruct (HR pts wts nodes sol e Hrule (e_n_mesh _ _ _ _ _ HM He)) as [_ [_ HS]]. rewrite HS in Hm. inv_ok Hm.
    destruct r as [m' xl]. apply Ok_inj in Hm. subst m'. exists m, xl. rewrite HS, Hr. auto. }
  assert (Hlen : forall e, In e elements -> length (e_coords nodes e) = n).
  { intros e He. rewrite e_coords_length. eapply e_n_mesh; eauto. }
  split; [|split].
  - intros e k He Hk. destruct (X e He) as [m [xl [X1 X2]]]. rewrite X1.
    apply (str_loop_ok sh n) in X2; [|intros; apply Hg|auto]. apply X2. exact Hk.
  - intros e k c He Hk. destruct (X e He) as [m [xl [X1 X2]]]. rewrite X1.
    apply (str_loop_ok sh n) in X2; [|intros; apply Hg|auto]. apply X2. exact Hk.
  - exact B.
Qed.

Lemma gathered_ext elements i f g : (forall e k, In e elements -> (k < e_n e)%nat -> e_node e k = i -> f e k = g e k) ->
  gathered elements i f = gathered elements i g.
Proof.
  intros Hfg. unfold gathered. apply lsum_ext. intros e He. apply rsum_ext. intros k Hk.
  destruct (Nat.eqb_spec (e_node e k) i); auto.
Qed.
Lemma gathered_scal elements i c f : gathered elements i (fun e k => c * f e k) = c * gathered elements i f.
Proof.
  unfold gathered. rewrite <- lsum_scal. apply lsum_ext. intros e He. rewrite <- rsum_scal. apply rsum_ext. intros k Hk.
  destruct (_ =? _)%nat; ring.
Qed.
Lemma gathered_plus elements i f g : gathered elements i (fun e k => f e k + g e k) = gathered elements i f + gathered elements i g.
Proof.
  unfold gathered. rewrite <- lsum_plus. apply lsum_ext. intros e He. rewrite <- rsum_plus. apply rsum_ext. intros k Hk.
  destruct (_ =? _)%nat; ring.
Qed.
Lemma gathered_const elements i c : gathered elements i (fun _ _ => c) = c * occurs elements i.
Proof. unfold occurs. rewrite <- gathered_scal. apply gathered_ext. intros. ring. Qed.

Lemma act_ext n M u v a : (forall j, (j < n)%nat -> u j = v j) -> act n M u a = act n M v a.
Proof. intros Huv. unfold act. apply rsum_ext. intros j Hj. now rewrite Huv. Qed.

(** nodal values of an affine field *)
Lemma ent_e_coords nodes e k b : (k < e_n e)%nat -> (b < 2)%nat -> ent (e_coords nodes e) k b = ent nodes (e_node e k) (S b).
Proof.
  intros Hk Hb. unfold ent at 1, e_coords. rewrite (map_nth_def _ _ _ 0%Z) by (rewrite skipn_length; exact Hk).
  rewrite <- e_node_skipn. destruct b as [|[|]]; [reflexivity|reflexivity|lia].
Qed.

Lemma e_node_range e k N : Forall (fun z => (0 <= z < Z.of_nat N)%Z) (skipn 3 e) -> (k < e_n e)%nat -> (e_node e k < N)%nat.
Proof.
  intros HF Hk. rewrite e_node_skipn. rewrite Forall_forall in HF.
  specialize (HF (nth k (skipn 3 e) 0%Z) ltac:(apply nth_In; rewrite skipn_length; exact Hk)). lia.
Qed.

Lemma strain_affine sh nodes sol e p eps N a0 a1 a2 b0 b1 b2 : In sh plane_shapes ->
  Forall (fun z => (0 <= z < Z.of_nat N)%Z) (skipn 3 e) -> length nodes = N -> good2 (e_n e) sh ->
  affine_sol nodes sol a0 a1 a2 b0 b1 b2 ->
  strain_at sh (e_coords nodes e) (e_field sol e) p eps ->
  forall c, (c < 3)%nat -> eps c = nth c [a1; b2; a2 + b1] 0.
Proof.
  intros Hsh HF LN Hg Haff [Hm [B [det [HD Heps]]]] c Hc. rewrite Heps by exact Hc.
  pose proof (plane_differentiates sh _ _ _ _ _ _ Hsh HD) as P. cbv zeta in P.
  rewrite (proj1 (Hg _ _)) in P. destruct (P a0 a1 a2 b0 b1 b2) as [P0 [P1 [P2 _]]].
  rewrite e_coords_length.
  rewrite (act_ext _ B _ (affine2 (e_coords nodes e) a0 a1 a2 b0 b1 b2)).
  - destruct c as [|[|[|]]]; [exact P0|exact P1|exact P2|lia].
  - intros j Hj. unfold e_field, affine2, field2, node_x, node_y.
    assert (Hj2 : (Nat.div2 j < e_n e)%nat) by (rewrite Nat.div2_div; apply Nat.div_lt_upper_bound; lia).
    rewrite !ent_e_coords by (try exact Hj2; lia).
    pose proof (e_node_range e _ N HF Hj2) as Hn.
    destruct (Haff (e_node e (Nat.div2 j)) ltac:(lia)) as [A1 A2]. destruct (Nat.even j); [exact A1|exact A2].
Qed.

Lemma list3_eq (l : list R) a b c : length l = 3%nat -> (forall k, (k < 3)%nat -> nth k l 0 = nth k [a; b; c] 0) -> l = [a; b; c].
Proof.
  intros HL Hk. apply nth_ext with (d := 0) (d' := 0); [exact HL|]. intros k Hk'. apply Hk. lia.
Qed.

Lemma mul_cancel a b o : o <> 0 -> a * o = b * o -> a = b.
Proof. intros Ho Hab. apply (Rmult_eq_reg_r o); assumption. Qed.

(** ** C47: uniform strain, four- and six-node elements *)
Definition hooke3 (Y nu e0 e1 e2 : R) : list R :=
  [Y / (1 - nu * nu) * (e0 + nu * e1); Y / (1 - nu * nu) * (nu * e0 + e1); Y / (2 * (1 + nu)) * e2].

Theorem uniform_strain t n N nodes elements mats sol E S a0 a1 a2 b0 b1 b2 :
  In (t, n) [(1%Z, 4%nat); (2%Z, 6%nat)] ->
  mesh_of t n N elements -> length nodes = N -> length sol = N -> affine_sol nodes sol a0 a1 a2 b0 b1 b2 ->
  strain_rows nodes elements mats sol = Ok (E, S) ->
  forall i e, (i < N)%nat -> In e elements -> touches e i ->
    nth i E None = Some [a1; b2; a2 + b1] /\
    forall Y nu, (forall e', In e' elements -> touches e' i -> e_young mats e' = Y /\ e_nu mats e' = nu) ->
      nth i S None = Some [Y / (1 - nu * nu) * (a1 + nu * b2); Y / (1 - nu * nu) * (nu * a1 + b2);
                           Y / (2 * (1 + nu)) * (a2 + b1)].
Proof.
  intros Ht HM LN LU Haff H i e Hi He Htouch.
  assert (X : exists sh rule pts wts, In (t, n, sh, rule) recov /\ rule = Ok (pts, wts) /\ (n <= length pts)%nat).
  { destruct Ht as [E0|[E0|[]]]; apply pair_equal_spec in E0 as [<- <-].
    - exists shape_quad4, (gauss_nd 2 2). do 2 eexists. split; [cbn; tauto|]. split; [reflexivity|]. cbn. lia.
    - exists shape_tri6, (gauss_tri 3). do 2 eexists. split; [cbn; tauto|]. split; [reflexivity|]. cbn. lia. }
  destruct X as [sh [rule [pts [wts [Hin [Hrule Hpts]]]]]].
  destruct (nodal_average _ _ _ _ _ _ _ _ _ _ _ _ _ Hin Hrule HM LN LU H) as [eps [H1 [_ H2]]].
  destruct (recov_good _ _ _ _ Hin) as [Hg [Hsh _]].
  pose proof (occurs_pos elements i e He Htouch) as Ho.
  destruct (H2 i Hi) as [_ H3]. destruct (H3 ltac:(lra)) as [er [sr [E1 [E2 [L1 [L2 H4]]]]]].
  assert (Heps : forall e' k c, In e' elements -> (k < n)%nat -> (c < 3)%nat -> eps e' k c = nth c [a1; b2; a2 + b1] 0).
  { intros e' k c He' Hk Hc. pose proof HM as HM'. unfold mesh_of in HM'. rewrite Forall_forall in HM'.
    destruct (HM' e' He') as [_ [_ [_ HF]]].
    eapply (strain_affine sh nodes sol e' (nth k pts []) (eps e' k) N); eauto.
    - rewrite (e_n_mesh _ _ _ _ _ HM He'). exact Hg.
    - apply H1; [exact He'|lia]. }
  assert (Hn : forall e', In e' elements -> e_n e' = n) by (intros; eapply e_n_mesh; eauto).
  split.
  - rewrite E1. f_equal. apply list3_eq; [exact L1|]. intros c Hc. apply (mul_cancel _ _ (occurs elements i)); [lra|].
    rewrite (proj1 (H4 c Hc)), <- gathered_const. apply gathered_ext. intros e' k He' Hk _. apply Heps; auto. rewrite <- (Hn e' He'). exact Hk.
  - intros Y nu Hmat. rewrite E2. f_equal. apply list3_eq; [exact L2|]. intros c Hc. apply (mul_cancel _ _ (occurs elements i)); [lra|].
    rewrite (proj2 (H4 c Hc)), <- gathered_const. apply gathered_ext. intros e' k He' Hk Hki.
    destruct (Hmat e' He') as [-> ->]; [exists k; auto|]. rewrite (Hn e' He') in Hk.
    destruct c as [|[|[|]]]; [| | |lia]; cbn [hooke2 nth]; rewrite ?(Heps e' k 0%nat), ?(Heps e' k 1%nat), ?(Heps e' k 2%nat) by (auto; lia); reflexivity.
Qed.

(** ** C48: what three-node triangles give *)
Theorem tri3_strain N nodes elements mats sol E S a0 a1 a2 b0 b1 b2 :
  mesh_of 3 3 N elements -> length nodes = N -> length sol = N -> affine_sol nodes sol a0 a1 a2 b0 b1 b2 ->
  strain_rows nodes elements mats sol = Ok (E, S) ->
  forall i e, (i < N)%nat -> In e elements -> touches e i ->
    nth i E None = Some (map (fun v => firsts elements i / occurs elements i * v) [a1; b2; a2 + b1]).
Proof.
  intros HM LN LU Haff H i e Hi He Htouch.
  assert (Hin : In (3%Z, 3%nat, shape_tri3, gauss_tri 1) recov) by (cbn; tauto).
  assert (Hr : exists pts wts, @gauss_tri R Num_R 1 = Ok (pts, wts) /\ length pts = 1%nat) by (do 2 eexists; split; reflexivity).
  destruct Hr as [pts [wts [Hrule Lp]]].
  destruct (nodal_average _ _ _ _ _ _ _ _ _ _ _ _ _ Hin Hrule HM LN LU H) as [eps [H1 [H0 H2]]].
  destruct (recov_good _ _ _ _ Hin) as [Hg [Hsh _]].
  pose proof (occurs_pos elements i e He Htouch) as Ho.
  destruct (H2 i Hi) as [_ H3]. destruct (H3 ltac:(lra)) as [er [sr [E1 [E2 [L1 [L2 H4]]]]]].
  rewrite E1. f_equal. cbn [map]. apply list3_eq; [exact L1|]. intros c Hc.
  apply (mul_cancel _ _ (occurs elements i)); [lra|]. rewrite (proj1 (H4 c Hc)).
  assert (X : gathered elements i (fun e k => eps e k c) = nth c [a1; b2; a2 + b1] 0 * firsts elements i).
  { unfold gathered, firsts. rewrite <- lsum_scal. apply lsum_ext. intros e' He'.
    rewrite (e_n_mesh _ _ _ _ _ HM He'). cbn [rsum].
    rewrite (H0 e' 1%nat c), (H0 e' 2%nat c) by (auto; lia).
    pose proof HM as HM'. unfold mesh_of in HM'. rewrite Forall_forall in HM'. destruct (HM' e' He') as [_ [_ [_ HF]]].
    rewrite (strain_affine shape_tri3 nodes sol e' (nth 0 pts []) (eps e' 0%nat) N a0 a1 a2 b0 b1 b2) with (c := c); auto.
    - destruct (_ =? _)%nat; destruct (_ =? _)%nat; destruct (_ =? _)%nat; ring.
    - rewrite (e_n_mesh _ _ _ _ _ HM He'). exact Hg.
    - apply H1; [exact He'|lia]. }
  rewrite X. destruct c as [|[|[|]]]; [| | |lia]; cbn [nth]; field; lra.
Qed.

Lemma lsum_some {A} (f : A -> R) l : lsum f l <> 0 -> exists a, In a l /\ f a <> 0.
Proof.
  induction l as [|a l IH]; unfold lsum; cbn; intros Hne; [lra|].
  destruct (Req_EM_T (f a) 0) as [E|E]; [|exists a; auto].
  destruct IH as [b [Hb Hf]]; [unfold lsum; intros K; apply Hne; rewrite E; lra|]. exists b. auto.
Qed.
Lemma rsum_some n f : rsum n f <> 0 -> exists k, (k < n)%nat /\ f k <> 0.
Proof.
  induction n; cbn; intros Hne; [lra|]. destruct (Req_EM_T (f n) 0) as [E|E]; [|exists n; auto].
  destruct IHn as [k [Hk Hf]]; [intros K; apply Hne; rewrite E; lra|]. exists k. auto.
Qed.
Lemma occurs_some elements i : occurs elements i <> 0 -> exists e, In e elements /\ touches e i.
Proof.
  intros Ho. apply lsum_some in Ho as [e [He Hs]]. exists e. split; [exact He|]. apply rsum_some in Hs as [k [Hk Hn]].
  exists k. split; [exact Hk|]. destruct (Nat.eqb_spec (e_node e k) i); [assumption|lra].
Qed.

(** ** C49: Hooke's law on one-material meshes *)
Theorem nodal_hooke t n N nodes elements mats sol E S : In (t, n) [(1%Z, 4%nat); (2%Z, 6%nat); (3%Z, 3%nat)] ->
  mesh_of t n N elements -> length nodes = N -> length sol = N -> strain_rows nodes elements mats sol = Ok (E, S) ->
  forall i er sr Y nu, (i < N)%nat -> nth i E None = Some er -> nth i S None = Some sr ->
    (forall e', In e' elements -> touches e' i -> e_young mats e' = Y /\ e_nu mats e' = nu) ->
    exists C, umat [Y; nu] = Ok C /\ forall c, (c < 3)%nat -> nth c sr 0 = act 3 C (fun a => nth a er 0) c.
Proof.
  intros Ht HM LN LU H i er sr Y nu Hi He Hs Hmat.
  destruct (strain_rows_ok t n N nodes elements mats sol E S Ht LN LU HM H) as [A B]. cbv zeta in B.
  destruct (B i Hi) as [B0 B1]. destruct (Req_EM_T (occurs elements i) 0) as [Eo|Eo].
  { destruct (B0 Eo) as [K _]. rewrite K in He. discriminate. }
  destruct (B1 Eo) as [er' [sr' [E1 [E2 [L1 [L2 H4]]]]]]. rewrite E1 in He. rewrite E2 in Hs.
  injection He as ->. injection Hs as ->.
  assert (Hex : exists e', In e' elements /\ touches e' i).
  { apply occurs_some. exact Eo. }
  destruct Hex as [e' [He' Hte']]. destruct (Hmat e' He' Hte') as [HY Hnu]. destruct (A e' He') as [_ [_ [Hp Hq]]].
  rewrite Hnu in Hp, Hq.
  exists (umat_R Y nu). split.
  - rewrite umat_eq. destruct (Req_EM_T (1 - nu * nu) 0); [contradiction|reflexivity].
  - set (eps := fun e k c => match strains_of t nodes sol e with Ok m => ent m k c | Err _ => 0 end) in *.
    assert (G : forall c, (c < 3)%nat -> nth c sr 0 * occurs elements i = gathered elements i (fun e k => hooke2 Y nu (eps e k) c)).
    { intros c Hc. rewrite (proj2 (H4 c Hc)). apply gathered_ext. intros e k Hee Hk Hki.
      destruct (Hmat e Hee) as [-> ->]; [exists k; auto|reflexivity]. }
    intros c Hc. apply (mul_cancel _ _ (occurs elements i)); [exact Eo|]. rewrite (G c Hc).
    assert (F : forall a, (a < 3)%nat -> nth a er 0 * occurs elements i = gathered elements i (fun e k => eps e k a)).
    { intros a Ha. exact (proj1 (H4 a Ha)). }
    pose proof (F 0%nat ltac:(lia)) as F0. pose proof (F 1%nat ltac:(lia)) as F1. pose proof (F 2%nat ltac:(lia)) as F2.
    unfold act, umat_R. cbn [rsum].
    destruct c as [|[|[|]]]; [| | |lia]; unfold ent; cbn [nth hooke2].
    + rewrite gathered_scal, gathered_plus, gathered_scal, <- F0, <- F1. field. auto.
    + rewrite gathered_scal, gathered_plus, gathered_scal, <- F0, <- F1. field. auto.
    + rewrite gathered_scal, <- F2. field. auto.
Qed.
