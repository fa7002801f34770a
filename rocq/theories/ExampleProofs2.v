(** * Proofs about the beam example: supports, loads and reactions *)
From Coq Require Import String QArith Reals List ZArith Arith Lra Lia Bool.
From Verif Require Import Num LinAlg Gauss Fem Uel Assem Post Pre Main Template Example Spec SpecAssem SpecModel SpecElem SpecPost SpecPre SpecStatic SpecGrid SpecExample LinR Base
  AssemProofs AssemProofs3 AssemProofs4 ModelProofs GridProofs GridModel MeshProofs PostProofs StaticProofs2 StaticProofs3 ExGrid ExampleProofs.
Import ListNotations.
Local Open Scope R_scope.

Lemma lsum_filter {A} (p : A -> bool) (f : A -> R) l : lsum (fun a => if p a then f a else 0) l = lsum f (filter p l).
Proof. induction l as [|a l IH]; [reflexivity|]. cbn [filter]. change (lsum ?g (a :: l)) with (g a + lsum g l). cbv beta. rewrite IH. destruct (p a); [reflexivity|ring]. Qed.
Lemma lsum_const {A} (c : R) (l : list A) : lsum (fun _ => c) l = INR (length l) * c.
Proof. induction l as [|a l IH]; [cbn; ring|]. change (lsum ?g (a :: l)) with (g a + lsum g l). rewrite IH. cbn [length]. rewrite S_INR. ring. Qed.

(** where the node restrained in y lies *)
Lemma held_place nx ny : (ny / 2 + 1 <= nx)%nat -> held_node nx ny = node nx (nx - 1 - ny / 2) (ny / 2).
Proof. unfold held_node, node. intros H. nia. Qed.

Section Split.
  Variables (P L h E nu : R) (nx ny : nat).
  Hypothesis (Hx : (1 <= nx)%nat) (Hy : (1 <= ny)%nat) (HL : 0 < L) (HH : 0 < h)
    (Hd : 1 / 100000000 < L * h / (4 * INR nx * INR ny)) (HE : 0 < E) (Hnu : -1 < nu < 1).
  Variables (nodes : list (list R)) (els : list (list Z)) (loads : list (list R)).
  Hypothesis HT : beam_tables P L h nx ny = Ok (nodes, els, loads).
  Let N := ((nx + 1) * (ny + 1))%nat.
  Let md := split_model E nu nodes els loads.

  Lemma HL0 : L <> 0. Proof. lra. Qed.
  Lemma sp_eq : nodes = map (beam_row L h nx ny) (seq 0 N) /\ snd (rect_grid L h nx ny) = els /\
    loads = map (fun j => [INR (node nx 0 j); 0; P / INR ny]) (seq 0 (S ny)).
  Proof. destruct (tables_ok P L h nx ny Hx Hy HL0) as (e & E1 & E2). rewrite HT in E2. injection E2 as -> -> ->. split; [reflexivity|]. split; [exact E1|reflexivity]. Qed.

  Lemma sp_row k : (k < N)%nat -> nth k (md_nodes md) [] = firstn 3 (beam_row L h nx ny k) /\ nth k (md_cons md) [] = skipn 3 (beam_row L h nx ny k).
  Proof.
    intros Hk. destruct sp_eq as (-> & _). unfold md, split_model. cbn [md_nodes md_cons]. rewrite !map_map.
    rewrite !(map_nth_def _ _ _ 0%nat) by (rewrite seq_length; exact Hk). rewrite seq_nth by exact Hk. split; reflexivity.
  Qed.
  Lemma sp_len : length (md_nodes md) = N /\ length (md_cons md) = N.
  Proof. destruct sp_eq as (-> & _). unfold md, split_model. cbn [md_nodes md_cons]. rewrite !map_length, seq_length. auto. Qed.

  Lemma sp_grid : grid_model L h nx ny E nu md.
  Proof.
    repeat (split; [assumption|]). split; [reflexivity|]. destruct sp_eq as (_ & Ee & _). destruct (rect_grid L h nx ny) as [[x y] e'] eqn:G. cbn [snd] in Ee. subst e'. exists x, y.
    split; [reflexivity|]. destruct (st_nodes L h nx ny x y els Hx Hy G) as (Lx & Ly & HC). fold N in Lx. unfold grid_table. rewrite Lx.
    apply (nth_ext _ _ [] []); [rewrite map_length, seq_length; apply sp_len|]. intros k Hk. rewrite (proj1 sp_len) in Hk.
    rewrite (proj1 (sp_row k Hk)), (map_nth_def _ _ _ 0%nat) by (rewrite seq_length; exact Hk). rewrite seq_nth by exact Hk. cbn [Nat.add].
    destruct (node_of nx ny k Hk) as (i & j & Hi & Hj & ->). destruct (HC i j Hi Hj) as [X Y]. unfold lattice in X, Y. rewrite Nat2Z.id in X, Y. fold (node nx i j) in X, Y.
    destruct (node_mod nx i j Hi) as [M D]. unfold beam_row. cbn [firstn]. rewrite M, D, X, Y. reflexivity.
  Qed.
  Lemma sp_flags i j : (i <= nx)%nat -> (j <= ny)%nat ->
    ent (md_cons md) (node nx i j) 0 = (if (i =? nx)%nat then -1 else 0) /\ ent (md_cons md) (node nx i j) 1 = (if (node nx i j =? held_node nx ny)%nat then -1 else 0).
  Proof.
    intros Hi Hj. destruct (node_mod nx i j Hi) as [M D]. unfold ent. rewrite (proj2 (sp_row _ (node_bound nx ny i j Hi Hj))). unfold beam_row. cbn [skipn nth]. rewrite M. auto.
  Qed.
  Lemma sp_wf : wf_model md.
  Proof.
    destruct sp_len as [LN LC]. split; [|split; [|split]].
    - destruct sp_eq as (-> & _). unfold md, split_model. cbn [md_cons]. apply Forall_forall. intros r Hr. apply in_map_iff in Hr as (r' & <- & Hr). apply in_map_iff in Hr as (k & <- & _).
      split; [reflexivity|]. cbn [beam_row skipn]. apply Forall_cons; [destruct (k mod (nx + 1) =? nx)%nat; tauto|]. apply Forall_cons; [destruct (k =? held_node nx ny)%nat; tauto|constructor].
    - congruence.
    - apply Forall_forall. intros e He. pose proof (gm_mesh L h nx ny E nu md sp_grid) as HM. unfold mesh_of in HM. rewrite Forall_forall in HM. apply (HM e He).
    - rewrite LN. destruct sp_eq as (_ & _ & ->). unfold md, split_model. cbn [md_loads]. apply Forall_forall. intros r Hr. apply in_map_iff in Hr as (j & <- & Hj). apply in_seq in Hj.
      split; [cbn; lia|]. exists (node nx 0 j). split; [apply node_bound; lia|reflexivity].
  Qed.
  Lemma sp_supported : supported md.
  Proof.
    destruct sp_len as [LN LC]. intros a b w HR. pose proof (held_bound nx ny Hx Hy) as HB. fold N in HB.
    assert (HX : forall j, (j <= ny)%nat -> a - w * (- h / 2 + INR j * (h / INR ny)) = 0).
    { intros j Hj. assert (Hb := node_bound nx ny nx j (le_n nx) Hj). pose proof (HR (node nx nx j) 0%nat ltac:(rewrite LN; exact Hb) ltac:(lia)) as A.
      rewrite (proj1 (sp_flags nx j (le_n nx) Hj)), Nat.eqb_refl in A. specialize (A eq_refl). unfold node_rigid in A. cbn [Nat.eqb] in A.
      rewrite (proj2 (gm_xy L h nx ny E nu md sp_grid nx j (le_n nx) Hj)) in A. exact A. }
    pose proof (HX 0%nat ltac:(lia)) as A. pose proof (HX 1%nat ltac:(lia)) as B. cbn [INR] in A, B.
    assert (Hdy : 0 < h / INR ny) by (apply Rdiv_lt_0_compat; [exact HH|apply lt_0_INR; lia]).
    assert (W : w * (h / INR ny) = 0) by lra. apply Rmult_integral in W. destruct W as [W|W]; [|lra]. subst w.
    destruct (node_of nx ny (held_node nx ny) HB) as (i & j & Hi & Hj & Eh).
    pose proof (HR (held_node nx ny) 1%nat ltac:(rewrite LN; exact HB) ltac:(lia)) as C. rewrite Eh in C at 1. rewrite (proj2 (sp_flags i j Hi Hj)), <- Eh, Nat.eqb_refl in C.
    specialize (C eq_refl). unfold node_rigid in C. cbn [Nat.eqb] in C. repeat split; lra.
  Qed.

  Lemma sp_applied i j d : (i <= nx)%nat -> (j <= ny)%nat -> (d < 2)%nat -> applied (md_loads md) (node nx i j) d = if ((i =? 0) && (d =? 1))%nat then P / INR ny else 0.
  Proof.
    intros Hi Hj Hd2. destruct sp_eq as (_ & _ & EL). change (md_loads md) with loads. rewrite EL. destruct (Nat.eqb_spec i 0) as [->|Ni]; cbn [andb].
    - replace (S ny) with (j + S (ny - j))%nat by lia. rewrite seq_app, map_app. cbn [Nat.add seq map]. rewrite applied_last; [|reflexivity|].
      + destruct d as [|[|]]; [reflexivity|reflexivity|lia].
      + intros r Hr. apply in_map_iff in Hr as (q & <- & Hq). apply in_seq in Hq. cbn [nth]. intros HC. apply INR_eq in HC. apply node_inj in HC; lia.
    - apply applied_no_row. intros r Hr. apply in_map_iff in Hr as (q & <- & Hq). cbn [nth]. intros HC. apply INR_eq in HC. apply node_inj in HC; lia.
  Qed.

  Lemma sum_left (g : nat -> R) : rsum N (fun k => g k * applied (md_loads md) k 1) = P / INR ny * lsum (fun j => g (node nx 0 j)) (seq 0 (S ny)).
  Proof.
    rewrite <- lsum_seq. rewrite (lsum_ext _ (fun k => if (k mod (nx + 1) =? 0)%nat then g k * (P / INR ny) else 0)).
    - rewrite lsum_filter. replace N with ((nx + 1) * S ny)%nat by (unfold N; lia). rewrite multiples by lia. rewrite lsum_map.
      rewrite <- lsum_scal. apply lsum_ext. intros j _. unfold node. rewrite Nat.add_0_r. ring.
    - intros k Hk. apply in_seq in Hk. destruct (node_of nx ny k ltac:(fold N; lia)) as (i & j & Hi & Hj & ->).
      rewrite sp_applied by (assumption || lia). rewrite (proj1 (node_mod nx i j Hi)). destruct (i =? 0)%nat; cbn [andb Nat.eqb]; ring.
  Qed.
  Lemma sum_left0 (g : nat -> R) : rsum N (fun k => g k * applied (md_loads md) k 0) = 0.
  Proof.
    apply rsum_zero. intros k Hk. destruct (node_of nx ny k Hk) as (i & j & Hi & Hj & ->). rewrite sp_applied by (assumption || lia). rewrite andb_false_r. ring.
  Qed.
  Lemma sp_total : rsum N (fun k => applied (md_loads md) k 1) = P * (INR ny + 1) / INR ny.
  Proof.
    rewrite (rsum_ext _ _ (fun k => 1 * applied (md_loads md) k 1)) by (intros; ring). rewrite (sum_left (fun _ => 1)), lsum_const, seq_length, S_INR. field. apply not_0_INR. lia.
  Qed.

  Section Run.
    Variables (sv : solvers R) (plot strains : bool) (out : outcome R).
    Hypothesis (Hsv : solver_ok sv) (HO : auto sv md plot strains = Ok out).
    Lemma sp_rows : node_rows_ok md.
    Proof. apply Forall_forall. intros r Hr. apply (In_nth _ _ []) in Hr as (k & Hk & <-). rewrite (proj1 sp_len) in Hk. rewrite (proj1 (sp_row k Hk)). reflexivity. Qed.
    Lemma sp_types : continuum_or_truss md.
    Proof.
      apply Forall_forall. intros e He. apply (gm_in L h nx ny E nu md sp_grid) in He as (c & r & _ & _ & ->). exists 1%Z. split; reflexivity.
    Qed.
    Lemma sp_ry k : (k < N)%nat -> k <> held_node nx ny -> reaction md (table out) k 1 = 0.
    Proof.
      intros Hk Hn. unfold reaction. destruct (node_of nx ny k Hk) as (i & j & Hi & Hj & Ek). subst k. pose proof (proj2 (sp_flags i j Hi Hj)) as Q.
      destruct (Nat.eqb_spec (node nx i j) (held_node nx ny)) as [|_]; [contradiction|]. destruct (Req_EM_T (ent (md_cons md) (node nx i j) 1) (-1)); [lra|reflexivity].
    Qed.
    Theorem sp_reaction : reaction md (table out) (held_node nx ny) 1 = - (P * (INR ny + 1) / INR ny).
    Proof.
      pose proof (reactions_balance sv md plot strains out 1 sp_wf sp_rows sp_types Hsv HO ltac:(lia)) as B. rewrite (proj1 sp_len), sp_total in B.
      rewrite (rsum_single N (held_node nx ny)) in B; [lra|apply held_bound; assumption|]. intros k Hk Hn. apply sp_ry; assumption.
    Qed.
    Theorem sp_moment : (ny / 2 + 1 <= nx)%nat ->
      rsum N (fun k => ent (md_nodes md) k 2 * reaction md (table out) k 0) = - (P * (INR ny + 1) / INR ny * (L - INR (ny / 2 + 1) * (L / INR nx))).
    Proof.
      intros Hm. pose proof (moments_balance sv md plot strains out sp_wf sp_rows sp_types Hsv HO) as B. cbv zeta in B. rewrite (proj1 sp_len) in B.
      rewrite (rsum_ext _ _ (fun i => (ent (md_nodes md) i 1 * reaction md (table out) i 1 + ent (md_nodes md) i 1 * applied (md_loads md) i 1)
        - (ent (md_nodes md) i 2 * reaction md (table out) i 0 + ent (md_nodes md) i 2 * applied (md_loads md) i 0))) in B by (intros; ring).
      rewrite rsum_minus, !rsum_plus, sum_left0, (sum_left (fun k => ent (md_nodes md) k 1)) in B.
      rewrite (rsum_single N (held_node nx ny)) in B; [|apply held_bound; assumption|intros k Hk Hn; rewrite sp_ry by assumption; ring].
      assert (Hm' : (ny / 2 <= ny)%nat) by (apply Nat.div_le_upper_bound; lia). assert (Hm2 : (nx - 1 - ny / 2 <= nx)%nat) by lia.
      rewrite sp_reaction, (held_place nx ny Hm), (proj1 (gm_xy L h nx ny E nu md sp_grid _ _ Hm2 Hm')) in B.
      rewrite (lsum_ext _ (fun _ => - L / 2)), lsum_const, seq_length, S_INR in B.
      2: { intros j Hj. apply in_seq in Hj. rewrite (proj1 (gm_xy L h nx ny E nu md sp_grid 0 j ltac:(lia) ltac:(lia))). cbn [INR]. ring. }
      replace (nx - 1 - ny / 2)%nat with (nx - (ny / 2 + 1))%nat in B by lia. rewrite minus_INR in B by exact Hm.
      match goal with |- ?S = _ => set (Q := S) in * end. clearbody Q. assert (Hn : INR nx <> 0) by (apply not_0_INR; lia). assert (Hn' : INR ny <> 0) by (apply not_0_INR; lia).
      replace Q with (- (P * (INR ny + 1) / INR ny) * (- L / 2 + (INR nx - INR (ny / 2 + 1)) * (L / INR nx)) + P / INR ny * ((INR ny + 1) * (- L / 2))) by lra.
      field. tauto.
    Qed.
  End Run.
End Split.

(** ** stated *)
Theorem beam_table P L h nx ny : (1 <= nx)%nat -> (1 <= ny)%nat -> L <> 0 ->
  exists nodes els loads x y, rect_grid L h nx ny = (x, y, els) /\ beam_tables P L h nx ny = Ok (nodes, els, loads) /\ length nodes = ((nx + 1) * (ny + 1))%nat /\
    (forall i j, (i <= nx)%nat -> (j <= ny)%nat -> exists f, nth (node nx i j) nodes [] =
       [INR (node nx i j); - L / 2 + INR i * (L / INR nx); - h / 2 + INR j * (h / INR ny); if (i =? nx)%nat then -1 else 0; f] /\
       f = if (node nx i j =? nx * (ny / 2 + 1) - 1)%nat then -1 else 0) /\
    loads = map (fun j => [INR (node nx 0 j); 0; P / INR ny]) (seq 0 (ny + 1)).
Proof.
  intros Hx Hy HL. destruct (tables_ok P L h nx ny Hx Hy HL) as (els & E1 & E2). destruct (rect_grid L h nx ny) as [[x y] e'] eqn:G. cbn [snd] in E1. subst e'.
  do 5 eexists. split; [reflexivity|]. split; [exact E2|]. rewrite map_length, seq_length. split; [reflexivity|]. split; [|rewrite Nat.add_1_r; reflexivity].
  intros i j Hi Hj. eexists. split; [|reflexivity]. assert (Hb := node_bound nx ny i j Hi Hj). rewrite (map_nth_def _ _ _ 0%nat) by (rewrite seq_length; exact Hb). rewrite seq_nth by exact Hb.
  destruct (node_mod nx i j Hi) as [M D]. unfold beam_row. cbn [Nat.add]. rewrite M, D. reflexivity.
Qed.

Theorem beam_support P L h nx ny nodes els loads : (1 <= nx)%nat -> (1 <= ny)%nat -> 0 < L -> (ny / 2 + 1 <= nx)%nat -> beam_tables P L h nx ny = Ok (nodes, els, loads) ->
  forall k, (k < length nodes)%nat -> ent nodes k 4 = -1 -> ent nodes k 1 = L / 2 - INR (ny / 2 + 1) * (L / INR nx) /\ ent nodes k 1 < L / 2.
Proof.
  intros Hx Hy HL Hm HT k Hk HF. destruct (beam_table P L h nx ny Hx Hy ltac:(lra)) as (nd & el & ld & x & y & _ & HT' & HN & HR & _). rewrite HT in HT'. injection HT' as <- <- <-.
  rewrite HN in Hk. destruct (node_of nx ny k Hk) as (i & j & Hi & Hj & ->). destruct (HR i j Hi Hj) as (f & HE & Ef). unfold ent in *. rewrite HE in *. cbn [nth] in *.
  destruct (Nat.eqb_spec (node nx i j) (nx * (ny / 2 + 1) - 1)) as [Q|]; [|lra]. pose proof (held_place nx ny Hm) as HP. unfold held_node in HP. rewrite HP in Q.
  apply node_inj in Q as [-> ->]; [|lia..]. replace (nx - 1 - ny / 2)%nat with (nx - (ny / 2 + 1))%nat by lia. rewrite minus_INR by exact Hm.
  assert (Hn : 0 < INR nx) by (apply lt_0_INR; lia). assert (Hn2 : 0 < INR (ny / 2 + 1)) by (apply lt_0_INR; lia). assert (Hq : 0 < L / INR nx) by (apply Rdiv_lt_0_compat; assumption).
  assert (EQ : - L / 2 + (INR nx - INR (ny / 2 + 1)) * (L / INR nx) = L / 2 - INR (ny / 2 + 1) * (L / INR nx)) by (field; lra).
  rewrite EQ. split; [reflexivity|]. nra.
Qed.

Theorem beam_total P L h nx ny nodes els loads : (1 <= nx)%nat -> (1 <= ny)%nat -> L <> 0 -> beam_tables P L h nx ny = Ok (nodes, els, loads) ->
  lsum (fun r => nth 2 r 0) loads = P * (INR ny + 1) / INR ny.
Proof.
  intros Hx Hy HL HT. destruct (tables_ok P L h nx ny Hx Hy HL) as (e & _ & E2). rewrite HT in E2.
  assert (EL : loads = map (fun j => [INR (node nx 0 j); 0; P / INR ny]) (seq 0 (S ny))) by congruence. rewrite EL, lsum_map. cbn [nth]. rewrite lsum_const, seq_length, S_INR.
  field. apply not_0_INR. lia.
Qed.

Theorem beam_runs P L h E nu nx ny nodes els loads : (1 <= nx)%nat -> (1 <= ny)%nat -> 0 < L -> 0 < h -> 1 / 100000000 < L * h / (4 * INR nx * INR ny) -> 0 < E -> -1 < nu < 1 ->
  beam_tables P L h nx ny = Ok (nodes, els, loads) -> forall sv, solver_ok sv -> solver_total sv ->
  exists out, auto sv (split_model E nu nodes els loads) false false = Ok out.
Proof.
  intros Hx Hy HL HH Hd HE Hnu HT sv H1 H2. pose proof (sp_grid P L h E nu nx ny Hx Hy HL HH Hd HE Hnu nodes els loads HT) as G.
  pose proof (sp_wf P L h E nu nx ny Hx Hy HL HH Hd HE Hnu nodes els loads HT) as W.
  apply (model_runs sv _ W); [apply (gm_accepted _ _ _ _ _ _ _ G); apply W| |exact H1|exact H2|].
  - apply (gm_stable _ _ _ _ _ _ _ G W). exact (sp_supported P L h E nu nx ny Hx Hy HL HH Hd HE Hnu nodes els loads HT).
  - exists (node nx 0 0), 0%nat. split; [rewrite (gm_length _ _ _ _ _ _ _ G); apply node_bound; lia|]. split; [lia|].
    rewrite (proj1 (sp_flags P L h E nu nx ny Hx Hy HL nodes els loads HT 0 0 ltac:(lia) ltac:(lia))). destruct (Nat.eqb_spec 0 nx); [lia|reflexivity].
Qed.
