(** * Lemmas: models on rectangular grids *)
From Coq Require Import Reals List Arith Lia Lra Bool ZArith Relations.
From Verif Require Import Num LinAlg Gauss Fem Uel Assem Post Pre Main Spec LinR Base SpecAssem SpecModel SpecElem SpecPost SpecPre SpecStatic SpecPatch SpecDriver SpecGrid
  ElemCore Sampled Elem2 MatProofs Elem2Props ShapeProofs ElemShape AssemProofs AssemProofs3 AssemProofs4 ModelProofs ModelProofs2 ElemFinal ElemFinal2 ElemFinal3 MeshProofs
  PostProofs PostFinal GridProofs StaticProofs StaticProofs2 StaticProofs3 PatchProofs PatchProofs2 DriverProofs.
Import ListNotations.
Local Open Scope R_scope.

(** element row of the cell in column c, row r *)
Definition cell (nx c r : nat) : list Z := ([Z.of_nat (r * nx + c); 1; 0] ++ corners nx c r)%Z.

Lemma grid_els (L H : R) nx ny : snd (rect_grid L H nx ny) = flat_map (fun r => map (fun c => cell nx c r) (seq 0 nx)) (seq 0 ny).
Proof.
  unfold rect_grid. cbn [snd]. apply flat_map_ext. intros r. apply map_ext. intros c. unfold cell, corners, lattice. cbn [app].
  repeat (f_equal; try lia).
Qed.

Lemma lsum_seq (f : nat -> R) n : lsum f (seq 0 n) = rsum n f.
Proof.
  induction n as [|n IH]; [reflexivity|]. rewrite seq_S. unfold lsum in *. rewrite fold_right_app. cbn [fold_right rsum Nat.add].
  rewrite <- IH. generalize (seq 0 n). intros l. induction l as [|a l IHl]; cbn [fold_right]; [ring|]. rewrite IHl. ring.
Qed.

Lemma cell_node nx c r : e_n (cell nx c r) = 4%nat /\ e_node (cell nx c r) 0 = node nx c r /\ e_node (cell nx c r) 1 = node nx (c + 1) r /\
  e_node (cell nx c r) 2 = node nx (c + 1) (r + 1) /\ e_node (cell nx c r) 3 = node nx c (r + 1).
Proof. unfold e_n, e_node, cell, corners, lattice, node. cbn [app length nth Nat.add Nat.sub]. rewrite !Nat2Z.id. auto. Qed.

Lemma node_inj nx i j i' j' : (i <= nx)%nat -> (i' <= nx)%nat -> node nx i j = node nx i' j' -> i = i' /\ j = j'.
Proof. unfold node. intros Hi Hi' E. assert (j = j') by nia. subst. split; lia. Qed.
Lemma node_eqb nx i j i' j' : (i <= nx)%nat -> (i' <= nx)%nat -> (node nx i j =? node nx i' j')%nat = ((i =? i')%nat && (j =? j')%nat).
Proof.
  intros Hi Hi'. destruct (Nat.eqb_spec (node nx i j) (node nx i' j')) as [E|E].
  - apply node_inj in E as [-> ->]; [|assumption..]. rewrite !Nat.eqb_refl. reflexivity.
  - symmetry. apply Bool.andb_false_iff. destruct (Nat.eqb_spec i i') as [->|]; [|auto]. destruct (Nat.eqb_spec j j') as [->|]; [|auto]. contradiction.
Qed.
Lemma node_of nx ny k : (k < (nx + 1) * (ny + 1))%nat -> exists i j, (i <= nx)%nat /\ (j <= ny)%nat /\ k = node nx i j.
Proof.
  intros Hk. exists (k mod (nx + 1))%nat, (k / (nx + 1))%nat. pose proof (Nat.mod_upper_bound k (nx + 1) ltac:(lia)).
  assert (k / (nx + 1) < ny + 1)%nat by (apply Nat.div_lt_upper_bound; lia).
  split; [lia|]. split; [lia|]. unfold node. rewrite (Nat.div_mod k (nx + 1)) at 1 by lia. lia.
Qed.
Lemma node_bound nx ny i j : (i <= nx)%nat -> (j <= ny)%nat -> (node nx i j < (nx + 1) * (ny + 1))%nat.
Proof. unfold node. nia. Qed.

(** counting *)
Lemma rsum_delta n (i : nat) : rsum n (fun c => if (c =? i)%nat then 1 else 0) = if (i <? n)%nat then 1 else 0.
Proof.
  induction n as [|n IH]; [reflexivity|]. cbn [rsum]. rewrite IH.
  destruct (Nat.eqb_spec n i) as [E|E]; destruct (Nat.ltb_spec i n); destruct (Nat.ltb_spec i (S n)); lia || lra.
Qed.
Lemma rsum_delta1 n (i : nat) : rsum n (fun c => if (c + 1 =? i)%nat then 1 else 0) = if ((1 <=? i) && (i <=? n))%nat then 1 else 0.
Proof.
  induction n as [|n IH]; [cbn [rsum]; destruct i; reflexivity|]. cbn [rsum]. rewrite IH.
  destruct (Nat.eqb_spec (n + 1) i) as [E|E]; destruct (Nat.leb_spec 1 i); destruct (Nat.leb_spec i n); destruct (Nat.leb_spec i (S n)); cbn [andb]; lia || lra.
Qed.

Section Grid.
  Variables (L H : R) (nx ny : nat) (E nu : R) (md : model).
  Hypothesis G : grid_model L H nx ny E nu md.

  Lemma gm_elements : md_elements md = flat_map (fun r => map (fun c => cell nx c r) (seq 0 nx)) (seq 0 ny).
  Proof. destruct G as (_ & _ & _ & _ & _ & _ & _ & _ & x & y & HG & _). rewrite <- (grid_els L H nx ny), HG. reflexivity. Qed.
  Lemma gm_in e : In e (md_elements md) <-> exists c r, (c < nx)%nat /\ (r < ny)%nat /\ e = cell nx c r.
  Proof.
    rewrite gm_elements, in_flat_map. split.
    - intros (r & Hr & He). apply in_map_iff in He as (c & <- & Hc). apply in_seq in Hr. apply in_seq in Hc. exists c, r. repeat split; lia.
    - intros (c & r & Hc & Hr & ->). exists r. split; [apply in_seq; lia|]. apply (in_map (fun c => cell nx c r)). apply in_seq. lia.
  Qed.
  Lemma gm_sum (f : list Z -> R) : lsum f (md_elements md) = rsum ny (fun r => rsum nx (fun c => f (cell nx c r))).
  Proof.
    rewrite gm_elements, lsum_flat_map, lsum_seq. apply rsum_ext. intros r _. rewrite lsum_map, lsum_seq. reflexivity.
  Qed.

  Lemma gm_length : length (md_nodes md) = ((nx + 1) * (ny + 1))%nat.
  Proof.
    destruct G as (Hx & Hy & _ & _ & _ & _ & _ & _ & x & y & HG & ->). unfold grid_table. rewrite map_length, seq_length.
    exact (proj1 (st_nodes L H nx ny x y _ Hx Hy HG)).
  Qed.
  Lemma gm_row k : (k < (nx + 1) * (ny + 1))%nat -> exists x y, rect_grid L H nx ny = (x, y, md_elements md) /\ nth k (md_nodes md) [] = [INR k; nth k x 0; nth k y 0].
  Proof.
    intros Hk. pose proof gm_length as HL. destruct G as (Hx & Hy & _ & _ & _ & _ & _ & _ & x & y & HG & HN). exists x, y. split; [exact HG|].
    rewrite HN in *. unfold grid_table in *. rewrite map_length, seq_length in HL.
    rewrite (map_nth_def _ _ _ 0%nat) by (rewrite seq_length; lia). rewrite seq_nth by lia. reflexivity.
  Qed.
  Lemma gm_xy i j : (i <= nx)%nat -> (j <= ny)%nat ->
    ent (md_nodes md) (node nx i j) 1 = - L / 2 + INR i * (L / INR nx) /\ ent (md_nodes md) (node nx i j) 2 = - H / 2 + INR j * (H / INR ny).
  Proof.
    intros Hi Hj. destruct (gm_row (node nx i j) (node_bound nx ny i j Hi Hj)) as (x & y & HG & HR).
    destruct G as (Hx & Hy & _). destruct (st_nodes L H nx ny x y _ Hx Hy HG) as (_ & _ & HC). specialize (HC i j Hi Hj).
    unfold lattice in HC. rewrite Nat2Z.id in HC. unfold ent. rewrite HR. cbn [nth]. exact HC.
  Qed.

  Lemma gm_ret c r : (c < nx)%nat -> (r < ny)%nat -> exists K M, retriever (cell nx c r) (md_mats md) (md_nodes md) None = Ok (K, M2 M).
  Proof.
    intros Hc Hr. pose proof gm_length as HL. destruct G as (Hx & Hy & HL0 & HH0 & Hd & HE & Hnu & HM & x & y & HG & HN).
    assert (Hacc : accepted2 4 shape_quad4 (pl_gq pl_quad4) (at_nodes x y (corners nx c r))).
    { split; [reflexivity|]. split; [reflexivity|]. intros xi eta w _. unfold det_at.
      pose proof (st_jacobian L H nx ny x y _ HG c r xi eta Hc Hr) as HJ. rewrite <- HJ in Hd. exact Hd. }
    assert (Hnu' : 1 - nu * nu <> 0) by nra.
    destruct (plane_runs pl_quad4 _ [E; nu] E nu (opt_dens [E; nu]) ltac:(cbn; tauto) eq_refl Hnu' Hacc) as (K & M & HK).
    exists K, M. unfold retriever. rewrite HM. cbn [cell app].
    change (np_get (Z.of_nat (r * nx + c) :: 1%Z :: 0%Z :: corners nx c r) 1) with (@Ok Z 1%Z).
    change (np_get (Z.of_nat (r * nx + c) :: 1%Z :: 0%Z :: corners nx c r) 2) with (@Ok Z 0%Z). cbn [bind].
    change (np_get [[E; nu]] 0) with (@Ok (list R) [E; nu]). cbn [bind skipn].
    assert (HR : mapM (np_get (md_nodes md)) (corners nx c r) = Ok (map (fun z => nth (Z.to_nat z) (md_nodes md) []) (corners nx c r))).
    { apply mapM_total. intros z Hz. apply np_get_nonneg. rewrite HL. apply (corners_range nx ny c r z Hc Hr Hz). }
    rewrite HR. cbn [bind]. change (@ele_fun R Num_R 1) with (Ok (@elast_quad4 R Num_R)). cbn [bind].
    assert (HC : map (@tl R) (map (fun z => nth (Z.to_nat z) (md_nodes md) []) (corners nx c r)) = at_nodes x y (corners nx c r)).
    { unfold at_nodes. rewrite map_map. apply map_ext_in. intros z Hz. pose proof (corners_range nx ny c r z Hc Hr Hz) as HB.
      rewrite HN in *. unfold grid_table in *. rewrite map_length, seq_length in HL.
      rewrite (map_nth_def _ _ _ 0%nat) by (rewrite seq_length; lia). rewrite seq_nth by lia. reflexivity. }
    rewrite HC. exact HK.
  Qed.

  Lemma gm_mesh : mesh_of 1 4 (length (md_nodes md)) (md_elements md).
  Proof.
    apply Forall_forall. intros e He. apply gm_in in He as (c & r & Hc & Hr & ->). rewrite gm_length.
    split; [reflexivity|]. split; [reflexivity|]. split; [cbn; lia|]. cbn [cell app skipn]. apply Forall_forall.
    intros z Hz. exact (corners_range nx ny c r z Hc Hr Hz).
  Qed.
  Lemma gm_touches k : (k < length (md_nodes md))%nat -> exists e q, In e (md_elements md) /\ (q < e_n e)%nat /\ e_node e q = k.
  Proof.
    rewrite gm_length. intros Hk. destruct (node_of nx ny k Hk) as (i & j & Hi & Hj & ->). destruct G as (Hx & Hy & _).
    destruct (Nat.eq_dec i nx) as [->|Ni]; destruct (Nat.eq_dec j ny) as [->|Nj].
    - exists (cell nx (nx - 1) (ny - 1)), 2%nat. destruct (cell_node nx (nx - 1) (ny - 1)) as (En & _ & _ & E2 & _).
      split; [apply gm_in; do 2 eexists; repeat split; lia|]. rewrite En, E2. split; [lia|]. do 2 f_equal; lia.
    - exists (cell nx (nx - 1) j), 1%nat. destruct (cell_node nx (nx - 1) j) as (En & _ & E1 & _).
      split; [apply gm_in; do 2 eexists; repeat split; lia|]. rewrite En, E1. split; [lia|]. unfold node. lia.
    - exists (cell nx i (ny - 1)), 3%nat. destruct (cell_node nx i (ny - 1)) as (En & _ & _ & _ & E3).
      split; [apply gm_in; do 2 eexists; repeat split; lia|]. rewrite En, E3. split; [lia|]. replace (ny - 1 + 1)%nat with ny by lia. reflexivity.
    - exists (cell nx i j), 0%nat. destruct (cell_node nx i j) as (En & E0 & _).
      split; [apply gm_in; do 2 eexists; repeat split; lia|]. rewrite En, E0. split; [lia|reflexivity].
  Qed.

  Lemma gm_accepted : length (md_cons md) = length (md_nodes md) -> accepted md.
  Proof.
    intros HC. apply Forall_forall. intros e He. pose proof He as He'. apply gm_in in He as (c & r & Hc & Hr & ->). split; [|exact (gm_ret c r Hc Hr)].
    exists 1%Z. split; [reflexivity|]. split; [reflexivity|]. split; [cbn; lia|]. rewrite HC, gm_length. cbn [cell app skipn]. apply Forall_forall.
    intros z Hz. exact (corners_range nx ny c r z Hc Hr Hz).
  Qed.
  Lemma gm_sound : Forall (sound_plane md) (md_elements md).
  Proof.
    apply Forall_forall. intros e He. apply gm_in in He as (c & r & Hc & Hr & ->).
    destruct (gm_ret c r Hc Hr) as (K & M & HK). destruct G as (_ & _ & _ & _ & _ & HE & Hnu & HM & _).
    split; [|split; [|exists K, (M2 M); exact HK]].
    - exists 1%Z. split; [reflexivity|left; split; reflexivity].
    - exists 0%Z, E, nu, []. rewrite HM. split; [reflexivity|split; [reflexivity|split; assumption]].
  Qed.
  Lemma gm_patch : patch_mesh md E nu 1.
  Proof.
    exists 1%Z, 4%nat. split; [cbn; tauto|]. split; [exact gm_mesh|]. apply Forall_forall. intros e He. apply gm_in in He as (c & r & Hc & Hr & ->).
    destruct (gm_ret c r Hc Hr) as (K & M & HK). destruct G as (_ & _ & _ & _ & _ & HE & Hnu & HM & _).
    split; [|exists K, (M2 M); exact HK]. exists 0%Z, []. rewrite HM. split; reflexivity.
  Qed.

  Lemma gm_dx : 0 < L / INR nx /\ 0 < H / INR ny.
  Proof.
    destruct G as (Hx & Hy & HL & HH & _). assert (0 < INR nx) by (apply lt_0_INR; lia). assert (0 < INR ny) by (apply lt_0_INR; lia).
    split; apply Rdiv_lt_0_compat; assumption.
  Qed.
  Lemma gm_right c r : (c + 1 < nx)%nat -> (r < ny)%nat -> linked md (cell nx c r) (cell nx (c + 1) r) /\ linked md (cell nx (c + 1) r) (cell nx c r).
  Proof.
    intros Hc Hr. destruct (cell_node nx c r) as (En & E0 & E1 & E2 & E3). destruct (cell_node nx (c + 1) r) as (Fn & F0 & F1 & F2 & F3).
    destruct (gm_xy (c + 1) r ltac:(lia) ltac:(lia)) as [_ Y1]. destruct (gm_xy (c + 1) (r + 1) ltac:(lia) ltac:(lia)) as [_ Y2]. destruct gm_dx as [_ Hd].
    rewrite INR_succ in Y2. split.
    - exists 1%nat, 2%nat, 0%nat, 3%nat. rewrite En, Fn, E1, E2, F0, F3. repeat split; try lia. right. rewrite Y1, Y2. lra.
    - exists 0%nat, 3%nat, 1%nat, 2%nat. rewrite En, Fn, E1, E2, F0, F3. repeat split; try lia. right. rewrite Y1, Y2. lra.
  Qed.
  Lemma gm_up c r : (c < nx)%nat -> (r + 1 < ny)%nat -> linked md (cell nx c r) (cell nx c (r + 1)) /\ linked md (cell nx c (r + 1)) (cell nx c r).
  Proof.
    intros Hc Hr. destruct (cell_node nx c r) as (En & E0 & E1 & E2 & E3). destruct (cell_node nx c (r + 1)) as (Fn & F0 & F1 & F2 & F3).
    destruct (gm_xy c (r + 1) ltac:(lia) ltac:(lia)) as [X1 _]. destruct (gm_xy (c + 1) (r + 1) ltac:(lia) ltac:(lia)) as [X2 _]. destruct gm_dx as [Hd _].
    rewrite INR_succ in X2. split.
    - exists 3%nat, 2%nat, 0%nat, 1%nat. rewrite En, Fn, E2, E3, F0, F1. repeat split; try lia. left. rewrite X1, X2. lra.
    - exists 0%nat, 1%nat, 3%nat, 2%nat. rewrite En, Fn, E2, E3, F0, F1. repeat split; try lia. left. rewrite X1, X2. lra.
  Qed.
  Lemma gm_connected : connected md.
  Proof.
    split; [|exact gm_touches].
    set (step := fun a b => In b (md_elements md) /\ linked md a b).
    destruct G as (Hx & Hy & _).
    assert (GR : forall r c, (c < nx)%nat -> (r < ny)%nat -> clos_refl_trans _ step (cell nx 0 r) (cell nx c r) /\ clos_refl_trans _ step (cell nx c r) (cell nx 0 r)).
    { intros r c. induction c as [|c IH]; intros Hc Hr; [split; apply rt_refl|]. destruct (IH ltac:(lia) Hr) as [A B].
      destruct (gm_right c r ltac:(lia) Hr) as [C D]. rewrite Nat.add_1_r in C, D. split.
      - eapply rt_trans; [exact A|]. apply rt_step. split; [apply gm_in; do 2 eexists; repeat split; lia|exact C].
      - eapply rt_trans; [|exact B]. apply rt_step. split; [apply gm_in; do 2 eexists; repeat split; lia|exact D]. }
    assert (GU : forall r, (r < ny)%nat -> clos_refl_trans _ step (cell nx 0 0) (cell nx 0 r) /\ clos_refl_trans _ step (cell nx 0 r) (cell nx 0 0)).
    { intros r. induction r as [|r IH]; intros Hr; [split; apply rt_refl|]. destruct (IH ltac:(lia)) as [A B].
      destruct (gm_up 0 r ltac:(lia) ltac:(lia)) as [C D]. rewrite Nat.add_1_r in C, D. split.
      - eapply rt_trans; [exact A|]. apply rt_step. split; [apply gm_in; do 2 eexists; repeat split; lia|exact C].
      - eapply rt_trans; [|exact B]. apply rt_step. split; [apply gm_in; do 2 eexists; repeat split; lia|exact D]. }
    intros e e' He He'. apply gm_in in He as (c & r & Hc & Hr & ->). apply gm_in in He' as (c' & r' & Hc' & Hr' & ->).
    eapply rt_trans; [apply (GR r c Hc Hr)|]. eapply rt_trans; [apply (GU r Hr)|]. eapply rt_trans; [apply (GU r' Hr')|]. apply (GR r' c' Hc' Hr').
  Qed.
  Lemma gm_stable : wf_model md -> supported md -> stable md.
  Proof. intros Hwf Hs. exact (supported_stable md Hwf gm_sound gm_connected Hs). Qed.

  Lemma gm_rows : Forall (fun row => (2 < length row)%nat) (md_nodes md).
  Proof.
    apply Forall_forall. intros row Hr. destruct (In_nth _ _ [] Hr) as (k & Hk & <-). rewrite gm_length in Hk.
    destruct (gm_row k Hk) as (x & y & _ & ->). cbn. lia.
  Qed.
  Lemma gm_nonempty : md_elements md <> [].
  Proof.
    intros HN. destruct G as (Hx & Hy & _). assert (HI : In (cell nx 0 0) (md_elements md)) by (apply gm_in; do 2 eexists; repeat split; lia).
    rewrite HN in HI. destruct HI.
  Qed.
  Lemma gm_recoverable : recoverable md.
  Proof.
    split; [exists 1%Z, 4%nat; split; [cbn; tauto|exact gm_mesh]|]. split; [exact gm_nonempty|]. split; [exact gm_rows|].
    split; [destruct G as (_ & _ & _ & _ & _ & _ & _ & HM & _); rewrite HM; repeat constructor|].
    intros i Hi. destruct (gm_touches i Hi) as (e & k & He & Hk & Hn). exists e. split; [exact He|]. exists k. auto.
  Qed.
  Lemma gm_plottable : plottable md.
  Proof.
    right. split; [exact gm_nonempty|]. split; [exact gm_rows|]. apply Forall_forall. intros e He. apply gm_in in He as (c & r & _ & _ & ->).
    split; [cbn; lia|reflexivity].
  Qed.
End Grid.
