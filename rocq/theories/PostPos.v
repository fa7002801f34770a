(** * Strain recovery: materials, positions, concrete meshes (proof support) *)
From Coq Require Import String Reals List Arith Lia Lra ZArith QArith Qreals Bool.
From Verif Require Import Num LinAlg Gauss Fem Uel Assem Post Spec LinR Base SpecAssem SpecElem SpecModel SpecPost ElemShape BarProofs SpecShape ShapeProofs ElemCore Elem2 MatProofs ElemFinal ExModel2 PostProofs PostFinal PostTotal.
Import ListNotations.
Local Open Scope R_scope.

(** ** C51 *)
Theorem density_rejected nodes e es mats sol t im row g : np_get e 1 = Ok t -> eletype t = Ok g -> np_get e 2 = Ok im ->
  np_get mats im = Ok row -> length row <> 2%nat ->
  @strain_nodes R Num_R nodes (e :: es) mats sol = Err (ValueError "unpack").
Proof.
  intros H1 Hg H2 Hm Hrow. unfold strain_nodes, strain_rows. cbn [np_get np_index]. 
  change (np_get (e :: es) 0) with (Ok e). cbn [bind]. rewrite H1. cbn [bind]. rewrite Hg. destruct g as [[nd nn] ng]. cbn [bind foldM].
  unfold strain_elem at 1. rewrite H2. cbn [bind]. rewrite Hm. cbn [bind].
  destruct row as [|a [|b [|c row]]]; try reflexivity. now destruct Hrow.
Qed.

Theorem density_refuted : exists cons elements mats nodes op bc neq,
  DME cons elements 2 18 None = Ok (op, bc, neq) /\
  (forall sparse, exists gk gm, assembler elements mats nodes (Z.to_nat neq) op sparse None = Ok (gk, gm)) /\
  forall sol : list (list R), strain_nodes nodes elements mats sol = Err (ValueError "unpack").
Proof.
  destruct (sq_assembled true) as [op [bc [neq [gk [gm [HD [Hn HA]]]]]]].
  exists sq_cons, sq_elements, [[1; 1/4; 2]], sq_nodes, op, bc, neq. split; [exact HD|]. split.
  - intros sparse. destruct (sq_assembled sparse) as [op' [bc' [neq' [gk' [gm' [HD' [Hn' HA']]]]]]].
    rewrite HD in HD'. apply Ok_inj, pair_equal_spec in HD' as [HD' <-]. apply pair_equal_spec in HD' as [<- _]. exists gk', gm'. exact HA'.
  - intros sol. eapply density_rejected; try reflexivity. cbn. lia.
Qed.

(** ** C52 *)
Theorem gauss_positions f sh rule pts wts coord u eps xl n :
  In (f, sh, rule, n) [(str_el3, shape_tri3, gauss_tri 1, 3%nat); (str_el6, shape_tri6, gauss_tri 3, 6%nat); (str_el4, shape_quad4, gauss_nd 2 2, 4%nat)] ->
  rule = Ok (pts, wts) -> length coord = n -> f coord (mk_vec (2 * n) u) = Ok (eps, xl) ->
  forall k, (k < length pts)%nat -> exists r s, nth k pts [] = [r; s] /\
    nth k xl [] = [position n (fst (sh r s)) coord 0; position n (fst (sh r s)) coord 0] /\
    strain_at sh coord u [r; s] (ent eps k).
Proof.
  intros Hin Hrule Lc Hf k Hk.
  assert (X : exists cap, str_el_loop sh cap pts coord (mk_vec (2 * n) u) = Ok (eps, xl) /\ good2 n sh).
  { destruct Hin as [E|[E|[E|[]]]]; apply pair_equal_spec in E as [E <-]; apply pair_equal_spec in E as [E <-]; apply pair_equal_spec in E as [<- <-].
    - exists 3%nat. unfold str_el3 in Hf. rewrite Hrule in Hf. split; [exact Hf|exact (good2_all pl_tri3 ltac:(cbn; tauto))].
    - exists 7%nat. unfold str_el6 in Hf. rewrite Hrule in Hf. split; [exact Hf|exact (good2_all pl_tri6 ltac:(cbn; tauto))].
    - exists 4%nat. unfold str_el4 in Hf. rewrite Hrule in Hf. split; [exact Hf|exact (good2_all pl_quad4 ltac:(cbn; tauto))]. }
  destruct X as [cap [HL Hg]]. apply (str_loop_ok sh n) in HL; [|intros; apply Hg|exact Lc].
  destruct HL as [HL _]. destruct (HL k Hk) as [Hs [r [s [Hm [B [det [Hp [HD Hx]]]]]]]].
  exists r, s. split; [exact Hp|]. rewrite Hp in Hs. split; [|exact Hs]. rewrite Hx.
  apply (diff2_inv n) in HD; [|exact Hg]. cbv zeta in HD. destruct HD as [_ [_ [_ [_ [_ [_ [_ [HV _]]]]]]]].
  assert (Hpos : rsum n (fun j => ent Hm 0 (2 * j) * ent coord j 0) = position n (fst (sh r s)) coord 0).
  { specialize (HV (field2 (fun j => ent coord j 0) (fun _ => 0))). unfold act in HV. rewrite rsum_even_odd in HV.
    assert (F0 : forall j, field2 (fun j => ent coord j 0) (fun _ => 0) (2 * j) = ent coord j 0).
    { intros j. unfold field2. rewrite Nat.even_mul, Nat.div2_double. reflexivity. }
    assert (F1 : forall j, field2 (fun j => ent coord j 0) (fun _ => 0) (2 * j + 1) = 0).
    { intros j. unfold field2. rewrite Nat.even_add, Nat.even_mul. reflexivity. }
    unfold position. etransitivity; [|etransitivity; [exact HV|]]; apply rsum_ext; intros j Hj; rewrite F0, ?F1; first [ring | reflexivity | (rewrite Rmult_0_r, Rplus_0_r; reflexivity)]. }
  rewrite Hpos. reflexivity.
Qed.

Theorem gauss_rows f rule pts wts coord ul eps xl cap :
  In (f, rule, cap) [(str_el3, gauss_tri 1, 3%nat); (str_el6, gauss_tri 3, 7%nat); (str_el4, gauss_nd 2 2, 4%nat)] ->
  rule = Ok (pts, wts) -> f coord ul = Ok (eps, xl) ->
  (length pts <= cap)%nat /\ length eps = cap /\ length xl = cap /\
  forall k, (length pts <= k < cap)%nat -> nth k eps [] = [0; 0; 0] /\ nth k xl [] = [0; 0].
Proof.
  intros Hin Hrule Hf.
  assert (X : (length pts <= cap)%nat /\ exists sh, str_el_loop sh cap pts coord ul = Ok (eps, xl)).
  { destruct Hin as [E|[E|[E|[]]]]; apply pair_equal_spec in E as [E <-]; apply pair_equal_spec in E as [<- <-].
    - unfold str_el3 in Hf. pose proof Hf as Hf'. rewrite Hrule in Hf'. split; [injection Hrule as <- _; cbn; lia|eexists; exact Hf'].
    - unfold str_el6 in Hf. pose proof Hf as Hf'. rewrite Hrule in Hf'. split; [injection Hrule as <- _; cbn; lia|eexists; exact Hf'].
    - unfold str_el4 in Hf. pose proof Hf as Hf'. rewrite Hrule in Hf'. split; [|eexists; exact Hf'].
      assert (H1 : exists a b w, @gauss_1d R Num_R 2 = Ok ([a; b], w)) by (do 3 eexists; reflexivity).
      destruct H1 as [a [b [w H1]]]. destruct (nd22 a b w H1) as [_ [wts' Hnd]]. rewrite Hnd in Hrule. apply Ok_inj, pair_equal_spec in Hrule as [<- _]. cbn. lia. }
  destruct X as [Hp [sh HL]]. unfold str_el_loop in HL. inv_ok HL. apply Ok_inj, pair_equal_spec in HL as [<- <-]. pose proof (mapM_length _ _ _ Hr) as LR. unfold vec, mat in *.
  split; [exact Hp|]. rewrite !app_length, !map_length, !repeat_length, LR. split; [lia|]. split; [lia|]. intros k Hk.
  rewrite !app_nth2 by (rewrite map_length; lia). rewrite !map_length, LR. split.
  - rewrite (nth_indep _ _ [0; 0; 0]) by (rewrite repeat_length; lia). apply nth_repeat.
  - rewrite (nth_indep _ _ [0; 0]) by (rewrite repeat_length; lia). apply nth_repeat.
Qed.

Theorem positions_refuted : exists coord u eps xl pts wts k r s,
  str_el4 coord (mk_vec 8 u) = Ok (eps, xl) /\ gauss_nd 2 2 = Ok (pts, wts) /\ (k < length pts)%nat /\ nth k pts [] = [r; s] /\
  nth k xl [] <> [position 4 (fst (shape_quad4 r s)) coord 0; position 4 (fst (shape_quad4 r s)) coord 1].
Proof.
  assert (H1 : exists a b w, @gauss_1d R Num_R 2 = Ok ([a; b], w)) by (do 3 eexists; reflexivity).
  destruct H1 as [a [b [w H1]]]. destruct (nd22 a b w H1) as [Hab [wts Hnd]].
  set (coord := [[-1; -1]; [1; -1]; [1; 1]; [-1; 1]]).
  destruct (str_loop_total shape_quad4 4 4 [[a; a]; [a; b]; [b; a]; [b; b]] coord (fun _ => 0)) as [eps [xl [HL _]]].
  - intros. reflexivity.
  - repeat constructor; cbn [nth]; match goal with |- exists X, elast_diff_2d ?r ?s _ _ = _ => destruct (sq4_diff r s) as [Hm [B HB]]; eexists; exact HB end.
  - assert (HE : str_el4 coord (mk_vec 8 (fun _ => 0)) = Ok (eps, xl)) by (unfold str_el4; rewrite Hnd; exact HL).
    exists coord, (fun _ => 0), eps, xl, [[a; a]; [a; b]; [b; a]; [b; b]], wts, 1%nat, a, b.
    split; [exact HE|]. split; [exact Hnd|]. split; [cbn; lia|]. split; [reflexivity|].
    destruct (gauss_positions str_el4 shape_quad4 (gauss_nd 2 2) _ wts coord (fun _ => 0) eps xl 4 ltac:(cbn; tauto) Hnd eq_refl HE 1%nat ltac:(cbn; lia))
      as [r [s [Hp [Hx _]]]]. cbn [nth] in Hp. injection Hp as <- <-. rewrite Hx. intros K. injection K as K.
    assert (P0 : position 4 (fst (shape_quad4 a b)) coord 0 = a) by (unfold position, coord, ent; shp; cbn [rsum nth]; field).
    assert (P1 : position 4 (fst (shape_quad4 a b)) coord 1 = b) by (unfold position, coord, ent; shp; cbn [rsum nth]; field).
    assert (a = b); [|lra]. etransitivity; [symmetry; exact P0|]. etransitivity; [exact K|exact P1].
Qed.

(** ** concrete meshes *)
Definition two_nodes : list (list R) := [[0; 0; 0]; [1; 2; 0]; [2; 4; 0]; [3; 0; 2]; [4; 2; 2]; [5; 4; 2]; [6; 9; 9]].
Definition two_quads : list (list Z) := [[0; 1; 0; 0; 1; 4; 3]; [1; 1; 1; 1; 2; 5; 4]]%Z.
(** u = 1 + 2 x - y, v = 3 x + 5 y *)
Definition two_sol : list (list R) := map (fun p => [1 + 2 * nth 1 p 0 - nth 2 p 0; 3 * nth 1 p 0 + 5 * nth 2 p 0]) two_nodes.

Lemma two_mesh : mesh_of 1 4 7 two_quads.
Proof.
  unfold two_quads. repeat (constructor; [split; [reflexivity|split; [reflexivity|split; [cbn; lia|]]]; cbn [skipn]; repeat constructor; lia|]). constructor.
Qed.
Lemma two_affine : affine_sol two_nodes two_sol 1 2 (-1) 0 3 5.
Proof.
  intros i Hi. do 7 (destruct i as [|i]; [unfold ent; cbn [nth two_sol two_nodes map]; split; lra|]). cbn in Hi. lia.
Qed.
Lemma rect_diff r s coord : coord = [[0; 0]; [2; 0]; [2; 2]; [0; 2]] \/ coord = [[2; 0]; [4; 0]; [4; 2]; [2; 2]] ->
  exists X, elast_diff_2d r s coord shape_quad4 = Ok X.
Proof.
  intros Hc. assert (E : J2det (Jac 4 (snd (shape_quad4 r s)) coord) = 1) by (destruct Hc as [-> | ->]; unfold J2det, Jac, ent; shp; cbn [rsum nth]; field).
  destruct (diff2_total 4 shape_quad4 coord r s (good2_all pl_quad4 ltac:(cbn; tauto))) as [Hm [B HB]]; [destruct Hc as [-> | ->]; reflexivity|destruct Hc as [-> | ->]; reflexivity| |].
  - apply (Rlt_le_trans _ 1); [lra|]. apply Req_le. symmetry. exact E.
  - eexists. exact HB.
Qed.
Lemma two_runs mats : mats = [[8; 1/3]; [8; 1/3]] \/ mats = [[8; 1/3]; [1; 0]] -> exists E S, strain_rows two_nodes two_quads mats two_sol = Ok (E, S) /\ length E = 7%nat /\ length S = 7%nat.
Proof.
  intros Hmats.
  assert (H1 : exists a b w, @gauss_1d R Num_R 2 = Ok ([a; b], w)) by (do 3 eexists; reflexivity).
  destruct H1 as [a [b [w H1]]]. destruct (nd22 a b w H1) as [Hab [wts Hnd]].
  apply (strain_rows_runs 1 4 shape_quad4 (gauss_nd 2 2) [[a; a]; [a; b]; [b; a]; [b; b]] wts 7); auto; try (cbn; tauto); try discriminate.
  - exact two_mesh.
  - repeat constructor.
  - repeat constructor.
  - assert (K : forall e, In e two_quads -> (nth 2 e 0 < Z.of_nat (length mats))%Z /\ length (nth (Z.to_nat (nth 2 e 0%Z)) mats []) = 2%nat /\ e_nu mats e <> 1 /\ e_nu mats e <> -1).
    { intros e He. destruct Hmats as [-> | ->]; destruct He as [<-|[<-|[]]]; (split; [cbn; lia|]); (split; [reflexivity|]);
        unfold e_nu, ent; cbn [nth]; change (Z.to_nat 0) with 0%nat; change (Z.to_nat 1) with 1%nat; cbn [nth]; split; lra. }
    apply Forall_forall. intros e He. destruct (K e He) as [A1 [A2 [A3 A4]]]. unfold elem_runs. do 4 (split; [assumption|]).
    apply Forall_forall. intros p _. apply rect_diff. destruct He as [<-|[<-|[]]]; [left|right]; reflexivity.
Qed.

(** ** C48: a single triangle under u = (x, 0) *)
Definition tri_nodes : list (list R) := [[0; 0; 0]; [1; 1; 0]; [2; 0; 1]].
Definition tri_elem : list Z := [0; 3; 0; 0; 1; 2]%Z.
Definition tri_sol : list (list R) := [[0; 0]; [1; 0]; [0; 0]].
Lemma tri_mesh : mesh_of 3 3 3 [tri_elem].
Proof. constructor; [|constructor]. split; [reflexivity|split; [reflexivity|split; [cbn; lia|]]]. cbn [skipn tri_elem]. repeat constructor; lia. Qed.
Lemma tri_affine : affine_sol tri_nodes tri_sol 0 1 0 0 0 0.
Proof. intros i Hi. do 3 (destruct i as [|i]; [unfold ent; cbn [nth tri_sol tri_nodes]; split; lra|]). cbn in Hi. lia. Qed.
Lemma tri_runs3 : exists E S, strain_rows tri_nodes [tri_elem] [[1; 0]] tri_sol = Ok (E, S).
Proof.
  assert (H1 : exists pts wts, @gauss_tri R Num_R 1 = Ok (pts, wts)) by (do 2 eexists; reflexivity).
  destruct H1 as [pts [wts H1]].
  destruct (strain_rows_runs 3 3 shape_tri3 (gauss_tri 1) pts wts 3 tri_nodes [tri_elem] [[1; 0]] tri_sol) as [E [S [HR _]]]; auto; try (cbn; tauto); try discriminate.
  - exact tri_mesh.
  - repeat constructor.
  - repeat constructor.
  - constructor; [|constructor]. unfold elem_runs. split; [cbn; lia|]. split; [reflexivity|]. unfold e_nu, ent. cbn [nth tri_elem Z.to_nat].
    split; [lra|]. split; [lra|]. apply Forall_forall. intros p _.
    change (e_coords tri_nodes [0; 3; 0; 0; 1; 2]%Z) with [[0; 0]; [1; 0]; [0; 1]].
    destruct (diff2_total 3 shape_tri3 [[0; 0]; [1; 0]; [0; 1]] (nth 0 p 0) (nth 1 p 0) (good2_all pl_tri3 ltac:(cbn; tauto)) eq_refl eq_refl) as [Hm [B HB]].
    + unfold J2det, Jac, ent; shp; cbn [rsum nth]. lra.
    + eexists. exact HB.
  - exists E, S. exact HR.
Qed.
Theorem tri3_refuted : exists N nodes elements mats sol E S a0 a1 a2 b0 b1 b2 i e,
  mesh_of 3 3 N elements /\ length nodes = N /\ length sol = N /\ affine_sol nodes sol a0 a1 a2 b0 b1 b2 /\
  strain_rows nodes elements mats sol = Ok (E, S) /\ (i < N)%nat /\ In e elements /\ touches e i /\
  nth i E None <> Some [a1; b2; a2 + b1].
Proof.
  destruct tri_runs3 as [E [S HR]].
  exists 3%nat, tri_nodes, [tri_elem], [[1; 0]], tri_sol, E, S, 0, 1, 0, 0, 0, 0, 1%nat, tri_elem.
  assert (HT : touches tri_elem 1) by (exists 1%nat; split; [cbn; lia|reflexivity]).
  split; [exact tri_mesh|]. split; [reflexivity|]. split; [reflexivity|]. split; [exact tri_affine|]. split; [exact HR|]. split; [lia|].
  split; [cbn; tauto|]. split; [exact HT|].
  rewrite (tri3_strain 3 tri_nodes [tri_elem] [[1; 0]] tri_sol E S 0 1 0 0 0 0 tri_mesh eq_refl eq_refl tri_affine HR 1%nat tri_elem ltac:(lia) ltac:(cbn; tauto) HT).
  assert (F : firsts [tri_elem] 1 = 0) by (unfold firsts, lsum; cbn [fold_right]; change (e_node tri_elem 0 =? 1)%nat with false; cbv iota; ring).
  rewrite F. cbn [map]. intros K. injection K as K _ _. lra.
Qed.
