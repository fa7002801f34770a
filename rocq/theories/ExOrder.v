(** * Cases for the order of the nodes of an element *)
From Coq Require Import Reals List Arith Lia Lra Bool ZArith Relations.
From Verif Require Import Num LinAlg Gauss Fem Uel Assem Post Main Script Spec LinR Base SpecAssem SpecModel SpecElem SpecPost SpecShape SpecStatic SpecScript SpecMass SpecOrder
  ShapeProofs ElemCore Elem2 Elem2Props PostProofs PostTotal BeamFrame ScriptFinal MassPos2 SolidProofs OrderProofs OrderProofs2 OrderProofs3 OrderProofs4
  ExModel ExModes ExTruss ExScript ExSolid.
Import ListNotations.
Local Open Scope R_scope.

(** ** nodal strains *)
Definition sq4_next : list Z := [0; 1; 0; 1; 2; 3; 0]%Z.
Lemma sq4_next_coords : e_coords sq4_nodes sq4_next = [[1; -1]; [1; 1]; [-1; 1]; [-1; -1]].
Proof. reflexivity. Qed.
Lemma sq4_next_diff r s : exists Hm B, elast_diff_2d r s [[1; -1]; [1; 1]; [-1; 1]; [-1; -1]] shape_quad4 = Ok (Hm, B, 1).
Proof.
  assert (E : J2det (Jac 4 (snd (shape_quad4 r s)) [[1; -1]; [1; 1]; [-1; 1]; [-1; -1]]) = 1)
    by (unfold J2det, Jac, ent; shp; cbn [rsum nth]; field).
  destruct (diff2_total 4 shape_quad4 [[1; -1]; [1; 1]; [-1; 1]; [-1; -1]] r s (good2_all pl_quad4 ltac:(cbn; tauto)) eq_refl eq_refl) as [Hm [B HB]];
    [apply (Rlt_le_trans _ 1); [lra|]; apply Req_le; symmetry; exact E|]. exists Hm, B. etransitivity; [exact HB|]. f_equal. f_equal. exact E.
Qed.
Lemma sq4_next_strain r s Hm B det : elast_diff_2d r s [[1; -1]; [1; 1]; [-1; 1]; [-1; -1]] shape_quad4 = Ok (Hm, B, det) ->
  act 8 B (e_field [[1; 0]; [-1; 0]; [1; 0]; [-1; 0]] sq4_next) 0 = r.
Proof.
  intros H. apply (diff2_inv 4) in H; [|exact (good2_all pl_quad4 ltac:(cbn; tauto))]. cbv zeta in H.
  destruct H as [_ [_ [_ [_ [HB _]]]]]. rewrite (HB (e_field _ _)).
  assert (J : forall a b, (a < 2)%nat -> (b < 2)%nat -> Jac 4 (snd (shape_quad4 r s)) [[1; -1]; [1; 1]; [-1; 1]; [-1; -1]] a b =
     if (a =? b)%nat then 0 else if (a =? 0)%nat then 1 else -1).
  { intros a b Ha Hb. destruct a as [|[|]]; try lia; destruct b as [|[|]]; try lia; unfold Jac, ent; shp; cbn [rsum nth Nat.eqb]; field. }
  unfold grad2, J2det. cbn [rsum]. rewrite !J by lia. cbn [Nat.eqb].
  unfold e_field, field2, e_node, sq4_next. cbn [Nat.even Nat.div2 Nat.mul Nat.add nth].
  change (Z.to_nat 0) with 0%nat. change (Z.to_nat 1) with 1%nat. change (Z.to_nat 2) with 2%nat. change (Z.to_nat 3) with 3%nat.
  unfold ent. shp. cbn [nth]. field.
Qed.
Lemma order_strains_refuted : exists N nodes e mats sol E S E' S' i er er',
  mesh_of 1 4 N [e] /\ NoDup (skipn 3 e) /\ length nodes = N /\ length sol = N /\
  strain_rows nodes [e] mats sol = Ok (E, S) /\ strain_rows nodes [firstn 3 e ++ pick 0%Z [1; 2; 3; 0]%nat (skipn 3 e)] mats sol = Ok (E', S') /\
  nth i E None = Some er /\ nth i E' None = Some er' /\ nth 0 er 0 <> nth 0 er' 0.
Proof.
  assert (H1 : exists a b w, @gauss_1d R Num_R 2 = Ok ([a; b], w)) by (do 3 eexists; reflexivity).
  destruct H1 as [a [b [w H1]]]. destruct (nd22 a b w H1) as [Hab [wts Hnd]].
  assert (HM : mesh_of 1 4 4 [sq4_elem]).
  { constructor; [|constructor]. split; [reflexivity|]. split; [reflexivity|]. split; [cbn; lia|]. cbn [skipn sq4_elem]. repeat constructor; lia. }
  assert (HM' : mesh_of 1 4 4 [sq4_next]).
  { constructor; [|constructor]. split; [reflexivity|]. split; [reflexivity|]. split; [cbn; lia|]. cbn [skipn sq4_next]. repeat constructor; lia. }
  assert (HN : NoDup (skipn 3 sq4_elem)) by (cbn; repeat constructor; cbn; intuition lia).
  assert (HN' : NoDup (skipn 3 sq4_next)) by (cbn; repeat constructor; cbn; intuition lia).
  set (sol := [[1; 0]; [-1; 0]; [1; 0]; [-1; 0]]).
  assert (R1 : exists E S, strain_rows sq4_nodes [sq4_elem] [[1; 0]] sol = Ok (E, S)).
  { destruct (strain_rows_runs 1 4 shape_quad4 (gauss_nd 2 2) [[a; a]; [a; b]; [b; a]; [b; b]] wts 4 sq4_nodes [sq4_elem] [[1; 0]] sol) as [E [S [HR _]]]; auto; try (cbn; tauto); try discriminate;
      [repeat constructor|repeat constructor| |eauto].
    constructor; [|constructor]. unfold elem_runs. split; [cbn; lia|]. split; [reflexivity|]. unfold e_nu, ent. cbn [nth sq4_elem Z.to_nat].
    split; [lra|]. split; [lra|]. rewrite sq4_coords.
    repeat constructor; cbn [nth]; match goal with |- exists X, elast_diff_2d ?r ?s _ _ = _ => destruct (sq4_diff r s) as [Hm [B HB]]; eexists; exact HB end. }
  assert (R2 : exists E S, strain_rows sq4_nodes [sq4_next] [[1; 0]] sol = Ok (E, S)).
  { clear HM HN R1. destruct (strain_rows_runs 1 4 shape_quad4 (gauss_nd 2 2) [[a; a]; [a; b]; [b; a]; [b; b]] wts 4 sq4_nodes [sq4_next] [[1; 0]] sol) as [E [S [HR _]]]; auto; try (cbn; tauto); try discriminate;
      [repeat constructor|repeat constructor| |eauto].
    constructor; [|constructor]. unfold elem_runs. split; [cbn; lia|]. split; [reflexivity|]. unfold e_nu, ent. cbn [nth sq4_next Z.to_nat].
    split; [lra|]. split; [lra|]. rewrite sq4_next_coords.
    repeat constructor; cbn [nth]; match goal with |- exists X, elast_diff_2d ?r ?s _ _ = _ => destruct (sq4_next_diff r s) as [Hm [B HB]]; eexists; exact HB end. }
  destruct R1 as (E & S & R1). destruct R2 as (E' & S' & R2).
  destruct (single_quad 4 sq4_nodes sq4_elem [[1; 0]] sol E S a b w HM HN eq_refl eq_refl H1 R1) as [_ HK].
  destruct (single_quad 4 sq4_nodes sq4_next [[1; 0]] sol E' S' a b w HM' HN' eq_refl eq_refl H1 R2) as [_ HK'].
  destruct (HK 1%nat ltac:(lia)) as [er [E1 [Hm [B [det [HD HB]]]]]]. destruct (HK' 0%nat ltac:(lia)) as [er' [E1' [Hm' [B' [det' [HD' HB']]]]]]. cbn [nth] in HD, HD'.
  exists 4%nat, sq4_nodes, sq4_elem, [[1; 0]], sol, E, S, E', S', 1%nat, er, er'.
  split; [exact HM|]. split; [exact HN|]. split; [reflexivity|]. split; [reflexivity|]. split; [exact R1|]. split; [exact R2|]. split; [exact E1|]. split; [exact E1'|].
  rewrite (HB 0%nat), (HB' 0%nat) by lia. rewrite sq4_coords in *. rewrite sq4_next_coords in *. cbn [length Nat.mul Nat.add].
  pose proof (sq4_strain a b _ _ _ HD) as X1. pose proof (sq4_next_strain a a _ _ _ HD') as X2. fold sol in X1, X2. rewrite X1, X2. lra.
Qed.

(** ** meshes: the nine-node element from its third corner, bars and beams from their other ends, a brick and a tetrahedron *)
Definition hi_relisted : list (list Z) := [[0; 4; 0; 2; 3; 0; 1; 6; 7; 4; 5; 8]; [1; 2; 0; 1; 9; 2; 10; 11; 5]]%Z.
Lemma hi_relist : rectangular (md_nodes him) /\ Forall2 (relisted turns (plane_problem him)) (md_elements him) hi_relisted.
Proof.
  split; [exists 3%nat; repeat (constructor; [reflexivity|]); constructor|]. constructor; [|constructor; [apply rt_refl|constructor]].
  apply rt_trans with [0; 4; 0; 1; 2; 3; 0; 5; 6; 7; 4; 8]%Z; apply rt_step; exists elast_quad9, [1; 2; 3; 0; 5; 6; 7; 4; 8]%nat;
    (split; [exists 4%Z, 0%Z, [1; 1/4], elast_quad9; repeat (split; [reflexivity|]); split; [right; split; reflexivity|reflexivity]|]);
    (split; [cbn; tauto|split; reflexivity]).
Qed.
Definition br_relisted : list (list Z) := [[0; 6; 0; 1; 0]; [1; 6; 1; 2; 0]; [2; 6; 2; 2; 1]]%Z.
Lemma br_relist : rectangular (md_nodes brm) /\ Forall2 (relisted turns (plane_problem brm)) (md_elements brm) br_relisted.
Proof.
  split; [exists 3%nat; repeat (constructor; [reflexivity|]); constructor|].
  constructor; [|constructor; [apply rt_refl|constructor; [|constructor]]]; apply rt_step; exists truss2D, [1; 0]%nat.
  - split; [exists 6%Z, 0%Z, [10; 2], truss2D; repeat (split; [reflexivity|]); split; [right; split; reflexivity|reflexivity]|]. split; [cbn; tauto|split; reflexivity].
  - split; [exists 6%Z, 2%Z, [100; 5; 3], truss2D; repeat (split; [reflexivity|]); split; [right; split; reflexivity|reflexivity]|]. split; [cbn; tauto|split; reflexivity].
Qed.
Definition tf_relisted : list (list Z) := [[0; 8; 0; 1; 0]; [1; 8; 0; 1; 2]]%Z.
Lemma tf_relist : rectangular (p_nodes tf) /\ Forall2 (relisted turns tf) (p_elements tf) tf_relisted.
Proof.
  split; [exists 3%nat; repeat (constructor; [reflexivity|]); constructor|].
  constructor; [|constructor; [apply rt_refl|constructor]]. apply rt_step. exists (fun coord params => beam2D coord (firstn 4 params)), [1; 0]%nat.
  split; [exists 8%Z, 0%Z, [200000000000; 133 / 1000000; 4 / 100], beam2D; repeat (split; [reflexivity|]); split; [right; split; reflexivity|reflexivity]|].
  split; [cbn; tauto|split; reflexivity].
Qed.
Definition mx_relisted : list (list Z) := [[0; 9; 0; 3; 2; 6; 7; 0; 1; 5; 4]; [1; 10; 0; 5; 6; 4; 8]]%Z.
Lemma mx_relist : rectangular (p_nodes mx) /\ Forall2 (relisted (turns ++ simplex_turns) mx) (p_elements mx) mx_relisted.
Proof.
  split; [exists 4%nat; repeat (constructor; [reflexivity|]); constructor|].
  constructor; [|constructor; [|constructor]]; apply rt_step.
  - exists elast_hex8, [3; 2; 6; 7; 0; 1; 5; 4]%nat.
    split; [exists 9%Z, 0%Z, [1; 1 / 4; 2], by_nodes; repeat (split; [reflexivity|]); split; [left; reflexivity|]|split; [cbn; tauto|split; reflexivity]].
    intros coord Hc. change (e_n _) with 8%nat in Hc. unfold by_nodes. rewrite Hc. reflexivity.
  - exists elast_tet4, [1; 2; 0; 3]%nat.
    split; [exists 10%Z, 0%Z, [1; 1 / 4; 2], by_nodes; repeat (split; [reflexivity|]); split; [left; reflexivity|]|split; [cbn; tauto|split; reflexivity]].
    intros coord Hc. change (e_n _) with 4%nat in Hc. unfold by_nodes. rewrite Hc. reflexivity.
Qed.

(** ** as stated *)
Lemma element_turn f d s : In (f, d, s) (turns ++ simplex_turns) -> forall coord params K M, length coord = length s -> rectangular coord -> f coord params = Ok (K, M2 M) ->
  exists K' M', f (pick [] s coord) params = Ok (K', M2 M') /\ permuted d s K K' /\ (In (f, d, s) turns -> permuted d s M M').
Proof.
  intros Hin coord params K M Hc Hr Hf. destruct (turns_keep f d s coord params K M Hin Hc Hr Hf) as (K' & M' & H1 & H2 & H3).
  destruct (turns_order f d s Hin) as [HO _]. exists K', M'. split; [exact H1|]. split.
  - exact (forms_permuted d (length s) s K K' HO H2).
  - intros Ht. exact (forms_permuted d (length s) s M M' HO (H3 Ht)).
Qed.
Lemma mesh_turn p els : wf_problem p -> rectangular (p_nodes p) -> Forall2 (relisted (turns ++ simplex_turns) p) (p_elements p) els ->
  wf_problem (with_elements p els) /\ (forall U V, p_energy (with_elements p els) U V = p_energy p U V) /\
  (forall U i d, p_dof p i d -> p_internal (with_elements p els) U i d = p_internal p U i d) /\
  (p_stable (with_elements p els) <-> p_stable p).
Proof.
  intros Hwf Hr HR. destruct (relisted_wf (turns ++ simplex_turns) p els (fun x H => H) Hwf Hr HR) as (H1 & H2 & _). split; [exact H1|]. split; [exact H2|]. split.
  - exact (relisted_internal (turns ++ simplex_turns) p els (fun x H => H) Hwf Hr HR).
  - exact (relisted_stable (turns ++ simplex_turns) p els (fun x H => H) Hwf Hr HR).
Qed.
Lemma runs_turn p els : wf_problem p -> rectangular (p_nodes p) -> Forall2 (relisted (turns ++ simplex_turns) p) (p_elements p) els ->
  forall sv sparse, p_script sv (with_elements p els) sparse = p_script sv p sparse.
Proof. intros Hwf Hr HR. exact (relisted_script (turns ++ simplex_turns) p els (fun x H => H) Hwf Hr HR). Qed.
Lemma turns_incl (x : uel_fun R * nat * list nat) : In x turns -> In x (turns ++ simplex_turns).
Proof. intros H. apply in_app_iff. left. exact H. Qed.
Lemma masses_turn p els : wf_problem p -> rectangular (p_nodes p) -> Forall2 (relisted turns p) (p_elements p) els ->
  (forall U V, p_kinetic (with_elements p els) U V = p_kinetic p U V) /\
  (forall sparse, p_matrices (with_elements p els) sparse = p_matrices p sparse) /\
  forall lam U, p_mode (with_elements p els) lam U <-> p_mode p lam U.
Proof.
  intros Hwf Hr HR. destruct (relisted_wf turns p els turns_incl Hwf Hr HR) as (_ & _ & H3). split; [exact (H3 (fun x H => H))|]. split.
  - intros sparse. exact (relisted_matrices turns p els turns_incl Hwf Hr HR sparse (fun x H => H)).
  - intros lam U. exact (relisted_mode turns p els turns_incl Hwf Hr HR lam U (fun x H => H)).
Qed.
Lemma auto_turn md els : wf_model md -> accepted md -> rectangular (md_nodes md) ->
  Forall2 (relisted (turns ++ simplex_turns) (plane_problem md)) (md_elements md) els ->
  let md' := mkModel (md_nodes md) (md_cons md) els (md_mats md) (md_loads md) in
  forall sv, auto sv md' false false = auto sv md false false /\
    forall plot strains plot' strains' out out', auto sv md plot strains = Ok out -> auto sv md' plot' strains' = Ok out' ->
      out_disp out' = out_disp out /\ out_neq out' = out_neq out /\ out_warn out' = out_warn out.
Proof. intros Hwf Hacc. exact (relisted_auto md els (plane_wf md Hwf Hacc)). Qed.
