(** * Meshes for the script that writes the input files *)
From Coq Require Import String QArith Qreals Reals List ZArith Arith Bool Lra Lia Relations.
From Verif Require Import Num LinAlg Gauss Fem Uel Assem Post Pre TextIO Template Main Spec SpecAssem SpecPre SpecText SpecElem SpecPost SpecModel SpecStatic SpecPatch SpecRun SpecTemplate
  LinR Base ElemCore AssemProofs PostProofs ModelProofs MeshProofs ConvexProofs ImportProofs TextProofs RunProofs TemplateProofs TemplateProofs2 TemplateProofs3 ExSolver.
Import ListNotations.
Local Open Scope R_scope.

(** ** a plate of two squares, four triangles *)
Definition plate_points : list (list R) := [[0; 0; 0]; [1; 0; 0]; [2; 0; 0]; [0; 1; 0]; [1; 1; 0]; [2; 1; 0]].
Definition plate_eles : list (list Z) := [[0; 1; 4]; [0; 4; 3]; [1; 2; 5]; [1; 5; 4]]%Z.
Definition plate_maters : list Z := [100; 100; 200; 200]%Z.
Definition plate_lines : list (list Z) := [[0; 3]; [2; 5]; [0; 1]; [1; 2]; [5; 4]; [4; 3]]%Z.
Definition plate_bounds : list Z := [300; 300; 400; 400; 500; 500]%Z.
Definition plate_cells : list (string * list (list Z)) := [("line", plate_lines); ("triangle", plate_eles)]%string.
Definition plate_data : list (string * list (string * list Z)) :=
  [("line", [("gmsh:physical", plate_bounds); ("gmsh:geometrical", [1; 1; 2; 2; 3; 3]%Z)]); ("triangle", [("gmsh:physical", plate_maters)])]%string.

Ltac key := match goal with
  | |- has_key ((?k, ?v) :: ?t) ?k _ => exists [], t; split; [reflexivity|intros []]
  | |- has_key (?a :: ?t) _ _ => exists [a]; eexists; split; [reflexivity|intros [K|[]]; discriminate K]
  end.
Ltac allz := repeat constructor; try (cbn; lia).

Lemma plate_mesh : template_mesh plate_points plate_cells plate_data plate_eles plate_maters plate_lines plate_bounds.
Proof.
  unfold plate_cells, plate_data. split; [allz|]. split; [key|]. split; [key|]. split; [eexists; split; [key|key]|]. split; [eexists; split; [key|key]|].
  split; [reflexivity|]. split; [reflexivity|]. split; allz.
Qed.
Lemma plate_loaded : loaded plate_lines plate_bounds [3; 4; 5]%nat.
Proof.
  split; [repeat constructor; cbn; intuition lia|]. intros i. unfold on_line. change (tagged plate_lines plate_bounds 500) with [[5; 4]; [4; 3]]%Z. split.
  - intros [<-|[<-|[<-|[]]]]; [exists [4; 3]%Z|exists [4; 3]%Z|exists [5; 4]%Z]; cbn; intuition lia.
  - intros (row & [<-|[<-|[]]] & H); cbn in H |- *; intuition lia.
Qed.
Lemma plate_load : exists i, on_line plate_lines plate_bounds 500 i.
Proof. exists 3%nat. apply plate_loaded. now left. Qed.
Lemma plate_sturdy : Forall (sturdy plate_points) plate_eles.
Proof.
  unfold plate_eles. repeat (apply Forall_cons; [|]); [| | | |apply Forall_nil]; unfold sturdy, ent; cbn [pow nth Z.to_nat]; change (Pos.to_nat 1) with 1%nat; change (Pos.to_nat 2) with 2%nat; change (Pos.to_nat 3) with 3%nat; change (Pos.to_nat 4) with 4%nat; change (Pos.to_nat 5) with 5%nat; cbn [nth plate_points];
    unfold Rabs; repeat destruct (Rcase_abs _); lra.
Qed.
Lemma plate_connected : mesh_connected plate_points plate_eles.
Proof.
  split.
  - set (R0 := fun a b : list Z => In b plate_eles /\ neighbours a b).
    assert (N : forall a b z1 z2, In a plate_eles -> In b plate_eles -> z1 <> z2 -> In z1 a -> In z2 a -> In z1 b -> In z2 b -> clos_refl_trans _ R0 a b).
    { intros a b z1 z2 _ Hb H0 H1 H2 H3 H4. apply rt_step. split; [exact Hb|]. exists z1, z2. auto. }
    assert (A : forall r, In r plate_eles -> clos_refl_trans _ R0 r [0; 1; 4]%Z /\ clos_refl_trans _ R0 [0; 1; 4]%Z r).
    { assert (I0 : In [0; 1; 4]%Z plate_eles) by (cbn; tauto). assert (I1 : In [0; 4; 3]%Z plate_eles) by (cbn; tauto).
      assert (I2 : In [1; 2; 5]%Z plate_eles) by (cbn; tauto). assert (I3 : In [1; 5; 4]%Z plate_eles) by (cbn; tauto).
      assert (A3 : clos_refl_trans _ R0 [1; 5; 4]%Z [0; 1; 4]%Z) by (apply (N _ _ 1 4)%Z; auto; cbn; tauto || lia).
      assert (B3 : clos_refl_trans _ R0 [0; 1; 4]%Z [1; 5; 4]%Z) by (apply (N _ _ 1 4)%Z; auto; cbn; tauto || lia).
      intros r [<-|[<-|[<-|[<-|[]]]]].
      - split; apply rt_refl.
      - split; apply (N _ _ 0 4)%Z; auto; cbn; tauto || lia.
      - split; [apply rt_trans with [1; 5; 4]%Z; [|exact A3]|apply rt_trans with [1; 5; 4]%Z; [exact B3|]]; apply (N _ _ 1 5)%Z; auto; cbn; tauto || lia.
      - split; assumption. }
    intros r r' Hr Hr'. apply rt_trans with [0; 1; 4]%Z; now apply A.
  - intros i Hi. cbn [length plate_points] in Hi. assert (E : (i = 0 \/ i = 1 \/ i = 2 \/ i = 3 \/ i = 4 \/ i = 5)%nat) by lia.
    destruct E as [->|[->|[->|[->|[->| ->]]]]]; [exists [0; 1; 4]%Z|exists [0; 1; 4]%Z|exists [1; 2; 5]%Z|exists [0; 4; 3]%Z|exists [0; 4; 3]%Z|exists [1; 2; 5]%Z]; cbn; tauto.
Qed.
Lemma plate_held : mesh_held plate_points plate_lines plate_bounds.
Proof.
  split.
  - exists 0%nat, 3%nat. split; [|split]; [exists [0; 3]%Z; cbn; tauto|exists [0; 3]%Z; cbn; tauto|unfold ent; cbn [pow nth plate_points]; lra].
  - exists 0%nat. exists [0; 1]%Z. cbn. tauto.
Qed.
Lemma plate_free : exists i, (i < length plate_points)%nat /\ (~ on_line plate_lines plate_bounds 300 i \/ ~ on_line plate_lines plate_bounds 400 i).
Proof.
  exists 4%nat. split; [cbn; lia|]. left. intros (row & H & Hi). change (tagged plate_lines plate_bounds 300) with [[0; 3]; [2; 5]]%Z in H.
  destruct H as [<-|[<-|[]]]; cbn in Hi; intuition lia.
Qed.

(** ** the loads of three nodes add up to -2.000001 *)
Lemma two_thirds : rounded_to 6 (-2 / 3) (-666667 / 1000000).
Proof.
  exists (-666667)%Z. split; [|cbn [pow]; lra]. cbn [pow]. unfold nearest_even. split; [unfold Rabs; destruct (Rcase_abs _); lra|].
  intros E. exfalso. revert E. unfold Rabs. destruct (Rcase_abs _); lra.
Qed.
Lemma loaded_length lines bounds a b : loaded lines bounds a -> loaded lines bounds b -> length a = length b.
Proof.
  intros [Na Ha] [Nb Hb]. apply Nat.le_antisymm; apply NoDup_incl_length; auto; intros i Hi; [apply Hb, Ha, Hi|apply Ha, Hb, Hi].
Qed.
Lemma plate_total ids md : loaded plate_lines plate_bounds ids -> template_model plate_points plate_eles plate_maters plate_lines plate_bounds ids md ->
  lsum (fun row => nth 2 row 0) (md_loads md) = -2000001 / 1000000.
Proof.
  intros HL HT. pose proof (loaded_length _ _ _ _ HL plate_loaded) as E. destruct HT as (_ & _ & _ & _ & _ & p & Hp & El).
  rewrite E in Hp. cbn [length INR] in Hp. rewrite (rounded_unique 6 (-2 / 3) p (-666667 / 1000000)) in El; [|replace (-2/3) with (-2 / (1 + 1 + 1)) by lra; exact Hp|exact two_thirds].
  rewrite El. destruct ids as [|a [|b [|c [|]]]]; try discriminate E. cbn [map]. unfold lsum. cbn [fold_right nth]. lra.
Qed.

(** ** a flat triangle: the written heights are 0 *)
Definition flat_points : list (list R) := [[0; 0; 0]; [10; 0; 0]; [10; 4 / 100000; 0]].
Definition flat_lines : list (list Z) := [[0; 1]; [1; 2]; [2; 0]]%Z.
Definition flat_bounds : list Z := [400; 300; 500]%Z.
Definition flat_cells : list (string * list (list Z)) := [("triangle", [[0; 1; 2]]%Z); ("line", flat_lines)]%string.
Definition flat_data : list (string * list (string * list Z)) :=
  [("triangle", [("gmsh:physical", [100]%Z)]); ("line", [("gmsh:physical", flat_bounds)])]%string.
Lemma flat_mesh : template_mesh flat_points flat_cells flat_data [[0; 1; 2]]%Z [100]%Z flat_lines flat_bounds.
Proof.
  unfold flat_cells, flat_data. split; [allz|]. split; [key|]. split; [key|]. split; [eexists; split; [key|key]|]. split; [eexists; split; [key|key]|].
  split; [reflexivity|]. split; [reflexivity|]. split; allz.
Qed.
Lemma flat_accepted : exists K M, elast_tri3 [[0; 0]; [10; 0]; [10; 4 / 100000]] [1; 3/10] = Ok (K, M).
Proof.
  apply (tri3_accepted _ 1 (3/10) [] 0); [reflexivity|reflexivity|lra|lia|].
  unfold turn, ent. cbn [nth Nat.add Nat.modulo Nat.divmod fst snd Nat.sub]. lra.
Qed.
Lemma flat_height : rounded_to 4 (4 / 100000) 0.
Proof.
  exists 0%Z. split; [|cbn [pow]; lra]. cbn [pow]. unfold nearest_even. split; [unfold Rabs; destruct (Rcase_abs _); lra|].
  intros E. exfalso. revert E. unfold Rabs. destruct (Rcase_abs _); lra.
Qed.
Lemma zero_rounded : rounded_to 4 0 0.
Proof. generalize (rounded_exact 4 0). replace (0 / 10 ^ 4) with 0 by (cbn [pow]; lra). auto. Qed.

Theorem flat_stops s fs sv gui prompt : set_order s -> solver_ok sv -> exists fs', template s fs flat_points flat_cells flat_data = Ok fs' /\
  forall plot strains out, solids_GUI sv fs' gui prompt plot strains (Some ""%string) <> Ok out.
Proof.
  intros Hs Hsv. assert (Hl : exists i, on_line flat_lines flat_bounds 500 i) by (exists 0%nat, [2; 0]%Z; cbn; tauto).
  destruct (script_read s fs _ _ _ _ _ _ _ Hs flat_mesh Hl) as (fs' & md & ids & E & Hsh & HL & HT).
  exists fs'. split; [exact E|]. intros plot strains out HO. rewrite (files_argument sv fs' gui prompt plot strains ""%string md Hsh) in HO.
  pose proof (run_retrieved _ _ _ _ _ (tm_wf _ _ _ _ _ _ _ _ _ flat_mesh HL HT) Hsv HO) as HR. rewrite Forall_forall in HR.
  pose proof HT as (Ln & _ & Hn & [Le Ee] & Em & _). specialize (Ee 0%nat ltac:(cbn; lia)). cbn [nth Z.of_nat Z.eqb Pos.eqb app] in Ee.
  destruct (md_elements md) as [|e es]; [discriminate|]. cbn [nth] in Ee. subst e.
  destruct (HR _ (or_introl eq_refl)) as (k & m & HK). rewrite Em in HK.
  destruct (Hn 0%nat ltac:(cbn; lia)) as (x0 & y0 & fx0 & fy0 & E0 & _ & _ & Y0 & _).
  destruct (Hn 1%nat ltac:(cbn; lia)) as (x1 & y1 & fx1 & fy1 & E1 & _ & _ & Y1 & _).
  destruct (Hn 2%nat ltac:(cbn; lia)) as (x2 & y2 & fx2 & fy2 & E2 & _ & _ & Y2 & _).
  unfold ent in Y0, Y1, Y2. cbn [nth flat_points] in Y0, Y1, Y2.
  apply (fun H => rounded_unique _ _ _ _ H zero_rounded) in Y0, Y1. apply (fun H => rounded_unique _ _ _ _ H flat_height) in Y2. subst.
  destruct (md_nodes md) as [|n0 [|n1 [|n2 [|]]]]; try discriminate Ln. cbn [nth] in E0, E1, E2. subst.
  assert (HK' : elast_tri3 [[x0; 0]; [x1; 0]; [x2; 0]] [1; 3/10] = Ok (k, m)) by exact HK.
  assert (HX : 1 / 100000000 < turn 3 [[x0; 0]; [x1; 0]; [x2; 0]] 0).
  { apply (tri3_accepted _ 1 (3/10) [] 0); [reflexivity|reflexivity|lra|lia|]. eauto. }
  unfold turn, ent in HX. cbn [nth Nat.add Nat.modulo Nat.divmod fst snd Nat.sub] in HX. lra.
Qed.
Lemma flat_refutes : exists points cells cell_data lines bounds a b c,
  template_mesh points cells cell_data [[0; 1; 2]]%Z [100]%Z lines bounds /\ points = [a ++ [0]; b ++ [0]; c ++ [0]] /\
  (exists K M, elast_tri3 [a; b; c] [1; 3/10] = Ok (K, M)) /\
  forall s fs sv gui prompt, set_order s -> solver_ok sv -> exists fs', template s fs points cells cell_data = Ok fs' /\
    forall plot strains out, solids_GUI sv fs' gui prompt plot strains (Some ""%string) <> Ok out.
Proof.
  exists flat_points, flat_cells, flat_data, flat_lines, flat_bounds, [0; 0], [10; 0], [10; 4 / 100000].
  split; [exact flat_mesh|]. split; [reflexivity|]. split; [exact flat_accepted|]. exact flat_stops.
Qed.
Lemma plate_model : exists md ids, template_model plate_points plate_eles plate_maters plate_lines plate_bounds ids md /\ ids <> [].
Proof.
  destruct (script_read uniq (fun _ => None) _ _ _ _ _ _ _ uniq_order plate_mesh plate_load) as (fs' & md & ids & _ & _ & HL & HT).
  exists md, ids. split; [exact HT|]. intros ->. pose proof (loaded_length _ _ _ _ HL plate_loaded). discriminate.
Qed.
