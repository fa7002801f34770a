(** * Lemmas: a symmetric plate whose recovered strains are not symmetric *)
From Coq Require Import Reals List Arith Lia Lra Bool ZArith QArith Qreals Permutation.
From Verif Require Import Num LinAlg Gauss Fem Uel Assem Post Main Spec LinR Base SpecAssem SpecModel SpecElem SpecPost SpecStatic SpecFrame SpecOrder SpecDriver SpecPre SpecRun SpecReport SpecSquare
  ElemCore ElemShape ShapeProofs Sampled Elem2 Elem2Props Elem2Mass ElemFinal2 ModelProofs PostMore PostFinal OrderProofs OrderProofs2 FrameProofs StrainFrame PatchProofs2 ExModel ExModel2 ExPatch SquareProofs DriverProofs
  PlotFields RunProofs SpecSymm SymmProofs SymmFinal SymmCase SymmPost.
Import ListNotations.
Local Open Scope R_scope.

(** the upper corners pulled apart by one, all other nodes at rest: the loads that do this *)
Definition apart (i d : nat) : R := match i, d with 2%nat, 0%nat => 1 | 3%nat, 0%nat => -1 | _, _ => 0 end.
Definition pl0 : model := plate 1 1 1 (3/10) 1.
Definition apart_force (i d : nat) : R := internal_force (md_mats pl0) (md_nodes pl0) (md_elements pl0) apart i d.
Definition apart_plate : model :=
  with_loads pl0 (map (fun z => [IZR z; apart_force (Z.to_nat z) 0; apart_force (Z.to_nat z) 1]) [0; 1; 2; 3; 4; 5; 6; 7; 8]%Z).

Lemma apart_wf : wf_model apart_plate.
Proof.
  destruct (pl_wf 1 1 1 (3/10) 1) as (H1 & H2 & H3 & _). split; [exact H1|]. split; [exact H2|]. split; [exact H3|].
  cbn [md_loads apart_plate with_loads]. apply Forall_forall. intros r Hr. apply in_map_iff in Hr. destruct Hr as (z & <- & Hz).
  split; [cbn; lia|]. exists (Z.to_nat z). assert (0 <= z < 9)%Z by (cbn in Hz; lia). split; [cbn; lia|].
  cbn [nth]. rewrite INR_IZR_INZ, Z2Nat.id by lia. reflexivity.
Qed.
Lemma apart_applied i d : (i < 9)%nat -> (d < 2)%nat -> applied (md_loads apart_plate) i d = apart_force i d.
Proof.
  intros Hi Hd. unfold applied. cbn [md_loads apart_plate with_loads map fold_left nth]. 
  assert (D : forall z (a b : R), (0 <= z)%Z -> (if Req_EM_T (IZR z) (INR i) then a else b) = if (z =? Z.of_nat i)%Z then a else b).
  { intros z a b Hz. rewrite INR_IZR_INZ. destruct (Req_EM_T (IZR z) (IZR (Z.of_nat i))) as [F|F]; destruct (Z.eqb_spec z (Z.of_nat i)) as [G|G]; try reflexivity.
    - apply eq_IZR in F. contradiction.
    - subst z. contradiction. }
  rewrite !D by lia. lt9 i Hi; lt2 d Hd; reflexivity.
Qed.
Lemma apart_rows : node_rows_ok apart_plate.
Proof. exact (swayed_rows 0). Qed.
Lemma apart_types : continuum_or_truss apart_plate.
Proof. exact (swayed_types 0). Qed.
Lemma apart_stable : stable apart_plate.
Proof. exact (swayed_stable 0). Qed.
Lemma apart_symmetry : symmetry (-1) 1 (2 * 1) 0 mirror9 apart_plate.
Proof. apply plate_mirror. Qed.
Lemma apart_follows : follows (-1) 1 1 mirror9 9 (applied (md_loads apart_plate)).
Proof.
  assert (Hok : forall e, In e (md_elements apart_plate) -> exists k m, retriever e (md_mats apart_plate) (md_nodes apart_plate) None = Ok (k, m)).
  { intros e He. assert (G : exists K M, retriever e [[1; 3/10]] (md_nodes pl0) None = Ok (K, M2 M)) by (apply (pl_ret 1 1 1 (3/10) 1); first [exact He|lra]).
    destruct G as (K & M & H). exists K, (M2 M). exact H. }
  pose proof (image_force _ _ _ _ _ _ apart_symmetry apart_wf apart_rows apart_types Hok 1 apart) as HF.
  intros i d Hi Hd. assert (Hm : (mirror9 i < 9)%nat) by (lt9 i Hi; cbn; lia). assert (Hmm : mirror9 (mirror9 i) = i) by (lt9 i Hi; reflexivity).
  rewrite !apart_applied by assumption. specialize (HF (mirror9 i) d Hm Hd). rewrite Hmm in HF.
  unfold apart_force. etransitivity; [|exact HF]. apply (internal_ext apart_plate); [exact apart_wf|].
  intros a b Ha Hb. cbn in Ha. lt9 a Ha; lt2 b Hb; cbn; ring.
Qed.
Lemma apart_equilibrium : in_equilibrium apart_plate apart.
Proof.
  intros i d Hi Hd. split; intros C.
  - cbn in Hi. lt9 i Hi; lt2 d Hd; cbn in C; try lra; reflexivity.
  - rewrite apart_applied by assumption. reflexivity.
Qed.
Lemma apart_runs sv plot : solver_ok sv -> solver_total sv -> exists out, auto sv apart_plate plot true = Ok out.
Proof.
  intros Hsv Htot.
  destruct (model_runs_full sv apart_plate plot true apart_wf) as [out Hout]; eauto.
  - apply (pl_accepted 1 1 1 (3/10) 1); lra.
  - apply apart_stable.
  - exact (pl_free 1 1 1 (3/10) 1).
  - intros _. apply (pl_recoverable 1 1 1 (3/10) 1); lra.
  - intros _. exact (pl_plottable 1 1 1 (3/10) 1).
Qed.

Ltac pos_nats := repeat match goal with |- context [Pos.to_nat ?p] => let v := eval vm_compute in (Pos.to_nat p) in change (Pos.to_nat p) with v end; cbn [Nat.eqb].
Lemma apart_strains sv plot out : solver_ok sv -> auto sv apart_plate plot true = Ok out ->
  exists Es Ss, out_strains out = Some (Es, Ss) /\ 1/5 < ent Es 2 0 < 1/4 /\ 3/4 < ent Es 3 0 < 4/5.
Proof.
  intros Hsv Hrun. pose proof (run_equilibrium _ _ _ _ _ apart_wf Hsv Hrun) as Heq.
  pose proof (stable_unique _ _ _ apart_stable apart_wf Heq apart_equilibrium) as HU.
  destruct (run_strains sv _ plot out Hrun) as (Es & Ss & HO & HS). exists Es, Ss. split; [exact HO|].
  apply strain_nodes_rows in HS. destruct (disp_shape _ _ _ _ _ Hrun) as [LD _].
  destruct (nodal_average 1 4 shape_quad4 (gauss_nd 2 2) _ _ 9 (md_nodes apart_plate) (md_elements apart_plate) (md_mats apart_plate) (out_disp out) _ _ (or_introl eq_refl) eq_refl (pl_mesh 1 1 1 (3/10) 1) eq_refl LD HS) as (eps & E1 & _ & E3).
  assert (HU' : forall i d, (i < 9)%nat -> (d < 2)%nat -> ent (out_disp out) i d = apart i d) by exact HU. clear HU Heq HS Hrun HO LD.
  assert (GQ : exists b, 1/2 < b < 3/5 /\ match @gauss_nd R Num_R 2 2 with Ok r => fst r | Err _ => [] end = [[- b; - b]; [- b; b]; [b; - b]; [b; b]]).
  { exists (Q2R 0.577350269189625764). split; [q2r; lra|]. cbn. q2r. repeat (apply f_equal2; [repeat (apply f_equal2; [lra|]); reflexivity|]). reflexivity. }
  destruct GQ as (b & Hb & GQ).
  assert (HE : forall e k, In e (md_elements apart_plate) -> (k < 4)%nat -> eps e k 0%nat =
    strain2 4 (snd (shape_quad4 (nth 0 (nth k [[- b; - b]; [- b; b]; [b; - b]; [b; b]] []) 0) (nth 1 (nth k [[- b; - b]; [- b; b]; [b; - b]; [b; b]] []) 0)))
      (e_coords (md_nodes apart_plate) e) (e_field (out_disp out) e) 0).
  { intros e k He Hk. rewrite <- GQ. pose proof (E1 e k He Hk) as A. apply (strain_at_strain2 pl_quad4) in A; [|cbn; tauto]. apply A. lia. }
  assert (G2 : eps [3; 1; 0; 8; 5; 2; 6]%Z 2%nat 0%nat = (1 - b) / 2).
  { rewrite HE by (cbn; auto; lia).
    rewrite (strain2_ext 4 _ _ _ (fun j => nth j [0; 0; 0; 0; 1; 0; 0; 0] 0)).
    2:{ intros j Hj. do 8 (destruct j as [|j]; [unfold e_field, field2; cbn [Nat.even Nat.div2]; rewrite HU' by (vm_compute; lia); reflexivity|]). lia. }
    change (e_coords (md_nodes apart_plate) [3; 1; 0; 8; 5; 2; 6]%Z) with [[1; 1]; [2 * 1; 1]; [2 * 1; 2 * 1]; [1; 2 * 1]].
    cbn [nth]. unfold strain2, ElemCore.grad2, Jac, J2det. cbn [rsum Nat.mul Nat.add nth]. shp. unfold ent. cbn [nth]. field. lra. }
  assert (G3 : eps [2; 1; 0; 7; 8; 6; 3]%Z 3%nat 0%nat = (1 + b) / 2).
  { rewrite HE by (cbn; auto; lia).
    rewrite (strain2_ext 4 _ _ _ (fun j => nth j [0; 0; 0; 0; 0; 0; -1; 0] 0)).
    2:{ intros j Hj. do 8 (destruct j as [|j]; [unfold e_field, field2; cbn [Nat.even Nat.div2]; rewrite HU' by (vm_compute; lia); reflexivity|]). lia. }
    change (e_coords (md_nodes apart_plate) [2; 1; 0; 7; 8; 6; 3]%Z) with [[0; 1]; [1; 1]; [1; 2 * 1]; [0; 2 * 1]].
    cbn [nth]. unfold strain2, ElemCore.grad2, Jac, J2det. cbn [rsum Nat.mul Nat.add nth]. shp. unfold ent. cbn [nth]. field. lra. }
  assert (GA : forall i v, (i < 9)%nat -> occurs (md_elements apart_plate) i = 1 -> gathered (md_elements apart_plate) i (fun e k => eps e k 0%nat) = v -> ent Es i 0 = v).
  { intros i v Hi Hoc Hg. destruct (E3 i Hi) as [_ X]. destruct (X ltac:(lra)) as (er & sr & P1 & _ & _ & _ & P5). pose proof (proj1 (P5 0%nat ltac:(lia))) as P. rewrite Hoc, Hg in P.
    unfold ent. replace (nth i Es []) with er; [lra|]. clear - P1. revert i P1. induction Es as [|r Es IH]; intros [|i] P1; cbn in P1 |- *; try discriminate; [injection P1; auto|apply IH; exact P1]. }
  rewrite (GA 2%nat ((1 - b) / 2)), (GA 3%nat ((1 + b) / 2)); try lia; try lra.
  - unfold occurs, gathered, lsum. cbn. pos_nats. ring.
  - unfold gathered, lsum. cbn. pos_nats. rewrite G3. ring.
  - unfold occurs, gathered, lsum. cbn. pos_nats. ring.
  - unfold gathered, lsum. cbn. pos_nats. rewrite G2. ring.
Qed.

Lemma some_row {A} (l : list (list A)) i r : nth i (map Some l) None = Some r -> nth i l [] = r.
Proof. revert i. induction l as [|x l IH]; intros [|i] H; cbn in H |- *; try discriminate; [injection H; auto|apply IH; exact H]. Qed.
Lemma some_none {A} (l : list (list A)) i : nth i (map Some l) None = None -> (length l <= i)%nat.
Proof. revert i. induction l as [|x l IH]; intros [|i] H; cbn in H |- *; try discriminate; try lia. apply IH in H. lia. Qed.

Lemma symmetric_strains sx sy tx ty s c md t n sv plot out : wf_model md -> node_rows_ok md -> continuum_or_truss md -> stable md -> solver_ok sv ->
  symmetry sx sy tx ty s md -> c = 1 \/ c = -1 -> follows sx sy c s (length (md_nodes md)) (applied (md_loads md)) ->
  In (t, n) [(1%Z, 4%nat); (2%Z, 6%nat); (3%Z, 3%nat)] -> mesh_of t n (length (md_nodes md)) (md_elements md) -> listed_alike sx sy s md ->
  auto sv md plot true = Ok out ->
  exists Es Ss, out_strains out = Some (Es, Ss) /\ forall i, (i < length (md_nodes md))%nat ->
    ent Es (s i) 0 = c * ent Es i 0 /\ ent Es (s i) 1 = c * ent Es i 1 /\ ent Es (s i) 2 = c * (sx * sy) * ent Es i 2 /\
    ent Ss (s i) 0 = c * ent Ss i 0 /\ ent Ss (s i) 1 = c * ent Ss i 1 /\ ent Ss (s i) 2 = c * (sx * sy) * ent Ss i 2.
Proof.
  intros Hwf Hrows Hty Hst Hsv HY Hc HL Htn Hm HA Hrun.
  destruct (symmetric_run _ _ _ _ _ _ _ _ _ _ _ Hwf Hrows Hty Hst Hsv HY Hc HL Hrun) as [HT _].
  destruct (run_strains sv _ plot out Hrun) as (Es & Ss & HO & HS). exists Es, Ss. split; [exact HO|].
  apply strain_nodes_rows in HS. destruct (disp_shape _ _ _ _ _ Hrun) as [LD _].
  destruct (strain_rows_lengths t n (length (md_nodes md)) _ _ _ _ _ _ Htn eq_refl LD Hm HS) as [L1 L2]. rewrite map_length in L1, L2.
  destruct (rows_image sx sy tx ty c s md HY t n (out_disp out) Htn Hm HA LD HT _ _ HS) as [R1 R2].
  intros i Hi. unfold ent.
  destruct (R1 i Hi) as [[X _]|(r & r' & X1 & X2 & X3 & X4 & X5)]; [apply some_none in X; lia|]. apply some_row in X1, X2. rewrite X1, X2.
  destruct (R2 i Hi) as [[Y _]|(q & q' & Y1 & Y2 & Y3 & Y4 & Y5)]; [apply some_none in Y; lia|]. apply some_row in Y1, Y2. rewrite Y1, Y2.
  repeat (split; [assumption|]). assumption.
Qed.

Lemma symmetric_rows sx sy tx ty s c md t n sol E S : symmetry sx sy tx ty s md ->
  In (t, n) [(1%Z, 4%nat); (2%Z, 6%nat); (3%Z, 3%nat)] -> mesh_of t n (length (md_nodes md)) (md_elements md) -> listed_alike sx sy s md ->
  length sol = length (md_nodes md) -> follows sx sy c s (length (md_nodes md)) (ent sol) ->
  strain_rows (md_nodes md) (md_elements md) (md_mats md) sol = Ok (E, S) ->
  rows_mirrored sx sy c s (length (md_nodes md)) E /\ rows_mirrored sx sy c s (length (md_nodes md)) S.
Proof. intros HY Htn Hm HA LD HT HS. exact (rows_image sx sy tx ty c s md HY t n sol Htn Hm HA LD HT E S HS). Qed.

Lemma strains_refuted : exists sx sy tx ty s c md, wf_model md /\ node_rows_ok md /\ continuum_or_truss md /\ stable md /\
  symmetry sx sy tx ty s md /\ c = 1 /\ follows sx sy c s (length (md_nodes md)) (applied (md_loads md)) /\ mesh_of 1 4 (length (md_nodes md)) (md_elements md) /\
  (forall sv plot, solver_ok sv -> solver_total sv -> exists out, auto sv md plot true = Ok out) /\
  forall sv plot out, solver_ok sv -> auto sv md plot true = Ok out ->
    exists Es Ss i, out_strains out = Some (Es, Ss) /\ (i < length (md_nodes md))%nat /\ ent Es (s i) 0 <> c * ent Es i 0.
Proof.
  exists (-1), 1, (2 * 1), 0, mirror9, 1, apart_plate. split; [exact apart_wf|]. split; [exact apart_rows|]. split; [exact apart_types|]. split; [exact apart_stable|].
  split; [exact apart_symmetry|]. split; [reflexivity|]. split; [exact apart_follows|]. split; [exact (pl_mesh 1 1 1 (3/10) 1)|]. split; [exact apart_runs|].
  intros sv plot out Hsv Hrun. destruct (apart_strains sv plot out Hsv Hrun) as (Es & Ss & HO & H2 & H3). exists Es, Ss, 2%nat. split; [exact HO|]. split; [cbn; lia|].
  change (mirror9 2) with 3%nat. lra.
Qed.

Lemma tri6_strains sx sy tx ty s c md sv plot out : wf_model md -> node_rows_ok md -> continuum_or_truss md -> stable md -> solver_ok sv ->
  symmetry sx sy tx ty s md -> c = 1 \/ c = -1 -> follows sx sy c s (length (md_nodes md)) (applied (md_loads md)) ->
  mesh_of 2 6 (length (md_nodes md)) (md_elements md) -> auto sv md plot true = Ok out ->
  exists Es Ss, out_strains out = Some (Es, Ss) /\ forall i, (i < length (md_nodes md))%nat ->
    ent Es (s i) 0 = c * ent Es i 0 /\ ent Es (s i) 1 = c * ent Es i 1 /\ ent Es (s i) 2 = c * (sx * sy) * ent Es i 2 /\
    ent Ss (s i) 0 = c * ent Ss i 0 /\ ent Ss (s i) 1 = c * ent Ss i 1 /\ ent Ss (s i) 2 = c * (sx * sy) * ent Ss i 2.
Proof.
  intros Hwf Hrows Hty Hst Hsv HY Hc HL Hm Hrun.
  refine (symmetric_strains sx sy tx ty s c md 2 6 sv plot out Hwf Hrows Hty Hst Hsv HY Hc HL _ Hm (tri6_alike _ _ _ _ _ _ HY Hm) Hrun). cbn. tauto.
Qed.
