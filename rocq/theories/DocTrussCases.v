(** * The three worked examples of stress_truss *)
From Coq Require Import Reals List Arith Lia Lra Bool ZArith.
From Verif Require Import Num LinAlg Fem Uel Assem Post Main Script DocTruss Spec LinR Base SpecAssem SpecModel SpecElem SpecPost SpecStatic SpecTruss SpecScript
  SpecDocTruss PostProofs BarProofs PostMore TrussProofs ScriptProofs2 ScriptFinal ExModel ExSolver DocTrussProofs.
Import ListNotations.
Local Open Scope R_scope.

Ltac cb := cbv -[IZR Rdiv Rmult Rplus Rminus Rinv Ropp sqrt cos sin PI pow ent Rlt Rle].
Lemma s3 : sqrt 3 * sqrt 3 = 3. Proof. apply sqrt_sqrt. lra. Qed.
Lemma s2 : sqrt 2 * sqrt 2 = 2. Proof. apply sqrt_sqrt. lra. Qed.
Lemma s3p : 0 < sqrt 3. Proof. apply sqrt_lt_R0. lra. Qed.
Lemma s2p : 0 < sqrt 2. Proof. apply sqrt_lt_R0. lra. Qed.
Lemma cath : cathetus = sqrt 2 / 2.
Proof. unfold cathetus. rewrite cos_PI4. pose proof s2. pose proof s2p. apply (Rmult_eq_reg_r (sqrt 2)); [|lra]. replace (1 / sqrt 2 * sqrt 2) with 1 by (field; lra). lra. Qed.

(** the tables with the trigonometric numbers worked out *)
Definition n18 : list (list R) := [[0; 0; 0]; [1; -1; 0]; [2; - (sqrt 3 / 2); - (1 / 2)]; [3; - (1 / 2); - (sqrt 3 / 2)]].
Definition n19 : list (list R) := [[0; 0; 0]; [1; -1; -1]; [2; 0; -1]; [3; 1; -1]].
Definition n22 : list (list R) := [[0; 0; 0]; [1; -1; 0]; [2; - (sqrt 2 / 2); sqrt 2 / 2]; [3; 0; 1]; [4; sqrt 2 / 2; sqrt 2 / 2]; [5; 1; 0]].
Definition held3 : list (list R) := [[-1; -1]; [-1; -1]; [-1; -1]].
Lemma doc18_eq : doc18 = mkModel n18 ([0; -1] :: held3) three_bars doc_mats ex18_loads.
Proof. unfold doc18, doc_truss, ex18_nodes, n18. cbn [map firstn skipn]. rewrite cos_PI6, sin_PI6, cos_PI3, sin_PI3. reflexivity. Qed.
Lemma doc19_eq : doc19 = mkModel n19 ([0; 0] :: held3) three_bars doc_mats ex19_loads.
Proof. reflexivity. Qed.
Lemma doc22_eq : doc22 = mkModel n22 ([0; 0] :: [-1; -1] :: [-1; -1] :: held3) five_bars doc_mats [[0; sqrt 2 / 2; - (sqrt 2 / 2)]].
Proof. unfold doc22, doc_truss, ex22_nodes, ex22_loads, n22. cbn [map firstn skipn]. rewrite cath. reflexivity. Qed.

Lemma sqrt_of x l : 0 <= l -> x = l * l -> sqrt x = l.
Proof. intros Hl ->. apply sqrt_square. exact Hl. Qed.
Ltac len := unfold b_len, bar_len; apply sqrt_of; [pose proof s2p; pose proof s3p; lra|cbv -[IZR Rdiv Rmult Rplus Rminus Rinv Ropp sqrt]; pose proof s2; pose proof s3; lra].
Lemma len18 m : (m < 3)%nat -> b_len n18 (nth m three_bars []) = 1.
Proof. intros Hm. destruct m as [|[|[|]]]; [| | |lia]; len. Qed.
Lemma len19 m : (m < 3)%nat -> b_len n19 (nth m three_bars []) = match m with 1%nat => 1 | _ => sqrt 2 end.
Proof. intros Hm. destruct m as [|[|[|]]]; [| | |lia]; len. Qed.
Lemma len22 m : (m < 5)%nat -> b_len n22 (nth m five_bars []) = 1.
Proof. intros Hm. destruct m as [|[|[|[|[|]]]]]; [| | | | |lia]; len. Qed.

Ltac wf := split; [flags|split; [reflexivity|split; [cbn [md_elements]; unfold three_bars, five_bars; all_forall; cbn; lia|
  cbn [md_loads]; unfold ex18_loads, ex19_loads; all_forall; split; [cbn; lia|]; exists 0%nat; split; [cbn; lia|reflexivity]]]].
Lemma wf18 : wf_model doc18. Proof. rewrite doc18_eq. wf. Qed.
Lemma wf19 : wf_model doc19. Proof. rewrite doc19_eq. wf. Qed.
Lemma wf22 : wf_model doc22. Proof. rewrite doc22_eq. wf. Qed.
Ltac bar := match goal with |- truss_bar _ [?id; 6; 0; ?a; 0]%Z => exists id, 0%Z, a, 0%Z, 1, 1, []; repeat split; try lia; try lra;
   pose proof s2p; pose proof s3p; first [left; cbv -[IZR Rdiv Ropp sqrt]; lra|right; cbv -[IZR Rdiv Ropp sqrt]; lra] end.
Lemma truss18 : truss_model doc18.
Proof. rewrite doc18_eq. split; [cbn [md_nodes]; unfold n18; all_forall; reflexivity|]. cbn [md_elements]. unfold three_bars. all_forall; bar. Qed.
Lemma truss19 : truss_model doc19.
Proof. rewrite doc19_eq. split; [cbn [md_nodes]; unfold n19; all_forall; reflexivity|]. cbn [md_elements]. unfold three_bars. all_forall; bar. Qed.
Lemma truss22 : truss_model doc22.
Proof. rewrite doc22_eq. split; [cbn [md_nodes]; unfold n22; all_forall; reflexivity|]. cbn [md_elements]. unfold five_bars. all_forall; bar. Qed.

(** stretches and stresses of the bars when the supports do not move *)
Definition dir18 (m d : nat) : R := nth d (nth m [[1; 0]; [sqrt 3 / 2; 1 / 2]; [1 / 2; sqrt 3 / 2]] []) 0.
Definition dir19 (m d : nat) : R := nth d (nth m [[1 / sqrt 2; 1 / sqrt 2]; [0; 1]; [- (1 / sqrt 2); 1 / sqrt 2]] []) 0.
Definition dir22 (m d : nat) : R := nth d (nth m [[1; 0]; [sqrt 2 / 2; - (sqrt 2 / 2)]; [0; -1]; [- (sqrt 2 / 2); - (sqrt 2 / 2)]; [-1; 0]] []) 0.
Ltac dir := cbv -[IZR Rdiv Rmult Rplus Rminus Rinv Ropp sqrt]; pose proof s2p; field; lra.
Lemma bdir18 m d : (m < 3)%nat -> (d < 2)%nat -> b_dir n18 (nth m three_bars []) d = dir18 m d.
Proof. intros Hm Hd. unfold b_dir. rewrite len18 by exact Hm. destruct m as [|[|[|]]]; [| | |lia]; (destruct d as [|[|]]; [| |lia]); dir. Qed.
Lemma bdir19 m d : (m < 3)%nat -> (d < 2)%nat -> b_dir n19 (nth m three_bars []) d = dir19 m d.
Proof. intros Hm Hd. unfold b_dir. rewrite len19 by exact Hm. destruct m as [|[|[|]]]; [| | |lia]; (destruct d as [|[|]]; [| |lia]); dir. Qed.
Lemma bdir22 m d : (m < 5)%nat -> (d < 2)%nat -> b_dir n22 (nth m five_bars []) d = dir22 m d.
Proof. intros Hm Hd. unfold b_dir. rewrite len22 by exact Hm. destruct m as [|[|[|[|[|]]]]]; [| | | | |lia]; (destruct d as [|[|]]; [| |lia]); dir. Qed.

(** a star: every bar goes from a support to node 0 *)
Definition star (md : model) (n : nat) : Prop :=
  length (md_nodes md) = S n /\ length (md_elements md) = n /\ md_mats md = doc_mats /\
  (forall m, (m < n)%nat -> nth m (md_elements md) [] = [Z.of_nat m; 6; 0; Z.of_nat (S m); 0]%Z) /\
  (forall i d, (0 < i < S n)%nat -> (d < 2)%nat -> ent (md_cons md) i d = -1).
Lemma star_stretch md n U m : star md n -> admissible md U -> (m < n)%nat ->
  stretch (md_nodes md) U (nth m (md_elements md) []) =
  b_dir (md_nodes md) (nth m (md_elements md) []) 0 * U 0%nat 0%nat + b_dir (md_nodes md) (nth m (md_elements md) []) 1 * U 0%nat 1%nat.
Proof.
  intros (HL & HE & HMt & Hel & Hc) HU Hm. unfold stretch. assert (N0 : e_node (nth m (md_elements md) []) 0 = S m) by (rewrite Hel by exact Hm; unfold e_node; cbn [nth Nat.add]; lia).
  assert (N1 : e_node (nth m (md_elements md) []) 1 = 0%nat) by (rewrite Hel by exact Hm; reflexivity).
  rewrite N0, N1. rewrite (HU (S m) 0%nat), (HU (S m) 1%nat); try lia; try (apply Hc; lia). ring.
Qed.
Lemma star_joint md n N d : star md n -> joint md N 0 d = - rsum n (fun m => N m * b_dir (md_nodes md) (nth m (md_elements md) []) d).
Proof.
  intros (HL & HE & HMt & Hel & Hc). unfold joint. rewrite HE. replace (- rsum n _) with (-1 * rsum n (fun m => N m * b_dir (md_nodes md) (nth m (md_elements md) []) d)) by ring.
  rewrite <- rsum_scal. apply rsum_ext. intros m Hm. unfold pull.
  assert (N0 : e_node (nth m (md_elements md) []) 0 = S m) by (rewrite Hel by exact Hm; unfold e_node; cbn [nth Nat.add]; lia).
  assert (N1 : e_node (nth m (md_elements md) []) 1 = 0%nat) by (rewrite Hel by exact Hm; reflexivity).
  rewrite N0, N1. cbn [Nat.eqb]. ring.
Qed.
Lemma star_unit md n m : star md n -> (m < n)%nat -> b_young md (nth m (md_elements md) []) = 1 /\ b_area md (nth m (md_elements md) []) = 1.
Proof. intros (HL & HE & HMt & Hel & Hc) Hm. rewrite Hel by exact Hm. unfold b_young, b_area. rewrite HMt. split; reflexivity. Qed.

(** displacement of node 0, stresses and equilibrium, whatever the further columns *)
Lemma star_run sv md n N c U : star md n -> wf_model md -> truss_model md -> extends md N c -> solvers_ok sv -> truss_script sv md N = Ok U ->
  exists u v S, stress_truss N (md_elements md) (md_mats md) U = Ok S /\ length S = n /\
    (forall m, (m < n)%nat -> nth m S 0 = (b_dir (md_nodes md) (nth m (md_elements md) []) 0 * u + b_dir (md_nodes md) (nth m (md_elements md) []) 1 * v) / b_len (md_nodes md) (nth m (md_elements md) [])) /\
    (ent (md_cons md) 0 0 = -1 -> u = 0) /\ (ent (md_cons md) 0 1 = -1 -> v = 0) /\
    forall d, (d < 2)%nat -> ent (md_cons md) 0 d = 0 ->
      rsum n (fun m => nth m S 0 * soft md N c m * b_dir (md_nodes md) (nth m (md_elements md) []) d) = applied (md_loads md) 0 d.
Proof.
  intros Hst Hwf Ht Hx Hs HU. destruct (wide_run sv md N c U Hwf Ht Hx Hs HU) as (SU & HA & HB). pose proof Hst as (HL & HE & HMt & Hel & Hc).
  assert (HSm : forall m, (m < n)%nat -> bar_stress (md_nodes md) (md_mats md) U (nth m (md_elements md) []) = axial md (ent U) m).
  { intros m Hm. rewrite <- (stress_axial md U m Hwf Ht) by lia. rewrite (proj2 (star_unit md n m Hst Hm)). ring. }
  exists (ent U 0 0), (ent U 0 1), (map (bar_stress (md_nodes md) (md_mats md) U) (md_elements md)).
  split; [exact (wide_rows md N c U Hwf Ht Hx SU)|]. split; [now rewrite map_length|]. split; [|split; [|split]].
  - intros m Hm. rewrite (map_nth_def _ _ _ []) by lia. rewrite HSm by exact Hm. unfold axial. rewrite (star_stretch md n) by assumption.
    destruct (star_unit md n m Hst Hm) as [-> ->]. assert (HmE : (m < length (md_elements md))%nat) by lia. destruct (bar_facts md (nth m (md_elements md) []) Hwf Ht (nth_In _ _ HmE)) as (_ & _ & _ & _ & _ & HP & _). field. lra.
  - intros C. apply HA; [lia|lia|exact C].
  - intros C. apply HA; [lia|lia|exact C].
  - intros d Hd C. assert (HmN : (0 < length (md_nodes md))%nat) by lia. pose proof (HB 0%nat d (conj HmN (conj Hd C))) as HJ. rewrite (star_joint md n) in HJ by exact Hst.
    rewrite (rsum_ext n _ (fun m => axial md (ent U) m * soft md N c m * b_dir (md_nodes md) (nth m (md_elements md) []) d)); [lra|].
    intros m Hm. rewrite (map_nth_def _ _ _ []) by lia. rewrite HSm by exact Hm. reflexivity.
Qed.
Ltac star := split; [reflexivity|split; [reflexivity|split; [reflexivity|split; [|intros i d Hi Hd]]]].
Lemma star18 : star doc18 3.
Proof.
  rewrite doc18_eq. star.
  - intros m Hm. destruct m as [|[|[|]]]; [| | |lia]; reflexivity.
  - destruct i as [|[|[|[|]]]]; try lia; (destruct d as [|[|]]; [| |lia]); reflexivity.
Qed.
Lemma star19 : star doc19 3.
Proof.
  rewrite doc19_eq. star.
  - intros m Hm. destruct m as [|[|[|]]]; [| | |lia]; reflexivity.
  - destruct i as [|[|[|[|]]]]; try lia; (destruct d as [|[|]]; [| |lia]); reflexivity.
Qed.
Lemma star22 : star doc22 5.
Proof.
  rewrite doc22_eq. star.
  - intros m Hm. destruct m as [|[|[|[|[|]]]]]; [| | | | |lia]; reflexivity.
  - destruct i as [|[|[|[|[|[|]]]]]]; try lia; (destruct d as [|[|]]; [| |lia]); reflexivity.
Qed.
Lemma star_stable md n : star md n -> wf_model md -> truss_model md ->
  (forall u v, (ent (md_cons md) 0 0 = -1 -> u = 0) -> (ent (md_cons md) 0 1 = -1 -> v = 0) ->
     (forall m, (m < n)%nat -> b_dir (md_nodes md) (nth m (md_elements md) []) 0 * u + b_dir (md_nodes md) (nth m (md_elements md) []) 1 * v = 0) -> u = 0 /\ v = 0) -> stable md.
Proof.
  intros Hst Hwf Ht H0. apply (truss_stable md Hwf Ht). intros U HU HS i d Hi Hd. pose proof Hst as (HL & HE & HMt & Hel & Hc).
  destruct i as [|i]; [|apply HU; [exact Hi|exact Hd|apply Hc; lia]].
  destruct (H0 (U 0%nat 0%nat) (U 0%nat 1%nat)) as [A B].
  - intros C. apply HU; [exact Hi|lia|exact C].
  - intros C. apply HU; [exact Hi|lia|exact C].
  - intros m Hm. rewrite <- (star_stretch md n U m Hst HU Hm). apply HS. apply nth_In. lia.
  - destruct d as [|[|]]; [exact A|exact B|lia].
Qed.
Lemma stable18 : stable doc18.
Proof.
  apply (star_stable doc18 3 star18 wf18 truss18). rewrite doc18_eq. cbn [md_cons md_nodes md_elements]. intros u v _ Hv HS. specialize (Hv eq_refl). subst v. split; [|reflexivity].
  specialize (HS 0%nat ltac:(lia)). rewrite !bdir18 in HS by lia. cbn in HS. lra.
Qed.
Lemma stable19 : stable doc19.
Proof.
  apply (star_stable doc19 3 star19 wf19 truss19). rewrite doc19_eq. cbn [md_cons md_nodes md_elements]. intros u v _ _ HS.
  pose proof (HS 1%nat ltac:(lia)) as H1. pose proof (HS 0%nat ltac:(lia)) as H0. rewrite !bdir19 in H0, H1 by lia. cbn in H0, H1. assert (v = 0) by lra. subst v. split; [|reflexivity].
  pose proof s2p. apply (Rmult_eq_reg_l (1 / sqrt 2)); [lra|]. intros X. unfold Rdiv in X. pose proof (Rinv_0_lt_compat _ s2p). lra.
Qed.
Lemma stable22 : stable doc22.
Proof.
  apply (star_stable doc22 5 star22 wf22 truss22). rewrite doc22_eq. cbn [md_cons md_nodes md_elements]. intros u v _ _ HS.
  pose proof (HS 0%nat ltac:(lia)) as H1. pose proof (HS 2%nat ltac:(lia)) as H0. rewrite !bdir22 in H0, H1 by lia. cbn in H0, H1. lra.
Qed.

(** ** distances *)
Lemma ext_self md : truss_model md -> extends md (md_nodes md) 3.
Proof.
  intros [Hr _]. split; [lia|]. split; [exact Hr|]. rewrite Forall_forall in Hr. rewrite <- (map_id (md_nodes md)) at 1. apply map_ext_in. intros row Hrow.
  specialize (Hr row Hrow). rewrite firstn_all2; [reflexivity|lia].
Qed.
Lemma ext18 : extends doc18 ex18_nodes 5.
Proof. split; [lia|]. split; [unfold ex18_nodes; all_forall; reflexivity|reflexivity]. Qed.
Lemma ext19 : extends doc19 ex19_nodes 5.
Proof. split; [lia|]. split; [unfold ex19_nodes; all_forall; reflexivity|reflexivity]. Qed.
Lemma ext22 : extends doc22 ex22_nodes 5.
Proof. split; [lia|]. split; [unfold ex22_nodes; all_forall; reflexivity|reflexivity]. Qed.
Lemma soft_self md m : wf_model md -> truss_model md -> (m < length (md_elements md))%nat -> soft md (md_nodes md) 3 m = 1.
Proof. intros Hwf Ht Hm. apply (soft_one md (md_nodes md) 3 m Hwf Ht (ext_self md Ht) Hm). intros k Hk. lia. Qed.

Lemma trig18 : ex18_nodes = [[0; 0; 0; 0; -1]; [1; -1; 0; -1; -1]; [2; - (sqrt 3 / 2); - (1 / 2); -1; -1]; [3; - (1 / 2); - (sqrt 3 / 2); -1; -1]].
Proof. unfold ex18_nodes. rewrite cos_PI6, sin_PI6, cos_PI3, sin_PI3. reflexivity. Qed.
Lemma trig22 : ex22_nodes = [[0; 0; 0; 0; 0]; [1; -1; 0; -1; -1]; [2; - (sqrt 2 / 2); sqrt 2 / 2; -1; -1]; [3; 0; 1; -1; -1]; [4; sqrt 2 / 2; sqrt 2 / 2; -1; -1]; [5; 1; 0; -1; -1]].
Proof. unfold ex22_nodes. rewrite cath. reflexivity. Qed.
Ltac rch := unfold reach; apply sqrt_of; [pose proof s2p; pose proof s3p; lra|cbv -[IZR Rdiv Rmult Rplus Rminus Rinv Ropp sqrt]; pose proof s2; pose proof s3; lra].
Lemma reach18 m : (m < 3)%nat -> reach ex18_nodes 5 (nth m three_bars []) = sqrt 2.
Proof. intros Hm. rewrite trig18. destruct m as [|[|[|]]]; [| | |lia]; rch. Qed.
Lemma reach19 m : (m < 3)%nat -> reach ex19_nodes 5 (nth m three_bars []) = match m with 1%nat => sqrt 3 | _ => 2 end.
Proof. intros Hm. destruct m as [|[|[|]]]; [| | |lia]; rch. Qed.
Lemma reach22 m : (m < 5)%nat -> reach ex22_nodes 5 (nth m five_bars []) = sqrt 3.
Proof. intros Hm. rewrite trig22. destruct m as [|[|[|[|[|]]]]]; [| | | | |lia]; rch. Qed.
Lemma soft18 m : (m < 3)%nat -> soft doc18 ex18_nodes 5 m = 1 / (2 * sqrt 2).
Proof.
  intros Hm. unfold soft. cbv zeta. rewrite doc18_eq at 1 2. cbn [md_nodes md_elements]. rewrite len18 by exact Hm.
  replace (md_elements doc18) with three_bars by reflexivity. rewrite reach18 by exact Hm. pose proof s2. pose proof s2p.
  apply (Rmult_eq_reg_r (2 * sqrt 2)); [|lra]. replace (1 / (2 * sqrt 2) * (2 * sqrt 2)) with 1 by (field; lra).
  replace ((1 / sqrt 2) ^ 3 * (2 * sqrt 2)) with (2 / (sqrt 2 * sqrt 2)) by (field; lra). rewrite s2. lra.
Qed.
Lemma soft19 m : (m < 3)%nat -> soft doc19 ex19_nodes 5 m = match m with 1%nat => 1 / (3 * sqrt 3) | _ => sqrt 2 / 4 end.
Proof.
  intros Hm. unfold soft. cbv zeta. rewrite doc19_eq at 1 2. cbn [md_nodes md_elements]. rewrite len19 by exact Hm.
  replace (md_elements doc19) with three_bars by reflexivity. rewrite reach19 by exact Hm. pose proof s2. pose proof s2p. pose proof s3. pose proof s3p.
  assert (A : (sqrt 2 / 2) ^ 3 = sqrt 2 / 4) by (replace ((sqrt 2 / 2) ^ 3) with ((sqrt 2 * sqrt 2) * sqrt 2 / 8) by field; rewrite s2; field).
  destruct m as [|[|[|]]]; [exact A| |exact A|lia].
  apply (Rmult_eq_reg_r (3 * sqrt 3)); [|lra]. replace (1 / (3 * sqrt 3) * (3 * sqrt 3)) with 1 by (field; lra).
  replace ((1 / sqrt 3) ^ 3 * (3 * sqrt 3)) with (3 / (sqrt 3 * sqrt 3)) by (field; lra). rewrite s3. lra.
Qed.
Lemma soft22 m : (m < 5)%nat -> soft doc22 ex22_nodes 5 m = 1 / (3 * sqrt 3).
Proof.
  intros Hm. unfold soft. cbv zeta. rewrite doc22_eq at 1 2. cbn [md_nodes md_elements]. rewrite len22 by exact Hm.
  replace (md_elements doc22) with five_bars by reflexivity. rewrite reach22 by exact Hm. pose proof s3. pose proof s3p.
  apply (Rmult_eq_reg_r (3 * sqrt 3)); [|lra]. replace (1 / (3 * sqrt 3) * (3 * sqrt 3)) with 1 by (field; lra).
  replace ((1 / sqrt 3) ^ 3 * (3 * sqrt 3)) with (3 / (sqrt 3 * sqrt 3)) by (field; lra). rewrite s3. lra.
Qed.

(** ** stresses *)
Lemma app1 a b d : (d < 2)%nat -> applied [[0; a; b]] 0 d = match d with 0%nat => a | _ => b end.
Proof.
  intros Hd. unfold applied. cbn [fold_left nth]. destruct (Req_EM_T 0 (INR 0)) as [|X]; [|exfalso; apply X; reflexivity].
  destruct d as [|[|]]; [reflexivity|reflexivity|lia].
Qed.
Lemma val18 sv N c U s : extends doc18 N c -> (forall m, (m < 3)%nat -> soft doc18 N c m = s) -> 0 < s -> solvers_ok sv -> truss_script sv doc18 N = Ok U ->
  stress_truss N three_bars doc_mats U = Ok (map (fun x => x / s) ex18_exact).
Proof.
  intros Hx Hsoft Hs Hsv HU. destruct (star_run sv doc18 3 N c U star18 wf18 truss18 Hx Hsv HU) as (u & v & S & HS & LS & HV & H0 & H1 & HB).
  change (md_elements doc18) with three_bars in *. change (md_mats doc18) with doc_mats in *. rewrite HS. f_equal.
  pose proof (HV 0%nat ltac:(lia)) as V0. pose proof (HV 1%nat ltac:(lia)) as V1. pose proof (HV 2%nat ltac:(lia)) as V2. specialize (H1 eq_refl).
  pose proof (HB 0%nat ltac:(lia) eq_refl) as B0. rewrite doc18_eq in V0, V1, V2 at 1 2 3. 
  rewrite (rsum_ext 3 _ (fun m => nth m S 0 * s * dir18 m 0)) in B0.
  2:{ intros m Hm. rewrite Hsoft by exact Hm. rewrite doc18_eq. cbn [md_nodes]. rewrite bdir18 by lia. reflexivity. }
  rewrite doc18_eq in B0. cbn [md_loads md_nodes] in *. unfold ex18_loads in B0. rewrite app1 in B0 by lia.
  rewrite !bdir18, len18 in V0 by lia. rewrite !bdir18, len18 in V1 by lia. rewrite !bdir18, len18 in V2 by lia.
  destruct S as [|a0 [|a1 [|a2 [|]]]]; try discriminate. unfold dir18 in *. cbn [nth rsum] in *. subst v. pose proof s3. pose proof s3p.
  assert (Hu : u = 1 / (2 * s)) by (subst a0 a1 a2; apply (Rmult_eq_reg_r (2 * s)); [|lra]; replace (1 / (2 * s) * (2 * s)) with 1 by (field; lra); nra).
  unfold ex18_exact. cbn [map]. subst. f_equal; [|f_equal; [|f_equal]]; field; lra.
Qed.
Lemma val22 sv N c U s : extends doc22 N c -> (forall m, (m < 5)%nat -> soft doc22 N c m = s) -> 0 < s -> solvers_ok sv -> truss_script sv doc22 N = Ok U ->
  stress_truss N five_bars doc_mats U = Ok (map (fun x => x / s) ex22_exact).
Proof.
  intros Hx Hsoft Hs Hsv HU. destruct (star_run sv doc22 5 N c U star22 wf22 truss22 Hx Hsv HU) as (u & v & S & HS & LS & HV & H0 & H1 & HB).
  change (md_elements doc22) with five_bars in *. change (md_mats doc22) with doc_mats in *. rewrite HS. f_equal.
  assert (HV' : forall m, (m < 5)%nat -> nth m S 0 = dir22 m 0 * u + dir22 m 1 * v).
  { intros m Hm. rewrite (HV m Hm). rewrite doc22_eq. cbn [md_nodes]. rewrite !bdir22, len22 by lia. field. }
  assert (HB' : forall d, (d < 2)%nat -> rsum 5 (fun m => nth m S 0 * s * dir22 m d) = match d with 0%nat => sqrt 2 / 2 | _ => - (sqrt 2 / 2) end).
  { intros d Hd. assert (C : ent (md_cons doc22) 0 d = 0) by (destruct d as [|[|]]; [| |lia]; reflexivity). specialize (HB d Hd C).
    rewrite (rsum_ext 5 _ (fun m => nth m S 0 * soft doc22 N c m * b_dir (md_nodes doc22) (nth m five_bars []) d)).
    - rewrite HB. rewrite doc22_eq. cbn [md_loads]. apply app1. exact Hd.
    - intros m Hm. rewrite Hsoft by exact Hm. rewrite doc22_eq. cbn [md_nodes]. rewrite bdir22 by lia. reflexivity. }
  pose proof (HV' 0%nat ltac:(lia)) as V0. pose proof (HV' 1%nat ltac:(lia)) as V1. pose proof (HV' 2%nat ltac:(lia)) as V2. pose proof (HV' 3%nat ltac:(lia)) as V3. pose proof (HV' 4%nat ltac:(lia)) as V4.
  pose proof (HB' 0%nat ltac:(lia)) as B0. pose proof (HB' 1%nat ltac:(lia)) as B1.
  clear HV HV' HB HB' HS H0 H1. destruct S as [|a0 [|a1 [|a2 [|a3 [|a4 [|]]]]]]; try discriminate. unfold dir22 in *. cbn [nth rsum] in *. pose proof s2. pose proof s2p. set (q := sqrt 2) in *.
  assert (Q : q / 2 * (q / 2) = 1 / 2) by (replace (q / 2 * (q / 2)) with (q * q / 4) by field; rewrite H; field).
  assert (Hu : u = q / (6 * s)).
  { apply (Rmult_eq_reg_r (6 * s)); [|lra]. replace (q / (6 * s) * (6 * s)) with q by (field; lra). subst a0 a1 a2 a3 a4.
    match type of B0 with ?l = _ => replace l with (s * u * (2 + 2 * (q / 2 * (q / 2)))) in B0 by field end. rewrite Q in B0. lra. }
  assert (Hv : v = - (q / (4 * s))).
  { apply (Rmult_eq_reg_r (4 * s)); [|lra]. replace (- (q / (4 * s)) * (4 * s)) with (- q) by (field; lra). subst a0 a1 a2 a3 a4.
    match type of B1 with ?l = _ => replace l with (s * v * (1 + 2 * (q / 2 * (q / 2)))) in B1 by field end. rewrite Q in B1. lra. }
  assert (I : 1 / q = q / 2) by (apply (Rmult_eq_reg_r q); [|lra]; replace (1 / q * q) with 1 by (field; lra); lra).
  unfold ex22_exact. fold q. cbn [map]. subst a0 a1 a2 a3 a4. rewrite Hu, Hv.
  replace (1 / (3 * q)) with (1 / q / 3) by (field; lra). replace (1 / (2 * q)) with (1 / q / 2) by (field; lra). rewrite I.
  f_equal; [field; lra|]. f_equal.
  { replace (q / 2 * (q / (6 * s)) + - (q / 2) * - (q / (4 * s))) with (q / 2 * (q / 2) * (5 / (6 * s))) by (field; lra). rewrite Q. field. lra. }
  f_equal; [field; lra|]. f_equal.
  { replace (- (q / 2) * (q / (6 * s)) + - (q / 2) * - (q / (4 * s))) with (q / 2 * (q / 2) * (1 / (6 * s))) by (field; lra). rewrite Q. field. lra. }
  f_equal. field. lra.
Qed.
Lemma val19 sv N c U s t : extends doc19 N c -> (forall m, (m < 3)%nat -> soft doc19 N c m = match m with 1%nat => t | _ => s end) -> 0 < s -> 0 < t -> solvers_ok sv -> truss_script sv doc19 N = Ok U ->
  stress_truss N three_bars doc_mats U = Ok [1 / (2 * (s / sqrt 2 + t)); 1 / (s / sqrt 2 + t); 1 / (2 * (s / sqrt 2 + t))].
Proof.
  intros Hx Hsoft Hs Ht Hsv HU. destruct (star_run sv doc19 3 N c U star19 wf19 truss19 Hx Hsv HU) as (u & v & S & HS & LS & HV & H0 & H1 & HB).
  change (md_elements doc19) with three_bars in *. change (md_mats doc19) with doc_mats in *. rewrite HS. f_equal. pose proof s2. pose proof s2p.
  assert (HV' : forall m, (m < 3)%nat -> nth m S 0 = (dir19 m 0 * u + dir19 m 1 * v) / match m with 1%nat => 1 | _ => sqrt 2 end).
  { intros m Hm. rewrite (HV m Hm). rewrite doc19_eq. cbn [md_nodes]. rewrite !bdir19, len19 by lia. reflexivity. }
  assert (HB' : forall d, (d < 2)%nat -> rsum 3 (fun m => nth m S 0 * match m with 1%nat => t | _ => s end * dir19 m d) = match d with 0%nat => 0 | _ => 1 end).
  { intros d Hd. assert (C : ent (md_cons doc19) 0 d = 0) by (destruct d as [|[|]]; [| |lia]; reflexivity). specialize (HB d Hd C).
    rewrite (rsum_ext 3 _ (fun m => nth m S 0 * soft doc19 N c m * b_dir (md_nodes doc19) (nth m three_bars []) d)).
    - rewrite HB. rewrite doc19_eq. cbn [md_loads]. apply app1. exact Hd.
    - intros m Hm. rewrite Hsoft by exact Hm. rewrite doc19_eq. cbn [md_nodes]. rewrite bdir19 by lia. reflexivity. }
  pose proof (HV' 0%nat ltac:(lia)) as V0. pose proof (HV' 1%nat ltac:(lia)) as V1. pose proof (HV' 2%nat ltac:(lia)) as V2.
  pose proof (HB' 0%nat ltac:(lia)) as B0. pose proof (HB' 1%nat ltac:(lia)) as B1.
  clear HV HV' HB HB' HS H0 H1. destruct S as [|a0 [|a1 [|a2 [|]]]]; try discriminate. unfold dir19 in *. cbn [nth rsum] in *. set (q := sqrt 2) in *.
  assert (E0 : a0 = (u + v) / 2) by (rewrite V0; replace ((1 / q * u + 1 / q * v) / q) with ((u + v) / (q * q)) by (field; lra); rewrite H; reflexivity).
  assert (E2 : a2 = (v - u) / 2) by (rewrite V2; replace ((- (1 / q) * u + 1 / q * v) / q) with ((v - u) / (q * q)) by (field; lra); rewrite H; reflexivity).
  assert (E1 : a1 = v) by (rewrite V1; field). clear V0 V1 V2. subst a0 a1 a2.
  assert (Hi : 0 < s / q) by (apply Rdiv_lt_0_compat; lra).
  assert (Hu : u = 0).
  { match type of B0 with ?l = _ => replace l with (u * (s / q)) in B0 by (field; lra) end. apply Rmult_integral in B0 as [B0|B0]; [exact B0|lra]. }
  assert (Hv : v = 1 / (s / q + t)).
  { apply (Rmult_eq_reg_r (s / q + t)); [|lra]. replace (1 / (s / q + t) * (s / q + t)) with 1 by (field; split; [lra|intros X; assert (Y : s + t * q = 0) by lra; nra]).
    match type of B1 with ?l = _ => replace l with (v * (s / q + t)) in B1 by (field; lra) end. lra. }
  rewrite Hu, Hv. set (w := s / q + t) in *. assert (w <> 0) by (unfold w; lra). f_equal; [field; assumption|]. f_equal. f_equal. field; assumption.
Qed.

(** ** as stated *)
Lemma narrow18 sv U : solvers_ok sv -> truss_script sv doc18 (md_nodes doc18) = Ok U -> stress_truss ex18_nodes three_bars doc_mats U = Ok ex18_exact.
Proof.
  intros Hsv HU. destruct (wide_run sv doc18 _ 3 U wf18 truss18 (ext_self _ truss18) Hsv HU) as (SU & _).
  pose proof (wide_rows doc18 ex18_nodes 5 U wf18 truss18 ext18 SU) as W. pose proof (wide_rows doc18 _ 3 U wf18 truss18 (ext_self _ truss18) SU) as W'. change (md_elements doc18) with three_bars in *. change (md_mats doc18) with doc_mats in *.
  rewrite W, <- W'. rewrite (val18 sv _ 3 U 1 (ext_self _ truss18)); [|intros m Hm; apply soft_self; [exact wf18|exact truss18|exact Hm]|lra|exact Hsv|exact HU].
  f_equal. rewrite <- (map_id ex18_exact) at 2. apply map_ext. intros x. field.
Qed.
Lemma narrow22 sv U : solvers_ok sv -> truss_script sv doc22 (md_nodes doc22) = Ok U -> stress_truss ex22_nodes five_bars doc_mats U = Ok ex22_exact.
Proof.
  intros Hsv HU. destruct (wide_run sv doc22 _ 3 U wf22 truss22 (ext_self _ truss22) Hsv HU) as (SU & _).
  pose proof (wide_rows doc22 ex22_nodes 5 U wf22 truss22 ext22 SU) as W. pose proof (wide_rows doc22 _ 3 U wf22 truss22 (ext_self _ truss22) SU) as W'. change (md_elements doc22) with five_bars in *. change (md_mats doc22) with doc_mats in *.
  rewrite W, <- W'. rewrite (val22 sv _ 3 U 1 (ext_self _ truss22)); [|intros m Hm; apply soft_self; [exact wf22|exact truss22|exact Hm]|lra|exact Hsv|exact HU].
  f_equal. rewrite <- (map_id ex22_exact) at 2. apply map_ext. intros x. field.
Qed.
Lemma narrow19 sv U : solvers_ok sv -> truss_script sv doc19 (md_nodes doc19) = Ok U -> stress_truss ex19_nodes three_bars doc_mats U = Ok ex19_exact.
Proof.
  intros Hsv HU. destruct (wide_run sv doc19 _ 3 U wf19 truss19 (ext_self _ truss19) Hsv HU) as (SU & _).
  pose proof (wide_rows doc19 ex19_nodes 5 U wf19 truss19 ext19 SU) as W. pose proof (wide_rows doc19 _ 3 U wf19 truss19 (ext_self _ truss19) SU) as W'. change (md_elements doc19) with three_bars in *. change (md_mats doc19) with doc_mats in *.
  rewrite W, <- W'. rewrite (val19 sv _ 3 U 1 1 (ext_self _ truss19)); [| |lra|lra|exact Hsv|exact HU].
  - unfold ex19_exact. pose proof s2. pose proof s2p. set (q := sqrt 2) in *. assert (I : 1 / q = q / 2) by (apply (Rmult_eq_reg_r q); [|lra]; replace (1 / q * q) with 1 by (field; lra); lra). rewrite I.
    assert (A : 1 / (q / 2 + 1) = q / (q + 1)).
    { apply (Rmult_eq_reg_r ((q / 2 + 1) * (q + 1))); [|apply Rmult_integral_contrapositive; split; lra].
      replace (1 / (q / 2 + 1) * ((q / 2 + 1) * (q + 1))) with (q + 1) by (field; lra). replace (q / (q + 1) * ((q / 2 + 1) * (q + 1))) with (q * q / 2 + q) by (field; lra). rewrite H. lra. }
    rewrite A. replace (1 / (2 * (q / 2 + 1))) with (1 / (q + 2)) by (field; lra). reflexivity.
  - intros m Hm. rewrite soft_self; [destruct m as [|[|]]; reflexivity|exact wf19|exact truss19|exact Hm].
Qed.
Lemma fem18 sv : fem_sol sv ex18_nodes three_bars doc_mats ex18_loads = truss_script sv doc18 ex18_nodes.
Proof. reflexivity. Qed.
Lemma wide18 sv U : solvers_ok sv -> fem_sol sv ex18_nodes three_bars doc_mats ex18_loads = Ok U ->
  stress_truss ex18_nodes three_bars doc_mats U = Ok (map (fun x => 2 * sqrt 2 * x) ex18_exact).
Proof.
  intros Hsv HU. pose proof s2p. rewrite (val18 sv _ 5 U (1 / (2 * sqrt 2)) ext18 soft18); [|apply Rdiv_lt_0_compat; lra|exact Hsv|exact HU].
  f_equal. apply map_ext. intros x. field. lra.
Qed.
Lemma wide22 sv U : solvers_ok sv -> fem_sol sv ex22_nodes five_bars doc_mats ex22_loads = Ok U ->
  stress_truss ex22_nodes five_bars doc_mats U = Ok (map (fun x => 3 * sqrt 3 * x) ex22_exact).
Proof.
  intros Hsv HU. pose proof s3p. rewrite (val22 sv _ 5 U (1 / (3 * sqrt 3)) ext22 soft22); [|apply Rdiv_lt_0_compat; lra|exact Hsv|exact HU].
  f_equal. apply map_ext. intros x. field. lra.
Qed.
Lemma wide19 sv U : solvers_ok sv -> fem_sol sv ex19_nodes three_bars doc_mats ex19_loads = Ok U ->
  stress_truss ex19_nodes three_bars doc_mats U = Ok (let w := 1 / (1 / 4 + 1 / (3 * sqrt 3)) in [w / 2; w; w / 2]).
Proof.
  intros Hsv HU. pose proof s2p. pose proof s3p. rewrite (val19 sv _ 5 U (sqrt 2 / 4) (1 / (3 * sqrt 3)) ext19 soft19); [|lra|apply Rdiv_lt_0_compat; lra|exact Hsv|exact HU].
  cbv zeta. replace (sqrt 2 / 4 / sqrt 2) with (1 / 4) by (field; lra). assert (0 < 1 / (3 * sqrt 3)) by (apply Rdiv_lt_0_compat; lra). set (k := 1 / (3 * sqrt 3)) in *.
  f_equal. f_equal; [field; lra|]. f_equal. f_equal. field. lra.
Qed.
Lemma doc_runs : (exists U, fem_sol elim_solver ex18_nodes three_bars doc_mats ex18_loads = Ok U) /\ (exists U, fem_sol elim_solver ex19_nodes three_bars doc_mats ex19_loads = Ok U) /\
  (exists U, fem_sol elim_solver ex22_nodes five_bars doc_mats ex22_loads = Ok U).
Proof.
  destruct elim_both as [H1 H2]. split; [|split].
  - exact (wide_answers elim_solver doc18 _ 5 wf18 truss18 ext18 H1 H2 stable18).
  - exact (wide_answers elim_solver doc19 _ 5 wf19 truss19 ext19 H1 H2 stable19).
  - exact (wide_answers elim_solver doc22 _ 5 wf22 truss22 ext22 H1 H2 stable22).
Qed.
Lemma narrow_runs : (exists U, truss_script elim_solver doc18 (md_nodes doc18) = Ok U) /\ (exists U, truss_script elim_solver doc19 (md_nodes doc19) = Ok U) /\
  (exists U, truss_script elim_solver doc22 (md_nodes doc22) = Ok U).
Proof.
  destruct elim_both as [H1 H2]. split; [|split].
  - exact (wide_answers elim_solver doc18 _ 3 wf18 truss18 (ext_self _ truss18) H1 H2 stable18).
  - exact (wide_answers elim_solver doc19 _ 3 wf19 truss19 (ext_self _ truss19) H1 H2 stable19).
  - exact (wide_answers elim_solver doc22 _ 3 wf22 truss22 (ext_self _ truss22) H1 H2 stable22).
Qed.
(** np.allclose(stress_exact, stress) fails: the first stress is off by more than a half of its documented value *)
Lemma doc_refuted : exists sv U S, solvers_ok sv /\ fem_sol sv ex18_nodes three_bars doc_mats ex18_loads = Ok U /\
  stress_truss ex18_nodes three_bars doc_mats U = Ok S /\ ~ (forall m, (m < 3)%nat -> Rabs (nth m ex18_exact 0 - nth m S 0) <= 1 / 10 ^ 8 + 1 / 10 ^ 5 * Rabs (nth m S 0)).
Proof.
  destruct doc_runs as [[U HU] _]. exists elim_solver, U. eexists. split; [exact (proj1 elim_both)|]. split; [exact HU|]. split; [exact (wide18 _ U (proj1 elim_both) HU)|].
  intros HC. specialize (HC 0%nat ltac:(lia)). unfold ex18_exact in HC. cbn [map nth] in HC. pose proof s2. pose proof s2p.
  assert (1 < sqrt 2) by nra. rewrite (Rabs_left (1 / 2 - 2 * sqrt 2 * (1 / 2))) in HC by lra. rewrite Rabs_right in HC by lra. assert (sqrt 2 < 2) by nra. lra.
Qed.
Lemma doc_refuted19 : exists sv U S, solvers_ok sv /\ fem_sol sv ex19_nodes three_bars doc_mats ex19_loads = Ok U /\
  stress_truss ex19_nodes three_bars doc_mats U = Ok S /\ ~ (forall m, (m < 3)%nat -> Rabs (nth m ex19_exact 0 - nth m S 0) <= 1 / 10 ^ 8 + 1 / 10 ^ 5 * Rabs (nth m S 0)).
Proof.
  destruct doc_runs as [_ [[U HU] _]]. exists elim_solver, U. eexists. split; [exact (proj1 elim_both)|]. split; [exact HU|]. split; [exact (wide19 _ U (proj1 elim_both) HU)|].
  intros HC. specialize (HC 1%nat ltac:(lia)). unfold ex19_exact in HC. cbv zeta in HC. cbn [nth] in HC. pose proof s2. pose proof s2p. pose proof s3. pose proof s3p.
  assert (A : 0 < 1 / (3 * sqrt 3) < 1 / 4).
  { split; [apply Rdiv_lt_0_compat; lra|]. apply (Rmult_lt_reg_r (3 * sqrt 3)); [lra|]. replace (1 / (3 * sqrt 3) * (3 * sqrt 3)) with 1 by (field; lra). nra. }
  set (k := 1 / (3 * sqrt 3)) in *. assert (B : 2 < 1 / (1 / 4 + k) < 4).
  { split; (apply (Rmult_lt_reg_r (1 / 4 + k)); [lra|]; replace (1 / (1 / 4 + k) * (1 / 4 + k)) with 1 by (field; lra); lra). }
  assert (D : sqrt 2 / (sqrt 2 + 1) < 1) by (apply (Rmult_lt_reg_r (sqrt 2 + 1)); [lra|]; replace (sqrt 2 / (sqrt 2 + 1) * (sqrt 2 + 1)) with (sqrt 2) by (field; lra); lra).
  set (w := 1 / (1 / 4 + k)) in *. set (z := sqrt 2 / (sqrt 2 + 1)) in *. rewrite (Rabs_left (z - w)) in HC by lra. rewrite Rabs_right in HC by lra. lra.
Qed.
Lemma doc_refuted22 : exists sv U S, solvers_ok sv /\ fem_sol sv ex22_nodes five_bars doc_mats ex22_loads = Ok U /\
  stress_truss ex22_nodes five_bars doc_mats U = Ok S /\ ~ (forall m, (m < 5)%nat -> Rabs (nth m ex22_exact 0 - nth m S 0) <= 1 / 10 ^ 8 + 1 / 10 ^ 5 * Rabs (nth m S 0)).
Proof.
  destruct doc_runs as [_ [_ [U HU]]]. exists elim_solver, U. eexists. split; [exact (proj1 elim_both)|]. split; [exact HU|]. split; [exact (wide22 _ U (proj1 elim_both) HU)|].
  intros HC. specialize (HC 1%nat ltac:(lia)). unfold ex22_exact in HC. cbn [map nth] in HC. pose proof s3. pose proof s3p.
  assert (1 < sqrt 3) by nra. assert (sqrt 3 < 2) by nra. rewrite (Rabs_left (5 / 12 - 3 * sqrt 3 * (5 / 12))) in HC by lra. rewrite Rabs_right in HC by lra. lra.
Qed.

(** the bracket of C80 with its flags in columns 3, 4 *)
Definition br_wide : list (list R) := [[0; 0; 0; -1; -1]; [1; 4; 0; 0; 0]; [2; 0; 3; -1; 0]].
