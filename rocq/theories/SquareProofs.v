(** * The plate of the first tutorial *)
From Coq Require Import String Reals List Arith Lia Lra Bool ZArith QArith Qreals Relations Permutation.
From Verif Require Import Num LinAlg Fem Uel Assem Post Pre TextIO Main Spec LinR Base SpecAssem SpecModel SpecElem SpecPost SpecStatic SpecPatch SpecDriver
  SpecPre SpecText SpecRun SpecReport Square SpecSquare ElemShape AssemProofs4 ModelProofs ElemFinal2 ElemFinal3 MeshProofs BarProofs ExModel ExModel2 ExSolver StaticProofs StaticProofs2 StaticProofs3
  DriverProofs ConvexProofs PatchProofs PatchProofs2 PlotFields TextGrammar RunProofs ExPatch.
Import ListNotations.
Local Open Scope R_scope.

Section Plate.
  Variables a b E nu P : R.
  Hypotheses (Ha : 0 < a) (Hb : 0 < b) (Hab : 4 / 100000000 < a * b) (HE : 0 < E) (Hnu : -1 < nu < 1).
  Let md := plate a b E nu P.

  Lemma pl_wf : wf_model md.
  Proof.
    split; [|split; [reflexivity|split]].
    - flags.
    - cbn [md_elements md plate]. all_forall; cbn; lia.
    - cbn [md_loads md plate]. all_forall; (split; [cbn; lia|]); [exists 3%nat|exists 6%nat|exists 2%nat]; (split; [cbn; lia|]); cbn; lra.
  Qed.
  Lemma pl_ret e : In e (md_elements md) -> exists K M, retriever e [[E; nu]] (md_nodes md) None = Ok (K, M2 M).
  Proof.
    assert (C : forall p q r s, (forall k, (k < 4)%nat -> 4 / 100000000 < turn 4 [p; q; r; s] k) -> length p = 2%nat ->
       exists K M, elast_quad4 [p; q; r; s] [E; nu] = Ok (K, M2 M)).
    { intros p q r s Ht Hp. apply (convex_accepted _ E nu []); [reflexivity|exact Hp|nra|exact Ht]. }
    intros [<-|[<-|[<-|[<-|[]]]]].
    - destruct (C [0; 0] [a; 0] [a; b] [0; b]) as (K & M & H); [|reflexivity|exists K, M; exact H].
      intros k Hk. lt4 k Hk; unfold turn, ent; cbn [nth Nat.add Nat.sub Nat.modulo Nat.divmod fst snd]; nra.
    - destruct (C [a; 0] [2 * a; 0] [2 * a; b] [a; b]) as (K & M & H); [|reflexivity|exists K, M; exact H].
      intros k Hk. lt4 k Hk; unfold turn, ent; cbn [nth Nat.add Nat.sub Nat.modulo Nat.divmod fst snd]; nra.
    - destruct (C [0; b] [a; b] [a; 2 * b] [0; 2 * b]) as (K & M & H); [|reflexivity|exists K, M; exact H].
      intros k Hk. lt4 k Hk; unfold turn, ent; cbn [nth Nat.add Nat.sub Nat.modulo Nat.divmod fst snd]; nra.
    - destruct (C [a; b] [2 * a; b] [2 * a; 2 * b] [a; 2 * b]) as (K & M & H); [|reflexivity|exists K, M; exact H].
      intros k Hk. lt4 k Hk; unfold turn, ent; cbn [nth Nat.add Nat.sub Nat.modulo Nat.divmod fst snd]; nra.
  Qed.
  Lemma pl_accepted : accepted md.
  Proof.
    apply Forall_forall. intros e He. split.
    - destruct He as [<-|[<-|[<-|[<-|[]]]]]; (exists 1%Z; split; [reflexivity|]; split; [reflexivity|]; split; [cbn; lia|]; cbn [skipn]; all_forall; cbn; lia).
    - destruct (pl_ret e He) as (K & M & H). exists K, M. exact H.
  Qed.
  Lemma pl_sound : Forall (sound_plane md) (md_elements md).
  Proof.
    apply Forall_forall. intros e He. destruct (pl_ret e He) as (K & M & H).
    split; [|split; [|exists K, (M2 M); exact H]].
    - exists 1%Z. destruct He as [<-|[<-|[<-|[<-|[]]]]]; (split; [reflexivity|left; split; reflexivity]).
    - exists 0%Z, E, nu, []. destruct He as [<-|[<-|[<-|[<-|[]]]]]; (split; [reflexivity|split; [reflexivity|lra]]).
  Qed.
  Lemma pl_materials : materials_ok md.
  Proof.
    intros e t im params He Ht Him Hp.
    destruct He as [<-|[<-|[<-|[<-|[]]]]]; cbn in Ht, Him; injection Ht as <-; injection Him as <-; cbn in Hp; injection Hp as <-;
      (exists E, nu, []; split; [reflexivity|]; split; [lra|]; split; [exact Hnu|left; reflexivity]).
  Qed.
  Lemma pl_mesh : mesh_of 1 4 9 (md_elements md).
  Proof. cbn [md_elements md plate]. all_forall; (split; [reflexivity|split; [reflexivity|split; [cbn; lia|]]]); cbn [skipn]; all_forall; lia. Qed.
  Lemma pl_patch : patch_mesh md E nu 1.
  Proof.
    exists 1%Z, 4%nat. split; [cbn; tauto|]. split; [exact pl_mesh|]. apply Forall_forall. intros e He.
    destruct (pl_ret e He) as (K & M & H). split; [|exists K, (M2 M); exact H].
    exists 0%Z, []. destruct He as [<-|[<-|[<-|[<-|[]]]]]; split; reflexivity.
  Qed.

  Lemma pl_link k1 k2 k1' k2' e e' : (k1 < e_n e)%nat -> (k2 < e_n e)%nat -> (k1' < e_n e')%nat -> (k2' < e_n e')%nat ->
    e_node e k1 = e_node e' k1' -> e_node e k2 = e_node e' k2' ->
    (ent (md_nodes md) (e_node e k1) 1 <> ent (md_nodes md) (e_node e k2) 1 \/ ent (md_nodes md) (e_node e k1) 2 <> ent (md_nodes md) (e_node e k2) 2) -> linked md e e'.
  Proof. intros. exists k1, k2, k1', k2'. auto 10. Qed.
  Lemma pl_connected : connected md.
  Proof.
    split.
    - assert (G : forall e, In e (md_elements md) -> clos_refl_trans _ (fun u v => In v (md_elements md) /\ linked md u v) [0; 1; 0; 0; 4; 8; 7]%Z e /\
         clos_refl_trans _ (fun u v => In v (md_elements md) /\ linked md u v) e [0; 1; 0; 0; 4; 8; 7]%Z).
      { assert (L1 : linked md [0; 1; 0; 0; 4; 8; 7]%Z [1; 1; 0; 4; 1; 5; 8]%Z) by (apply (pl_link 1 2 0 3); try (cbn; lia); try reflexivity; right; cbv -[IZR Rdiv Rmult Rplus]; intros HH; lra).
        assert (L1' : linked md [1; 1; 0; 4; 1; 5; 8]%Z [0; 1; 0; 0; 4; 8; 7]%Z) by (apply (pl_link 0 3 1 2); try (cbn; lia); try reflexivity; right; cbv -[IZR Rdiv Rmult Rplus]; intros HH; lra).
        assert (L2 : linked md [0; 1; 0; 0; 4; 8; 7]%Z [2; 1; 0; 7; 8; 6; 3]%Z) by (apply (pl_link 2 3 1 0); try (cbn; lia); try reflexivity; left; cbv -[IZR Rdiv Rmult Rplus]; intros HH; lra).
        assert (L2' : linked md [2; 1; 0; 7; 8; 6; 3]%Z [0; 1; 0; 0; 4; 8; 7]%Z) by (apply (pl_link 1 0 2 3); try (cbn; lia); try reflexivity; left; cbv -[IZR Rdiv Rmult Rplus]; intros HH; lra).
        assert (L3 : linked md [1; 1; 0; 4; 1; 5; 8]%Z [3; 1; 0; 8; 5; 2; 6]%Z) by (apply (pl_link 2 3 1 0); try (cbn; lia); try reflexivity; left; cbv -[IZR Rdiv Rmult Rplus]; intros HH; lra).
        assert (L3' : linked md [3; 1; 0; 8; 5; 2; 6]%Z [1; 1; 0; 4; 1; 5; 8]%Z) by (apply (pl_link 1 0 2 3); try (cbn; lia); try reflexivity; left; cbv -[IZR Rdiv Rmult Rplus]; intros HH; lra).
        intros e [<-|[<-|[<-|[<-|[]]]]].
        - split; apply rt_refl.
        - split; apply rt_step; (split; [cbn; tauto|assumption]).
        - split; apply rt_step; (split; [cbn; tauto|assumption]).
        - split; [eapply rt_trans; [apply rt_step; split; [|exact L1]|apply rt_step; split; [|exact L3]]|eapply rt_trans; [apply rt_step; split; [|exact L3']|apply rt_step; split; [|exact L1']]]; cbn; tauto. }
      intros e e' He He'. eapply rt_trans; [apply (G e He)|apply (G e' He')].
    - intros i Hi. cbn in Hi. lt9 i Hi; [exists [0; 1; 0; 0; 4; 8; 7]%Z, 0%nat|exists [1; 1; 0; 4; 1; 5; 8]%Z, 1%nat|exists [3; 1; 0; 8; 5; 2; 6]%Z, 2%nat|
        exists [2; 1; 0; 7; 8; 6; 3]%Z, 3%nat|exists [0; 1; 0; 0; 4; 8; 7]%Z, 1%nat|exists [1; 1; 0; 4; 1; 5; 8]%Z, 2%nat|
        exists [2; 1; 0; 7; 8; 6; 3]%Z, 2%nat|exists [0; 1; 0; 0; 4; 8; 7]%Z, 3%nat|exists [0; 1; 0; 0; 4; 8; 7]%Z, 2%nat]; (split; [cbn; tauto|]); split; cbn; auto with arith.
  Qed.
  Lemma pl_supported : supported md.
  Proof.
    intros u v w H.
    pose proof (H 0%nat 1%nat ltac:(cbn; lia) ltac:(lia) eq_refl) as H1.
    pose proof (H 1%nat 1%nat ltac:(cbn; lia) ltac:(lia) eq_refl) as H2.
    pose proof (H 4%nat 0%nat ltac:(cbn; lia) ltac:(lia) eq_refl) as H3.
    unfold node_rigid, ent in *. cbn in *. assert (w = 0) by nra. subst w. lra.
  Qed.
  Lemma pl_stable : stable md.
  Proof. exact (supported_stable _ pl_wf pl_sound pl_connected pl_supported). Qed.
  Lemma pl_free : exists i d, free md i d.
  Proof. exists 8%nat, 0%nat. split; [cbn; lia|]. split; [lia|reflexivity]. Qed.
  Lemma pl_recoverable : recoverable md.
  Proof.
    split; [exists 1%Z, 4%nat; split; [cbn; tauto|exact pl_mesh]|]. split; [discriminate|].
    split; [cbn [md_nodes md plate]; all_forall; cbn; lia|]. split; [cbn [md_mats md plate]; all_forall; reflexivity|].
    intros i Hi. destruct (proj2 pl_connected i Hi) as (e & k & He & Hk & Hn). exists e. split; [exact He|]. exists k. auto.
  Qed.
  Lemma pl_plottable : plottable md.
  Proof.
    right. split; [discriminate|]. split; [cbn [md_nodes md plate]; all_forall; cbn; lia|].
    cbn [md_elements md plate]. all_forall; (split; [cbn; lia|reflexivity]).
  Qed.

  (** stress [2 P / a] upwards *)
  Let s := 2 * P / a.
  Lemma pl_admissible : admissible md (affine_table (md_nodes md) (nu * s / E * a) (- (nu * s / E)) 0 0 0 (s / E)).
  Proof.
    intros i d Hi Hd Hc. cbn in Hi. lt9 i Hi; lt2 d Hd; cbn in Hc; try lra; unfold affine_table, ent; cbn; lra.
  Qed.
  Lemma pl_hooke : hooke2 E nu (affine_strain (- (nu * s / E)) 0 0 (s / E)) 0%nat = 0 /\
    hooke2 E nu (affine_strain (- (nu * s / E)) 0 0 (s / E)) 1%nat = s /\ hooke2 E nu (affine_strain (- (nu * s / E)) 0 0 (s / E)) 2%nat = 0.
  Proof. unfold hooke2, affine_strain. cbn. repeat split; field; repeat split; nra. Qed.
  Lemma pl_applied i d : applied (md_loads md) i d =
    if (i =? 2)%nat then nth (d + 1) [2; 0; P] 0 else if (i =? 6)%nat then nth (d + 1) [6; 0; 2 * P] 0 else if (i =? 3)%nat then nth (d + 1) [3; 0; P] 0 else 0.
  Proof.
    unfold applied. cbn [fold_left md_loads md plate].
    assert (D : forall n z, INR n = IZR z -> (i =? n)%nat = if Req_EM_T (IZR z) (INR i) then true else false).
    { intros n z Hz. rewrite <- Hz. destruct (Req_EM_T (INR n) (INR i)) as [F|F].
      - apply INR_eq in F. subst. apply Nat.eqb_refl.
      - apply Nat.eqb_neq. intros ->. apply F. reflexivity. }
    cbn [nth] in *. rewrite (D 2%nat 2%Z) by (cbn; lra). rewrite (D 6%nat 6%Z) by (cbn; lra). rewrite (D 3%nat 3%Z) by (cbn; lra).
    repeat destruct (Req_EM_T _ _); reflexivity.
  Qed.
  Lemma pl_loads : forall i d, free md i d -> applied (md_loads md) i d =
    1 * sides_at (md_nodes md) (md_elements md) (hooke2 E nu (affine_strain (- (nu * s / E)) 0 0 (s / E))) i d.
  Proof.
    intros i d (Hi & Hd & Hc). cbn in Hi. rewrite pl_applied. destruct pl_hooke as (H0 & H1 & H2).
    assert (Hs : s * a = 2 * P) by (unfold s; field; lra).
    set (sg := hooke2 E nu _) in *. clearbody sg s.
    lt9 i Hi; lt2 d Hd; cbn in Hc; try lra; cbv -[IZR Rdiv Rmult Rplus Rminus Rinv]; rewrite ?H0, ?H1, ?H2; nra.
  Qed.

  Theorem plate_run sv plot strains : solver_ok sv -> solver_total sv -> exists out, auto sv md plot strains = Ok out /\
    out_nnodes out = 9%nat /\ out_nels out = 4%nat /\ out_neq out = 14%Z /\ out_warn out = false /\
    out_disp out = map (fun p => [- (nu * (2 * P / a) / E) * (nth 1 p 0 - a); 2 * P / a / E * nth 2 p 0]) (md_nodes md) /\
    (strains = true -> out_strains out = Some (repeat [- (nu * (2 * P / a) / E); 2 * P / a / E; 0] 9, repeat [0; 2 * P / a; 0] 9)).
  Proof.
    intros Hsv Htot.
    destruct (model_runs_full sv md plot strains pl_wf pl_accepted pl_stable Hsv Htot pl_free (fun _ => pl_recoverable) (fun _ => pl_plottable)) as [out Hout].
    exists out. split; [exact Hout|].
    destruct (report sv md plot strains out (proj1 pl_wf) (proj1 (proj2 pl_wf)) Hout) as (R1 & R2 & R3 & R4 & _).
    split; [exact R1|]. split; [exact R2|]. split.
    { rewrite R3. unfold count_free. cbn [md_cons md plate concat map app filter].
      repeat (match goal with |- context [Req_EM_T ?x ?y] => destruct (Req_EM_T x y); [try (exfalso; lra)|try (exfalso; lra)] end). reflexivity. }
    split; [exact (no_warning sv md plot strains out pl_wf Hsv pl_materials pl_stable Hout)|]. split.
    - pose proof (patch_run sv md plot strains out E nu 1 _ _ _ _ _ _ pl_wf Hsv pl_stable pl_patch pl_admissible pl_loads Hout) as HT.
      destruct R4 as [RL RW].
      assert (K : forall i, (i < 9)%nat -> nth i (out_disp out) [] = [table out i 0; table out i 1]).
      { intros i Hi. assert (L2 : length (nth i (out_disp out) []) = 2%nat).
        { rewrite Forall_forall in RW. apply RW. apply nth_In. rewrite RL. exact Hi. }
        unfold table, ent. destruct (nth i (out_disp out) []) as [|x [|y [|z t]]]; try discriminate L2. reflexivity. }
      apply (nth_ext _ _ [] []); [rewrite map_length; exact RL|]. intros i Hi. rewrite RL in Hi. change (length (md_nodes md)) with 9%nat in Hi.
      rewrite (K i Hi), !HT by (cbn; lia). unfold affine_table, ent. fold s.
      lt9 i Hi; cbn -[s IZR]; apply f_equal2; try apply f_equal2; try reflexivity; lra.
    - intros ->. destruct (patch_recovered sv md plot out E nu _ _ _ _ _ _ pl_wf Hsv pl_stable pl_patch pl_admissible pl_loads Hout) as (Es & Ss & HO & -> & ->).
      rewrite HO. cbn [map]. destruct pl_hooke as (-> & -> & ->). change (length (md_nodes md)) with 9%nat. rewrite Rplus_0_r. reflexivity.
  Qed.
End Plate.

(** ** the files *)
Lemma square_read : shows number_is square_nodes
    [[0; 0; 0; 0; -1]; [1; 2; 0; 0; -1]; [2; 2; 2; 0; 0]; [3; 0; 2; 0; 0]; [4; 1; 0; -1; -1]; [5; 2; 1; 0; 0]; [6; 1; 2; 0; 0]; [7; 0; 1; 0; 0]; [8; 1; 1; 0; 0]] /\
  shows number_is square_mater [[1; 3/10]] /\
  shows integer_is square_eles [[0; 1; 0; 0; 4; 8; 7]; [1; 1; 0; 4; 1; 5; 8]; [2; 1; 0; 7; 8; 6; 3]; [3; 1; 0; 8; 5; 2; 6]]%Z /\
  shows number_is square_loads [[3; 0; 1]; [6; 0; 2]; [2; 0; 1]].
Proof.
  set (fs := fun p => if String.eqb p "nodes.txt" then Some square_nodes else if String.eqb p "mater.txt" then Some square_mater
    else if String.eqb p "eles.txt" then Some square_eles else if String.eqb p "loads.txt" then Some square_loads else None).
  assert (H : @readin R Num_R fs "" = Ok (
    [[0; 0; 0; 0; -1]; [1; 2; 0; 0; -1]; [2; 2; 2; 0; 0]; [3; 0; 2; 0; 0]; [4; 1; 0; -1; -1]; [5; 2; 1; 0; 0]; [6; 1; 2; 0; 0]; [7; 0; 1; 0; 0]; [8; 1; 1; 0; 0]], [[1; 3/10]],
    [[0; 1; 0; 0; 4; 8; 7]; [1; 1; 0; 4; 1; 5; 8]; [2; 1; 0; 7; 8; 6; 3]; [3; 1; 0; 8; 5; 2; 6]]%Z, [[3; 0; 1]; [6; 0; 2]; [2; 0; 1]])).
  { unfold readin. cbv -[nofQ Num_R]. change (@nofQ R Num_R) with Q2R. unfold Q2R. cbn. tab. }
  apply readin_iff in H. destruct H as (t1 & t2 & t3 & t4 & F1 & F2 & F3 & F4 & S1 & S2 & S3 & S4).
  assert (G1 : fs "nodes.txt"%string = Some square_nodes) by reflexivity.
  assert (G2 : fs "mater.txt"%string = Some square_mater) by reflexivity.
  assert (G3 : fs "eles.txt"%string = Some square_eles) by reflexivity.
  assert (G4 : fs "loads.txt"%string = Some square_loads) by reflexivity.
  cbn [append] in F1, F2, F3, F4. rewrite G1 in F1. rewrite G2 in F2. rewrite G3 in F3. rewrite G4 in F4.
  assert (SI : forall u v : string, Some u = Some v -> u = v) by (intros u v HH; inversion HH; reflexivity).
  apply SI in F1, F2, F3, F4. subst t1 t2 t3 t4. auto.
Qed.
Lemma square_shown fs path : square_files fs path -> files_show fs path (plate 1 1 1 (3/10) 1).
Proof.
  intros (F1 & F2 & F3 & F4). destruct square_read as (S1 & S2 & S3 & S4).
  exists square_nodes, square_mater, square_eles, square_loads. eexists. repeat (split; [eassumption|]).
  assert (E3 : [[3; 0; 1]; [6; 0; 2]; [2; 0; 1]] = md_loads (plate 1 1 1 (3/10) 1)) by (cbn [md_loads plate]; tab).
  rewrite <- E3. split; [exact S4|]. split; [repeat constructor|]. split; cbn [md_nodes md_cons plate map firstn skipn]; tab.
Qed.

Lemma square_table : map (fun p => [- (3/10 * (2 * 1 / 1) / 1) * (nth 1 p 0 - 1); 2 * 1 / 1 / 1 * nth 2 p 0]) (md_nodes (plate 1 1 1 (3/10) 1)) =
  [[6/10; 0]; [-6/10; 0]; [-6/10; 4]; [6/10; 4]; [0; 0]; [-6/10; 2]; [0; 4]; [6/10; 2]; [0; 2]].
Proof. cbn [md_nodes plate map nth]. tab. Qed.

Theorem square_auto sv plot strains : solver_ok sv -> solver_total sv -> exists out, auto sv (plate 1 1 1 (3/10) 1) plot strains = Ok out /\ tutorial_run strains out.
Proof.
  intros Hsv Htot. destruct (plate_run 1 1 1 (3/10) 1 ltac:(lra) ltac:(lra) ltac:(lra) ltac:(lra) ltac:(lra) sv plot strains Hsv Htot)
    as (out & HO & H1 & H2 & H3 & H4 & H5 & H6). rewrite square_table in H5. exists out. repeat (split; [assumption|]). split.
  - rewrite H5. unfold free_values, tutorial_UC. cbn [md_cons plate combine map fst snd filter concat app].
    repeat (match goal with |- context [Req_EM_T ?x ?y] => destruct (Req_EM_T x y); [try (exfalso; lra)|try (exfalso; lra)] end).
    cbn [map fst snd filter concat app]. unfold Q2R. cbn [Qnum Qden]. tab.
  - intros Hs. rewrite (H6 Hs). cbn [repeat]. apply f_equal. tab.
Qed.

Theorem square_argument sv fs gui prompt plot strains folder : solver_ok sv -> solver_total sv -> square_files fs (fun f => folder ++ f)%string ->
  exists out, solids_GUI sv fs gui prompt plot strains (Some folder) = Ok out /\ tutorial_run strains out.
Proof. intros Hsv Htot HF. rewrite (files_argument sv fs gui prompt plot strains folder _ (square_shown _ _ HF)). apply square_auto; assumption. Qed.
Theorem square_dialog sv fs prompt plot strains folder : solver_ok sv -> solver_total sv -> folder <> ""%string -> square_files fs (inside folder) ->
  exists out, solids_GUI sv fs (Some (Some folder)) prompt plot strains None = Ok out /\ tutorial_run strains out.
Proof. intros Hsv Htot Hne HF. rewrite (files_dialog sv fs prompt plot strains folder _ Hne (square_shown _ _ HF)). apply square_auto; assumption. Qed.
Theorem square_typed sv fs plot strains typed : solver_ok sv -> solver_total sv -> square_files fs (fun f => typed ++ f)%string ->
  exists out, solids_GUI sv fs None typed plot strains None = Ok out /\ tutorial_run strains out.
Proof.
  intros Hsv Htot HF. destruct (square_argument sv fs None typed plot strains typed Hsv Htot HF) as (out & HO & HR). exists out. split; [exact HO|exact HR].
Qed.

(** the magnitudes printed in the tutorial *)
Theorem square_magnitude : exists m, In m tutorial_mag /\ forall sv plot strains out, solver_ok sv -> solver_total sv ->
  auto sv (plate 1 1 1 (3/10) 1) plot strains = Ok out -> forall i, (i < 9)%nat -> ~ shown_as (magnitude (out_disp out) i) (Q2R m).
Proof.
  exists 0.849%Q. split; [left; reflexivity|].
  intros sv plot strains out Hsv Htot HO. destruct (square_auto sv plot strains Hsv Htot) as (out' & HO' & _ & _ & _ & _ & HD & _).
  rewrite HO in HO'. apply Ok_inj in HO'. subst out'.
  intros i Hi HS. unfold shown_as, magnitude in HS. rewrite HD in HS.
  set (q := ent _ i 0 ^ 2 + ent _ i 1 ^ 2) in HS. assert (HQ : 0 <= q <= 36/100 \/ 4 <= q).
  { unfold q, ent. lt9 i Hi; cbn; lra. }
  assert (B : 0 <= sqrt q) by apply sqrt_pos. assert (S2 : sqrt q * sqrt q = q) by (apply sqrt_sqrt; lra).
  assert (B2 : 8485/10000 <= sqrt q <= 8495/10000).
  { unfold Q2R in HS. cbn [Qnum Qden] in HS. unfold Rabs in HS; destruct (Rcase_abs _) in HS; lra. }
  nra.
Qed.

(** which lengths they are *)
Lemma shown_sqrt x m : 0 <= x -> 5 / 10000 <= m -> (m - 5 / 10000) * (m - 5 / 10000) <= x <= (m + 5 / 10000) * (m + 5 / 10000) -> shown_as (sqrt x) m.
Proof.
  intros Hx Hm [H1 H2]. unfold shown_as. assert (B : 0 <= sqrt x) by apply sqrt_pos. assert (S2 : sqrt x * sqrt x = x) by (apply sqrt_sqrt; lra).
  unfold Rabs. destruct (Rcase_abs _); nra.
Qed.
Theorem square_magnitudes sv plot strains out : solver_ok sv -> solver_total sv -> auto sv (plate 1 1 1 (3/10) 1) plot strains = Ok out ->
  Forall2 (fun i m => shown_as (magnitude (out_disp out) i) (Q2R m)) [2; 3; 5; 6; 7; 8]%nat (tl tutorial_mag) /\
  shown_as (sqrt (ent (out_disp out) 0 0 ^ 2 + ent (out_disp out) 1 0 ^ 2)) (Q2R (hd 0%Q tutorial_mag)).
Proof.
  intros Hsv Htot HO. destruct (square_auto sv plot strains Hsv Htot) as (out' & HO' & _ & _ & _ & _ & HD & _).
  rewrite HO in HO'. apply Ok_inj in HO'. subst out'. unfold magnitude. rewrite HD. unfold ent, tutorial_mag. cbn [nth tl hd].
  split; [repeat (apply Forall2_cons; [|]); try apply Forall2_nil|]; unfold Q2R; cbn [Qnum Qden]; apply shown_sqrt; cbn; lra.
Qed.
