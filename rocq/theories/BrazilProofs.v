(** * Proofs about the script of the Brazilian test *)
From Coq Require Import String Ascii QArith Qreals Reals List ZArith Arith Bool Lra Lia.
From Verif Require Import Num LinAlg Pre TextIO Template Brazil Spec SpecPre SpecText SpecModel SpecRun SpecTemplate SpecBrazil LinR Base AssemProofs PostProofs ModelProofs ImportProofs TextProofs TextGrammar TextWritten
  TemplateProofs TemplateProofs2.
Import ListNotations.
Local Open Scope R_scope.

Local Notation count4 maters := (count_occ Z.eq_dec maters 4%Z).
Lemma count4_filter maters : length (filter (fun m => (m =? 4)%Z) maters) = count4 maters.
Proof. induction maters as [|m l IH]; [reflexivity|]. cbn [filter count_occ]. destruct (Z.eqb_spec m 4); destruct (Z.eq_dec m 4); try contradiction; cbn [length]; congruence. Qed.
Lemma ones (l : list Z) : map (fun _ => 1%Z) l = repeat 1%Z (length l).
Proof. induction l as [|a l IH]; [reflexivity|]. cbn [map length repeat]. now rewrite IH. Qed.
Lemma profiles_ok n maters : (count4 maters = n \/ count4 maters = 1%nat) -> brazil_profiles n maters = Ok (repeat 1%Z n).
Proof.
  intros H. unfold brazil_profiles, broadcast. rewrite ones, repeat_length, count4_filter. destruct (Nat.eqb_spec (count4 maters) n) as [E|Ne]; [now rewrite E|].
  destruct H as [H|H]; [contradiction|]. rewrite H. reflexivity.
Qed.
Lemma profiles_bad n maters : count4 maters <> n -> count4 maters <> 1%nat -> brazil_profiles n maters = Err (ValueError "could not broadcast input array").
Proof.
  intros H1 H2. unfold brazil_profiles, broadcast. rewrite ones, repeat_length, count4_filter. destruct (Nat.eqb_spec (count4 maters) n) as [E|_]; [contradiction|].
  destruct (count4 maters) as [|[|k]]; [reflexivity|lia|reflexivity].
Qed.

Section Script.
  Variables (points : list (list R)) (cells : dict (list (list Z))) (cell_data : dict (dict (list Z)))
            (eles : list (list Z)) (maters : list Z) (lines : list (list Z)) (bounds : list Z).
  Hypothesis HM : template_mesh points cells cell_data eles maters lines bounds.

  Lemma br_in tag z : In z (concat (tagged lines bounds tag)) -> (0 <= z < Z.of_nat (length points))%Z.
  Proof.
    intros Hz. apply in_concat in Hz as [row [Hr Hz]]. apply tagged_In in Hr. destruct HM as (_ & _ & _ & _ & _ & _ & _ & _ & HR).
    rewrite Forall_forall in HR. specialize (HR row Hr). rewrite Forall_forall in HR. exact (HR z Hz).
  Qed.
  Lemma br_nodes : exists a tab, node_writer points = Ok a /\ brazil_flags a cells cell_data = Ok tab /\ length tab = length points /\
    forall i, (i < length points)%nat -> exists fx fy, nth i tab [] = [INR i; ent points i 0; ent points i 1; fx; fy] /\
      flag_is (on_line lines bounds 1 i) fx /\ flag_is (on_line lines bounds 2 i) fy.
  Proof.
    pose proof HM as HM'. destruct HM' as (HP & _). destruct (node_writer_ok points HP) as (a & Ea & La & Na). exists a.
    unfold brazil_flags. rewrite !(line_flat points cells cell_data eles maters lines bounds HM). cbn [bind].
    assert (R5 : forall i, (i < length points)%nat -> length (nth i a []) = 5%nat) by (intros i Hi; now rewrite Na).
    destruct (set_col_ok 3 (-1) (length points) (concat (tagged lines bounds 1)) a La) as (a1 & E1 & L1 & S1 & X1).
    { apply Forall_forall. intros row Hin. apply (In_nth _ _ []) in Hin as [i [Hi <-]]. rewrite R5 by lia. lia. }
    { intros z Hz. exact (br_in 1 z Hz). }
    change (@nz R Num_R (-1)) with (-1)%R. change 3%Z with (Z.of_nat 3). rewrite E1. cbn [bind].
    destruct (set_col_ok 4 (-1) (length points) (concat (tagged lines bounds 2)) a1 L1) as (a2 & E2 & L2 & S2 & X2).
    { apply Forall_forall. intros row Hin. apply (In_nth _ _ []) in Hin as [i [Hi <-]]. rewrite S1, R5 by lia. lia. }
    { intros z Hz. exact (br_in 2 z Hz). }
    change 4%Z with (Z.of_nat 4). rewrite E2. exists a2. split; [exact Ea|]. split; [reflexivity|]. split; [exact L2|]. intros i Hi.
    assert (HO : forall tag, In (Z.of_nat i) (concat (tagged lines bounds tag)) <-> on_line lines bounds tag i) by (intros tag; apply in_concat_line).
    exists (ent a2 i 3), (ent a2 i 4). split.
    - assert (L : length (nth i a2 []) = 5%nat) by (rewrite S2, S1; now apply R5).
      assert (Z0 : forall k, (k < 3)%nat -> ent a2 i k = ent a i k) by (intros k Hk; rewrite (proj2 (X2 i k)) by lia; apply (proj2 (X1 i k)); lia).
      assert (E0 := Z0 0%nat ltac:(lia)). assert (E01 := Z0 1%nat ltac:(lia)). assert (E02 := Z0 2%nat ltac:(lia)). unfold ent in *. rewrite Na in E0, E01, E02 by exact Hi.
      cbn [nth] in E0, E01, E02. destruct (nth i a2 []) as [|v0 [|v1 [|v2 [|v3 [|v4 [|]]]]]]; try discriminate. cbn [nth] in *. now subst.
    - split; (split; intros H).
      + rewrite (proj2 (X2 i 3%nat)) by lia. apply (proj1 (X1 i 3%nat)). split; [now apply HO|reflexivity].
      + rewrite (proj2 (X2 i 3%nat)) by lia. rewrite (proj2 (X1 i 3%nat)) by (rewrite HO; tauto). unfold ent. now rewrite Na.
      + apply (proj1 (X2 i 4%nat)). split; [now apply HO|reflexivity].
      + rewrite (proj2 (X2 i 4%nat)) by (rewrite HO; tauto). rewrite (proj2 (X1 i 4%nat)) by lia. unfold ent. now rewrite Na.
  Qed.

  (** what the script does up to the materials *)
  Lemma br_start fs marked : has_key cells "vertex"%string (map (fun v => [Z.of_nat v]) marked) ->
    exists tab, length tab = length points /\
    (forall i, (i < length points)%nat -> exists fx fy, nth i tab [] = [INR i; ent points i 0; ent points i 1; fx; fy] /\
      flag_is (on_line lines bounds 1 i) fx /\ flag_is (on_line lines bounds 2 i) fy) /\
    brazil fs points cells cell_data =
      (ids <- vertex_ids (map (fun v => [Z.of_nat v]) marked) ;;
       profiles <- brazil_profiles (length eles) maters ;;
       Ok (write_file (write_file (write_file (write_file fs "eles.txt"%string (savetxt fmt_d (map (fun kpr => Z.of_nat (fst kpr) :: 3%Z :: fst (snd kpr) :: snd (snd kpr))
              (combine (seq 0 (length eles)) (combine profiles eles)))))
            "nodes.txt"%string (savetxt_columns node_cols tab)) "loads.txt"%string (savetxt_columns load_cols (map (fun v => [IZR v; 0; -1000000000]) ids)))
            "mater.txt"%string (savetxt (fmt_f 6) brazil_mats))).
  Proof.
    intros HV. destruct br_nodes as (a & tab & Ea & Et & Lt & Ht). exists tab. split; [exact Lt|]. split; [exact Ht|].
    destruct HM as (_ & HE & HLn & (d & Hd & Hm) & (d' & Hd' & Hb) & Lm & Lb & HF & _). apply has_key_dget in HE, HLn, Hd, Hm, Hd', Hb, HV. unfold brazil, dict in *.
    rewrite HE. cbn [bind]. rewrite (mapM_total _ (fun r => r)).
    2: { intros row Hr. rewrite Forall_forall in HF. destruct (HF row Hr) as [L _]. unfold broadcast. now rewrite L. }
    rewrite map_id. cbn [bind]. rewrite Ea. cbn [bind]. rewrite HLn. cbn [bind]. rewrite Hd'. cbn [bind]. rewrite Hb. cbn [bind]. rewrite HV. cbn [bind].
    destruct (vertex_ids _) as [ids|er]; [|reflexivity]. cbn [bind]. rewrite Et. cbn [bind]. rewrite Hd. cbn [bind]. rewrite Hm. cbn [bind].
    destruct (brazil_profiles _ _) as [pr|er]; [|reflexivity]. cbn [bind]. numR. reflexivity.
  Qed.
End Script.

Lemma vertex_one marked : length marked <> 1%nat -> vertex_ids (map (fun v => [Z.of_nat v]) marked) = Err (ValueError "could not broadcast input array").
Proof. intros H. destruct marked as [|a [|b l]]; [reflexivity|cbn in H; lia|reflexivity]. Qed.

Theorem brazil_vertices fs points cells cell_data eles maters lines bounds marked : brazil_mesh points cells cell_data eles maters lines bounds marked ->
  (2 <= length marked)%nat -> brazil fs points cells cell_data = Err (ValueError "could not broadcast input array").
Proof.
  intros (HM & HV & _) Hn. destruct (br_start _ _ _ _ _ _ _ HM fs marked HV) as (tab & _ & _ & ->). rewrite (vertex_one marked) by lia. reflexivity.
Qed.
Theorem brazil_groups fs points cells cell_data eles maters lines bounds marked : brazil_mesh points cells cell_data eles maters lines bounds marked ->
  count4 maters <> length eles -> count4 maters <> 1%nat -> brazil fs points cells cell_data = Err (ValueError "could not broadcast input array").
Proof.
  intros (HM & HV & _) H1 H2. destruct (br_start _ _ _ _ _ _ _ HM fs marked HV) as (tab & _ & _ & ->).
  destruct marked as [|v [|]]; [reflexivity| |reflexivity]. cbn [map vertex_ids bind]. rewrite profiles_bad by assumption. reflexivity.
Qed.

Lemma row_len5 points lines bounds (tab : list (list R)) : length tab = length points ->
  (forall i, (i < length points)%nat -> exists fx fy, nth i tab [] = [INR i; ent points i 0; ent points i 1; fx; fy] /\ flag_is (on_line lines bounds 1 i) fx /\ flag_is (on_line lines bounds 2 i) fy) ->
  Forall (fun row => length row = 5%nat) tab.
Proof. intros L H. apply Forall_forall. intros row Hin. apply (In_nth _ _ []) in Hin as [i [Hi <-]]. destruct (H i ltac:(lia)) as (fx & fy & -> & _). reflexivity. Qed.

Theorem brazil_read fs points cells cell_data eles maters lines bounds v : brazil_mesh points cells cell_data eles maters lines bounds [v] ->
  (count4 maters = length eles \/ count4 maters = 1%nat) ->
  exists fs' md, brazil fs points cells cell_data = Ok fs' /\ files_show fs' (fun f => f) md /\ brazil_model (fun _ => 1%Z) points eles maters lines bounds [v] md /\
    forall p, ~ In p ["nodes.txt"; "eles.txt"; "loads.txt"; "mater.txt"]%string -> fs' p = fs p.
Proof.
  intros (HM & HV & Hr) HC. destruct (br_start _ _ _ _ _ _ _ HM fs [v] HV) as (nodes & Ln & Hn & EB). cbn [map vertex_ids bind] in EB. rewrite (profiles_ok _ _ HC) in EB. cbn [bind map] in EB.
  set (els := map _ (combine (seq 0 (length eles)) _)) in EB.
  assert (HE : length els = length eles /\ forall e, (e < length eles)%nat -> nth e els [] = [Z.of_nat e; 3; 1]%Z ++ nth e eles []).
  { unfold els. split; [rewrite map_length, !combine_length, seq_length, repeat_length; lia|]. intros e He.
    rewrite (map_nth_def _ _ _ (0%nat, (0%Z, []))) by (rewrite !combine_length, seq_length, repeat_length; lia).
    rewrite combine_nth by (rewrite combine_length, seq_length, repeat_length; lia). rewrite combine_nth by (rewrite repeat_length; reflexivity).
    rewrite seq_nth by exact He. cbn [fst snd Nat.add]. rewrite (nth_indep _ 0%Z 1%Z) by (rewrite repeat_length; exact He). rewrite nth_repeat. reflexivity. }
  clearbody els. destruct HE as [Le Ne]. set (tab := map (fun row => map col_val (combine node_cols row)) nodes).
  eexists _, (mkModel (map (firstn 3) tab) (map (skipn 3) tab) els [[70000000000; 35/100]; [70000000000; 35/100]] [[INR v; 0; -1000000000]]).
  assert (T0 : forall n, IZR (@ntrunc R Num_R (INR n)) = INR n) by (intros n; change (@ntrunc R Num_R) with Rtrunc; rewrite INR_Rtrunc, <- INR_IZR_INZ; reflexivity).
  pose proof (row_len5 _ _ _ _ Ln Hn) as H5.
  split; [exact EB|]. split; [|split].
  - eexists _, _, _, _, tab. split; [reflexivity|]. split; [reflexivity|]. split; [reflexivity|]. split; [reflexivity|]. cbn [md_mats md_elements md_loads md_nodes md_cons].
    split; [apply columns_shown; [discriminate|exact H5]|].
    split; [|split; [|split; [|split; [|split; reflexivity]]]].
    + apply (load_iff parse_num number_is number_iff).
      rewrite (load_save (fmt_f 6) (fmt_f 6) parse_num (rd 6)).
      * unfold brazil_mats. cbn [map nz nofQ Num_R].
        rewrite (rd_exact 6 70000000000 70000000000000000), (rd_exact 6 (Q2R 0.35) 350000) by (unfold Q2R; cbn [Qnum Qden pow]; lra).
        reflexivity.
      * intros a. exists ""%string. split; [reflexivity|]. split; [reflexivity|]. apply fmt_f_token.
      * intros a. apply number_iff, fixed_number, fmt_f_fixed.
      * repeat constructor; discriminate.
      * intros r1 r2 [<-|[<-|[]]] [<-|[<-|[]]]; reflexivity.
    + apply (load_iff parse_int integer_is integer_iff).
      destruct HM as (_ & _ & _ & _ & _ & _ & _ & HF & _). rewrite Forall_forall in HF.
      assert (L6 : forall row, In row els -> length row = 6%nat).
      { intros row Hin. apply (In_nth _ _ []) in Hin as [e [Hel <-]]. rewrite Ne by lia. rewrite app_length. destruct (HF (nth e eles [])) as [-> _]; [apply nth_In; lia|]. reflexivity. }
      apply ints_round_trip; [|intros r1 r2 H1 H2; now rewrite (L6 r1 H1), (L6 r2 H2)].
      apply Forall_forall. intros row Hin K. apply L6 in Hin. subst row. discriminate.
    + rewrite <- INR_IZR_INZ.
      assert (EL : map (fun row => map col_val (combine load_cols row)) [[INR v; 0; -1000000000]] = [[INR v; 0; -1000000000]]).
      { cbn [map load_cols combine col_val fst snd]. rewrite T0. rewrite (rd_exact 6 0 0) by (cbn [pow]; lra).
        rewrite (rd_exact 6 (-1000000000) (-1000000000000000)) by (cbn [pow]; lra). reflexivity. }
      rewrite <- EL at 2. apply columns_shown; [discriminate|]. apply Forall_cons; [reflexivity|constructor].
    + unfold tab. apply Forall_forall. intros row Hin. apply in_map_iff in Hin as [r [<- Hin]]. rewrite Forall_forall in H5.
      rewrite map_length, combine_length, (H5 r Hin). reflexivity.
  - assert (Lt : length tab = length points) by (unfold tab; now rewrite map_length).
    split; [cbn; now rewrite map_length|]. split; [cbn; now rewrite map_length|]. cbn [md_mats md_elements md_loads md_nodes md_cons]. split; [|split; [exact Le|split; [exact Ne|split; reflexivity]]].
    intros i Hi'. destruct (Hn i Hi') as (fx & fy & Er & Hx & Hy). exists (rd 4 (ent points i 0)), (rd 4 (ent points i 1)), fx, fy.
    assert (Et : nth i tab [] = [INR i; rd 4 (ent points i 0); rd 4 (ent points i 1); fx; fy]).
    { unfold tab. rewrite (map_nth_def _ _ _ []) by lia. rewrite Er. cbn [node_cols combine map col_val fst snd]. rewrite T0.
      assert (Tf : forall v, v = -1 \/ v = 0 -> IZR (@ntrunc R Num_R v) = v) by (intros w [-> | ->]; change (@ntrunc R Num_R) with Rtrunc; rewrite Rtrunc_IZR; reflexivity).
      rewrite !Tf; [reflexivity|apply (flag_z _ _ (on_line_dec _ _ _ _) Hy)|apply (flag_z _ _ (on_line_dec _ _ _ _) Hx)]. }
    rewrite !(map_nth_def _ _ _ []) by lia. rewrite Et. split; [reflexivity|]. split; [reflexivity|]. split; [apply rd_rounded|]. split; [apply rd_rounded|]. split; assumption.
  - intros p Hp. cbn [In] in Hp. unfold write_file.
    repeat match goal with |- context [String.eqb p ?q] => destruct (String.eqb_spec p q) as [E|_]; [exfalso; subst p; tauto|] end. reflexivity.
Qed.
