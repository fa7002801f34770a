(** * Models made by the script *)
From Coq Require Import String Ascii QArith Qreals Reals List ZArith Arith Bool Lra Lia Relations.
From Verif Require Import Num LinAlg Gauss Fem Uel Assem Post Pre TextIO Template Main Spec SpecAssem SpecPre SpecText SpecElem SpecPost SpecModel SpecStatic SpecPatch SpecRun SpecTemplate
  LinR Base ElemCore Sampled Elem2 MatProofs Elem2Props ShapeProofs ElemShape AssemProofs PostProofs ModelProofs ModelProofs2 ElemFinal ElemFinal2 ElemFinal3 MeshProofs
  StaticProofs StaticProofs2 StaticProofs3 ConvexProofs ImportProofs TextProofs TextGrammar TextWritten RunProofs TemplateProofs.
Import ListNotations.
Local Open Scope R_scope.

Definition node_cols : list column := [Col_d; Col_f 4; Col_f 4; Col_d; Col_d].
Definition load_cols : list column := [Col_d; Col_f 6; Col_f 6].

Lemma script_files s fs points cells cell_data eles maters lines bounds : set_order s -> template_mesh points cells cell_data eles maters lines bounds ->
  (exists i, on_line lines bounds 500 i) ->
  exists fs' nodes els ids, template s fs points cells cell_data = Ok fs' /\ node_table points lines bounds nodes /\ element_table eles maters els /\
    loaded lines bounds ids /\ ids <> [] /\ Forall (fun i => (i < length points)%nat) ids /\
    fs' "nodes.txt"%string = Some (savetxt_columns node_cols nodes) /\ fs' "eles.txt"%string = Some (savetxt fmt_d els) /\
    fs' "loads.txt"%string = Some (savetxt_columns load_cols (map (fun i => [INR i; 0; -2 / INR (length ids)]) ids)) /\
    fs' "mater.txt"%string = Some (savetxt (fmt_f 6) template_mats) /\
    forall p, ~ In p ["nodes.txt"; "eles.txt"; "loads.txt"; "mater.txt"]%string -> fs' p = fs p.
Proof.
  intros Hs HM Hl. destruct (elements_ok _ _ _ _ _ _ _ HM) as (els & Ee & He). destruct (nodes_ok s _ _ _ _ _ _ _ Hs HM) as (nodes & En & Hn).
  destruct (loads_ok s _ _ _ _ _ _ _ Hs HM Hl) as (ids & Hi & Hne & Hr & El).
  eexists _, nodes, els, ids. split; [unfold template; rewrite Ee; cbn [bind]; rewrite En; cbn [bind]; rewrite El; cbn [bind]; reflexivity|].
  split; [exact Hn|]. split; [exact He|]. split; [exact Hi|]. split; [exact Hne|]. split; [exact Hr|].
  repeat split; try reflexivity. intros p Hp. cbn [In] in Hp. unfold write_file.
  repeat match goal with |- context [String.eqb p ?q] => destruct (String.eqb_spec p q) as [E|_]; [exfalso; subst p; tauto|] end. reflexivity.
Qed.

Lemma node_row_len points lines bounds nodes : node_table points lines bounds nodes -> Forall (fun row => length row = 5%nat) nodes.
Proof.
  intros [L H]. apply Forall_forall. intros row Hin. apply (In_nth _ _ []) in Hin as [i [Hi <-]]. destruct (H i ltac:(lia)) as (fx & fy & -> & _). reflexivity.
Qed.
Lemma flag_z P v : (P \/ ~ P) -> flag_is P v -> v = -1 \/ v = 0.
Proof. intros [H|H] [A B]; auto. Qed.
Lemma on_line_dec lines bounds tag i : on_line lines bounds tag i \/ ~ on_line lines bounds tag i.
Proof. destruct (in_dec Z.eq_dec (Z.of_nat i) (concat (tagged lines bounds tag))) as [H|H]; rewrite in_concat_line in H; auto. Qed.

Theorem script_written s fs points cells cell_data eles maters lines bounds : set_order s -> template_mesh points cells cell_data eles maters lines bounds ->
  (exists i, on_line lines bounds 500 i) ->
  exists fs' nodes els ids, template s fs points cells cell_data = Ok fs' /\ node_table points lines bounds nodes /\ element_table eles maters els /\ loaded lines bounds ids /\
    (exists t, fs' "nodes.txt"%string = Some t /\ columns_text [whole_is; fixed_is 4; fixed_is 4; whole_is; whole_is] t nodes) /\
    (exists t, fs' "eles.txt"%string = Some t /\ file_text d_is t els) /\
    (exists t, fs' "loads.txt"%string = Some t /\ columns_text [whole_is; fixed_is 6; fixed_is 6] t (map (fun i => [INR i; 0; -2 / INR (length ids)]) ids)) /\
    (exists t, fs' "mater.txt"%string = Some t /\ file_text (fixed_is 6) t [[1; 3/10]; [5; 3/10]]) /\
    forall p, ~ In p ["nodes.txt"; "eles.txt"; "loads.txt"; "mater.txt"]%string -> fs' p = fs p.
Proof.
  intros Hs HM Hl. destruct (script_files s fs _ _ _ _ _ _ _ Hs HM Hl) as (fs' & nodes & els & ids & E & Hn & He & Hi & Hne & Hr & F1 & F2 & F3 & F4 & F5).
  exists fs', nodes, els, ids. split; [exact E|]. split; [exact Hn|]. split; [exact He|]. split; [exact Hi|]. split; [|split; [|split; [|split; [|exact F5]]]].
  - eexists. split; [exact F1|]. apply (columns_written node_cols); [exact (node_row_len _ _ _ _ Hn)|].
    destruct Hn as [L H]. apply Forall_forall. intros row Hin. apply (In_nth _ _ []) in Hin as [i [Hi' <-]]. destruct (H i ltac:(lia)) as (fx & fy & -> & Hx & Hy).
    assert (Zf : forall v, v = -1 \/ v = 0 -> exists z, v = IZR z) by (intros v [-> | ->]; [exists (-1)%Z|exists 0%Z]; reflexivity).
    apply (flag_z _ _ (on_line_dec _ _ _ _)) in Hx. apply (flag_z _ _ (on_line_dec _ _ _ _)) in Hy.
    cbn [node_cols combine In]. intros x [K|[K|[K|[K|[K|[]]]]]]; try discriminate; injection K as <-; auto. exists (Z.of_nat i). apply INR_IZR_INZ.
  - eexists. split; [exact F2|]. exact (saved _ _ fmt_d_is els).
  - eexists. split; [exact F3|]. apply (columns_written load_cols).
    + apply Forall_forall. intros row Hin. apply in_map_iff in Hin as [i [<- _]]. reflexivity.
    + apply Forall_forall. intros row Hin. apply in_map_iff in Hin as [i [<- _]]. cbn [load_cols combine In]. intros x [K|[K|[K|[]]]]; try discriminate; injection K as <-.
      exists (Z.of_nat i). apply INR_IZR_INZ.
  - eexists. split; [exact F4|]. replace (@template_mats R Num_R) with [[1; 3/10]; [5; 3/10]]; [exact (saved _ _ (fmt_f_fixed 6) _)|].
    unfold template_mats. cbn [nz nofQ Num_R]. unfold Q2R. cbn [Qnum Qden]. repeat (apply f_equal2; [|]); try reflexivity; lra.
Qed.

(** ** the files read back *)
Theorem script_read s fs points cells cell_data eles maters lines bounds : set_order s -> template_mesh points cells cell_data eles maters lines bounds ->
  (exists i, on_line lines bounds 500 i) ->
  exists fs' md ids, template s fs points cells cell_data = Ok fs' /\ files_show fs' (fun f => f) md /\ loaded lines bounds ids /\ template_model points eles maters lines bounds ids md.
Proof.
  intros Hs HM Hl. destruct (script_files s fs _ _ _ _ _ _ _ Hs HM Hl) as (fs' & nodes & els & ids & E & Hn & He & Hi & Hne & Hr & F1 & F2 & F3 & F4 & F5).
  set (tab := map (fun row => map col_val (combine node_cols row)) nodes).
  exists fs', (mkModel (map (firstn 3) tab) (map (skipn 3) tab) els [[1; 3/10]; [5; 3/10]] (map (fun i => [INR i; 0; rd 6 (-2 / INR (length ids))]) ids)), ids.
  assert (T0 : forall n, IZR (@ntrunc R Num_R (INR n)) = INR n) by (intros n; change (@ntrunc R Num_R) with Rtrunc; rewrite INR_Rtrunc, <- INR_IZR_INZ; reflexivity).
  split; [exact E|]. split; [|split; [exact Hi|]].
  - eexists _, _, _, _, tab. split; [exact F1|]. split; [exact F4|]. split; [exact F2|]. split; [exact F3|]. cbn [md_mats md_elements md_loads md_nodes md_cons].
    split; [apply columns_shown; [discriminate|exact (node_row_len _ _ _ _ Hn)]|].
    split; [|split; [|split; [|split; [|split; reflexivity]]]].
    + apply (load_iff parse_num number_is number_iff).
      rewrite (load_save (fmt_f 6) (fmt_f 6) parse_num (rd 6)).
      * unfold template_mats. cbn [map nz nofQ Num_R].
        rewrite (rd_exact 6 1 1000000), (rd_exact 6 5 5000000), (rd_exact 6 (Q2R 0.30) 300000) by (unfold Q2R; cbn [Qnum Qden pow]; lra).
        f_equal. unfold Q2R. cbn [Qnum Qden]. repeat (apply f_equal2; [|]); try reflexivity; lra.
      * intros a. exists ""%string. split; [reflexivity|]. split; [reflexivity|]. apply fmt_f_token.
      * intros a. apply number_iff, fixed_number, fmt_f_fixed.
      * repeat constructor; discriminate.
      * intros r1 r2 [<-|[<-|[]]] [<-|[<-|[]]]; reflexivity.
    + apply (load_iff parse_int integer_is integer_iff). destruct He as [Le Ne].
      destruct HM as (_ & _ & _ & _ & _ & _ & _ & HF & _). rewrite Forall_forall in HF.
      assert (L6 : forall row, In row els -> length row = 6%nat).
      { intros row Hin. apply (In_nth _ _ []) in Hin as [e [Hel <-]]. rewrite Ne by lia. rewrite app_length. destruct (HF (nth e eles [])) as [-> _]; [apply nth_In; lia|]. reflexivity. }
      apply ints_round_trip; [|intros r1 r2 H1 H2; now rewrite (L6 r1 H1), (L6 r2 H2)].
      apply Forall_forall. intros row Hin K. apply L6 in Hin. subst row. discriminate.
    + replace (map (fun i => [INR i; 0; rd 6 (-2 / INR (length ids))]) ids) with (map (fun row => map col_val (combine load_cols row)) (map (fun i => [INR i; 0; -2 / INR (length ids)]) ids)).
      * apply columns_shown; [discriminate|]. apply Forall_forall. intros row Hin. apply in_map_iff in Hin as [i [<- _]]. reflexivity.
      * rewrite map_map. apply map_ext. intros i. cbn [load_cols combine map col_val fst snd]. rewrite T0. rewrite (rd_exact 6 0 0) by (cbn [pow]; lra). reflexivity.
    + unfold tab. apply Forall_forall. intros row Hin. apply in_map_iff in Hin as [r [<- Hin]]. pose proof (node_row_len _ _ _ _ Hn) as H5. rewrite Forall_forall in H5.
      rewrite map_length, combine_length, (H5 r Hin). reflexivity.
  - destruct Hn as [Ln Hn]. assert (Lt : length tab = length points) by (unfold tab; now rewrite map_length).
    split; [cbn; now rewrite map_length|]. split; [cbn; now rewrite map_length|]. cbn [md_mats md_elements md_loads md_nodes md_cons]. split; [|split; [exact He|split; [reflexivity|]]].
    + intros i Hi'. destruct (Hn i Hi') as (fx & fy & Er & Hx & Hy). exists (rd 4 (ent points i 0)), (rd 4 (ent points i 1)), fx, fy.
      assert (Et : nth i tab [] = [INR i; rd 4 (ent points i 0); rd 4 (ent points i 1); fx; fy]).
      { unfold tab. rewrite (map_nth_def _ _ _ []) by lia. rewrite Er. cbn [node_cols combine map col_val fst snd]. rewrite T0.
        assert (Tf : forall v, v = -1 \/ v = 0 -> IZR (@ntrunc R Num_R v) = v) by (intros v [-> | ->]; change (@ntrunc R Num_R) with Rtrunc; rewrite Rtrunc_IZR; reflexivity).
        rewrite !Tf; [reflexivity|apply (flag_z _ _ (on_line_dec _ _ _ _) Hy)|apply (flag_z _ _ (on_line_dec _ _ _ _) Hx)]. }
      rewrite !(map_nth_def _ _ _ []) by lia. rewrite Et. split; [reflexivity|]. split; [reflexivity|]. split; [apply rd_rounded|]. split; [apply rd_rounded|]. split; assumption.
    + exists (rd 6 (-2 / INR (length ids))). split; [apply rd_rounded|reflexivity].
Qed.
Theorem script_refused s fs points cells cell_data eles maters lines bounds : set_order s -> template_mesh points cells cell_data eles maters lines bounds ->
  (forall i, ~ on_line lines bounds 500 i) -> template s fs points cells cell_data = Err ZeroDivisionError.
Proof.
  intros Hs HM Hl. destruct (elements_ok _ _ _ _ _ _ _ HM) as (els & Ee & He). destruct (nodes_ok s _ _ _ _ _ _ _ Hs HM) as (nodes & En & Hn).
  unfold template. rewrite Ee. cbn [bind]. rewrite En. cbn [bind]. rewrite (loads_none s _ _ _ _ _ _ _ Hs HM Hl). reflexivity.
Qed.
