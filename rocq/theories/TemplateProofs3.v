(** * Loads and runs of the models made by the script *)
From Coq Require Import String Ascii QArith Qreals Reals List ZArith Arith Bool Lra Lia Relations.
From Verif Require Import Num LinAlg Gauss Fem Uel Assem Post Pre TextIO Template Main Spec SpecAssem SpecPre SpecText SpecElem SpecPost SpecModel SpecStatic SpecPatch SpecRun SpecTemplate
  LinR Base ElemCore Sampled Elem2 MatProofs Elem2Props ShapeProofs ElemShape AssemProofs PostProofs ModelProofs ModelProofs2 ElemFinal ElemFinal2 ElemFinal3 MeshProofs
  StaticProofs StaticProofs2 StaticProofs3 ConvexProofs ImportProofs TextProofs TextGrammar TextWritten RunProofs TemplateProofs TemplateProofs2 TriModel.
Import ListNotations.
Local Open Scope R_scope.

(** ** total of the loads *)
Lemma tm_total (ids : list nat) p : rounded_to 6 (-2 / INR (length ids)) p -> ids <> [] -> Rabs (INR (length ids) * p + 2) <= INR (length ids) / 2000000.
Proof.
  intros Hp Hne. apply rounded_near in Hp. assert (Hn : 0 < INR (length ids)) by (apply lt_0_INR; destruct ids; [congruence|cbn; lia]).
  replace (INR (length ids) * p + 2) with (INR (length ids) * (p - -2 / INR (length ids))) by (field; lra).
  rewrite Rabs_mult, (Rabs_pos_eq (INR (length ids))) by lra. unfold Rdiv. apply Rmult_le_compat_l; [lra|].
  eapply Rle_trans; [exact Hp|]. cbn [pow]. lra.
Qed.
Section Model.
  Variables (points : list (list R)) (cells : dict (list (list Z))) (cell_data : dict (dict (list Z)))
            (eles : list (list Z)) (maters : list Z) (lines : list (list Z)) (bounds : list Z) (ids : list nat) (md : model).
  Hypothesis HM : template_mesh points cells cell_data eles maters lines bounds.
  Hypothesis HL : loaded lines bounds ids.
  Hypothesis HT : template_model points eles maters lines bounds ids md.

  Lemma on_line_lt tag i : on_line lines bounds tag i -> (i < length points)%nat.
  Proof.
    intros [row [Hr Hi]]. apply tagged_In in Hr. destruct HM as (_ & _ & _ & _ & _ & _ & _ & _ & HR).
    rewrite Forall_forall in HR. specialize (HR row Hr). rewrite Forall_forall in HR. specialize (HR _ Hi). lia.
  Qed.

  Lemma tm_element e : In e (md_elements md) -> exists k, (k < length eles)%nat /\ In (nth k eles []) eles /\
    e = [Z.of_nat k; 3; if (nth k maters 0 =? 100)%Z then 0 else 1]%Z ++ nth k eles [] /\ length (nth k eles []) = 3%nat /\
    Forall (fun z => (0 <= z < Z.of_nat (length points))%Z) (nth k eles []).
  Proof.
    destruct HT as (_ & _ & _ & [Le Ne] & _). intros He. apply (In_nth _ _ []) in He as [k [Hk <-]]. rewrite Le in Hk.
    exists k. split; [exact Hk|]. assert (Hin : In (nth k eles []) eles) by (apply nth_In; exact Hk). split; [exact Hin|]. split; [now apply Ne|].
    destruct HM as (_ & _ & _ & _ & _ & _ & _ & HF & _). rewrite Forall_forall in HF. apply HF. exact Hin.
  Qed.
  Lemma tm_wf : wf_model md.
  Proof.
    destruct HT as (Ln & Lc & Hn & He & Hmt & p & Hp & El). split; [|split; [congruence|split]].
    - apply Forall_forall. intros row Hin. apply (In_nth _ _ []) in Hin as [i [Hi <-]]. destruct (Hn i ltac:(lia)) as (x & y & fx & fy & _ & -> & _ & _ & Fx & Fy).
      split; [reflexivity|]. apply (flag_z _ _ (on_line_dec _ _ _ _)) in Fx. apply (flag_z _ _ (on_line_dec _ _ _ _)) in Fy. constructor; [tauto|]. constructor; [tauto|constructor].
    - apply Forall_forall. intros e Hin. destruct (tm_element e Hin) as (k & _ & _ & -> & _ & HR). cbn [app skipn]. rewrite Ln. exact HR.
    - rewrite El. apply Forall_forall. intros row Hin. apply in_map_iff in Hin as [i [<- Hi]]. split; [cbn; lia|]. exists i. split; [|reflexivity].
      rewrite Ln. apply (on_line_lt 500). now apply HL.
  Qed.

  Lemma map_lsum p (l : list nat) : lsum (fun row => nth 2 row 0) (map (fun i => [INR i; 0; p]) l) = INR (length l) * p.
  Proof.
    induction l as [|i l IH]; [unfold lsum; cbn; ring|]. cbn [map]. change (lsum ?f (?a :: ?t)) with (f a + lsum f t). rewrite IH. cbn [nth length]. rewrite S_INR. ring.
  Qed.
  Theorem total_near : ids <> [] -> Rabs (lsum (fun row => nth 2 row 0) (md_loads md) + 2) <= INR (length ids) / 2000000.
  Proof. destruct HT as (_ & _ & _ & _ & _ & p & Hp & El). intros Hne. rewrite El, map_lsum. now apply tm_total. Qed.
  Theorem total_exact m : (m * Z.of_nat (length ids) = 2000000)%Z -> lsum (fun row => nth 2 row 0) (md_loads md) = -2.
  Proof.
    destruct HT as (_ & _ & _ & _ & _ & p & Hp & El). intros Hm. rewrite El, map_lsum.
    assert (Hn : 0 < INR (length ids)) by (apply lt_0_INR; destruct (Nat.eq_dec (length ids) 0) as [E|]; [rewrite E in Hm; cbn in Hm; lia|lia]).
    assert (Hr : IZR m * INR (length ids) = 2000000) by (rewrite INR_IZR_INZ, <- mult_IZR, Hm; reflexivity).
    assert (E : -2 / INR (length ids) = IZR (- m) / 10 ^ 6).
    { rewrite opp_IZR. cbn [pow]. apply (Rmult_eq_reg_r (INR (length ids))); [|lra].
      replace (- IZR m / (10 * (10 * (10 * (10 * (10 * (10 * 1)))))) * INR (length ids)) with (- (IZR m * INR (length ids)) / 1000000) by field. rewrite Hr. field. lra. }
    rewrite E in Hp. rewrite (rounded_unique _ _ _ _ Hp (rounded_exact 6 _)), <- E. field. lra.
  Qed.

  Lemma applied_map p (l : list nat) i d : (d < 2)%nat -> forall v, fold_left (fun v row => if Req_EM_T (nth 0 row 0) (INR i) then nth (d + 1) row 0 else v) (map (fun i => [INR i; 0; p]) l) v =
    if in_dec Nat.eq_dec i l then (if (d =? 0)%nat then 0 else p) else v.
  Proof.
    intros Hd. induction l as [|j l IH]; intros v; [reflexivity|]. cbn [map fold_left]. change (nth 0 [INR j; 0; p] 0) with (INR j). rewrite IH.
    assert (Ev : nth (d + 1) [INR j; 0; p] 0 = if (d =? 0)%nat then 0 else p) by (destruct d as [|[|]]; try reflexivity; lia). rewrite Ev.
    destruct (in_dec Nat.eq_dec i l) as [Hin|Hin]; destruct (in_dec Nat.eq_dec i (j :: l)) as [Hin'|Hin']; try reflexivity.
    - exfalso. apply Hin'. now right.
    - destruct Hin' as [->|]; [|contradiction]. destruct (Req_EM_T (INR i) (INR i)); [reflexivity|congruence].
    - destruct (Req_EM_T (INR j) (INR i)) as [E|]; [|reflexivity]. apply INR_eq in E. exfalso. apply Hin'. now left.
  Qed.
  Theorem loads_applied : exists p, rounded_to 6 (-2 / INR (length ids)) p /\ forall i,
    applied (md_loads md) i 0 = 0 /\ (on_line lines bounds 500 i -> applied (md_loads md) i 1 = p) /\ (~ on_line lines bounds 500 i -> applied (md_loads md) i 1 = 0).
  Proof.
    destruct HT as (_ & _ & _ & _ & _ & p & Hp & El). exists p. split; [exact Hp|]. intros i. unfold applied. rewrite El, !applied_map by lia. cbn [Nat.eqb].
    destruct (in_dec Nat.eq_dec i ids) as [Hin|Hin]; (split; [reflexivity|]); split; intros H; try reflexivity; exfalso; apply Hin || apply H; now apply HL.
  Qed.
  Lemma rsum_in p (l : list nat) N : NoDup l -> Forall (fun i => (i < N)%nat) l -> rsum N (fun i => if in_dec Nat.eq_dec i l then p else 0) = INR (length l) * p.
  Proof.
    induction l as [|j l IH]; intros HN HF; [rewrite rsum_zero; [cbn; ring|reflexivity]|]. inversion HN as [|? ? N1 N2]. inversion HF as [|? ? F1 F2]. subst.
    cbn [length]. rewrite S_INR, Rmult_plus_distr_r, Rmult_1_l, <- IH by assumption.
    rewrite (rsum_ext N _ (fun i => (if in_dec Nat.eq_dec i l then p else 0) + (if (i =? j)%nat then p else 0))).
    - rewrite rsum_plus. f_equal. rewrite (rsum_single N j); [now rewrite Nat.eqb_refl|exact F1|]. intros i Hi Hne; destruct (Nat.eqb_spec i j); [contradiction|reflexivity].
    - intros i Hi. destruct (Nat.eqb_spec i j) as [->|Hne]; destruct (in_dec Nat.eq_dec _ (j :: l)) as [H1|H1]; destruct (in_dec Nat.eq_dec _ l) as [H2|H2]; try ring; exfalso.
      + apply N1, H2.
      + apply H1. now left.
      + apply H1. now left.
      + destruct H1 as [->|]; [now apply Hne|contradiction].
      + apply H1. now right.
  Qed.
  Lemma applied_sum : exists p, rounded_to 6 (-2 / INR (length ids)) p /\
    rsum (length (md_nodes md)) (fun i => applied (md_loads md) i 0) = 0 /\ rsum (length (md_nodes md)) (fun i => applied (md_loads md) i 1) = INR (length ids) * p.
  Proof.
    destruct HT as (Ln & _ & _ & _ & _ & p & Hp & El). exists p. split; [exact Hp|]. split.
    - apply rsum_zero. intros i _. unfold applied. rewrite El, applied_map by lia. destruct (in_dec Nat.eq_dec i ids); reflexivity.
    - rewrite <- (rsum_in p ids (length (md_nodes md))); [|apply HL|apply Forall_forall; intros i Hi; rewrite Ln; apply (on_line_lt 500); now apply HL].
      apply rsum_ext. intros i _. unfold applied. rewrite El, applied_map by lia. reflexivity.
  Qed.

  Lemma tm_tri : tri_model points eles lines bounds 300 400 (fun k => if (nth k maters 0 =? 100)%Z then 0 else 1)%Z md.
  Proof.
    pose proof tm_wf as (_ & _ & _ & Hld). destruct HM as (_ & _ & _ & _ & _ & _ & _ & HF & HR). destruct HT as (Ln & Lc & Hn & [Le Ne] & Hmt & _).
    repeat (split; [assumption|]). split; [|exact Hld]. intros k _. rewrite Hmt. destruct (nth k maters 0 =? 100)%Z; [exists 1, (3/10)|exists 5, (3/10)]; (split; [lra|split; [lra|reflexivity]]).
  Qed.
End Model.

(** ** whole runs *)
Theorem script_run sv s fs points cells cell_data eles maters lines bounds gui prompt : set_order s -> template_mesh points cells cell_data eles maters lines bounds ->
  (exists i, on_line lines bounds 500 i) -> Forall (sturdy points) eles -> mesh_connected points eles -> mesh_held points lines bounds ->
  (exists i, (i < length points)%nat /\ (~ on_line lines bounds 300 i \/ ~ on_line lines bounds 400 i)) -> solver_ok sv -> solver_total sv ->
  exists fs' ids md out, template s fs points cells cell_data = Ok fs' /\ loaded lines bounds ids /\ template_model points eles maters lines bounds ids md /\
    solids_GUI sv fs' gui prompt false false (Some ""%string) = Ok out /\ in_equilibrium md (table out) /\ out_warn out = false /\
    rsum (length points) (fun i => reaction md (table out) i 0) = 0 /\
    Rabs (rsum (length points) (fun i => reaction md (table out) i 1) - 2) <= INR (length ids) / 2000000.
Proof.
  intros Hs HM Hl HS HC HH Hf Hsv Hst. destruct (script_read s fs _ _ _ _ _ _ _ Hs HM Hl) as (fs' & md & ids & E & Hsh & HL & HT).
  destruct (tr_run _ _ _ _ _ _ _ _ (tm_tri _ _ _ _ _ _ _ _ _ HM HL HT) HS HC HH sv fs' gui prompt Hsh Hf Hsv Hst) as (out & HO & HE & HW & HB). pose proof HT as (Ln & _).
  exists fs', ids, md, out. split; [exact E|]. split; [exact HL|]. split; [exact HT|]. split; [exact HO|]. split; [exact HE|]. split; [exact HW|].
  destruct (applied_sum _ _ _ _ _ _ _ _ _ HM HL HT) as (p & Hp & S0 & S1). rewrite Ln in S0, S1.
  pose proof (HB 0%nat ltac:(lia)) as B0. pose proof (HB 1%nat ltac:(lia)) as B1. rewrite S0 in B0. rewrite S1 in B1. split; [lra|].
  assert (Hne : ids <> []). { destruct Hl as [i Hi]. apply HL in Hi. intros K. rewrite K in Hi. exact Hi. }
  pose proof (tm_total ids p Hp Hne) as B. replace (rsum (length points) (fun i => reaction md (table out) i 1) - 2) with (- (INR (length ids) * p + 2)) by lra. rewrite Rabs_Ropp. exact B.
Qed.
