(** * Lemmas on the plot of a truss *)
From Coq Require Import String Reals List Arith Lia Lra Bool ZArith QArith Qreals.
From Verif Require Import Num LinAlg Assem Post PlotTruss Spec LinR Base SpecModel SpecPlot PostProofs PostTotal ElemFinal3 StaticProofs3.
Import ListNotations.
Local Open Scope R_scope.

Lemma fold_min_spec (l : list R) x : (forall y, In y (x :: l) -> fold_left nmin l x <= y) /\ In (fold_left nmin l x) (x :: l).
Proof.
  revert x. induction l as [|y l IH]; intros x; cbn [fold_left].
  - split; [intros y [<-|[]]; lra|left; reflexivity].
  - destruct (IH (nmin x y)) as [A B]. split.
    + intros z [<-|[<-|Hz]].
      * eapply Rle_trans; [apply A; left; reflexivity|]. unfold nmin. cbn. destruct (Rle_dec x y); lra.
      * eapply Rle_trans; [apply A; left; reflexivity|]. unfold nmin. cbn. destruct (Rle_dec x y); lra.
      * apply A. right. exact Hz.
    + destruct B as [B|B].
      * rewrite <- B. unfold nmin. cbn. destruct (Rle_dec x y); auto.
      * right. right. exact B.
Qed.
Lemma arr_min_spec (a : list R) : a <> [] -> exists m, arr_min a = Ok m /\ least a m.
Proof.
  intros Ha. destruct a as [|x l]; [contradiction|]. destruct (fold_min_spec l x) as [A B].
  eexists. split; [reflexivity|]. split; [exact A|exact B].
Qed.
Lemma arr_max_spec (a : list R) : a <> [] -> exists m, arr_max a = Ok m /\ greatest a m.
Proof.
  intros Ha. destruct a as [|x l]; [contradiction|]. destruct (fold_max_spec l x) as [A B].
  eexists. split; [reflexivity|]. split; [exact A|exact B].
Qed.
Lemma least_unique s a b : least s a -> least s b -> a = b.
Proof. intros [A1 A2] [B1 B2]. apply Rle_antisym; auto. Qed.
Lemma greatest_unique s a b : greatest s a -> greatest s b -> a = b.
Proof. intros [A1 A2] [B1 B2]. apply Rle_antisym; auto. Qed.
Lemma peak_unique s a b : peak s a -> peak s b -> a = b.
Proof. intros [A1 [x [Ax A2]]] [B1 [y [By B2]]]. apply Rle_antisym; [rewrite <- A2; auto|rewrite <- B2; auto]. Qed.

Lemma peak_minmax s lo hi : least s lo -> greatest s hi -> peak s (nmax (- lo) hi).
Proof.
  intros [L1 L2] [G1 G2]. unfold nmax. cbn. split.
  - intros x Hx. pose proof (L1 x Hx). pose proof (G1 x Hx). apply Rabs_le. destruct (Rle_dec (- lo) hi); lra.
  - destruct (Rle_dec (- lo) hi) as [Hle|Hle].
    + exists hi. split; [exact G2|]. apply Rabs_right. pose proof (G1 lo L2). lra.
    + exists lo. split; [exact L2|]. apply Rabs_left1. pose proof (G1 lo L2). lra.
Qed.

Lemma half_Q : @nofQ R Num_R 0.5 = 1 / 2.
Proof. change (@nofQ R Num_R) with Q2R. unfold Q2R. cbn. lra. Qed.
Lemma tol_Q : @nofQ R Num_R 1e-6 = 1 / 1000000.
Proof. change (@nofQ R Num_R) with Q2R. unfold Q2R. cbn. lra. Qed.

Lemma colors_ok elements (s : list R) m : peak s m -> m <> 0 ->
  truss_colors elements (Some s) = Ok (map (fun x => ByValue (1 / 2 + x / (2 * m))) s).
Proof.
  intros Hp Hm. assert (Hs : s <> []) by (intros ->; destruct Hp as [_ [x [[] _]]]).
  unfold truss_colors. destruct (arr_min_spec s Hs) as (lo & -> & Hlo). destruct (arr_max_spec s Hs) as (hi & -> & Hhi). cbn [bind].
  change (@nopp R Num_R lo) with (- lo). rewrite <- (peak_unique _ _ _ Hp (peak_minmax s lo hi Hlo Hhi)).
  replace (nis0 m) with false by (symmetry; apply not_true_iff_false; rewrite nis0_spec; exact Hm). cbn [guard negb bind].
  f_equal. apply map_ext. intros x. f_equal. rewrite half_Q. cbn. field. exact Hm.
Qed.
Lemma colors_zero elements (s : list R) : peak s 0 -> truss_colors elements (Some s) = Err NonFinite.
Proof.
  intros Hp. assert (Hs : s <> []) by (intros ->; destruct Hp as [_ [x [[] _]]]).
  unfold truss_colors. destruct (arr_min_spec s Hs) as (lo & -> & Hlo). destruct (arr_max_spec s Hs) as (hi & -> & Hhi). cbn [bind].
  change (@nopp R Num_R lo) with (- lo). rewrite <- (peak_unique _ _ _ Hp (peak_minmax s lo hi Hlo Hhi)).
  replace (nis0 0) with true by (symmetry; apply nis0_spec; reflexivity). reflexivity.
Qed.
Lemma color_range (s : list R) m x : peak s m -> m <> 0 -> In x s -> 0 <= 1 / 2 + x / (2 * m) <= 1.
Proof.
  intros [Hp [y [_ Hy]]] Hm Hx. specialize (Hp x Hx). pose proof (Rabs_pos y). assert (0 < m) by lra.
  pose proof (Rle_abs x). pose proof (Rle_abs (- x)). rewrite Rabs_Ropp in *.
  replace (1 / 2 + x / (2 * m)) with ((m + x) / (2 * m)) by (field; lra). split.
  - apply Rmult_le_pos; [lra|]. left. apply Rinv_0_lt_compat. lra.
  - apply Rmult_le_reg_r with (2 * m); [lra|]. unfold Rdiv. rewrite Rmult_assoc, Rinv_l by lra. lra.
Qed.

Lemma areas_ok (mats : list (list R)) : Forall (fun row => (1 < length row)%nat) mats -> mapM (fun row => np_get row 1) mats = Ok (areas mats).
Proof.
  intros HF. unfold areas. apply mapM_total. intros row Hin. rewrite Forall_forall in HF.
  change 1%Z with (Z.of_nat 1). apply np_get_nth. apply HF. exact Hin.
Qed.
Lemma widths_ok (mats : list (list R)) mx mn : Forall (fun row => (1 < length row)%nat) mats -> mats <> [] ->
  exists lo hi, least (areas mats) lo /\ greatest (areas mats) hi /\
    truss_widths mats mx mn = Ok (if Rle_dec (hi - lo) (1 / 1000000) then map (fun _ => 3) mats
                                  else map (fun a => mn + (mx - mn) * ((a - lo) / (hi - lo))) (areas mats)).
Proof.
  intros HF Hne. unfold truss_widths. rewrite areas_ok by exact HF. cbn [bind].
  assert (Ha : areas mats <> []) by (destruct mats; [contradiction|discriminate]).
  destruct (arr_min_spec _ Ha) as (lo & -> & Hlo). destruct (arr_max_spec _ Ha) as (hi & -> & Hhi). cbn [bind].
  exists lo, hi. split; [exact Hlo|]. split; [exact Hhi|]. f_equal. unfold nltb. rewrite tol_Q. cbn.
  destruct (Rle_dec (hi - lo) (1 / 1000000)) as [Hle|Hgt]; cbn [negb].
  - unfold areas. rewrite map_map. reflexivity.
  - apply map_ext. intros a. field. lra.
Qed.

Lemma elem_ok (nodes mats : list (list R)) colors (widths : list R) e k c : drawable nodes mats e -> nth 0 e 0%Z = Z.of_nat k ->
  Forall (fun row => (2 < length row)%nat) nodes -> length widths = length mats -> nth_error colors k = Some c ->
  truss_elem nodes colors widths e =
  Ok (mkLine (ent nodes (e_node e 0) 1) (ent nodes (e_node e 0) 2) (ent nodes (e_node e 1) 1) (ent nodes (e_node e 1) 2)
             c (nth (Z.to_nat (nth 2 e 0%Z)) widths 0)).
Proof.
  intros (Le & Hn & Hm) H0 HN LW Hc. unfold truss_elem.
  destruct e as [|id [|t [|im [|a [|b [|? ?]]]]]]; cbn in Le; try lia. cbn [nth Nat.add] in *.
  pose proof (Hn 0%nat ltac:(lia)) as Ha. pose proof (Hn 1%nat ltac:(lia)) as Hb. cbn [nth Nat.add] in Ha, Hb.
  cbn [skipn bind]. change (np_get [id; t; im; a; b] 0) with (Ok id). change (np_get [id; t; im; a; b] 2) with (Ok im). cbn [bind].
  rewrite H0. rewrite (np_get_error _ _ _ Hc). cbn [bind]. rewrite Forall_forall in HN.
  change 1%Z with (Z.of_nat 1). change 2%Z with (Z.of_nat 2).
  rewrite !np_get2_total by first [exact Ha | exact Hb | (apply Nat.lt_trans with 2%nat; [lia|]; apply HN, nth_In; lia) | (apply HN, nth_In; lia)].
  cbn [bind]. rewrite (np_get_nonneg widths im 0) by lia. reflexivity.
Qed.

Lemma plot_drawn nodes elements mats s m mx mn lines : peak s m -> m <> 0 -> length s = length elements ->
  Forall (fun row => (2 < length row)%nat) nodes -> Forall (fun row => (1 < length row)%nat) mats -> mats <> [] ->
  (forall k e, nth_error elements k = Some e -> drawable nodes mats e /\ nth 0 e 0%Z = Z.of_nat k) ->
  (plot_truss nodes elements mats (Some s) mx mn = Ok lines <->
   length lines = length elements /\
   exists ws, truss_widths mats mx mn = Ok ws /\
   forall k e, nth_error elements k = Some e -> nth_error lines k =
     Some (mkLine (ent nodes (e_node e 0) 1) (ent nodes (e_node e 0) 2) (ent nodes (e_node e 1) 1) (ent nodes (e_node e 1) 2)
                  (ByValue (1 / 2 + nth k s 0 / (2 * m))) (nth (Z.to_nat (nth 2 e 0%Z)) ws 0))).
Proof.
  intros Hp Hm0 Ls HN HM Hne HE. unfold plot_truss. rewrite (colors_ok _ _ _ Hp Hm0). cbn [bind].
  destruct (widths_ok mats mx mn HM Hne) as (lo & hi & _ & _ & Hw). rewrite Hw. cbn [bind].
  set (ws := if Rle_dec (hi - lo) (1 / 1000000) then _ else _) in *.
  assert (Lw : length ws = length mats) by (unfold ws, areas; destruct (Rle_dec _ _); rewrite ?map_length; reflexivity).
  assert (G : forall k e, nth_error elements k = Some e ->
     truss_elem nodes (map (fun x => ByValue (1 / 2 + x / (2 * m))) s) ws e =
     Ok (mkLine (ent nodes (e_node e 0) 1) (ent nodes (e_node e 0) 2) (ent nodes (e_node e 1) 1) (ent nodes (e_node e 1) 2)
                  (ByValue (1 / 2 + nth k s 0 / (2 * m))) (nth (Z.to_nat (nth 2 e 0%Z)) ws 0))).
  { intros k e He. destruct (HE k e He) as [Hd Hk]. apply (elem_ok nodes mats _ _ e k); auto.
    rewrite nth_error_map. assert (Hlt : (k < length s)%nat) by (rewrite Ls; apply nth_error_Some; congruence).
    rewrite (nth_error_nth' s 0 Hlt). reflexivity. }
  split.
  - intros H. split; [apply mapM_ok in H; symmetry; eapply Forall2_len; exact H|]. exists ws. split; [reflexivity|].
    intros k e He. destruct (mapM_nth_error _ _ _ _ _ H He) as (l & Hl & Hr). rewrite G with (k := k) in Hr by exact He. apply Ok_inj in Hr. congruence.
  - intros (Ll & ws' & Ew & Hl). apply Ok_inj in Ew. subst ws'. apply mapM_ok.
    clear -Ll Hl G. revert lines Ll Hl. 
    assert (Gen : forall els lines (F : list Z -> res (truss_line R)), length lines = length els ->
      (forall k e, nth_error els k = Some e -> exists l, nth_error lines k = Some l /\ F e = Ok l) -> Forall2 (fun a b => F a = Ok b) els lines).
    { induction els as [|e els IH]; intros [|l lines] F HL HF; try discriminate; [constructor|]. constructor.
      - destruct (HF 0%nat e eq_refl) as (l' & E & H). injection E as <-. exact H.
      - apply IH; [injection HL as HL; exact HL|]. intros k e' He'. exact (HF (S k) e' He'). }
    intros lines Ll Hl. apply Gen; [exact Ll|]. intros k e He. eexists. split; [apply Hl; exact He|apply G; exact He].
Qed.

Theorem plot_lines nodes elements mats s m mx mn : peak s m -> m <> 0 -> length s = length elements ->
  Forall (fun row => (2 < length row)%nat) nodes -> Forall (fun row => (1 < length row)%nat) mats -> mats <> [] ->
  (forall k e, nth_error elements k = Some e -> drawable nodes mats e /\ nth 0 e 0%Z = Z.of_nat k) ->
  exists lines ws, plot_truss nodes elements mats (Some s) mx mn = Ok lines /\ truss_widths mats mx mn = Ok ws /\
    length lines = length elements /\
    forall k e, nth_error elements k = Some e -> exists c, nth_error lines k =
     Some (mkLine (ent nodes (e_node e 0) 1) (ent nodes (e_node e 0) 2) (ent nodes (e_node e 1) 1) (ent nodes (e_node e 1) 2)
                  (ByValue c) (nth (Z.to_nat (nth 2 e 0%Z)) ws 0)) /\
     0 <= c <= 1 /\ c = 1 / 2 + nth k s 0 / (2 * m).
Proof.
  intros Hp Hm0 Ls HN HM Hne HE. destruct (widths_ok mats mx mn HM Hne) as (lo & hi & _ & _ & Hw).
  set (ws := if Rle_dec (hi - lo) (1 / 1000000) then _ else _) in *.
  set (lines := map (fun ek => let e := fst ek in let k := snd ek in
     mkLine (ent nodes (e_node e 0) 1) (ent nodes (e_node e 0) 2) (ent nodes (e_node e 1) 1) (ent nodes (e_node e 1) 2)
                  (ByValue (1 / 2 + nth k s 0 / (2 * m))) (nth (Z.to_nat (nth 2 e 0%Z)) ws 0)) (combine elements (seq 0 (length elements)))).
  assert (Hl : forall k e, nth_error elements k = Some e -> nth_error lines k =
     Some (mkLine (ent nodes (e_node e 0) 1) (ent nodes (e_node e 0) 2) (ent nodes (e_node e 1) 1) (ent nodes (e_node e 1) 2)
                  (ByValue (1 / 2 + nth k s 0 / (2 * m))) (nth (Z.to_nat (nth 2 e 0%Z)) ws 0))).
  { intros k e He. unfold lines. rewrite nth_error_map.
    assert (Hk : (k < length elements)%nat) by (apply nth_error_Some; congruence).
    assert (Hc : nth_error (combine elements (seq 0 (length elements))) k = Some (e, k)).
    { rewrite (nth_error_nth' _ (e, 0%nat)) by (rewrite combine_length, seq_length; lia).
      rewrite combine_nth by (rewrite seq_length; reflexivity). rewrite seq_nth by exact Hk.
      apply (nth_error_nth _ _ e) in He. rewrite He. reflexivity. }
    rewrite Hc. reflexivity. }
  exists lines, ws. split; [|split; [exact Hw|split; [unfold lines; rewrite map_length, combine_length, seq_length; lia|]]].
  - apply (plot_drawn nodes elements mats s m mx mn lines Hp Hm0 Ls HN HM Hne HE). split.
    + unfold lines. rewrite map_length, combine_length, seq_length. lia.
    + exists ws. split; [exact Hw|exact Hl].
  - intros k e He. eexists. split; [apply Hl; exact He|]. split; [|reflexivity].
    apply (color_range s m); auto. apply nth_In. rewrite Ls. apply nth_error_Some. congruence.
Qed.

Lemma plot_zero nodes elements mats (s : list R) mx mn : peak s 0 -> plot_truss nodes elements mats (Some s) mx mn = Err NonFinite.
Proof. intros Hp. unfold plot_truss. rewrite colors_zero by exact Hp. reflexivity. Qed.

Lemma width_rules (mats : list (list R)) mx mn lo hi : Forall (fun row => (1 < length row)%nat) mats ->
  least (areas mats) lo -> greatest (areas mats) hi -> mn <= mx -> 1 / 1000000 < hi - lo ->
  exists ws, truss_widths mats mx mn = Ok ws /\ length ws = length mats /\
    (forall i, (i < length mats)%nat -> mn <= nth i ws 0 <= mx) /\
    (forall i, (i < length mats)%nat -> nth i (areas mats) 0 = lo -> nth i ws 0 = mn) /\
    (forall i, (i < length mats)%nat -> nth i (areas mats) 0 = hi -> nth i ws 0 = mx) /\
    (forall i j, (i < length mats)%nat -> (j < length mats)%nat ->
       nth i ws 0 - nth j ws 0 = (mx - mn) * ((nth i (areas mats) 0 - nth j (areas mats) 0) / (hi - lo))).
Proof.
  intros HM Hlo Hhi Hmm Hgt.
  assert (Hne : mats <> []) by (intros ->; destruct Hlo as [_ []]).
  destruct (widths_ok mats mx mn HM Hne) as (lo' & hi' & L & G & Hw).
  rewrite (least_unique _ _ _ L Hlo), (greatest_unique _ _ _ G Hhi) in Hw. clear L G lo' hi'.
  destruct (Rle_dec (hi - lo) (1 / 1000000)) as [Hle|_]; [lra|].
  eexists. split; [exact Hw|]. split; [unfold areas; rewrite !map_length; reflexivity|].
  assert (LA : length (areas mats) = length mats) by (unfold areas; apply map_length).
  assert (HN : forall i, (i < length mats)%nat -> nth i (map (fun a => mn + (mx - mn) * ((a - lo) / (hi - lo))) (areas mats)) 0 =
     mn + (mx - mn) * ((nth i (areas mats) 0 - lo) / (hi - lo))).
  { intros i Hi. set (f := fun a => mn + (mx - mn) * ((a - lo) / (hi - lo))). rewrite (nth_indep _ 0 (f 0)) by (rewrite map_length, LA; exact Hi).
    rewrite (map_nth f). reflexivity. }
  split; [|split; [|split]].
  - intros i Hi. rewrite HN by exact Hi. set (a := nth i (areas mats) 0).
    assert (Ha : lo <= a <= hi) by (split; [apply Hlo|apply Hhi]; apply nth_In; rewrite LA; exact Hi).
    assert (H1 : 0 <= (a - lo) / (hi - lo)) by (apply Rmult_le_pos; [lra|left; apply Rinv_0_lt_compat; lra]).
    assert (H2 : (a - lo) / (hi - lo) <= 1).
    { apply Rmult_le_reg_r with (hi - lo); [lra|]. unfold Rdiv. rewrite Rmult_assoc, Rinv_l by lra. lra. }
    nra.
  - intros i Hi E. rewrite HN by exact Hi. rewrite E. field. lra.
  - intros i Hi E. rewrite HN by exact Hi. rewrite E. field. lra.
  - intros i j Hi Hj. rewrite !HN by assumption. field. lra.
Qed.

Lemma width_equal (mats : list (list R)) mx mn lo hi : Forall (fun row => (1 < length row)%nat) mats ->
  least (areas mats) lo -> greatest (areas mats) hi -> hi - lo <= 1 / 1000000 ->
  truss_widths mats mx mn = Ok (map (fun _ => 3) mats).
Proof.
  intros HM Hlo Hhi Hle. assert (Hne : mats <> []) by (intros ->; destruct Hlo as [_ []]).
  destruct (widths_ok mats mx mn HM Hne) as (lo' & hi' & L & G & Hw).
  rewrite (least_unique _ _ _ L Hlo), (greatest_unique _ _ _ G Hhi) in Hw.
  destruct (Rle_dec (hi - lo) (1 / 1000000)); [exact Hw|contradiction].
Qed.
