(** * Lemmas: what a run reports and draws *)
From Coq Require Import String Reals List Arith Lia Lra Bool ZArith.
From Verif Require Import Num LinAlg Assem Post Main Spec SpecAssem SpecModel LinR Base SpecPost SpecReport AssemProofs ModelProofs PostProofs PostMore PatchProofs2 DriverProofs.
Import ListNotations.
Local Open Scope R_scope.

Lemma field_columns (M nodes : list (list R)) elements (titles : list string) N k p tri :
  shape N k M -> (1 <= N)%nat -> length titles = k -> mesh2tri nodes elements = Ok tri ->
  plot_node_field M nodes elements titles = Ok p ->
  p = map (fun c => (nth c titles EmptyString, tri, component c M)) (seq 0 k).
Proof.
  intros [HN HF] H1 HT Htri H. unfold plot_node_field in H. rewrite Htri in H. cbn [bind] in H.
  assert (HC : ncols M = k) by (destruct M as [|r M]; [cbn in HN; lia|]; inversion HF; assumption). rewrite HC in H.
  assert (E : mapM (fun cont => bind (mapM (fun row => np_get row (Z.of_nat cont)) M) (fun col => bind (np_get titles (Z.of_nat cont)) (fun ti => Ok (ti, tri, col)))) (seq 0 k) =
    Ok (map (fun c => (nth c titles EmptyString, tri, component c M)) (seq 0 k))).
  { apply mapM_total. intros c Hc. apply in_seq in Hc. rewrite (mapM_total (fun row => np_get row (Z.of_nat c)) (fun r => nth c r 0)).
    - cbn [bind]. rewrite (np_get_nth _ _ EmptyString) by lia. reflexivity.
    - intros r Hr. rewrite Forall_forall in HF. apply np_get_nth. rewrite (HF r Hr). lia. }
  unfold mat, vec in *. rewrite E in H. apply Ok_inj in H. symmetry. exact H.
Qed.

Lemma typed_567 elements types : mapM (fun e => np_get e 1) elements = Ok types ->
  has_type types 5 || has_type types 6 || has_type types 7 = true -> exists e, In e elements /\ (5 <= nth 1 e 0 <= 7)%Z.
Proof.
  intros Hr H. assert (G : forall t, has_type types t = true -> exists e, In e elements /\ nth 1 e 0%Z = t).
  { intros t Eh. unfold has_type in Eh. rewrite existsb_exists in Eh. destruct Eh as [x [Hx Ex]]. apply Z.eqb_eq in Ex. subst x.
    apply mapM_ok in Hr. clear H. induction Hr as [|e y l l' H1 H2 IH]; [destruct Hx|]. destruct Hx as [->|Hx].
    - change 1%Z with (Z.of_nat 1) in H1. apply (np_get_nat_ok _ _ _ 0%Z) in H1 as [_ ->]. exists e. split; [left|]; reflexivity.
    - destruct (IH Hx) as (e' & A & B). exists e'. split; [right; exact A|exact B]. }
  rewrite !orb_true_iff in H. destruct H as [[H|H]|H]; destruct (G _ H) as (e & A & B); exists e; split; auto; lia.
Qed.

Theorem contours_shown elements nodes disp st p N :
  shape N 2 disp -> (forall E S, st = Some (E, S) -> shape N 3 E /\ shape N 3 S) -> (1 <= N)%nat ->
  fields_plot elements nodes disp (option_map fst st) (option_map snd st) = Ok p ->
  ((exists e, In e elements /\ (5 <= nth 1 e 0 <= 7)%Z) /\ p = Printed disp) \/
  exists tri, mesh2tri nodes elements = Ok tri /\ p = Contours (shown tri disp st).
Proof.
  intros HD HS HN H. unfold fields_plot in *. inv_ok H. rename r into types. destruct (_ || _ || _) eqn:EB.
  - left. split; [exact (typed_567 _ _ Hr EB)|]. apply Ok_inj in H. symmetry. exact H.
  - right. do 3 inv_ok H. apply Ok_inj in H.
    assert (HT : exists tri, mesh2tri nodes elements = Ok tri) by (unfold plot_node_field in Hr0; inv_ok Hr0; eexists; exact Hr3).
    destruct HT as [tri HT]. exists tri. split; [exact HT|].
    pose proof (fun h => field_columns disp nodes elements _ N 2 _ tri HD HN h HT Hr0) as A. specialize (A eq_refl).
    destruct st as [[E S]|]; cbn [option_map fst snd] in *.
    + destruct (HS E S eq_refl) as [HE HSS].
      pose proof (fun h => field_columns E nodes elements _ N 3 _ tri HE HN h HT Hr1) as B. specialize (B eq_refl).
      pose proof (fun h => field_columns S nodes elements _ N 3 _ tri HSS HN h HT Hr2) as C. specialize (C eq_refl).
      rewrite <- H, A, B, C. reflexivity.
    + apply Ok_inj in Hr1. apply Ok_inj in Hr2. rewrite <- H, A, <- Hr1, <- Hr2. reflexivity.
Qed.

(** sizes *)
Lemma np_upd_len {A} (l l' : list A) z f : np_upd l z f = Ok l' -> length l' = length l.
Proof. unfold np_upd. intros H. destruct (np_index _ _); [|discriminate]. apply Ok_inj in H. subst l'. apply upd_length. Qed.
Lemma strain_len nodes elements mats sol E S : strain_rows nodes elements mats sol = Ok (E, S) -> length E = length nodes /\ length S = length nodes.
Proof.
  unfold strain_rows. intros H. do 2 inv_ok H. inv_ok H. destruct r1 as [[ndof nn] ng]. inv_ok H. destruct r1 as [[E0 S0] cnt].
  assert (G : length E0 = length nodes /\ length S0 = length nodes /\ length cnt = length nodes).
  { set (N := length nodes) in *. clear H.
    assert (GN : forall f1 f2 sh eps l (st st' : acc), length (fst (fst st)) = N /\ length (snd (fst st)) = N /\ length (snd st) = N ->
      foldM (node_acc f1 f2 sh eps) l st = Ok st' -> length (fst (fst st')) = N /\ length (snd (fst st')) = N /\ length (snd st') = N).
    { intros f1 f2 sh eps. induction l as [|cn l IH]; intros st st' Hs Hf; cbn [foldM] in Hf; [apply Ok_inj in Hf; subst; exact Hs|].
      inv_ok Hf. apply (IH r1 st'); [|exact Hf]. destruct st as [[a b] c]. destruct cn as [k z]. cbn [node_acc] in Hr3. do 4 inv_ok Hr3.
      apply Ok_inj in Hr3. subst r1. cbn [fst snd] in *. apply np_upd_len in Hr5, Hr6, Hr7. destruct Hs as (A & B & C). repeat split; congruence. }
    assert (GE : forall l (st st' : acc), length (fst (fst st)) = N /\ length (snd (fst st)) = N /\ length (snd st) = N ->
      foldM (strain_elem r0 ndof nn nodes mats sol) l st = Ok st' -> length (fst (fst st')) = N /\ length (snd (fst st')) = N /\ length (snd st') = N).
    { induction l as [|e l IH]; intros st st' Hs Hf; cbn [foldM] in Hf; [apply Ok_inj in Hf; subst; exact Hs|].
      inv_ok Hf. apply (IH r1 st'); [|exact Hf]. unfold strain_elem in Hr3. do 2 inv_ok Hr3. destruct r3 as [|x [|y [|? ?]]]; try discriminate.
      repeat inv_ok Hr3. exact (GN _ _ _ _ _ _ _ Hs Hr3). }
    apply (GE _ _ _ ) in Hr2; [exact Hr2|]. cbn [fst snd]. unfold zeros. rewrite repeat_length. split; [|split]; try apply mk_mat_length; reflexivity. }
  destruct G as (A & B & C). apply Ok_inj in H. injection H as <- <-. unfold average. rewrite !map_length, !combine_length. lia.
Qed.

Lemma average_rows a cnt Y : finite_rows (@average R _ a cnt) = Ok Y -> Forall (fun r => length r = 3%nat) Y.
Proof.
  intros H. apply finite_rows_inv in H. unfold average in H. revert Y H. induction (combine a cnt) as [|[row c] l IH]; intros Y H; destruct Y as [|y Y]; try discriminate; [constructor|].
  cbn [map] in H. injection H as H1 H2. constructor; [|exact (IH Y H2)]. destruct (c =? 0)%Z; [discriminate|]. injection H1 as <-. reflexivity.
Qed.
Lemma strain_sizes nodes elements mats sol E S : strain_nodes nodes elements mats sol = Ok (E, S) ->
  shape (length nodes) 3 E /\ shape (length nodes) 3 S.
Proof.
  unfold strain_nodes. intros H. inv_ok H. destruct r as [X Y]. do 2 inv_ok H. apply Ok_inj in H. injection H as -> ->.
  destruct (strain_len _ _ _ _ _ _ Hr) as [L1 L2]. unfold strain_rows in Hr. do 3 inv_ok Hr. destruct r1 as [[ndof nn] ng]. inv_ok Hr. destruct r1 as [[E0 S0] cnt].
  apply Ok_inj in Hr. injection Hr as <- <-. split; split.
  - apply mapM_length in Hr0. congruence.
  - exact (average_rows _ _ _ Hr0).
  - apply mapM_length in Hr1. congruence.
  - exact (average_rows _ _ _ Hr1).
Qed.

Theorem report sv md plot strains out : flags01 2 (md_cons md) -> length (md_cons md) = length (md_nodes md) -> auto sv md plot strains = Ok out ->
  out_nnodes out = length (md_nodes md) /\ out_nels out = length (md_elements md) /\ out_neq out = Z.of_nat (count_free (md_cons md)) /\
  shape (length (md_nodes md)) 2 (out_disp out) /\
  match out_strains out with
  | None => strains = false
  | Some (E, Sg) => strains = true /\ shape (length (md_nodes md)) 3 E /\ shape (length (md_nodes md)) 3 Sg /\
      strain_nodes (md_nodes md) (md_elements md) (md_mats md) (out_disp out) = Ok (E, Sg)
  end /\
  match out_plot out with
  | None => plot = false
  | Some p => plot = true /\
      (((exists e, In e (md_elements md) /\ (5 <= nth 1 e 0 <= 7)%Z) /\ p = Printed (out_disp out)) \/
       exists tri, mesh2tri (md_nodes md) (md_elements md) = Ok tri /\ p = Contours (shown tri (out_disp out) (out_strains out)))
  end.
Proof.
  intros Hf HL H. pose proof (disp_shape _ _ _ _ _ H) as HD. unfold auto, solids_auto, run in H. inv_ok H. destruct r as [[op bc] neq]. inv_ok H. destruct r as [gk gm].
  do 4 inv_ok H. rename r2 into U. inv_ok H. rename r2 into st. inv_ok H. rename r2 into pl. apply Ok_inj in H. subst out.
  cbn [out_nnodes out_nels out_neq out_disp out_strains out_plot] in *.
  split; [reflexivity|]. split; [reflexivity|].
  assert (HN : neq = Z.of_nat (count_free (md_cons md))).
  { unfold DME in Hr. destruct (eqcounter_numbering 2 _ Hf) as [bc' [Heq _]]. rewrite Heq in Hr. cbn [bind] in Hr. inv_ok Hr. apply Ok_inj in Hr. injection Hr as _ _ <-. reflexivity. }
  split; [exact HN|].
  assert (NE : (1 <= length (md_nodes md))%nat).
  { destruct (md_nodes md) as [|nd nds]; [|cbn; lia]. destruct (md_cons md); [|discriminate]. cbn in HN. subst neq.
    unfold not_equilibrium in Hr3. do 2 inv_ok Hr3. cbn in Hr6. discriminate. }
  split; [exact HD|].
  assert (HS : match st with None => strains = false | Some (E, Sg) => strains = true /\ shape (length (md_nodes md)) 3 E /\ shape (length (md_nodes md)) 3 Sg /\
      strain_nodes (md_nodes md) (md_elements md) (md_mats md) U = Ok (E, Sg) end).
  { destruct strains.
    - inv_ok Hr5. apply Ok_inj in Hr5. subst st. destruct r2 as [E S]. destruct (strain_sizes _ _ _ _ _ _ Hr7). auto.
    - apply Ok_inj in Hr5. subst st. reflexivity. }
  split; [exact HS|]. destruct plot.
  - inv_ok Hr6. apply Ok_inj in Hr6. subst pl. split; [reflexivity|].
    apply (contours_shown _ _ _ _ _ (length (md_nodes md)) HD); [|exact NE|exact Hr7]. intros E Sg ->. split; apply HS.
  - apply Ok_inj in Hr6. subst pl. reflexivity.
Qed.

(** the flags change nothing else *)
Theorem flags_only sv md plot strains out : auto sv md plot strains = Ok out ->
  exists out0, auto sv md false false = Ok out0 /\ out_disp out0 = out_disp out /\ out_warn out0 = out_warn out /\
    out_strains out0 = None /\ out_plot out0 = None.
Proof.
  unfold auto, solids_auto, run. intros H. inv_ok H. destruct r as [[op bc] neq]. inv_ok H. destruct r as [gk gm].
  do 6 inv_ok H. apply Ok_inj in H. subst out. rewrite Hr. cbn [bind]. rewrite Hr0. cbn [bind]. rewrite Hr1. cbn [bind]. rewrite Hr2. cbn [bind].
  rewrite Hr3. cbn [bind]. rewrite Hr4. cbn [bind]. eexists. split; [reflexivity|]. repeat split; reflexivity.
Qed.
