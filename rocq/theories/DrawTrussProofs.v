(** * Lemmas on the figure of a truss *)
From Coq Require Import String Reals List Arith Lia Lra Bool ZArith QArith Qreals.
From Verif Require Import Num LinAlg Assem Post Draw PlotTruss DrawTruss Spec LinR Base SpecModel SpecPlot SpecDraw PostProofs PostTotal ElemFinal3 StaticProofs3 PlotProofs DrawProofs ExPlot.
Import ListNotations.
Local Open Scope R_scope.

Lemma draw_inv st nodes elements mats (s : option (list R)) mx mn savefigs title figtitle filename st' g :
  truss_draw st nodes elements mats s mx mn savefigs title figtitle filename = Ok (st', g) ->
  plot_truss nodes elements mats s mx mn = Ok (tg_lines g) /\ figure_opt st figtitle = (st', tg_window g) /\
  tg_title g = match title with Some t => t | None => ""%string end /\
  tg_saved g = if savefigs then [match filename with Some t => t | None => "output.pdf"%string end] else [].
Proof.
  unfold truss_draw. destruct (plot_truss _ _ _ _ _ _) as [ls|] eqn:E; cbn [bind]; [|discriminate].
  destruct (figure_opt st figtitle) as [st1 w] eqn:F. intros H. injection H as <- <-. cbn. auto.
Qed.

Lemma next_num_free st : next_free st (next_num st).
Proof.
  split; [exact (fun n => next_num_above st n)|]. unfold next_num. induction st as [|[m l] st IH]; cbn [fold_right map fst]; [left; reflexivity|].
  destruct (Z.max_spec m (fold_right (fun w m => Z.max (fst w) m) 0%Z st)) as [[_ E]|[_ E]]; rewrite E.
  - destruct IH as [IH|IH]; [left; exact IH|right; right; exact IH].
  - right. left. lia.
Qed.

Theorem draw_window st nodes elements mats (s : option (list R)) mx mn savefigs title figtitle filename st' g :
  truss_draw st nodes elements mats s mx mn savefigs title figtitle filename = Ok (st', g) ->
  (exists more, st' = (st ++ more)%list /\ (length more <= 1)%nat) /\ In (tg_window g) (map fst st') /\
  match figtitle with
  | None => st' = (st ++ [(tg_window g, ""%string)])%list /\ next_free st (tg_window g)
  | Some (ByNumber n) => tg_window g = n
  | Some (ByLabel l) => In (tg_window g, l) st' /\ (In l (map snd st) -> st' = st) /\ (~ In l (map snd st) -> next_free st (tg_window g))
  end /\
  tg_title g = match title with Some t => t | None => ""%string end /\
  tg_saved g = if savefigs then [match filename with Some t => t | None => "output.pdf"%string end] else [].
Proof.
  intros H. apply draw_inv in H as (_ & F & Ht & Hs).
  pose proof (next_num_free st) as N.
  assert (G : (exists more, st' = (st ++ more)%list /\ (length more <= 1)%nat) /\ In (tg_window g) (map fst st') /\
    match figtitle with
    | None => st' = (st ++ [(tg_window g, ""%string)])%list /\ next_free st (tg_window g)
    | Some (ByNumber n) => tg_window g = n
    | Some (ByLabel l) => In (tg_window g, l) st' /\ (In l (map snd st) -> st' = st) /\ (~ In l (map snd st) -> next_free st (tg_window g))
    end); [|tauto].
  destruct figtitle as [[n|l]|]; cbn in F.
  - destruct (existsb _ st) eqn:E; injection F as <- <-.
    + split; [exists []; split; [symmetry; apply app_nil_r|cbn; lia]|]. split; [|reflexivity].
      apply existsb_exists in E as (w & Hw & Ew). apply Z.eqb_eq in Ew. rewrite <- Ew. apply in_map. exact Hw.
    + split; [eexists; split; [reflexivity|cbn; lia]|]. split; [|reflexivity]. rewrite map_app. apply in_or_app. right. left. reflexivity.
  - destruct (find_label st l) as [n|] eqn:E; injection F as <- <-.
    + pose proof (find_label_some _ _ _ E) as Hin. split; [exists []; split; [symmetry; apply app_nil_r|cbn; lia]|].
      split; [exact (in_map fst _ _ Hin)|]. split; [exact Hin|]. split; [reflexivity|].
      intros K. elim K. exact (in_map snd _ _ Hin).
    + split; [eexists; split; [reflexivity|cbn; lia]|]. assert (I : In (next_num st, l) (st ++ [(next_num st, l)])%list) by (apply in_or_app; right; left; reflexivity).
      split; [exact (in_map fst _ _ I)|]. split; [exact I|]. split; [|auto].
      intros K. apply find_label_none in E. contradiction.
  - injection F as <- <-. split; [eexists; split; [reflexivity|cbn; lia]|]. split; [|split; [reflexivity|exact N]].
    rewrite map_app. apply in_or_app. right. left. reflexivity.
Qed.

Theorem draw_plain st nodes elements mats mx mn savefigs title figtitle filename :
  Forall (fun row => (2 < length row)%nat) nodes -> Forall (fun row => (1 < length row)%nat) mats -> mats <> [] ->
  Forall (fun e => drawable nodes mats e /\ (0 <= nth 0 e 0 < Z.of_nat (length elements))%Z) elements ->
  exists st' g ws, truss_draw st nodes elements mats None mx mn savefigs title figtitle filename = Ok (st', g) /\ truss_widths mats mx mn = Ok ws /\
  tg_lines g = map (fun e => mkLine (ent nodes (e_node e 0) 1) (ent nodes (e_node e 0) 2) (ent nodes (e_node e 1) 1) (ent nodes (e_node e 1) 2)
                     (ByIndex 1) (nth (Z.to_nat (nth 2 e 0%Z)) ws 0)) elements.
Proof.
  intros HN HM Hne HE. destruct (widths_ok mats mx mn HM Hne) as (lo & hi & _ & _ & Hw).
  set (ws := if Rle_dec (hi - lo) (1 / 1000000) then _ else _) in *.
  assert (Lw : length ws = length mats) by (unfold ws, areas; destruct (Rle_dec _ _); rewrite ?map_length; reflexivity).
  assert (P : plot_truss nodes elements mats None mx mn = Ok (map (fun e => mkLine (ent nodes (e_node e 0) 1) (ent nodes (e_node e 0) 2) (ent nodes (e_node e 1) 1) (ent nodes (e_node e 1) 2)
                     (ByIndex 1) (nth (Z.to_nat (nth 2 e 0%Z)) ws 0)) elements)).
  { unfold plot_truss. cbn [truss_colors bind]. rewrite Hw. cbn [bind].
    apply mapM_total. intros e He. rewrite Forall_forall in HE. destruct (HE e He) as [Hd Hi].
    apply (elem_ok nodes mats _ ws e (Z.to_nat (nth 0 e 0%Z))); auto; [lia|].
    rewrite nth_error_map. destruct (nth_error elements (Z.to_nat (nth 0 e 0%Z))) eqn:E; [reflexivity|].
    apply nth_error_None in E. lia. }
  unfold truss_draw. rewrite P. cbn [bind]. destruct (figure_opt st figtitle) as [st1 w].
  eexists _, _, ws. split; [reflexivity|]. split; [exact Hw|reflexivity].
Qed.

Lemma v_plain : Forall (fun e => drawable vnodes vmats e /\ (0 <= nth 0 e 0 < Z.of_nat (length (vbars 1 0)))%Z) (vbars 1 0).
Proof.
  pose proof (v_drawable 1 0) as H. rewrite Forall_forall in *. intros e He. split; [exact (H e He)|].
  destruct He as [<-|[<-|[]]]; cbn; lia.
Qed.
