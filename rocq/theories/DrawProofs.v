(** * Proofs about windows and drawings *)
From Coq Require Import String Reals List ZArith Arith Bool Lia Lra.
From Verif Require Import Num LinAlg Assem Post TextIO Draw Spec SpecPost SpecReport SpecDraw LinR Base AssemProofs PostProofs PlotFields.
Import ListNotations.
Local Open Scope string_scope.

(** ** windows *)
Fixpoint figures (st : windows) (ids : list fig_id) : windows * list Z :=
  match ids with
  | [] => (st, [])
  | id :: t => let (s1, w) := figure st id in let (s2, ws) := figures s1 t in (s2, w :: ws)
  end.
Lemma next_num_above st n : In n (map fst st) -> (n < next_num st)%Z.
Proof. unfold next_num. induction st as [|[m l] st IH]; cbn; [easy|]. intros [<-|H]; [lia|]. specialize (IH H). lia. Qed.
Lemma find_label_none st s : find_label st s = None <-> ~ In s (map snd st).
Proof.
  induction st as [|[m l] st IH]; cbn; [tauto|]. destruct (String.eqb_spec l s) as [->|H]; [split; [discriminate|intros K; exfalso; apply K; now left]|].
  rewrite IH. split; intros K; [intros [E|E]; auto|auto].
Qed.
Lemma find_label_some st s n : find_label st s = Some n -> In (n, s) st.
Proof. induction st as [|[m l] st IH]; cbn; [discriminate|]. destruct (String.eqb_spec l s) as [->|H]; [intros E; injection E as ->; now left|auto]. Qed.

Definition fresh (st : windows) (id : fig_id) : Prop := match id with ByNumber n => ~ In n (map fst st) | ByLabel s => ~ In s (map snd st) end.
Definition label_of (id : fig_id) : string := match id with ByNumber _ => "" | ByLabel s => s end.
Lemma figure_fresh st id : fresh st id -> exists n, figure st id = ((st ++ [(n, label_of id)])%list, n) /\ ~ In n (map fst st) /\ (forall k, id = ByNumber k -> n = k).
Proof.
  destruct id as [k|s]; cbn.
  - intros H. exists k. destruct (existsb _ st) eqn:E.
    + exfalso. apply H. apply existsb_exists in E as [[m l] [Hm E]]. apply Z.eqb_eq in E. cbn in E. subst m. apply (in_map fst) in Hm. exact Hm.
    + repeat split; [exact H|]. intros j E'. now injection E' as ->.
  - intros H. apply find_label_none in H. rewrite H. exists (next_num st). repeat split; [|discriminate]. intros K. apply next_num_above in K. lia.
Qed.

Lemma figures_labels labels : forall st, NoDup labels -> (forall s, In s labels -> ~ In s (map snd st)) ->
  exists ws, figures st (map ByLabel labels) = ((st ++ combine ws labels)%list, ws) /\ length ws = length labels /\ NoDup ws /\ forall w, In w ws -> ~ In w (map fst st).
Proof.
  induction labels as [|s labels IH]; intros st Hd Hf.
  - exists []. cbn. rewrite List.app_nil_r. repeat split; [constructor|easy].
  - inversion Hd as [|? ? Hs Hd']; subst. cbn [map figures].
    destruct (figure_fresh st (ByLabel s) (Hf s (or_introl eq_refl))) as [n [E [Hn _]]]. rewrite E. cbn [label_of].
    destruct (IH (st ++ [(n, s)])%list Hd') as [ws [E2 [L [D F]]]].
    { intros t Ht. rewrite map_app, in_app_iff. cbn. intros [K|[K|[]]]; [exact (Hf t (or_intror Ht) K)|subst; contradiction]. }
    rewrite E2. exists (n :: ws). cbn [combine length]. rewrite <- app_assoc. cbn [app]. repeat split.
    + now rewrite L.
    + constructor; [|exact D]. intros K. apply (F n K). rewrite map_app, in_app_iff. right. now left.
    + intros w [<-|Hw]; [exact Hn|]. intros K. apply (F w Hw). rewrite map_app, in_app_iff. now left.
Qed.
Lemma figures_numbers ns : forall st, NoDup ns -> (forall n, In n ns -> ~ In n (map fst st)) ->
  figures st (map ByNumber ns) = ((st ++ map (fun n => (n, "")) ns)%list, ns).
Proof.
  induction ns as [|s ns IH]; intros st Hd Hf; cbn [map figures]; [now rewrite List.app_nil_r|].
  inversion Hd as [|? ? Hs Hd']; subst. destruct (figure_fresh st (ByNumber s) (Hf s (or_introl eq_refl))) as [n [E [Hn En]]]. rewrite E. cbn [label_of].
  rewrite (En s eq_refl) in *. rewrite IH; [rewrite <- app_assoc; reflexivity|exact Hd'|].
  intros t Ht. rewrite map_app, in_app_iff. cbn. intros [K|[K|[]]]; [exact (Hf t (or_intror Ht) K)|subst; contradiction].
Qed.
Lemma figures_open ids : forall st, (forall id, In id ids -> exists s, id = ByLabel s /\ In s (map snd st)) -> fst (figures st ids) = st.
Proof.
  induction ids as [|id ids IH]; intros st H; [reflexivity|]. cbn [figures]. destruct (H id (or_introl eq_refl)) as [s [-> Hs]]. cbn [figure].
  destruct (find_label st s) as [n|] eqn:E; [|apply find_label_none in E; contradiction].
  specialize (IH st (fun id Hid => H id (or_intror Hid))). destruct (figures st ids). cbn in *. exact IH.
Qed.
Lemma figure_grows st id : exists more, fst (figure st id) = (st ++ more)%list /\ In (snd (figure st id)) (map fst (fst (figure st id))) /\
  forall s, id = ByLabel s -> In (snd (figure st id), s) (fst (figure st id)).
Proof.
  destruct id as [n|s]; cbn.
  - destruct (existsb _ st) eqn:E; cbn.
    + exists []. rewrite List.app_nil_r. repeat split; [|discriminate]. apply existsb_exists in E as [[m l] [Hm E]]. apply Z.eqb_eq in E. cbn in E. subst. exact (in_map fst _ _ Hm).
    + eexists. repeat split; [|discriminate]. rewrite map_app, in_app_iff. right. now left.
  - destruct (find_label st s) as [n|] eqn:E; cbn.
    + exists []. rewrite List.app_nil_r. apply find_label_some in E. repeat split; [exact (in_map fst _ _ E)|]. intros t Et. injection Et as <-. exact E.
    + eexists. repeat split; [rewrite map_app, in_app_iff; right; now left|]. intros t Et. injection Et as <-. apply in_app_iff. right. now left.
Qed.
Lemma figures_grow ids : forall st, exists more, fst (figures st ids) = (st ++ more)%list.
Proof.
  induction ids as [|id ids IH]; intros st; cbn [figures]; [exists []; cbn; now rewrite List.app_nil_r|].
  destruct (figure_grows st id) as [m1 [E1 _]]. destruct (figure st id) as [s1 w]. cbn in E1. subst s1. destruct (IH (st ++ m1)%list) as [m2 E2].
  destruct (figures (st ++ m1)%list ids) as [s2 ws]. cbn in *. subst s2. exists (m1 ++ m2)%list. now rewrite app_assoc.
Qed.
Lemma figures_in labels : forall st, Forall2 (fun s w => In (w, s) (fst (figures st (map ByLabel labels)))) labels (snd (figures st (map ByLabel labels))).
Proof.
  induction labels as [|s labels IH]; intros st; cbn [map figures]; [constructor|].
  destruct (figure_grows st (ByLabel s)) as [m1 [E1 [_ E3]]]. specialize (E3 s eq_refl). destruct (figure st (ByLabel s)) as [s1 w]. cbn in E1, E3.
  specialize (IH s1). destruct (figures_grow (map ByLabel labels) s1) as [m2 E2]. destruct (figures s1 (map ByLabel labels)) as [s2 ws]. cbn in *. constructor; [|exact IH].
  rewrite E2. apply in_app_iff. now left.
Qed.

(** ** the loop *)
Notation dw := (dr_window (T := R)).
Section Loop.
  Context (tri : triangulation R) (field : values (T := R)) (plt_type : string) (levels : Z) (savefigs : bool).
  Context (title : list string) (figtitle : list fig_id) (filename : list string).
  Definition drawn (c : nat) (d : drawing (T := R)) : Prop :=
    ((plt_type = "pcolor" /\ dr_fun d = Tripcolor) \/ (plt_type = "contourf" /\ dr_fun d = Tricontourf)) /\
    dr_tri d = tri /\ current_field field c = Ok (dr_values d) /\ dr_levels d = levels /\
    np_get title (Z.of_nat c) = Ok (dr_title d) /\
    exists fn, np_get filename (Z.of_nat c) = Ok fn /\ dr_saved d = if savefigs then [fn; fn] else [].
  Lemma loop_ok conts : forall st st' ds, plot_loop st conts tri field plt_type levels savefigs title figtitle filename = Ok (st', ds) ->
    exists ids, mapM (fun c => np_get figtitle (Z.of_nat c)) conts = Ok ids /\ figures st ids = (st', map dw ds) /\ Forall2 drawn conts ds.
  Proof.
    induction conts as [|c conts IH]; intros st st' ds H; cbn [plot_loop] in H.
    - apply Ok_inj in H. injection H as <- <-. exists []. repeat split. constructor.
    - inv_ok H. inv_ok H. destruct (figure st r0) as [st1 w] eqn:Ef. inv_ok H. inv_ok H. inv_ok H. inv_ok H. destruct r4 as [st2 ds2]. apply Ok_inj in H. injection H as <- <-.
      destruct (IH _ _ _ Hr4) as [ids [A [B C]]]. exists (r0 :: ids). cbn [mapM]. rewrite Hr0. cbn [bind]. rewrite A. cbn [bind figures map]. rewrite Ef, B.
      unfold tri_plot in Hr3. inv_ok Hr3. rename r4 into f. apply Ok_inj in Hr3. subst r3. repeat split.
      + f_equal. destruct savefigs; reflexivity.
      + constructor; [|exact C]. unfold drawn. repeat split.
        * destruct (String.eqb_spec plt_type "pcolor") as [->|Hp]; [apply Ok_inj in Hr5; subst f; left; split; [reflexivity|destruct savefigs; reflexivity]|].
          destruct (String.eqb_spec plt_type "contourf") as [->|Hq]; [apply Ok_inj in Hr5; subst f; right; split; [reflexivity|destruct savefigs; reflexivity]|discriminate].
        * destruct savefigs; reflexivity.
        * rewrite Hr. destruct savefigs; reflexivity.
        * destruct savefigs; reflexivity.
        * rewrite Hr1. destruct savefigs; reflexivity.
        * exists r2. split; [exact Hr2|]. destruct savefigs; reflexivity.
  Qed.
End Loop.

Lemma number_range st n : consecutive st -> NoDup (map (fun c => (Z.of_nat c + 1)%Z) (seq (length st) n)) /\
  forall k, In k (map (fun c => (Z.of_nat c + 1)%Z) (seq (length st) n)) -> ~ In k (map fst st).
Proof.
  intros H. split.
  - apply FinFun.Injective_map_NoDup; [intros a b E; lia|apply seq_NoDup].
  - intros k Hk K. apply in_map_iff in Hk as [c [<- Hc]]. apply in_seq in Hc. apply H in K. lia.
Qed.
Lemma mapM_get_all {A} (l : list A) n : (n <= length l)%nat -> mapM (fun c => np_get l (Z.of_nat c)) (seq 0 n) = Ok (firstn n l).
Proof.
  intros H. destruct l as [|d l0]; [destruct n; [reflexivity|cbn in H; lia]|]. set (l := d :: l0) in *.
  rewrite (mapM_total _ (fun c => nth c l d)).
  - f_equal. apply nth_ext with (d := d) (d' := d); [rewrite map_length, seq_length, firstn_length; lia|]. rewrite map_length, seq_length. intros k Hk.
    rewrite (nth_indep _ d (nth 0 l d)) by (rewrite map_length, seq_length; lia). rewrite (map_nth (fun c => nth c l d)), seq_nth by lia. cbn [Nat.add].
    rewrite <- (firstn_skipn n l) at 1. apply app_nth1. rewrite firstn_length. lia.
  - intros c Hc. apply in_seq in Hc. apply np_get_nth. lia.
Qed.

Definition title_list (o : option (list string)) (n : nat) := match o with Some l => l | None => repeat "" n end.
Lemma plot_field_inv st field nodes elements plt_type levels savefigs title figtitle filename st' ds :
  plot_field (T := R) st field nodes elements plt_type levels savefigs title figtitle filename = Ok (st', ds) ->
  exists tri, mesh2tri nodes elements = Ok tri /\ exists ids,
    mapM (fun c => np_get (match figtitle with Some l => l | None => map (fun cont => ByNumber (Z.of_nat cont + 1)) (seq (length st) (nfields field)) end) (Z.of_nat c)) (seq 0 (nfields field)) = Ok ids /\
    figures st ids = (st', map dw ds) /\
    Forall2 (drawn tri field plt_type levels savefigs (title_list title (nfields field))
      (match filename with Some l => l | None => map (fun cont => "output" ++ fmt_d (Z.of_nat cont) ++ ".pdf") (seq 0 (nfields field)) end)) (seq 0 (nfields field)) ds.
Proof.
  unfold plot_field. intros H. inv_ok H. exists r. split; [exact Hr|]. exact (loop_ok _ _ _ _ _ _ _ _ _ _ _ _ H).
Qed.

Lemma Forall2_len {A B} (P : A -> B -> Prop) l l' : Forall2 P l l' -> length l = length l'.
Proof. induction 1; cbn; congruence. Qed.
Lemma Forall2_nth {A B} (P : A -> B -> Prop) l l' : Forall2 P l l' -> forall k b, nth_error l' k = Some b -> exists a, nth_error l k = Some a /\ P a b.
Proof. induction 1 as [|a b l l' H1 H2 IH]; intros [|k] y Hy; cbn in *; try discriminate; [injection Hy as ->; eauto|eauto]. Qed.
Lemma nth_ext_error {A} (l l' : list A) : (forall k, nth_error l k = nth_error l' k) -> l = l'.
Proof.
  revert l'. induction l as [|a l IH]; intros [|b l'] H; [reflexivity|specialize (H 0%nat); discriminate..|]. pose proof (H 0%nat) as H0. injection H0 as ->. f_equal.
  apply IH. intros k. exact (H (S k)).
Qed.

(** new windows, one for each component *)
Theorem own_windows st field nodes elements plt_type levels savefigs title figtitle filename st' ds :
  plot_field (T := R) st field nodes elements plt_type levels savefigs title figtitle filename = Ok (st', ds) ->
  new_windows st (nfields field) figtitle ->
  length ds = nfields field /\ NoDup (map dw ds) /\ (forall w, In w (map dw ds) -> ~ In w (map fst st)) /\
  exists more, st' = (st ++ more)%list /\ map fst more = map dw ds.
Proof.
  intros H Hn. destruct (plot_field_inv _ _ _ _ _ _ _ _ _ _ _ _ H) as [tri [_ [ids [Hi [Hf HF]]]]]. clear H.
  split; [apply Forall2_len in HF; rewrite seq_length in HF; now symmetry|]. destruct figtitle as [l|]; cbn [new_windows] in Hn.
  - destruct Hn as [Hlen [labels [-> [Hd Hfr]]]]. rewrite mapM_get_all in Hi by exact Hlen. apply Ok_inj in Hi. subst ids. rewrite firstn_map in Hf.
    assert (Hd' : NoDup (firstn (nfields field) labels)).
    { rewrite <- (firstn_skipn (nfields field) labels) in Hd. clear -Hd. induction (firstn (nfields field) labels) as [|x l IH]; [constructor|]. cbn in Hd. inversion Hd; subst.
      constructor; [intros K; apply H1, in_app_iff; now left|now apply IH]. }
    assert (Hf' : forall s, In s (firstn (nfields field) labels) -> ~ In s (map snd st)).
    { intros s Hs. apply Hfr. rewrite <- (firstn_skipn (nfields field) labels). apply in_app_iff. now left. }
    destruct (figures_labels _ st Hd' Hf') as [ws [E [L [D F]]]]. rewrite E in Hf. injection Hf as <- <-. split; [exact D|]. split; [exact F|].
    eexists. split; [reflexivity|]. clear -L. revert L. generalize (firstn (nfields field) labels). intros l. revert l. induction ws as [|w ws IH]; intros [|x l] L; cbn in *; try discriminate; [reflexivity|].
    injection L as L. now rewrite IH.
  - destruct (number_range st (nfields field) Hn) as [Hd Hfr]. rewrite mapM_get_all in Hi by (rewrite map_length, seq_length; lia). apply Ok_inj in Hi.
    rewrite firstn_all2 in Hi by (rewrite map_length, seq_length; lia). subst ids.
    rewrite <- (map_map (fun c => (Z.of_nat c + 1)%Z) ByNumber), figures_numbers in Hf by assumption. injection Hf as <- <-. split; [exact Hd|]. split; [exact Hfr|].
    eexists. split; [reflexivity|]. rewrite map_map. cbn [fst]. now rewrite map_id.
Qed.

(** what is handed over *)
Lemma column_get (m : list (list R)) c l : mapM (fun row => np_get row (Z.of_nat c)) m = Ok l -> l = component c m.
Proof.
  intros Hr. apply mapM_ok in Hr. induction Hr as [|row x m l H1 H2 IH]; [reflexivity|]. unfold component in *. cbn [map].
  apply (np_get_nat_ok _ _ _ 0%R) in H1 as [_ ->]. now rewrite <- IH.
Qed.
Definition flat (field : values (T := R)) : Prop := match field with OneAxis _ => True | TwoAxes m => ncols m <> 1%nat end.
Lemma current_nodal field c v : flat field -> current_field field c = Ok v -> v = OneAxis (nodal field c).
Proof.
  intros Hn H. unfold current_field in H. destruct field as [x|m]; cbn [nfields flat nodal] in *.
  - cbn in H. apply Ok_inj in H. now subst.
  - destruct (Nat.eqb_spec (ncols m) 1); [contradiction|]. inv_ok H. apply Ok_inj in H. subst v. f_equal. now apply column_get.
Qed.

Theorem contents st field nodes elements plt_type levels savefigs title figtitle filename st' ds :
  plot_field (T := R) st field nodes elements plt_type levels savefigs title figtitle filename = Ok (st', ds) -> flat field ->
  exists tri, mesh2tri nodes elements = Ok tri /\ length ds = nfields field /\
  forall c d, nth_error ds c = Some d ->
    ((plt_type = "pcolor" /\ dr_fun d = Tripcolor) \/ (plt_type = "contourf" /\ dr_fun d = Tricontourf)) /\
    dr_tri d = tri /\ dr_values d = OneAxis (nodal field c) /\ dr_levels d = levels /\ dr_title d = given title c "" /\
    let fn := given filename c ("output" ++ fmt_d (Z.of_nat c) ++ ".pdf") in dr_saved d = if savefigs then [fn; fn] else [].
Proof.
  intros H Hfl. destruct (plot_field_inv _ _ _ _ _ _ _ _ _ _ _ _ H) as [tri [Ht [ids [_ [_ HF]]]]]. exists tri. split; [exact Ht|].
  pose proof (Forall2_len _ _ _ HF) as HL. rewrite seq_length in HL. split; [now symmetry|]. intros c d Hc.
  assert (Hcn : (c < nfields field)%nat) by (rewrite HL; apply nth_error_Some; congruence).
  destruct (Forall2_nth _ _ _ HF c d Hc) as [c' [Hc' (A & B & C & D & E & fn & F & G)]].
  assert (c' = c). { rewrite (nth_error_nth' _ 0%nat) in Hc' by (rewrite seq_length; lia). rewrite seq_nth in Hc' by lia. now injection Hc' as <-. } subst c'.
  split; [exact A|]. split; [exact B|]. split; [now apply current_nodal|]. split; [exact D|]. split.
  - apply (np_get_nat_ok _ _ _ "") in E as [E1 ->]. unfold title_list, given in *. destruct title as [l|]; [reflexivity|]. rewrite nth_repeat. reflexivity.
  - cbv zeta. rewrite G. replace (given filename c _) with fn; [reflexivity|]. apply (np_get_nat_ok _ _ _ "") in F as [F1 ->]. unfold given. destruct filename as [l|]; [reflexivity|].
    rewrite (nth_indep _ "" ("output" ++ fmt_d (Z.of_nat 0) ++ ".pdf")) by exact F1. rewrite (map_nth (fun cont => "output" ++ fmt_d (Z.of_nat cont) ++ ".pdf")), seq_nth by lia. reflexivity.
Qed.

(** ** success *)
Theorem draws st field nodes elements tri plt_type levels savefigs title figtitle filename :
  mesh2tri nodes elements = Ok tri -> plt_type = "pcolor" \/ plt_type = "contourf" ->
  (forall m, field = TwoAxes m -> Forall (fun r => length r = ncols m) m) ->
  (forall l, title = Some l -> (nfields field <= length l)%nat) -> (forall l, figtitle = Some l -> (nfields field <= length l)%nat) ->
  (forall l, filename = Some l -> (nfields field <= length l)%nat) ->
  exists st' ds, plot_field (T := R) st field nodes elements plt_type levels savefigs title figtitle filename = Ok (st', ds).
Proof.
  intros Ht Hp Hrows H1 H2 H3. unfold plot_field. rewrite Ht. cbn [bind]. cbv zeta.
  set (n := nfields field) in *.
  assert (L1 : (n <= length (match title with Some l => l | None => repeat "" n end))%nat) by (destruct title as [l|]; [now apply H1|rewrite repeat_length; lia]).
  assert (L2 : (n <= length (match figtitle with Some l => l | None => map (fun cont => ByNumber (Z.of_nat cont + 1)) (seq (length st) n) end))%nat)
    by (destruct figtitle as [l|]; [now apply H2|rewrite map_length, seq_length; lia]).
  assert (L3 : (n <= length (match filename with Some l => l | None => map (fun cont => "output" ++ fmt_d (Z.of_nat cont) ++ ".pdf") (seq 0 n) end))%nat)
    by (destruct filename as [l|]; [now apply H3|rewrite map_length, seq_length; lia]).
  revert L1 L2 L3. generalize (match title with Some l => l | None => repeat "" n end). intros ts.
  generalize (match figtitle with Some l => l | None => map (fun cont => ByNumber (Z.of_nat cont + 1)) (seq (length st) n) end). intros fs.
  generalize (match filename with Some l => l | None => map (fun cont => "output" ++ fmt_d (Z.of_nat cont) ++ ".pdf") (seq 0 n) end). intros ns L1 L2 L3.
  assert (Hc : forall c, In c (seq 0 n) -> (c < n)%nat) by (intros c K; apply in_seq in K; lia). revert Hc. generalize (seq 0 n). intros cs. revert st.
  induction cs as [|c cs IH]; intros st Hc; cbn [plot_loop]; [eexists _, _; reflexivity|].
  assert (Hcn : (c < n)%nat) by (apply Hc; now left).
  assert (Hcur : exists v, current_field field c = Ok v).
  { unfold current_field. fold n. destruct (n =? 1)%nat; [eexists; reflexivity|]. destruct field as [x|m]; [eexists; reflexivity|].
    rewrite (mapM_total _ (fun r => nth c r 0%R)); [eexists; reflexivity|]. intros r Hr. specialize (Hrows m eq_refl). rewrite Forall_forall in Hrows.
    apply np_get_nth. rewrite (Hrows r Hr). exact Hcn. }
  destruct Hcur as [v ->]. cbn [bind]. rewrite (np_get_nth fs c (ByNumber 0)) by lia. cbn [bind]. destruct (figure st (nth c fs (ByNumber 0))) as [st1 w].
  rewrite (np_get_nth ts c "") by lia. cbn [bind]. rewrite (np_get_nth ns c "") by lia. cbn [bind].
  assert (Hd : exists d, tri_plot w tri v (nth c ts "") levels savefigs plt_type (nth c ns "") = Ok d).
  { unfold tri_plot. destruct Hp as [-> | ->]; eexists; reflexivity. }
  destruct Hd as [d ->]. cbn [bind]. destruct (IH st1 (fun k Hk => Hc k (or_intror Hk))) as [st2 [ds ->]]. eexists _, _. reflexivity.
Qed.

(** ** fields_plot *)
Definition title_of (d : drawing (T := R)) := (dr_title d, dr_values d, dr_tri d, dr_fun d, dr_levels d, dr_saved d).
Lemma labelled st m nodes elements title labels st' ds N k tri : shape N k m -> (1 <= N)%nat -> (2 <= k)%nat -> length labels = k -> length title = k ->
  mesh2tri nodes elements = Ok tri ->
  plot_field (T := R) st (TwoAxes m) nodes elements "contourf" 12 false (Some title) (Some (map ByLabel labels)) None = Ok (st', ds) ->
  map title_of ds = map (fun c => (nth c title "", OneAxis (component c m), tri, Tricontourf, 12%Z, [])) (seq 0 k) /\
  figures st (map ByLabel labels) = (st', map dw ds).
Proof.
  intros [HN HF] H1 H2 HL HT Ht H. assert (HC : ncols m = k) by (destruct m as [|r m]; [cbn in HN; lia|]; inversion HF; assumption).
  destruct (plot_field_inv _ _ _ _ _ _ _ _ _ _ _ _ H) as [tri' [Ht' [ids [Hi [Hf _]]]]]. cbn [nfields] in Hi. rewrite HC in Hi.
  rewrite mapM_get_all in Hi by (rewrite map_length; lia). apply Ok_inj in Hi. rewrite firstn_all2 in Hi by (rewrite map_length; lia). subst ids. split; [|exact Hf].
  assert (Hfl : flat (TwoAxes m)) by (cbn; lia). destruct (contents _ _ _ _ _ _ _ _ _ _ _ _ H Hfl) as [tri2 [Ht2 [Hlen HD]]]. cbn [nfields] in Hlen. rewrite HC in Hlen.
  assert (tri2 = tri) by (rewrite Ht in Ht2; now apply Ok_inj in Ht2). subst tri2.
  apply nth_ext_error. intros c. rewrite !nth_error_map. destruct (lt_dec c k) as [Hc|Hc].
  - destruct (nth_error ds c) as [d|] eqn:Ed; [|apply nth_error_None in Ed; lia]. rewrite (nth_error_nth' (seq 0 k) 0%nat) by (rewrite seq_length; lia). rewrite seq_nth by lia. cbn [option_map Nat.add].
    destruct (HD c d Ed) as (A & B & C & D & E & F). destruct A as [[A _]|[_ A]]; [discriminate|]. unfold title_of. rewrite A, B, C, D, E, F. reflexivity.
  - assert (E1 : nth_error ds c = None) by (apply nth_error_None; lia). assert (E2 : nth_error (seq 0 k) c = None) by (apply nth_error_None; rewrite seq_length; lia). now rewrite E1, E2.
Qed.
Lemma figures_app a : forall b st, figures st (a ++ b)%list = (let (s1, w1) := figures st a in let (s2, w2) := figures s1 b in (s2, (w1 ++ w2)%list)).
Proof.
  induction a as [|x a IH]; intros b st; cbn [app figures]; [destruct (figures st b); reflexivity|]. destruct (figure st x) as [s1 w]. rewrite IH.
  destruct (figures s1 a) as [s2 ws]. destruct (figures s2 b). reflexivity.
Qed.

Lemma fields_draw_inv st elements nodes disp fs st' o N :
  shape N 2 disp -> (forall E Sg, fs = Some (E, Sg) -> shape N 3 E /\ shape N 3 Sg) -> (1 <= N)%nat ->
  fields_draw st elements nodes disp (option_map fst fs) (option_map snd fs) = Ok (st', o) ->
  match o with
  | None => st' = st /\ exists e, In e elements /\ (5 <= nth 1 e 0 <= 7)%Z
  | Some ds => exists tri, mesh2tri nodes elements = Ok tri /\
      map title_of ds = map (fun r => (snd (fst r), OneAxis (snd r), tri, Tricontourf, 12%Z, [])) (requests disp fs) /\
      figures st (map ByLabel (map (fun r => fst (fst r)) (requests disp fs))) = (st', map dw ds)
  end.
Proof.
  intros HD HS HN H. unfold fields_draw in H. inv_ok H. rename r into types. destruct (_ || _ || _) eqn:EB.
  - apply Ok_inj in H. injection H as <- <-. split; [reflexivity|]. exact (typed_567 _ _ Hr EB).
  - inv_ok H. destruct r as [st1 d1]. inv_ok H. destruct r as [st2 d2]. inv_ok H. destruct r as [st3 d3]. apply Ok_inj in H. injection H as <- <-.
    assert (HT : exists tri, mesh2tri nodes elements = Ok tri) by (unfold plot_field in Hr0; inv_ok Hr0; eexists; exact Hr3). destruct HT as [tri HT]. exists tri. split; [exact HT|].
    change [ByLabel "Horizontal displacement"; ByLabel "Vertical displacement"] with (map ByLabel ["Horizontal displacement"; "Vertical displacement"]) in Hr0.
    destruct (labelled st disp nodes elements ["$u_x$"; "$u_y$"] ["Horizontal displacement"; "Vertical displacement"] st1 d1 N 2 tri HD HN ltac:(lia) eq_refl eq_refl HT Hr0) as [A1 A2].
    destruct fs as [[E Sg]|]; cbn [option_map fst snd] in Hr1, Hr2.
    + destruct (HS E Sg eq_refl) as [HE HG].
      change [ByLabel "Strain epsilon-xx"; ByLabel "Strain epsilon-yy"; ByLabel "Strain gamma-xy"] with (map ByLabel ["Strain epsilon-xx"; "Strain epsilon-yy"; "Strain gamma-xy"]) in Hr1.
      destruct (labelled st1 E nodes elements ["$\epsilon_{xx}$"; "$\epsilon_{yy}$"; "$\gamma_{xy}$"] ["Strain epsilon-xx"; "Strain epsilon-yy"; "Strain gamma-xy"] st2 d2 N 3 tri HE HN ltac:(lia) eq_refl eq_refl HT Hr1) as [B1 B2].
      change [ByLabel "Stress sigma-xx"; ByLabel "Stress sigma-yy"; ByLabel "Stress tau-xy"] with (map ByLabel ["Stress sigma-xx"; "Stress sigma-yy"; "Stress tau-xy"]) in Hr2.
      destruct (labelled st2 Sg nodes elements ["$\sigma_{xx}$"; "$\sigma_{yy}$"; "$\tau_{xy}$"] ["Stress sigma-xx"; "Stress sigma-yy"; "Stress tau-xy"] st3 d3 N 3 tri HG HN ltac:(lia) eq_refl eq_refl HT Hr2) as [C1 C2].
      split.
      * rewrite !map_app, A1, B1, C1. reflexivity.
      * change (map ByLabel (map (fun r => fst (fst r)) (requests disp (Some (E, Sg))))) with
          (map ByLabel ["Horizontal displacement"; "Vertical displacement"] ++ map ByLabel ["Strain epsilon-xx"; "Strain epsilon-yy"; "Strain gamma-xy"] ++ map ByLabel ["Stress sigma-xx"; "Stress sigma-yy"; "Stress tau-xy"])%list.
        rewrite figures_app, A2, figures_app, B2, C2, !map_app. reflexivity.
    + apply Ok_inj in Hr1. injection Hr1 as <- <-. apply Ok_inj in Hr2. injection Hr2 as <- <-. split.
      * rewrite !map_app, A1. reflexivity.
      * change (map ByLabel (map (fun r => fst (fst r)) (requests disp None))) with (map ByLabel ["Horizontal displacement"; "Vertical displacement"]).
        rewrite A2, !map_app, List.app_nil_r. reflexivity.
Qed.

(** the drawings of a run, in windows with their labels *)
Theorem run_windows st elements nodes disp fs st' o N :
  shape N 2 disp -> (forall E Sg, fs = Some (E, Sg) -> shape N 3 E /\ shape N 3 Sg) -> (1 <= N)%nat ->
  fields_draw st elements nodes disp (option_map fst fs) (option_map snd fs) = Ok (st', o) ->
  match o with
  | None => st' = st /\ exists e, In e elements /\ (5 <= nth 1 e 0 <= 7)%Z
  | Some ds => exists tri, mesh2tri nodes elements = Ok tri /\
      Forall2 (fun r d => In (dr_window d, fst (fst r)) st' /\ dr_title d = snd (fst r) /\ dr_values d = OneAxis (snd r) /\ dr_tri d = tri /\
        dr_fun d = Tricontourf /\ dr_saved d = []) (requests disp fs) ds
  end.
Proof.
  intros HD HS HN H. pose proof (fields_draw_inv _ _ _ _ _ _ _ _ HD HS HN H) as G. destruct o as [ds|]; [|exact G]. destruct G as [tri [HT [A B]]]. exists tri. split; [exact HT|].
  pose proof (figures_in (map (fun r => fst (fst r)) (requests disp fs)) st) as F. rewrite B in F. cbn [fst snd] in F. clear B H HS.
  revert ds A F. generalize (requests disp fs). intros rs. induction rs as [|r rs IH]; intros [|d ds] A F; cbn in *; try discriminate; [constructor|].
  inversion F as [|? ? ? ? F1 F2]; subst. unfold title_of at 1 in A. injection A as A1 A2 A3 A4 A5 A6 A7. constructor; [repeat split; assumption|now apply IH].
Qed.
(** a second run draws in the same windows *)
Theorem run_again st elements nodes disp fs st1 ds1 N elements2 nodes2 disp2 fs2 st2 ds2 N2 :
  shape N 2 disp -> (forall E Sg, fs = Some (E, Sg) -> shape N 3 E /\ shape N 3 Sg) -> (1 <= N)%nat ->
  shape N2 2 disp2 -> (forall E Sg, fs2 = Some (E, Sg) -> shape N2 3 E /\ shape N2 3 Sg) -> (1 <= N2)%nat ->
  (fs2 <> None -> fs <> None) ->
  fields_draw st elements nodes disp (option_map fst fs) (option_map snd fs) = Ok (st1, Some ds1) ->
  fields_draw st1 elements2 nodes2 disp2 (option_map fst fs2) (option_map snd fs2) = Ok (st2, Some ds2) -> st2 = st1.
Proof.
  intros HD HS HN HD2 HS2 HN2 Hsub H H2. destruct (fields_draw_inv _ _ _ _ _ _ _ _ HD HS HN H) as [_ [_ [_ B]]]. destruct (fields_draw_inv _ _ _ _ _ _ _ _ HD2 HS2 HN2 H2) as [_ [_ [_ B2]]].
  pose proof (figures_in (map (fun r => fst (fst r)) (requests disp fs)) st) as F. rewrite B in F. cbn [fst snd] in F.
  transitivity (fst (figures st1 (map ByLabel (map (fun r => fst (fst r)) (requests disp2 fs2))))); [now rewrite B2|]. apply figures_open. intros id Hid.
  apply in_map_iff in Hid as [s [<- Hs]]. exists s. split; [reflexivity|].
  assert (Hs' : In s (map (fun r => fst (fst r)) (requests disp fs))).
  { destruct fs as [[E Sg]|], fs2 as [[E2 Sg2]|]; try exact Hs; [cbn in *; tauto|]. exfalso. apply Hsub; [discriminate|reflexivity]. }
  clear -F Hs'. induction F as [|x w l ws F1 F2 IH]; [destruct Hs'|]. destruct Hs' as [->|K]; [exact (in_map snd _ _ F1)|now apply IH].
Qed.
Theorem contents_of st field nodes elements plt_type levels savefigs title figtitle filename st' ds :
  plot_field (T := R) st field nodes elements plt_type levels savefigs title figtitle filename = Ok (st', ds) ->
  (forall m, field = TwoAxes m -> ncols m <> 1%nat) ->
  exists tri, mesh2tri nodes elements = Ok tri /\ length ds = nfields field /\
  forall c d, nth_error ds c = Some d ->
    ((plt_type = "pcolor" /\ dr_fun d = Tripcolor) \/ (plt_type = "contourf" /\ dr_fun d = Tricontourf)) /\
    dr_tri d = tri /\ dr_values d = OneAxis (nodal field c) /\ dr_levels d = levels /\ dr_title d = given title c "" /\
    let fn := given filename c ("output" ++ fmt_d (Z.of_nat c) ++ ".pdf") in dr_saved d = if savefigs then [fn; fn] else [].
Proof. intros H Hf. apply (contents _ _ _ _ _ _ _ _ _ _ _ _ H). destruct field as [v|m]; [exact I|]. exact (Hf m eq_refl). Qed.
