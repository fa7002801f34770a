(** * Lemmas: success of the driver with strain recovery and plots *)
From Coq Require Import String Reals List Arith Lia Lra Bool ZArith.
From Verif Require Import Num LinAlg Gauss Fem Uel Assem Post Main Spec LinR Base ElemCore Sampled Elem2 MatProofs Elem2Props Elem2Modes SpecAssem SpecModel SpecElem SpecPost SpecStatic SpecDriver
  ShapeProofs ElemShape AssemProofs AssemProofs3 AssemProofs4 ModelProofs ModelProofs2 ElemFinal2 ElemFinal3 MeshProofs StaticProofs StaticProofs2 StaticProofs3
  PostProofs PostFinal PostTotal PostMore.
Import ListNotations.
Local Open Scope R_scope.

Lemma mapM_exists {A B} (f : A -> res B) l : (forall a, In a l -> exists b, f a = Ok b) -> exists bs, mapM f l = Ok bs.
Proof.
  induction l as [|a l IH]; intros H; [exists []; reflexivity|]. destruct (H a (or_introl eq_refl)) as [b Hb].
  destruct IH as [bs Hbs]; [intros x Hx; apply H; right; exact Hx|]. exists (b :: bs). cbn [mapM]. rewrite Hb. cbn [bind]. rewrite Hbs. reflexivity.
Qed.

(** ** plots *)
Lemma mesh2tri_total (nodes : list (list R)) elements : elements <> [] ->
  Forall (fun row => (2 < length row)%nat) nodes ->
  Forall (fun e => (1 <= nth 1 e 0 <= 4)%Z /\ length e = (3 + nodes_of_type (nth 1 e 0%Z))%nat /\
                   Forall (fun z => (0 <= z < Z.of_nat (length nodes))%Z) (skipn 3 e)) elements ->
  exists t, mesh2tri nodes elements = Ok t.
Proof.
  intros Hne Hrow He. unfold mesh2tri.
  assert (C : forall c, (c <= 2)%nat -> exists v, mapM (fun row : list R => np_get row (Z.of_nat c)) nodes = Ok v /\ length v = length nodes).
  { intros c Hc. destruct (mapM_exists (fun row : list R => np_get row (Z.of_nat c)) nodes) as [v Hv].
    - intros row Hr. rewrite Forall_forall in Hrow. specialize (Hrow row Hr).
      destruct (nth_error row c) as [x|] eqn:E; [exists x; apply np_get_error; exact E|]. apply nth_error_None in E. lia.
    - exists v. split; [exact Hv|exact (mapM_length _ _ _ Hv)]. }
  destruct (C 1%nat) as (xs & Hxs & Lxs); [lia|]. destruct (C 2%nat) as (ys & Hys & _); [lia|].
  change (Z.of_nat 1) with 1%Z in Hxs. change (Z.of_nat 2) with 2%Z in Hys. rewrite Hxs. cbn [bind]. rewrite Hys. cbn [bind].
  rewrite Forall_forall in He.
  destruct (mapM_exists elem_triangs elements) as [tss Ht].
  { intros e Hin. destruct (He e Hin) as (H1 & H2 & _). destruct (triangs_ok e H1 H2) as (ts & Hts & _). exists ts. exact Hts. }
  rewrite Ht. cbn [bind]. pose proof (proj1 (mapM_ok _ _ _) Ht) as HF.
  assert (HM : forall t, In t (concat tss) -> length t = 3%nat /\ forall k, In k t -> (0 <= k < Z.of_nat (length nodes))%Z).
  { intros t Hin. apply in_concat in Hin. destruct Hin as (ts & Hts & Hin).
    assert (G : exists e, In e elements /\ elem_triangs e = Ok ts).
    { clear -HF Hts. induction HF as [|e b es bs Hb _ IH]; [destruct Hts|]. destruct Hts as [<-|Hts]; [exists e; split; [left; reflexivity|exact Hb]|].
      destruct (IH Hts) as (e' & A & B). exists e'. split; [right; exact A|exact B]. }
    destruct G as (e & Hin' & Hets). destruct (He e Hin') as (H1 & H2 & H3). destruct (triangs_ok e H1 H2) as (ts' & Hts' & HP & _).
    assert (ts' = ts) by congruence. subst ts'. destruct (HP t Hin) as [L3 HI]. split; [exact L3|]. intros k Hk.
    rewrite Forall_forall in H3. apply H3, HI, Hk. }
  assert (HNE : concat tss <> []).
  { destruct elements as [|e es]; [contradiction|]. inversion HF as [|? ts ? tss' Hts HF']; subst.
    destruct (He e (or_introl eq_refl)) as (H1 & H2 & _).
    assert (ts <> []).
    { intros ->. unfold elem_triangs in Hts. inv_ok Hts.
      assert (Et : r = nth 1 e 0%Z) by (apply (np_get_nat_ok _ 1 _ 0%Z) in Hr; apply Hr).
      subst r. assert (Ty : (nth 1 e 0 = 1 \/ nth 1 e 0 = 2 \/ nth 1 e 0 = 3 \/ nth 1 e 0 = 4)%Z) by lia.
      destruct Ty as [Ty|[Ty|[Ty|Ty]]]; rewrite Ty in Hts; cbn [Z.eqb Pos.eqb] in Hts;
        try (apply mapM_length in Hts; discriminate). apply Ok_inj in Hts. discriminate. }
    destruct ts; [contradiction|]. discriminate. }
  assert (G1 : negb (length (concat tss) =? 0)%nat && forallb (fun t => (length t =? 3)%nat) (concat tss) = true).
  { apply andb_true_intro. split.
    - destruct (concat tss); [contradiction|reflexivity].
    - apply forallb_forall. intros t Hin. apply Nat.eqb_eq. apply HM. exact Hin. }
  rewrite G1. cbn [guard bind].
  assert (G2 : forallb (forallb (fun i => (0 <=? i)%Z && (i <? Z.of_nat (length xs))%Z)) (concat tss) = true).
  { apply forallb_forall. intros t Hin. apply forallb_forall. intros k Hk. destruct (HM t Hin) as [_ H]. specialize (H k Hk).
    rewrite Lxs. apply andb_true_intro. split; [apply Z.leb_le; lia|apply Z.ltb_lt; lia]. }
  rewrite G2. cbn [guard bind]. eexists. reflexivity.
Qed.

Lemma plot_field_total field (nodes : list (list R)) elements titles n t : mesh2tri nodes elements = Ok t ->
  field <> [] -> Forall (fun row => length row = n) field -> length titles = n ->
  exists p, plot_node_field field nodes elements titles = Ok p.
Proof.
  intros Ht Hne Hf Lt. unfold plot_node_field. rewrite Ht. cbn [bind]. apply mapM_exists. intros c Hc. apply in_seq in Hc.
  assert (Hn : ncols field = n).
  { destruct field as [|row rows]; [contradiction|]. inversion Hf; subst. assumption. }
  rewrite Hn in Hc.
  destruct (mapM_exists (fun row : list R => np_get row (Z.of_nat c)) field) as [v Hv].
  { intros row Hr. rewrite Forall_forall in Hf. specialize (Hf row Hr).
    destruct (nth_error row c) as [x|] eqn:E; [exists x; apply np_get_error; exact E|]. apply nth_error_None in E. lia. }
  rewrite Hv. cbn [bind].
  destruct (nth_error titles c) as [x|] eqn:E; [|apply nth_error_None in E; lia].
  rewrite (np_get_error _ _ _ E). cbn [bind]. eexists. reflexivity.
Qed.

(** ** strain recovery *)
Definition auto_strains (strains : bool) (md : model) (out : outcome R) : res (option (list (list R) * list (list R))) :=
  if strains then es <- strain_nodes (md_nodes md) (md_elements md) (md_mats md) (out_disp out) ;; Ok (Some es) else Ok None.
Definition auto_plot (plot : bool) (md : model) (out : outcome R) (st : option (list (list R) * list (list R))) : res (option (plot_action R)) :=
  if plot then p <- fields_plot (md_elements md) (md_nodes md) (out_disp out) (option_map fst st) (option_map snd st) ;; Ok (Some p) else Ok None.

Lemma auto_full sv md out plot strains st pl : auto sv md false false = Ok out ->
  auto_strains strains md out = Ok st -> auto_plot plot md out st = Ok pl ->
  auto sv md plot strains = Ok {| out_nnodes := out_nnodes out; out_nels := out_nels out; out_neq := out_neq out; out_warn := out_warn out;
                                 out_plot := pl; out_disp := out_disp out; out_strains := st |}.
Proof.
  unfold auto, solids_auto, run. intros H Hs Hp. inv_ok H. destruct r as [[op bc] neq]. inv_ok H. destruct r as [gk gm].
  inv_ok H. inv_ok H. inv_ok H. inv_ok H. cbn [bind] in H. apply Ok_inj in H. subst out. cbn [out_disp out_nnodes out_nels out_neq out_warn] in *.
  rewrite Hr. cbn [bind]. rewrite Hr0. cbn [bind]. rewrite Hr1. cbn [bind]. rewrite Hr2. cbn [bind]. rewrite Hr3. cbn [bind].
  rewrite Hr4. cbn [bind]. unfold auto_strains in Hs. cbn [out_disp] in Hs. unfold auto_plot in Hp. cbn [out_disp] in Hp.
  unfold mat, vec in *. destruct strains, plot.
  - inv_ok Hs. apply Ok_inj in Hs. subst st. rewrite Hr5. cbn [bind]. inv_ok Hp. apply Ok_inj in Hp. subst pl. rewrite Hr6. reflexivity.
  - inv_ok Hs. apply Ok_inj in Hs. subst st. rewrite Hr5. cbn [bind]. apply Ok_inj in Hp. subst pl. reflexivity.
  - apply Ok_inj in Hs. subst st. cbn [bind]. inv_ok Hp. apply Ok_inj in Hp. subst pl. rewrite Hr5. reflexivity.
  - apply Ok_inj in Hs. subst st. cbn [bind]. apply Ok_inj in Hp. subst pl. reflexivity.
Qed.

Lemma disp_shape sv md plot strains out : auto sv md plot strains = Ok out -> shape (length (md_nodes md)) 2 (out_disp out).
Proof.
  unfold auto, solids_auto, run. intros H. inv_ok H. destruct r as [[op bc] neq]. inv_ok H. destruct r as [gk gm].
  inv_ok H. inv_ok H. inv_ok H. inv_ok H. inv_ok H. inv_ok H. apply Ok_inj in H. subst out. cbn [out_disp].
  unfold complete_disp in Hr4. split.
  - apply mapM_length in Hr4. rewrite seq_length in Hr4. exact Hr4.
  - apply mapM_ok in Hr4. clear -Hr4. induction Hr4 as [|a b l l' Hb _ IH]; constructor; [|exact IH].
    apply mapM_length in Hb. rewrite seq_length in Hb. exact Hb.
Qed.

Lemma det_at_ext n sh coord coord' r s : (forall k j, (k < n)%nat -> (j < 2)%nat -> ent coord k j = ent coord' k j) ->
  det_at n sh coord r s = det_at n sh coord' r s.
Proof.
  intros H. unfold det_at, J2det, Jac. rewrite !(rsum_ext n _ _ (fun k Hk => f_equal _ (H k 0%nat Hk ltac:(lia)))).
  rewrite !(rsum_ext n _ _ (fun k Hk => f_equal _ (H k 1%nat Hk ltac:(lia)))). reflexivity.
Qed.

Lemma recov_plane t n sh rule f : In (t, n, sh, rule) recov -> @ele_fun R Num_R t = Ok f ->
  exists p, In p planes /\ pl_f p = f /\ pl_n p = n /\ pl_sh p = sh /\ pl_par p = par_opt /\
    forall pts wts, rule = Ok (pts, wts) -> forall q coord, In q pts -> accepted2 n sh (pl_gq p) coord ->
      1 / 100000000 < det_at n sh coord (nth 0 q 0) (nth 1 q 0).
Proof.
  intros [E|[E|[E|[]]]] Hf; apply pair_equal_spec in E as [E <-]; apply pair_equal_spec in E as [E <-]; apply pair_equal_spec in E as [<- <-];
    cbn in Hf; apply Ok_inj in Hf; subst f.
  - exists pl_quad4. split; [cbn; tauto|]. do 4 (split; [reflexivity|]). intros pts wts HR q coord Hq (_ & _ & Hd).
    destruct (In_nth _ _ [] Hq) as (k & Hk & <-).
    assert (HL : length wts = length pts) by (clear -HR; cbn in HR; apply Ok_pair_inj in HR as [<- <-]; reflexivity).
    apply (Hd _ _ (nth k wts 0)). cbn [pl_gq pl_quad4]. rewrite HR. cbn [triples].
    apply (in_map (fun pw : list R * R => (nth 0 (fst pw) 0, nth 1 (fst pw) 0, snd pw)) (combine pts wts) (nth k pts [], nth k wts 0)).
    rewrite <- combine_nth by (symmetry; exact HL). apply nth_In. rewrite combine_length. lia.
  - exists pl_tri6. split; [cbn; tauto|]. do 4 (split; [reflexivity|]). intros pts wts HR q coord Hq (_ & _ & Hd).
    destruct (In_nth _ _ [] Hq) as (k & Hk & <-).
    assert (HL : length wts = length pts) by (clear -HR; cbn in HR; apply Ok_pair_inj in HR as [<- <-]; reflexivity).
    apply (Hd _ _ (nth k wts 0)). cbn [pl_gq pl_tri6]. rewrite HR. cbn [triples].
    apply (in_map (fun pw : list R * R => (nth 0 (fst pw) 0, nth 1 (fst pw) 0, snd pw)) (combine pts wts) (nth k pts [], nth k wts 0)).
    rewrite <- combine_nth by (symmetry; exact HL). apply nth_In. rewrite combine_length. lia.
  - exists pl_tri3. split; [cbn; tauto|]. do 4 (split; [reflexivity|]). intros pts wts HR q coord Hq (_ & _ & Hd).
    assert (G : exists r s w, In (r, s, w) (pl_gq pl_tri3)) by (do 3 eexists; left; reflexivity).
    destruct G as (r & s & w & Hin). specialize (Hd r s w Hin). eapply Rlt_le_trans; [exact Hd|]. apply Req_le.
    unfold det_at, J2det, Jac. shp. reflexivity.
Qed.

Lemma elem_runs_ok md e t n sh rule pts wts : wf_model md -> accepted md -> In e (md_elements md) -> In (t, n, sh, rule) recov -> rule = Ok (pts, wts) ->
  mesh_of t n (length (md_nodes md)) (md_elements md) -> Forall (fun row => length row = 2%nat) (md_mats md) ->
  elem_runs sh pts (md_nodes md) (md_mats md) e.
Proof.
  intros Hwf Hacc He Hin HR HM HL. unfold accepted in Hacc. rewrite Forall_forall in Hacc. destruct (Hacc e He) as (_ & K & M & Hret).
  destruct (retrieved md e K (M2 M) Hwf He Hret) as (t' & im & pr & f & Ht' & Him & Hp & Hf & HK & _).
  unfold mesh_of in HM. rewrite Forall_forall in HM. destruct (HM e He) as (Le & Ht & Hm & HF).
  assert (t' = t) by (rewrite <- Ht; symmetry; apply nth_error_nth; exact Ht'). subst t'.
  assert (im = nth 2 e 0%Z) by (symmetry; apply nth_error_nth; exact Him). subst im.
  assert (HI : (nth 2 e 0 < Z.of_nat (length (md_mats md)))%Z /\ pr = nth (Z.to_nat (nth 2 e 0%Z)) (md_mats md) []).
  { rewrite <- (Z2Nat.id (nth 2 e 0%Z)) in Hp by exact Hm. apply (np_get_nat_ok _ _ _ []) in Hp. split; [lia|apply Hp]. }
  destruct HI as [HI Hpr].
  destruct (recov_plane _ _ _ _ f Hin Hf) as (p & Hpin & Hpf & Hpn & Hps & Hpp & Hdet).
  rewrite <- Hpf in HK. destruct (plane_eq p _ _ _ _ Hpin HK) as (E & nu & rho & C & sK & sM & M' & Hpar & HU & HsK & HsM & Hint & _).
  rewrite Hpp in Hpar.
  assert (Hgq : pl_gq p <> []).
  { intros Hn. clear -Hpin Hn. repeat (destruct Hpin as [<-|Hpin]; [discriminate|]). destruct Hpin. }
  destruct (plane_inv _ _ _ _ _ _ _ _ _ _ _ (good2_all p Hpin) Hgq HsK HsM Hint) as [Hacc2 _].
  rewrite Hpn, Hps in Hacc2.
  assert (Hlen : length pr = 2%nat).
  { rewrite Forall_forall in HL. apply HL. rewrite Hpr. apply nth_In. lia. }
  destruct pr as [|E' [|nu' [|? ?]]]; try discriminate. cbn [par_opt] in Hpar. injection Hpar as -> -> _.
  apply umat_inv in HU. destruct HU as [Hnu _].
  assert (Enu : e_nu (md_mats md) e = nu) by (unfold e_nu, ent; rewrite <- Hpr; reflexivity).
  unfold elem_runs. split; [exact HI|]. split; [rewrite <- Hpr; reflexivity|]. rewrite Enu.
  split; [intros ->; apply Hnu; ring|]. split; [intros ->; apply Hnu; ring|].
  apply Forall_forall. intros q Hq. pose proof (Hdet pts wts HR q _ Hq Hacc2) as Hd.
  assert (Hne : e_n e = n) by (unfold e_n; lia).
  rewrite (det_at_ext n sh _ (e_coords (md_nodes md) e)) in Hd.
  2:{ intros k j Hk Hj. rewrite e_coord_ent by lia. rewrite ent_e_coords by lia. reflexivity. }
  destruct (diff2_total n sh (e_coords (md_nodes md) e) (nth 0 q 0) (nth 1 q 0)) as (Hm' & B & HB).
  - rewrite <- Hpn, <- Hps. apply good2_all. exact Hpin.
  - rewrite e_coords_length. exact Hne.
  - assert (Hn0 : n <> 0%nat) by (destruct Hin as [Q|[Q|[Q|[]]]]; apply pair_equal_spec in Q as [Q _]; apply pair_equal_spec in Q as [Q _]; apply pair_equal_spec in Q as [_ <-]; discriminate).
    assert (Hlc : length (skipn 3 e) <> 0%nat) by (rewrite skipn_length; unfold e_n in Hne; lia).
    unfold e_coords. destruct (skipn 3 e); [contradiction|reflexivity].
  - exact Hd.
  - eexists. exact HB.
Qed.

Lemma strain_runs md sol : wf_model md -> accepted md -> recoverable md -> shape (length (md_nodes md)) 2 sol ->
  exists E S, strain_nodes (md_nodes md) (md_elements md) (md_mats md) sol = Ok (E, S) /\
    shape (length (md_nodes md)) 3 E /\ shape (length (md_nodes md)) 3 S /\
    strain_rows (md_nodes md) (md_elements md) (md_mats md) sol = Ok (map Some E, map Some S).
Proof.
  intros Hwf Hacc ((t & n & Hin & HM) & Hne & RN & RM & Ht) [LU RU].
  assert (G : exists sh rule pts wts, In (t, n, sh, rule) recov /\ rule = Ok (pts, wts)).
  { destruct Hin as [E|[E|[E|[]]]]; apply pair_equal_spec in E as [<- <-];
      [exists shape_quad4, (gauss_nd 2 2)|exists shape_tri6, (gauss_tri 3)|exists shape_tri3, (gauss_tri 1)];
      do 2 eexists; (split; [cbn; tauto|reflexivity]). }
  destruct G as (sh & rule & pts & wts & Hrec & HR).
  destruct (strain_rows_runs t n sh rule pts wts (length (md_nodes md)) (md_nodes md) (md_elements md) (md_mats md) sol Hrec HR HM Hne eq_refl LU RN)
    as (E & S & HE & LE & LS).
  { eapply Forall_impl; [|exact RU]. cbv beta. intros; lia. }
  { apply Forall_forall. intros e He. eapply elem_runs_ok; eassumption. }
  destruct (nodal_average t n sh rule pts wts _ _ _ _ _ _ _ Hrec HR HM eq_refl LU HE) as (eps & _ & _ & Hrow).
  assert (HS : forall i, (i < length (md_nodes md))%nat -> exists er sr, nth i E None = Some er /\ nth i S None = Some sr /\ length er = 3%nat /\ length sr = 3%nat).
  { intros i Hi. destruct (Ht i Hi) as (e & He & Hto). pose proof (occurs_pos _ _ _ He Hto) as Hpos.
    destruct (Hrow i Hi) as [_ HX]. destruct (HX ltac:(lra)) as (er & sr & A & B & C & D & _). exists er, sr. auto. }
  assert (FR : forall X : list (option (list R)), length X = length (md_nodes md) ->
     (forall i, (i < length (md_nodes md))%nat -> exists r, nth i X None = Some r /\ length r = 3%nat) ->
     exists Y, finite_rows X = Ok Y /\ shape (length (md_nodes md)) 3 Y /\ X = map Some Y).
  { clear. intros X HL. rewrite <- HL. clear HL. induction X as [|o X IH]; intros HX.
    - exists []. split; [reflexivity|]. split; [split; constructor|reflexivity].
    - destruct (HX 0%nat) as (r & Hr & Lr); [cbn; lia|]. cbn in Hr. subst o.
      destruct IH as (Y & HY & [LY FY] & EY).
      { intros i Hi. apply (HX (S i)). cbn. lia. }
      exists (r :: Y). unfold finite_rows in *. cbn [mapM bind]. rewrite HY. cbn [bind]. split; [reflexivity|]. split; [split; [cbn; congruence|constructor; assumption]|].
      cbn [map]. rewrite <- EY. reflexivity. }
  destruct (FR E LE) as (E' & HE' & SE & EE). { intros i Hi. destruct (HS i Hi) as (er & sr & A & B & C & D). exists er. auto. }
  destruct (FR S LS) as (S' & HS' & SS & ES). { intros i Hi. destruct (HS i Hi) as (er & sr & A & B & C & D). exists sr. auto. }
  exists E', S'. split; [|split; [exact SE|split; [exact SS|rewrite HE, EE, ES; reflexivity]]].
  unfold strain_nodes. rewrite HE. cbn [bind]. rewrite HE'. cbn [bind]. rewrite HS'. reflexivity.
Qed.

(** ** the driver *)
Lemma plot_runs md sol st : wf_model md -> accepted md -> plottable md -> md_nodes md <> [] -> shape (length (md_nodes md)) 2 sol ->
  (forall E S, st = Some (E, S) -> shape (length (md_nodes md)) 3 E /\ shape (length (md_nodes md)) 3 S) ->
  exists p, fields_plot (md_elements md) (md_nodes md) sol (option_map fst st) (option_map snd st) = Ok p.
Proof.
  intros Hwf Hacc Hpl Hne [LU RU] Hst. unfold fields_plot.
  assert (NZ : forall n (A : list (list R)), shape (length (md_nodes md)) n A -> A <> []).
  { intros n A [LA _] ->. destruct (md_nodes md); [contradiction|discriminate]. }
  assert (Hty : mapM (fun e : list Z => np_get e 1) (md_elements md) = Ok (map (fun e => nth 1 e 0%Z) (md_elements md))).
  { apply mapM_total. intros e He. unfold accepted in Hacc. rewrite Forall_forall in Hacc. destruct (Hacc e He) as ((t & Ht & _) & _).
    rewrite (nth_error_nth _ _ 0%Z Ht). exact (np_get_error e 1 t Ht). }
  rewrite Hty. cbn [bind].
  destruct (has_type _ 5 || has_type _ 6 || has_type _ 7) eqn:EB; [eexists; reflexivity|].
  destruct Hpl as [(e & He & Hk)|(Hel & RN & HP)].
  { exfalso. apply Bool.orb_false_iff in EB as [EB E7]. apply Bool.orb_false_iff in EB as [E5 E6].
    assert (X : forall z, nth 1 e 0%Z = z -> has_type (map (fun e => nth 1 e 0%Z) (md_elements md)) z = true).
    { intros z Hz. unfold has_type. apply existsb_exists. exists z. split; [|apply Z.eqb_refl]. rewrite <- Hz. apply (in_map (fun x : list Z => nth 1 x 0%Z)). exact He. }
    destruct Hk as [Hk|[Hk|[Hk|[]]]]; symmetry in Hk; apply X in Hk; congruence. }
  destruct (mesh2tri_total (md_nodes md) (md_elements md) Hel RN) as [tr Htr].
  { apply Forall_forall. intros e He. rewrite Forall_forall in HP. destruct (HP e He) as [A B]. split; [exact A|split; [exact B|]].
    destruct Hwf as (_ & _ & Hwf & _). rewrite Forall_forall in Hwf. apply Hwf. exact He. }
  match goal with |- context [plot_node_field sol _ _ ?tt] =>
    destruct (plot_field_total sol (md_nodes md) (md_elements md) tt 2 tr Htr (NZ 2%nat sol (conj LU RU)) RU eq_refl) as [p1 H1] end.
  rewrite H1. cbn [bind]. destruct st as [[E S]|]; cbn [option_map fst snd]; [|eexists; reflexivity].
  destruct (Hst E S eq_refl) as [[LE FE] [LS FS]].
  match goal with |- context [plot_node_field E _ _ ?tt] =>
    destruct (plot_field_total E (md_nodes md) (md_elements md) tt 3 tr Htr (NZ 3%nat E (conj LE FE)) FE eq_refl) as [p2 H2] end.
  rewrite H2. cbn [bind].
  match goal with |- context [plot_node_field S _ _ ?tt] =>
    destruct (plot_field_total S (md_nodes md) (md_elements md) tt 3 tr Htr (NZ 3%nat S (conj LS FS)) FS eq_refl) as [p3 H3] end.
  rewrite H3. eexists. reflexivity.
Qed.

Theorem model_runs_full sv md plot strains : wf_model md -> accepted md -> stable md -> solver_ok sv -> solver_total sv ->
  (exists i d, free md i d) -> (strains = true -> recoverable md) -> (plot = true -> plottable md) ->
  exists out, auto sv md plot strains = Ok out.
Proof.
  intros Hwf Hacc Hst Hsv Htot Hfr Hrec Hpl. destruct (model_runs sv md Hwf Hacc Hst Hsv Htot Hfr) as [out Hout].
  pose proof (disp_shape _ _ _ _ _ Hout) as HD.
  assert (GS : exists st, auto_strains strains md out = Ok st /\
     forall E S, st = Some (E, S) -> shape (length (md_nodes md)) 3 E /\ shape (length (md_nodes md)) 3 S).
  { destruct strains; [|exists None; split; [reflexivity|discriminate]].
    destruct (strain_runs md (out_disp out) Hwf Hacc (Hrec eq_refl) HD) as (E & S & HE & SE & SS & _).
    exists (Some (E, S)). split; [unfold auto_strains; rewrite HE; reflexivity|]. intros E' S' H. injection H as <- <-. split; assumption. }
  destruct GS as (st & HS & Hsh).
  assert (GP : exists pl, auto_plot plot md out st = Ok pl).
  { destruct plot; [|exists None; reflexivity]. destruct (plot_runs md (out_disp out) st Hwf Hacc (Hpl eq_refl)) as [p Hp].
    - destruct Hfr as (i & d & Hi & _). intros E. rewrite E in Hi. cbn in Hi. lia.
    - exact HD.
    - exact Hsh.
    - exists (Some p). unfold auto_plot. rewrite Hp. reflexivity. }
  destruct GP as [pl HP]. eexists. exact (auto_full sv md out plot strains st pl Hout HS HP).
Qed.
