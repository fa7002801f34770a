(** * Strain recovery: runs that succeed, single elements, materials, positions (proof support) *)
From Coq Require Import String Reals List Arith Lia Lra ZArith QArith Qreals Bool.
From Verif Require Import Num LinAlg Gauss Fem Uel Assem Post Spec LinR Base SpecAssem SpecElem SpecModel SpecPost ElemShape BarProofs SpecShape ShapeProofs ElemCore Elem2 MatProofs ElemFinal ExModel2 PostProofs PostFinal.
Import ListNotations.
Local Open Scope R_scope.

(** ** success *)
Lemma np_get2_total (a : list (list R)) z c : (0 <= z < Z.of_nat (length a))%Z -> (c < length (nth (Z.to_nat z) a []))%nat ->
  np_get2 a z (Z.of_nat c) = Ok (ent a (Z.to_nat z) c).
Proof.
  intros Hz Hc. unfold np_get2. rewrite (np_get_nonneg a z [] Hz). cbn [bind]. rewrite (np_get_nth _ _ 0) by exact Hc. reflexivity.
Qed.

Lemma take_col_total (a : list (list R)) ids c : Forall (fun z => (0 <= z < Z.of_nat (length a))%Z) ids ->
  Forall (fun row => (c < length row)%nat) a -> take_col a ids (Z.of_nat c) = Ok (map (fun z => ent a (Z.to_nat z) c) ids).
Proof.
  intros HF Hrow. unfold take_col. apply mapM_total. intros z Hz. rewrite Forall_forall in HF, Hrow. specialize (HF z Hz).
  apply np_get2_total; [exact HF|]. apply Hrow. apply nth_In. lia.
Qed.

Lemma foldM_total {A B} (P : B -> Prop) (f : B -> A -> res B) l : (forall b a, In a l -> P b -> exists b', f b a = Ok b' /\ P b') ->
  forall b, P b -> exists b', foldM f l b = Ok b' /\ P b'.
Proof.
  induction l as [|a l IH]; intros Hf b Hb; [exists b; auto|]. cbn.
  destruct (Hf b a (or_introl eq_refl) Hb) as [b1 [E1 H1]]. rewrite E1. cbn [bind].
  apply IH; [|exact H1]. intros b2 a2 Ha2. apply Hf. now right.
Qed.

Definition acc_ok (N : nat) (st : list (list R) * list (list R) * list Z) : Prop :=
  length (fst (fst st)) = N /\ length (snd (fst st)) = N /\ length (snd st) = N.

Lemma node_acc_total N f1 f2 g (epsG : list (list R)) st k z : acc_ok N st -> (0 <= z < Z.of_nat N)%Z -> (k < length epsG)%nat ->
  exists st', node_acc f1 f2 g epsG st (k, z) = Ok st' /\ acc_ok N st'.
Proof.
  destruct st as [[E S] cnt]. intros [LE [LS LC]] Hz Hk. cbn [fst snd] in *. unfold node_acc.
  rewrite (np_get_nth _ _ []) by exact Hk. cbn [bind].
  rewrite np_upd_nonneg by (rewrite LE; exact Hz). cbn [bind].
  rewrite np_upd_nonneg by (rewrite LS; exact Hz). cbn [bind].
  rewrite np_upd_nonneg by (rewrite LC; exact Hz). cbn [bind].
  eexists. split; [reflexivity|]. unfold acc_ok. cbn [fst snd]. rewrite !upd_length. auto.
Qed.

Lemma str_loop_total sh n cap pts coord u : (forall r s, length (fst (sh r s)) = n) ->
  Forall (fun p => length p = 2%nat /\ exists X, elast_diff_2d (nth 0 p 0) (nth 1 p 0) coord sh = Ok X) pts ->
  exists eps xl, str_el_loop sh cap pts coord (mk_vec (2 * n) u) = Ok (eps, xl) /\ length eps = Nat.max cap (length pts).
Proof.
  intros Hs HF. assert (X : exists rows, mapM (str_el_point sh coord (mk_vec (2 * n) u)) pts = Ok rows).
  { induction pts as [|p pts IH]; [exists []; reflexivity|]. inversion HF as [|? ? [Lp [[[Hm B] det] HX]] HF']; subst.
    destruct (IH HF') as [rows Hrows]. destruct p as [|r [|s [|]]]; try discriminate. cbn [nth] in HX.
    cbn [mapM]. unfold str_el_point at 1. cbn [unpack2 bind]. rewrite HX. cbn [bind]. rewrite Hs, mk_vec_length, Nat.eqb_refl.
    cbn [guard bind]. rewrite Hrows. eexists. reflexivity. }
  destruct X as [rows Hrows]. unfold str_el_loop. rewrite Hrows. cbn [bind]. do 2 eexists. split; [reflexivity|].
  pose proof (mapM_length _ _ _ Hrows) as L. unfold vec, mat in *. rewrite app_length, map_length, repeat_length. lia.
Qed.

(** what strain_nodes needs of an element row *)
Definition elem_runs (sh : R -> R -> list R * list (list R)) (pts : list (list R)) (nodes mats : list (list R)) (e : list Z) : Prop :=
  (nth 2 e 0 < Z.of_nat (length mats))%Z /\ length (nth (Z.to_nat (nth 2 e 0%Z)) mats []) = 2%nat /\
  e_nu mats e <> 1 /\ e_nu mats e <> -1 /\
  Forall (fun p => exists X, elast_diff_2d (nth 0 p 0) (nth 1 p 0) (e_coords nodes e) sh = Ok X) pts.

Lemma combine_map_coords (nodes : list (list R)) con :
  map (fun xy : R * R => [fst xy; snd xy]) (combine (map (fun z => ent nodes (Z.to_nat z) 1) con) (map (fun z => ent nodes (Z.to_nat z) 2) con)) =
  map (fun z => [ent nodes (Z.to_nat z) 1; ent nodes (Z.to_nat z) 2]) con.
Proof. induction con as [|z l IH]; cbn; [reflexivity|]. now rewrite IH. Qed.

Lemma field_vec (sol : list (list R)) e n : length e = (3 + n)%nat ->
  mk_vec (2 * n) (fun k => if (k mod 2 =? 0)%nat then vget (map (fun z => ent sol (Z.to_nat z) 0) (skipn 3 e)) (k / 2)
                           else vget (map (fun z => ent sol (Z.to_nat z) 1) (skipn 3 e)) (k / 2)) = mk_vec (2 * n) (e_field sol e).
Proof.
  intros Le. assert (Lc : length (skipn 3 e) = n) by (rewrite skipn_length; lia).
  apply nth_ext with (d := 0) (d' := 0); rewrite !mk_vec_length; [reflexivity|]. intros k Hk.
  rewrite !mk_vec_nth by exact Hk. unfold e_field, field2. rewrite Nat.div2_div.
  assert (Hk2 : (k / 2 < n)%nat) by (apply Nat.div_lt_upper_bound; lia).
  rewrite !e_node_skipn. unfold vget. rewrite even_mod2. numR.
  destruct (k mod 2 =? 0)%nat; rewrite (map_nth_def _ _ _ 0%Z) by (rewrite Lc; exact Hk2); reflexivity.
Qed.

Lemma strain_elem_total t n sh rule pts wts N nodes mats sol st e : In (t, n, sh, rule) recov -> rule = Ok (pts, wts) ->
  length nodes = N -> length sol = N -> Forall (fun row => (2 < length row)%nat) nodes -> Forall (fun row => (1 < length row)%nat) sol ->
  length e = (3 + n)%nat /\ nth 1 e 0%Z = t /\ (0 <= nth 2 e 0)%Z /\ Forall (fun z => (0 <= z < Z.of_nat N)%Z) (skipn 3 e) ->
  elem_runs sh pts nodes mats e -> acc_ok N st ->
  exists st', strain_elem t (2 * n) n nodes mats sol st e = Ok st' /\ acc_ok N st'.
Proof.
  intros Hin Hrule LN LU RN RU [Le [Ht [Hm HF]]] [Hm2 [Lrow [Hn1 [Hn2 HD]]]] Hst.
  destruct (recov_good _ _ _ _ Hin) as [Hg [_ [_ HR]]].
  assert (He_n : e_n e = n) by (unfold e_n; lia).
  destruct (HR pts wts nodes sol e Hrule He_n) as [Lp [Fp HS]].
  unfold strain_elem. assert (G2 : np_get e 2 = Ok (nth 2 e 0%Z)) by (apply (np_get_nth e 2); destruct Hin as [E|[E|[E|[]]]]; apply pair_equal_spec in E as [E _]; apply pair_equal_spec in E as [E _]; apply pair_equal_spec in E as [_ <-]; lia).
  rewrite G2. cbn [bind]. rewrite (np_get_nonneg mats _ []) by lia. cbn [bind].
  unfold e_nu, ent in Hn1, Hn2.
  destruct (nth (Z.to_nat (nth 2 e 0%Z)) mats []) as [|Y [|nu [|]]]; try discriminate. cbn [nth] in Hn1, Hn2.
  unfold npow. numR.
  assert (N1 : 1 + nu <> 0) by lra.
  assert (N2 : 1 - nu * nu <> 0). { intros K. assert ((1 - nu) * (1 + nu) = 0) by lra. apply Rmult_integral in H as [H|H]; lra. }
  replace (nis0 (2 * (1 + nu))) with false by (symmetry; apply nis0_false; lra).
  replace (nis0 (1 - nu * nu)) with false by (symmetry; apply nis0_false; exact N2).
  cbn [negb guard bind].
  assert (Lc : length (skipn 3 e) = n) by (rewrite skipn_length; lia).
  assert (HFn : Forall (fun z => (0 <= z < Z.of_nat (length nodes))%Z) (skipn 3 e)) by (rewrite LN; exact HF).
  assert (HFs : Forall (fun z => (0 <= z < Z.of_nat (length sol))%Z) (skipn 3 e)) by (rewrite LU; exact HF).
  assert (RN1 : Forall (fun row => (1 < length row)%nat) nodes) by (eapply Forall_impl; [|exact RN]; cbv beta; intros; lia).
  assert (RU1 : Forall (fun row => (0 < length row)%nat) sol) by (eapply Forall_impl; [|exact RU]; cbv beta; intros; lia).
  rewrite (take_col_total nodes _ 1) by assumption. cbn [bind].
  unfold fit. rewrite map_length, Lc, Nat.eqb_refl. cbn [bind].
  rewrite (take_col_total nodes _ 2) by assumption. cbn [bind]. rewrite map_length, Lc, Nat.eqb_refl. cbn [bind].
  assert (D2 : (2 * n / 2 = n)%nat) by (rewrite Nat.mul_comm; apply Nat.div_mul; lia).
  assert (D3 : (2 * n - 2 * n / 2 = n)%nat) by lia. rewrite ?D3, ?D2.
  rewrite (take_col_total sol _ 0) by assumption. cbn [bind].
  rewrite map_length, Lc, Nat.eqb_refl. cbn [bind].
  rewrite (take_col_total sol _ 1) by assumption. cbn [bind]. rewrite map_length, Lc, Nat.eqb_refl. cbn [bind].
  rewrite combine_map_coords. 
  assert (HF2 : Forall (fun p => length p = 2%nat /\ exists X, elast_diff_2d (nth 0 p 0) (nth 1 p 0) (e_coords nodes e) sh = Ok X) pts).
  { clear -Fp HD. induction pts; constructor; inversion Fp; inversion HD; subst; auto. }
  destruct (str_loop_total sh n (recov_cap t) pts (e_coords nodes e) (e_field sol e) (fun r s => proj1 (Hg r s)) HF2) as [eps [xl [HE HL]]].
  rewrite HE in HS. cbn [bind] in HS. unfold strains_of in HS. rewrite He_n in HS.
  pose proof (field_vec sol e n Le) as HV.
  match goal with |- context [element_strains t ?c ?u] => replace (element_strains t c u) with (@Ok (list (list R)) eps) end.
  2:{ symmetry. etransitivity; [|exact HS]. f_equal. exact HV. }
  cbn [bind]. apply (foldM_total (acc_ok N)); [|exact Hst].
  intros st' [k z] Hkz Hst'. apply node_acc_total; [exact Hst'| |].
  - apply in_combine_r in Hkz. rewrite Forall_forall in HF. apply HF. exact Hkz.
  - apply in_combine_l in Hkz. apply in_seq in Hkz. rewrite HL, Lp. unfold recov_cap.
    destruct Hin as [E|[E|[E|[]]]]; apply pair_equal_spec in E as [E _]; apply pair_equal_spec in E as [E _]; apply pair_equal_spec in E as [<- <-]; cbn; lia.
Qed.

Theorem strain_rows_runs t n sh rule pts wts N nodes elements mats sol : In (t, n, sh, rule) recov -> rule = Ok (pts, wts) ->
  mesh_of t n N elements -> elements <> [] -> length nodes = N -> length sol = N ->
  Forall (fun row => (2 < length row)%nat) nodes -> Forall (fun row => (1 < length row)%nat) sol ->
  Forall (elem_runs sh pts nodes mats) elements ->
  exists E S, strain_rows nodes elements mats sol = Ok (E, S) /\ length E = N /\ length S = N.
Proof.
  intros Hin Hrule HM Hne LN LU RN RU HE. unfold strain_rows.
  change (np_get elements 0) with (np_get elements (Z.of_nat 0)).
  rewrite (np_get_nth elements 0 []) by (destruct elements; [congruence|cbn; lia]). cbn [bind].
  pose proof HM as HM'. unfold mesh_of in HM'. rewrite Forall_forall in HM', HE.
  destruct (HM' (nth 0 elements [])) as [L0 [T0 _]]; [apply nth_In; destruct elements; [congruence|cbn; lia]|].
  change (np_get (nth 0 elements []) 1) with (np_get (nth 0 elements []) (Z.of_nat 1)).
  rewrite (np_get_nth _ 1 0%Z) by lia. cbn [bind]. rewrite T0.
  destruct (recov_good _ _ _ _ Hin) as [_ [_ [Ht _]]]. destruct (eletype_plane t n Ht) as [g Hg]. rewrite Hg. cbn [bind].
  destruct (foldM_total (acc_ok N) (strain_elem t (2 * n) n nodes mats sol) elements) with (b := (zeros (length nodes) 3, zeros (length nodes) 3, repeat 0%Z (length nodes)))
    as [[[E S] cnt] [HR [A1 [A2 A3]]]].
  - intros st e He Hst. eapply strain_elem_total; eauto.
  - unfold acc_ok. cbn [fst snd]. unfold zeros. rewrite mk_mat_length, repeat_length. auto.
  - match goal with |- exists E S, bind ?x _ = _ /\ _ => replace x with (@Ok (list (list R) * list (list R) * list Z) (E, S, cnt)) by (symmetry; exact HR) end.
    cbn [bind]. do 2 eexists. split; [reflexivity|]. cbn [fst snd] in *. unfold average. unfold vec, mat in *. rewrite !map_length, !combine_length. lia.
Qed.

(** ** C50: single quadrilateral *)
Lemma nd22 a b w : @gauss_1d R Num_R 2 = Ok ([a; b], w) -> a < 0 < b /\
  exists wts, @gauss_nd R Num_R 2 2 = Ok ([[a; a]; [a; b]; [b; a]; [b; b]], wts).
Proof.
  intros H. assert (H' := H). unfold gauss_1d in H'. cbn [GaussTab.gauss_1d_tab Z.eqb Pos.eqb] in H'. apply Ok_pair_inj in H' as [Hab _].
  assert (Ha : a = nth 0 [a; b] 0) by reflexivity. assert (Hb : b = nth 1 [a; b] 0) by reflexivity.
  split.
  - rewrite Ha at 1. rewrite Hb at 2. rewrite <- Hab. unfold GaussTab.gauss_1d_2_pts. cbn [map nth]. cbn [nofQ Num_R]. split; q2r; lra.
  - unfold gauss_nd. rewrite H. cbn [bind product flat_map map app]. eexists. reflexivity.
Qed.

Lemma occurs_single e k n : length e = (3 + n)%nat -> NoDup (skipn 3 e) -> Forall (fun z => (0 <= z)%Z) (skipn 3 e) -> (k < n)%nat ->
  forall g, gathered [e] (e_node e k) g = g e k.
Proof.
  intros Le HN Hpos Hk g. assert (Lc : length (skipn 3 e) = n) by (rewrite skipn_length; lia).
  unfold gathered, lsum. cbn [fold_right]. rewrite Rplus_0_r. unfold e_n. replace (length e - 3)%nat with n by lia.
  assert (X : forall j, (j < n)%nat -> j <> k -> (if (e_node e j =? e_node e k)%nat then g e j else 0) = 0).
  { intros j Hj Hjk. destruct (Nat.eqb_spec (e_node e j) (e_node e k)) as [E|E]; [|reflexivity]. exfalso. apply Hjk.
    rewrite !e_node_skipn in E. rewrite Forall_forall in Hpos.
    assert (P1 := Hpos (nth j (skipn 3 e) 0%Z) ltac:(apply nth_In; lia)). assert (P2 := Hpos (nth k (skipn 3 e) 0%Z) ltac:(apply nth_In; lia)).
    apply (proj1 (NoDup_nth (skipn 3 e) 0%Z) HN); lia. }
  rewrite (rsum_single n k) by auto.
  rewrite Nat.eqb_refl. reflexivity.
Qed.

Theorem single_quad N nodes e mats sol E S a b w : mesh_of 1 4 N [e] -> NoDup (skipn 3 e) -> length nodes = N -> length sol = N ->
  @gauss_1d R Num_R 2 = Ok ([a; b], w) -> strain_rows nodes [e] mats sol = Ok (E, S) ->
  a < 0 < b /\ forall k, (k < 4)%nat -> exists er, nth (e_node e k) E None = Some er /\
    strain_at shape_quad4 (e_coords nodes e) (e_field sol e) (nth k [[a; a]; [a; b]; [b; a]; [b; b]] []) (fun c => nth c er 0).
Proof.
  intros HM HN LN LU H1d H. destruct (nd22 a b w H1d) as [Hab [wts Hnd]]. split; [exact Hab|]. intros k Hk.
  assert (Hin : In (1%Z, 4%nat, shape_quad4, gauss_nd 2 2) recov) by (cbn; tauto).
  destruct (nodal_average _ _ _ _ _ _ _ _ _ _ _ _ _ Hin Hnd HM LN LU H) as [eps [H1 [_ H2]]].
  pose proof (Forall_inv HM) as [Le [_ [_ HF]]]. cbv beta in *.
  assert (Hpos : Forall (fun z => (0 <= z)%Z) (skipn 3 e)) by (eapply Forall_impl; [|exact HF]; cbv beta; intros; lia).
  assert (Hi : (e_node e k < N)%nat) by (apply (e_node_range e k N HF); unfold e_n; lia).
  pose proof (occurs_single e k 4 Le HN Hpos Hk) as G.
  destruct (H2 _ Hi) as [_ H3]. unfold occurs in H3. rewrite G in H3. destruct (H3 ltac:(lra)) as [er [sr [E1 [E2 [L1 [L2 H4]]]]]].
  exists er. split; [exact E1|]. destruct (H1 e k (or_introl eq_refl) Hk) as [Hm [B [det [HD HB]]]].
  exists Hm, B, det. split; [exact HD|]. intros c Hc. rewrite <- (HB c Hc). rewrite <- (Rmult_1_r (nth c er 0)).
  destruct (H4 c Hc) as [H5 _]. rewrite !G in H5. exact H5.
Qed.

Definition sq4_nodes : list (list R) := [[0; -1; -1]; [1; 1; -1]; [2; 1; 1]; [3; -1; 1]].
Definition sq4_elem : list Z := [0; 1; 0; 0; 1; 2; 3]%Z.
Lemma sq4_coords : e_coords sq4_nodes sq4_elem = [[-1; -1]; [1; -1]; [1; 1]; [-1; 1]].
Proof. reflexivity. Qed.
Lemma sq4_diff r s : exists Hm B, elast_diff_2d r s [[-1; -1]; [1; -1]; [1; 1]; [-1; 1]] shape_quad4 = Ok (Hm, B, 1).
Proof.
  assert (E : J2det (Jac 4 (snd (shape_quad4 r s)) [[-1; -1]; [1; -1]; [1; 1]; [-1; 1]]) = 1)
    by (unfold J2det, Jac, ent; shp; cbn [rsum nth]; field).
  destruct (diff2_total 4 shape_quad4 [[-1; -1]; [1; -1]; [1; 1]; [-1; 1]] r s (good2_all pl_quad4 ltac:(cbn; tauto)) eq_refl eq_refl) as [Hm [B HB]];
    [apply (Rlt_le_trans _ 1); [lra|]; apply Req_le; symmetry; exact E|]. exists Hm, B. etransitivity; [exact HB|]. f_equal. f_equal. exact E.
Qed.
(** field u = (x y, 0) *)
Lemma sq4_strain r s Hm B det : elast_diff_2d r s [[-1; -1]; [1; -1]; [1; 1]; [-1; 1]] shape_quad4 = Ok (Hm, B, det) ->
  act 8 B (e_field [[1; 0]; [-1; 0]; [1; 0]; [-1; 0]] sq4_elem) 0 = s.
Proof.
  intros H. apply (diff2_inv 4) in H; [|exact (good2_all pl_quad4 ltac:(cbn; tauto))]. cbv zeta in H.
  destruct H as [_ [_ [_ [_ [HB _]]]]]. rewrite (HB (e_field _ _)).
  assert (J : forall a b, (a < 2)%nat -> (b < 2)%nat -> Jac 4 (snd (shape_quad4 r s)) [[-1; -1]; [1; -1]; [1; 1]; [-1; 1]] a b = if (a =? b)%nat then 1 else 0).
  { intros a b Ha Hb. destruct a as [|[|]]; try lia; destruct b as [|[|]]; try lia; unfold Jac, ent; shp; cbn [rsum nth Nat.eqb]; field. }
  unfold grad2, J2det. cbn [rsum]. rewrite !J by lia. cbn [Nat.eqb].
  unfold e_field, field2, e_node, sq4_elem. cbn [Nat.even Nat.div2 Nat.mul Nat.add nth].
  change (Z.to_nat 0) with 0%nat. change (Z.to_nat 1) with 1%nat. change (Z.to_nat 2) with 2%nat. change (Z.to_nat 3) with 3%nat.
  unfold ent. shp. cbn [nth]. field.
Qed.

Theorem quad_corner_refuted : exists N nodes e mats sol E S a b w k er eps,
  mesh_of 1 4 N [e] /\ NoDup (skipn 3 e) /\ length nodes = N /\ length sol = N /\
  @gauss_1d R Num_R 2 = Ok ([a; b], w) /\ strain_rows nodes [e] mats sol = Ok (E, S) /\ (k < 4)%nat /\
  nth (e_node e k) E None = Some er /\
  strain_at shape_quad4 (e_coords nodes e) (e_field sol e) (nth k [[a; a]; [b; a]; [b; b]; [a; b]] []) eps /\
  nth 0 er 0 <> eps 0%nat.
Proof.
  assert (H1 : exists a b w, @gauss_1d R Num_R 2 = Ok ([a; b], w)) by (do 3 eexists; reflexivity).
  destruct H1 as [a [b [w H1]]]. destruct (nd22 a b w H1) as [Hab [wts Hnd]].
  assert (HM : mesh_of 1 4 4 [sq4_elem]).
  { constructor; [|constructor]. split; [reflexivity|]. split; [reflexivity|]. split; [cbn; lia|]. cbn [skipn sq4_elem]. repeat constructor; lia. }
  assert (HN : NoDup (skipn 3 sq4_elem)) by (cbn; repeat constructor; cbn; intuition lia).
  set (sol := [[1; 0]; [-1; 0]; [1; 0]; [-1; 0]]).
  destruct (strain_rows_runs 1 4 shape_quad4 (gauss_nd 2 2) [[a; a]; [a; b]; [b; a]; [b; b]] wts 4 sq4_nodes [sq4_elem] [[1; 0]] sol) as [E [S [HR _]]]; auto; try (cbn; tauto); try discriminate.
  - repeat constructor.
  - repeat constructor.
  - constructor; [|constructor]. unfold elem_runs. split; [cbn; lia|]. split; [reflexivity|]. unfold e_nu, ent. cbn [nth sq4_elem Z.to_nat].
    split; [lra|]. split; [lra|]. rewrite sq4_coords.
    repeat constructor; cbn [nth]; match goal with |- exists X, elast_diff_2d ?r ?s _ _ = _ => destruct (sq4_diff r s) as [Hm [B HB]]; eexists; exact HB end.
  - destruct (single_quad 4 sq4_nodes sq4_elem [[1; 0]] sol E S a b w HM HN eq_refl eq_refl H1 HR) as [_ HK].
    destruct (HK 1%nat ltac:(lia)) as [er [E1 [Hm [B [det [HD HB]]]]]]. cbn [nth] in HD.
    destruct (sq4_diff b a) as [Hm' [B' HB']].
    exists 4%nat, sq4_nodes, sq4_elem, [[1; 0]], sol, E, S, a, b, w, 1%nat, er, (act 8 B' (e_field sol sq4_elem)).
    repeat (split; [first [assumption|reflexivity|lia]|]). split.
    + exists Hm', B', 1. split; [exact HB'|reflexivity].
    + rewrite (HB 0%nat) by lia. rewrite sq4_coords in *. cbn [length Nat.mul Nat.add].
      pose proof (sq4_strain a b _ _ _ HD) as X1. pose proof (sq4_strain b a _ _ _ HB') as X2.
      fold sol in X1, X2. rewrite X1, X2. lra.
Qed.

