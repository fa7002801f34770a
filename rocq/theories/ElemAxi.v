(** * Proofs: the axisymmetric element *)
From Coq Require Import String Reals List Arith Lia Lra Bool ZArith QArith Qreals.
From Verif Require Import Num LinAlg Gauss Fem Uel Spec LinR Base ElemShape BarProofs SpecElem SpecShape ShapeProofs ElemCore Sampled Elem2 MatProofs Elem2Props Elem2Mass.
Import ListNotations.
Local Open Scope R_scope.

(** interpolated radius and strains: radial, axial, shear, hoop *)
Definition radius (n : nat) (N : list R) (coord : list (list R)) : R := rsum n (fun k => nth k N 0 * ent coord k 0).
Definition strainA (n : nat) (N : list R) (D coord : list (list R)) (u : nat -> R) (a : nat) : R :=
  match a with
  | 3%nat => value2 n N u 0 / radius n N coord
  | _ => strain2 n D coord u a
  end.

Lemma strain2_ext_lt n D coord u v a : (forall j, u j = v j) -> strain2 n D coord u a = strain2 n D coord v a.
Proof. intros Hu. unfold strain2. destruct a as [|[|a]]; apply rsum_ext; intros; rewrite !Hu; reflexivity. Qed.

Lemma diffA_inv n sh coord r s Hm B det :
  good2 n sh -> elast_diff_axi r s coord sh = Ok (Hm, B, det) ->
  let N := fst (sh r s) in let D := snd (sh r s) in
  length coord = n /\ ncols coord = 2%nat /\ det = J2det (Jac n D coord) /\ 1 / 100000000 < det /\
  0 < radius n N coord /\
  (forall u a, (a < 4)%nat -> act (2 * n) B u a = strainA n N D coord u a) /\
  (forall u a, (a < 2)%nat -> act (2 * n) Hm u a = value2 n N u a).
Proof.
  intros Hg Hd. cbv zeta. unfold elast_diff_axi in Hd. destruct (Hg r s) as [HN HD].
  destruct (sh r s) as [N D]. cbn [fst snd] in *. cbv zeta in Hd.
  unfold guard in Hd. destruct (length coord =? length N)%nat eqn:Hlen; [|discriminate]. cbn [bind] in Hd.
  rewrite HN in Hd, Hlen. apply Nat.eqb_eq in Hlen.
  rewrite sumn_rsum in Hd. 
  change (rsum n (fun k => vget N k * mget coord k 0)%num) with (radius n N coord) in Hd.
  destruct (nltb (radius n N coord) n0) eqn:Hx; [discriminate|]. apply nltb_false in Hx. cbn [n0 Num_R] in Hx.
  inv_ok Hd. destruct r0 as [det' Ji]. apply (jacoper_inv 2 n) in Hr; auto.
  destruct Hr as [H1 [H2 [H3 [H4 H5]]]].
  destruct (nis0 (radius n N coord)) eqn:H0; cbn [negb bind] in Hd; [discriminate|]. apply nis0_false in H0.
  apply Ok_pair_inj in Hd. destruct Hd as [Hd <-]. apply pair_equal_spec in Hd. destruct Hd as [<- <-].
  cbn [Jdet] in H3. subst Ji det'.
  repeat (split; [assumption || reflexivity|]).
  split; [lra|].
  assert (Hmap : forall k, (k < n)%nat -> nth k (map (fun v : R => (v / radius n N coord)%num) N) 0 = nth k N 0 / radius n N coord).
  { intros k Hk. rewrite (nth_indep _ 0 ((fun v : R => (v / radius n N coord)%num) 0)) by (rewrite map_length; lia).
    rewrite (map_nth (fun v : R => (v / radius n N coord)%num)). reflexivity. }
  assert (Hq : forall u : nat -> R, value2 n N u 0 / radius n N coord = rsum n (fun k => nth k N 0 / radius n N coord * u (2 * k)%nat)).
  { intros u. unfold value2, Rdiv. rewrite <- rsum_scal_r. apply rsum_ext; intros; ring. }
  split; intros u a Ha.
  - destruct a as [|[|[|[|]]]]; [| | | |lia]; unfold strainA; [unfold strain2 .. | rewrite Hq];
    unfold act; rewrite rsum_even_odd; apply rsum_ext; intros k Hk;
    repeat (rewrite (ent_strided _ n 2 _ _ _ _ _ (2 * k) k 0) by lia);
    repeat (rewrite (ent_strided _ n 2 _ _ _ _ _ (2 * k + 1) k 1) by lia);
    cbn [Nat.eqb andb]; rewrite ?dNdx2, ?Hmap by lia; rewrite ?ent_zeros; ring.
  - destruct a as [|[|]]; [| |lia]; unfold value2;
    unfold act; rewrite rsum_even_odd; apply rsum_ext; intros k Hk;
    repeat (rewrite (ent_strided _ n 2 _ _ _ _ _ (2 * k) k 0) by lia);
    repeat (rewrite (ent_strided _ n 2 _ _ _ _ _ (2 * k + 1) k 1) by lia);
    cbn [Nat.eqb andb]; rewrite ?dNdx2 by lia; rewrite ?ent_zeros; ring.
Qed.

Lemma diffA_total n sh coord r s :
  good2 n sh -> length coord = n -> ncols coord = 2%nat ->
  1 / 100000000 < J2det (Jac n (snd (sh r s)) coord) -> 0 < radius n (fst (sh r s)) coord ->
  exists Hm B, elast_diff_axi r s coord sh = Ok (Hm, B, J2det (Jac n (snd (sh r s)) coord)).
Proof.
  intros Hg Hl Hc Hdet Hx. unfold elast_diff_axi. destruct (Hg r s) as [HN HD].
  destruct (sh r s) as [N D]. cbn [fst snd] in *. cbv zeta. rewrite HN, Hl, Nat.eqb_refl. cbn [guard bind].
  rewrite sumn_rsum. change (rsum n (fun k => vget N k * mget coord k 0)%num) with (radius n N coord).
  replace (nltb (radius n N coord) n0) with false by (symmetry; apply nltb_false; cbn [n0 Num_R]; lra).
  rewrite (jacoper_spec 2 n) by auto. rewrite Hl, Hc, !Nat.eqb_refl. cbv zeta. cbn [Jdet].
  destruct (Rle_dec _ _) as [H|H]; [rewrite Rabs_pos_eq in H; lra|].
  destruct (Rlt_dec _ _) as [H'|H']; [lra|]. cbn [bind].
  replace (nis0 (radius n N coord)) with false by (symmetry; apply nis0_false; lra). cbn [negb guard bind].
  do 2 eexists. reflexivity.
Qed.

(** ** the element *)
Definition gqA : list (R * R * R) := pl_gq pl_quad9.
Definition gdatA (coord : list (list R)) (q : R * R * R) : gdat :=
  let '(r, s, w) := q in
  mkG (1 * (det_at 9 shape_quad9 coord r s * w)) (strainA 9 (fst (shape_quad9 r s)) (snd (shape_quad9 r s)) coord) (value2 9 (fst (shape_quad9 r s))).
Definition acceptedA (coord : list (list R)) : Prop :=
  accepted2 9 shape_quad9 gqA coord /\ forall r s w, In (r, s, w) gqA -> 0 < radius 9 (fst (shape_quad9 r s)) coord.

Lemma good2_quad9 : good2 9 shape_quad9.
Proof. exact (good2_all pl_quad9 ltac:(cbn; tauto)). Qed.

Lemma axi_sampled coord params K m : elast_axi_quad9 coord params = Ok (K, m) ->
  exists E nu rho M, params = [E; nu; rho] /\ 1 + nu <> 0 /\ 1 - 2 * nu <> 0 /\ acceptedA coord /\ m = M2 M /\
    sampled 4 2 18 (axi_R E nu) rho (map (gdatA coord) gqA) K M.
Proof.
  unfold elast_axi_quad9. intros Hf. destruct params as [|E [|nu [|rho [|? ?]]]]; try discriminate.
  cbn [params3 bind] in Hf. inv_ok Hf. inv_ok Hf. destruct r0 as [gp gw].
  apply wrap_integrate in Hf. destruct Hf as [M [Hi ->]].
  apply axi_inv in Hr. destruct Hr as [Hn1 [Hn2 ->]].
  exists E, nu, rho, M. split; [reflexivity|]. split; [exact Hn1|]. split; [exact Hn2|].
  assert (Hgp : combine gp gw = map (fun q => let '(r, s, w) := q in ([r; s], w)) gqA).
  { cbn in Hr0. apply Ok_pair_inj in Hr0. destruct Hr0 as [<- <-]. reflexivity. }
  rewrite Hgp in Hi. clear Hgp Hr0 gp gw.
  pose proof (integrate_shape _ _ _ _ _ _ _ _ _ _ Hi) as [SK SM].
  apply integrate_inv in Hi. destruct Hi as [data [HF [HK HM]]].
  assert (Hrel : Forall2 (fun q d => let '(r, s, w) := q in let '(Hm, B, det, w') := (d : gpt) in
      w' = w /\ elast_diff_axi r s coord shape_quad9 = Ok (Hm, B, det)) gqA data).
  { clear -HF. revert data HF. induction gqA as [|[[r s] w] gq IH]; intros data HF; inversion HF; subst; constructor.
    - destruct y as [[[Hm B] det] w']. cbn in H1. destruct H1 as [H1 H2]. split; [symmetry; exact H2|exact H1].
    - apply IH. assumption. }
  clear HF.
  assert (Hall : forall r s w, In (r, s, w) gqA -> exists Hm B det, elast_diff_axi r s coord shape_quad9 = Ok (Hm, B, det)).
  { intros r s w Hin. clear -Hrel Hin. induction Hrel as [|q d gq data H HF IH]; [destruct Hin|].
    destruct Hin as [->|Hin]; [|apply IH; exact Hin]. destruct d as [[[Hm B] det] w']. destruct H as [_ H].
    exists Hm, B, det. exact H. }
  assert (Hall' : forall r s w, In (r, s, w) gqA -> length coord = 9%nat /\ ncols coord = 2%nat /\
     1 / 100000000 < det_at 9 shape_quad9 coord r s /\ 0 < radius 9 (fst (shape_quad9 r s)) coord).
  { intros r s w Hin. destruct (Hall r s w Hin) as [Hm [B [det H]]]. apply (diffA_inv 9) in H; [|apply good2_quad9].
    cbv zeta in H. destruct H as [H1 [H2 [H3 [H4 [H5 _]]]]]. unfold det_at. subst det. tauto. }
  split.
  { assert (Hne : exists q, In q gqA) by (eexists; cbn; left; reflexivity). destruct Hne as [[[r0 s0] w0] Hin0].
    split; [split; [|split]|].
    - apply (Hall' r0 s0 w0 Hin0).
    - apply (Hall' r0 s0 w0 Hin0).
    - intros r s w Hin. apply (Hall' r s w Hin).
    - intros r s w Hin. apply (Hall' r s w Hin). }
  split; [reflexivity|]. clear Hall Hall'.
  constructor; try assumption; intros u v.
  - rewrite HK. rewrite lsum_map. clear -Hrel.
    induction Hrel as [|[[r s] w] [[[Hm B] det] w'] gq data [Hw H] HF IH]; [reflexivity|].
    cbn [lsum fold_right]. f_equal; [|exact IH]. subst w'. unfold gK, vK, gdatA. cbn [g_w g_eps].
    apply (diffA_inv 9) in H; [|apply good2_quad9]. cbv zeta in H.
    destruct H as [_ [_ [Ed [_ [_ [H0 _]]]]]]. unfold det_at. rewrite <- Ed. numR.
    replace (1 * (det * w)) with (det * w) by ring. f_equal.
    apply form_ext; intros j Hj; apply (H0 _ j Hj).
  - rewrite HM. rewrite lsum_map. rewrite <- lsum_scal. clear -Hrel.
    induction Hrel as [|[[r s] w] [[[Hm B] det] w'] gq data [Hw H] HF IH]; [reflexivity|].
    cbn [lsum fold_right]. f_equal; [|exact IH]. subst w'. unfold gM, vM, gdatA. cbn [g_w g_val].
    apply (diffA_inv 9) in H; [|apply good2_quad9]. cbv zeta in H.
    destruct H as [_ [_ [Ed [_ [_ [_ H0]]]]]]. unfold det_at. rewrite <- Ed. numR.
    replace (rho * (1 * (det * w) * rsum 2 (fun a => value2 9 (fst (shape_quad9 r s)) u a * value2 9 (fst (shape_quad9 r s)) v a)))
      with (rho * (det * w) * rsum 2 (fun a => value2 9 (fst (shape_quad9 r s)) u a * value2 9 (fst (shape_quad9 r s)) v a)) by ring.
    f_equal. apply rsum_ext; intros a Ha. f_equal; apply H0; exact Ha.
Qed.

Lemma axi_runs coord E nu rho : 1 + nu <> 0 -> 1 - 2 * nu <> 0 -> acceptedA coord ->
  exists K M, elast_axi_quad9 coord [E; nu; rho] = Ok (K, M2 M).
Proof.
  intros Hnu Hnu' [[H1 [H2 H3]] H4]. unfold elast_axi_quad9. cbn [params3 bind].
  rewrite elast_mat_axi_eq. destruct (Req_EM_T _ _); [contradiction|]. destruct (Req_EM_T _ _); [contradiction|].
  change (gauss_nd 3 2) with (Ok (match @gauss_nd R Num_R 3 2 with Ok x => x | Err _ => ([], []) end)).
  cbn [bind]. apply bind_wrap_total. apply integrate_total.
  change (combine _ _) with (map (fun q : R * R * R => let '(r, s, w) := q in ([r; s], w)) gqA).
  intros pw Hin. apply in_map_iff in Hin.
  destruct Hin as [[[r s] w] [<- Hin]]. cbn [fst]. unfold diff_axi. cbn [unpack2 bind].
  destruct (diffA_total 9 shape_quad9 coord r s good2_quad9 H1 H2 (H3 r s w Hin) (H4 r s w Hin)) as [Hm [B H]].
  eexists. exact H.
Qed.

Lemma gsA_weights coord g : acceptedA coord -> In g (map (gdatA coord) gqA) -> 0 < g_w g.
Proof.
  intros [[_ [_ Ha]] _] Hg. apply in_map_iff in Hg. destruct Hg as [[[r s] w] [<- Hin]]. cbn [gdatA g_w].
  destruct (gq_pos pl_quad9 ltac:(cbn; tauto)) as [_ Hw]. specialize (Hw r s w Hin). specialize (Ha r s w Hin).
  apply Rmult_lt_0_compat; [lra|]. apply Rmult_lt_0_compat; lra.
Qed.

(** strains of an affine field *)
Lemma value2_affine p r s coord a0 a1 a2 b0 b1 b2 : In p planes ->
  value2 (pl_n p) (fst (pl_sh p r s)) (affine2 coord a0 a1 a2 b0 b1 b2) 0 =
    a0 + a1 * rsum (pl_n p) (fun k => nth k (fst (pl_sh p r s)) 0 * ent coord k 0)
       + a2 * rsum (pl_n p) (fun k => nth k (fst (pl_sh p r s)) 0 * ent coord k 1) /\
  value2 (pl_n p) (fst (pl_sh p r s)) (affine2 coord a0 a1 a2 b0 b1 b2) 1 =
    b0 + b1 * rsum (pl_n p) (fun k => nth k (fst (pl_sh p r s)) 0 * ent coord k 0)
       + b2 * rsum (pl_n p) (fun k => nth k (fst (pl_sh p r s)) 0 * ent coord k 1).
Proof.
  intros Hp. pose proof (plane_N1 p r s Hp) as H1. unfold value2, affine2.
  split.
  - erewrite rsum_ext; [|intros; rewrite field2_even; reflexivity].
    rewrite (rsum_affine (pl_n p) (fun k => nth k (fst (pl_sh p r s)) 0)). rewrite H1. unfold node_x, node_y. ring.
  - erewrite rsum_ext; [|intros; rewrite field2_odd; reflexivity].
    rewrite (rsum_affine (pl_n p) (fun k => nth k (fst (pl_sh p r s)) 0)). rewrite H1. unfold node_x, node_y. ring.
Qed.

Lemma axi_sym_psd coord E nu rho K m : elast_axi_quad9 coord [E; nu; rho] = Ok (K, m) ->
  symmetric 18 K /\ (0 < E -> -1 < nu < 1 / 2 -> psd 18 K).
Proof.
  intros Hf. apply axi_sampled in Hf. destruct Hf as [E' [nu' [rho' [M [Hp [_ [_ [Ha [_ HS]]]]]]]]].
  injection Hp as <- <- <-. split; [eapply sampled_sym; [exact HS|apply axi_sym]|].
  intros HE Hnu. eapply sampled_psd; [exact HS|apply axi_psd; assumption|].
  intros. apply Rlt_le. eapply gsA_weights; eassumption.
Qed.

Lemma axi_translation coord params K m b : elast_axi_quad9 coord params = Ok (K, m) ->
  forall i, (i < 18)%nat -> act 18 K (trans2 0 b) i = 0.
Proof.
  intros Hf. apply axi_sampled in Hf. destruct Hf as [E' [nu' [rho' [M [Hp [_ [_ [[[_ [_ Ha]] _] [_ HS]]]]]]]]].
  eapply sampled_null; [exact HS|]. intros g a Hg Hk. apply in_map_iff in Hg.
  destruct Hg as [[[r s] w] [<- Hin]]. cbn [gdatA g_eps].
  assert (Hz : forall a, (a < 3)%nat -> strain2 9 (snd (shape_quad9 r s)) coord (trans2 0 b) a = 0).
  { intros c Hc. assert (Hd : 1 / 100000000 < J2det (Jac 9 (snd (shape_quad9 r s)) coord)) by (exact (Ha r s w Hin)).
    rewrite (strain2_ext_lt 9 _ coord (trans2 0 b) (affine2 coord 0 0 0 b 0 0)).
    - rewrite strain2_affine; try exact Hc; try lra; try (apply (plane_D0 pl_quad9); [cbn; tauto|lia]).
      destruct c as [|[|[|]]]; cbn; try lra. lia.
    - intros j. unfold trans2, affine2, field2. destruct (Nat.even j); ring. }
  destruct a as [|[|[|[|]]]]; try (apply Hz; lia).
  unfold strainA. pose proof (value2_trans pl_quad9 r s 0 b 0 ltac:(cbn; tauto) ltac:(lia)) as Hv.
  cbn [nth] in Hv. eapply eq_trans; [exact (f_equal (fun x => x / radius 9 (fst (shape_quad9 r s)) coord) Hv)|]. unfold Rdiv. ring.
Qed.

(** the mass matrix is that of the plane element *)
Lemma axi_mass_plane coord E nu rho K m : elast_axi_quad9 coord [E; nu; rho] = Ok (K, m) ->
  1 - nu * nu <> 0 -> exists K', elast_quad9 coord [E; nu; rho] = Ok (K', m).
Proof.
  intros Hf Hnu. apply axi_sampled in Hf. destruct Hf as [E' [nu' [rho' [M [Hp [_ [_ [[Ha _] [-> HS]]]]]]]]].
  injection Hp as <- <- <-.
  destruct (plane_runs pl_quad9 coord [E; nu; rho] E nu rho ltac:(cbn; tauto) eq_refl Hnu Ha) as [K' [M' Hr]].
  exists K'. cbn [pl_f pl_quad9] in Hr. rewrite Hr. repeat f_equal.
  destruct (plane_summary pl_quad9 coord [E; nu; rho] K' _ ltac:(cbn; tauto) Hr) as [E1 [nu1 [rho1 [M1 [Hp1 [_ [_ [Hm1 HS1]]]]]]]].
  injection Hp1 as <- <- <-. injection Hm1 as <-.
  apply (form_matrix_unique 18); [apply HS1|apply HS|]. intros u v.
  rewrite (sa_M _ _ _ _ _ _ _ _ HS). eapply eq_trans; [exact (sa_M _ _ _ _ _ _ _ _ HS1 u v)|].
  change (opt_dens [E; nu; rho]) with rho. f_equal.
Qed.
