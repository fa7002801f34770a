(** * Lemmas: supports of turned models, runs in other units *)
From Coq Require Import Reals List Arith Lia Lra Bool ZArith.
From Verif Require Import Num LinAlg Fem Uel Assem Post Main Spec LinR Base SpecAssem SpecModel SpecElem SpecPost SpecStatic SpecTruss SpecFrame
  ElemCore ElemShape Sampled Elem2 Elem2Props Elem2Mass AssemProofs AssemProofs2 AssemProofs3 AssemProofs4 ModelProofs ModelProofs2 BarProofs ElemFinal ElemFinal2 ElemFinal3 MeshProofs
  PostProofs PostMore MatProofs StaticProofs StaticProofs2 StaticProofs3 DriverProofs FrameProofs TrussProofs.
Import ListNotations.
Local Open Scope R_scope.

(** ** supports *)
Definition swap_flags (md : model) : list (list R) := map (fun r => [nth 1 r 0; nth 0 r 0]) (md_cons md).

Lemma follow_translation tx ty md : wf_model md -> supports_follow 1 0 md (moved 1 0 tx ty (md_cons md) md).
Proof.
  intros Hwf U. unfold admissible. cbn [moved md_nodes md_cons]. rewrite map_length. split; intros H i d Hi Hd C; specialize (H i d Hi Hd C);
    destruct d as [|[|]]; try lia; cbn [turned] in *; lra.
Qed.
Lemma follow_clamped c s tx ty md : wf_model md -> c * c + s * s = 1 -> clamped_or_free md -> supports_follow c s md (moved c s tx ty (md_cons md) md).
Proof.
  intros Hwf Hcs Hcl U. unfold admissible. cbn [moved md_nodes md_cons]. rewrite map_length. split; intros H i d Hi Hd C.
  - assert (C0 : ent (md_cons md) i 0 = -1) by (destruct d as [|[|]]; [exact C|rewrite (Hcl i Hi); exact C|lia]).
    assert (C1 : ent (md_cons md) i 1 = -1) by (rewrite <- (Hcl i Hi); exact C0).
    pose proof (H i 0%nat Hi ltac:(lia) C0) as E0. pose proof (H i 1%nat Hi ltac:(lia) C1) as E1.
    destruct d as [|[|]]; [| |lia]; cbn [turned]; rewrite E0, E1; ring.
  - assert (C0 : ent (md_cons md) i 0 = -1) by (destruct d as [|[|]]; [exact C|rewrite (Hcl i Hi); exact C|lia]).
    assert (C1 : ent (md_cons md) i 1 = -1) by (rewrite <- (Hcl i Hi); exact C0).
    pose proof (H i 0%nat Hi ltac:(lia) C0) as E0. pose proof (H i 1%nat Hi ltac:(lia) C1) as E1. cbn [turned] in E0, E1.
    destruct d as [|[|]]; [| |lia].
    + replace (U i 0%nat) with ((c * c + s * s) * U i 0%nat) by (rewrite Hcs; ring).
      transitivity (c * (c * U i 0%nat - s * U i 1%nat) + s * (s * U i 0%nat + c * U i 1%nat)); [ring|rewrite E0, E1; ring].
    + replace (U i 1%nat) with ((c * c + s * s) * U i 1%nat) by (rewrite Hcs; ring).
      transitivity (- s * (c * U i 0%nat - s * U i 1%nat) + c * (s * U i 0%nat + c * U i 1%nat)); [ring|rewrite E0, E1; ring].
Qed.
Lemma swap_flags_ent md i d : wf_model md -> (i < length (md_nodes md))%nat -> (d < 2)%nat -> ent (swap_flags md) i d = ent (md_cons md) i (1 - d).
Proof.
  intros (_ & Hl & _) Hi Hd. unfold ent, swap_flags. rewrite (map_nth_def _ _ i [] []) by lia. destruct d as [|[|]]; [reflexivity|reflexivity|lia].
Qed.
Lemma follow_quarter tx ty md : wf_model md -> supports_follow 0 1 md (moved 0 1 tx ty (swap_flags md) md).
Proof.
  intros Hwf U. unfold admissible. cbn [moved md_nodes md_cons]. rewrite map_length. split; intros H i d Hi Hd C.
  - rewrite swap_flags_ent in C by assumption. pose proof (H i (1 - d)%nat Hi ltac:(lia) C) as E. destruct d as [|[|]]; [| |lia]; cbn [turned Nat.sub] in *; rewrite E; ring.
  - assert (C' : ent (swap_flags md) i (1 - d) = -1) by (rewrite swap_flags_ent by (auto; lia); replace (1 - (1 - d))%nat with d by lia; exact C).
    pose proof (H i (1 - d)%nat Hi ltac:(lia) C') as E. destruct d as [|[|]]; [| |lia]; cbn [turned Nat.sub] in E; lra.
Qed.
Lemma swap_flags_ok md : wf_model md -> flags01 2 (swap_flags md) /\ length (swap_flags md) = length (md_nodes md).
Proof.
  intros (Hf & Hl & _). split; [|unfold swap_flags; rewrite map_length; exact Hl]. unfold flags01, swap_flags in *.
  apply Forall_forall. intros r Hr. apply in_map_iff in Hr. destruct Hr as (r0 & <- & Hr0). rewrite Forall_forall in Hf.
  destruct (Hf r0 Hr0) as [L F]. destruct r0 as [|x [|y [|]]]; try discriminate. split; [reflexivity|].
  inversion F as [|? ? Fx F']; subst. inversion F' as [|? ? Fy _]; subst. cbn [nth]. apply Forall_cons; [exact Fy|apply Forall_cons; [exact Fx|constructor]].
Qed.

Lemma follow_all md tx ty : wf_model md ->
  supports_follow 1 0 md (moved 1 0 tx ty (md_cons md) md) /\
  (forall c s, c * c + s * s = 1 -> clamped_or_free md -> supports_follow c s md (moved c s tx ty (md_cons md) md)) /\
  (let flipped := map (fun r => [nth 1 r 0; nth 0 r 0]) (md_cons md) in
   flags01 2 flipped /\ length flipped = length (md_nodes md) /\ supports_follow 0 1 md (moved 0 1 tx ty flipped md)).
Proof.
  intros Hwf. split; [apply follow_translation; exact Hwf|]. split; [intros; apply follow_clamped; assumption|].
  destruct (swap_flags_ok md Hwf) as [A B]. split; [exact A|]. split; [exact B|]. apply follow_quarter; assumption.
Qed.

Lemma moved_runs sv md c s tx ty cons' :
  wf_model md -> node_rows_ok md -> continuum_or_truss md -> flags01 2 cons' -> length cons' = length (md_nodes md) -> c * c + s * s = 1 ->
  supports_follow c s md (moved c s tx ty cons' md) -> accepted md -> stable md -> solver_ok sv -> solver_total sv -> (exists i d, free md i d) ->
  exists out out', auto sv md false false = Ok out /\ auto sv (moved c s tx ty cons' md) false false = Ok out' /\
    forall i d, (i < length (md_nodes md))%nat -> (d < 2)%nat -> table out' i d = turned c s (table out) i d.
Proof.
  intros Hwf Hrows Hty Hf Hl Hcs HS Hacc Hst Hsv Htot Hfr.
  destruct (model_runs sv md Hwf Hacc Hst Hsv Htot Hfr) as [out Hout].
  pose proof (moved_wf c s tx ty cons' md Hwf Hf Hl) as Hwf'.
  destruct (moved_stable md c s tx ty cons' Hwf Hrows Hty Hf Hl Hcs HS Hacc Hst) as [Hacc' Hst'].
  assert (HL : length (md_nodes (moved c s tx ty cons' md)) = length (md_nodes md)) by apply map_length.
  assert (Hfr' : exists i d, free (moved c s tx ty cons' md) i d).
  { destruct Hfr as (i & d & Hi & Hd & C).
    destruct (proj2 (cons_row _ i Hwf' ltac:(rewrite HL; exact Hi)) 0%nat ltac:(lia)) as [C0|C0]; [exists i, 0%nat; split; [rewrite HL; exact Hi|split; [lia|exact C0]]|].
    destruct (proj2 (cons_row _ i Hwf' ltac:(rewrite HL; exact Hi)) 1%nat ltac:(lia)) as [C1|C1]; [exists i, 1%nat; split; [rewrite HL; exact Hi|split; [lia|exact C1]]|].
    exfalso. assert (HV : admissible md (spike i d)).
    { intros a b Ha Hb C'. unfold spike. destruct (a =? i)%nat eqn:E1; [|reflexivity]. destruct (b =? d)%nat eqn:E2; [|reflexivity].
      apply Nat.eqb_eq in E1, E2. subst. lra. }
    apply HS in HV. pose proof (HV i 0%nat ltac:(rewrite HL; exact Hi) ltac:(lia) C0) as E0. pose proof (HV i 1%nat ltac:(rewrite HL; exact Hi) ltac:(lia) C1) as E1.
    pose proof (turned_dot c s (spike i d) (spike i d) i Hcs) as E. rewrite E0, E1 in E. unfold spike in E. rewrite Nat.eqb_refl in E.
    destruct d as [|[|]]; [| |lia]; cbn in E; lra. }
  destruct (model_runs sv _ Hwf' Hacc' Hst' Hsv Htot Hfr') as [out' Hout'].
  exists out, out'. split; [exact Hout|]. split; [exact Hout'|].
  exact (moved_run sv sv md c s tx ty cons' false false false false out out' Hwf Hrows Hty Hf Hl Hcs HS Hsv Hsv Hst Hout Hout').
Qed.

(** ** other units: the element routines *)
Lemma Jac_rescale a n D coord x y : Jac n D (rescale a coord) x y = a * Jac n D coord x y.
Proof.
  unfold Jac. rewrite <- rsum_scal. apply rsum_ext. intros k _. unfold ent, rescale.
  assert (E : nth y (nth k (map (map (Rmult a)) coord) []) 0 = a * nth y (nth k coord []) 0).
  { change (@nil R) with (map (Rmult a) []) at 1. rewrite map_nth. replace 0 with (Rmult a 0) at 1 by ring. rewrite map_nth. reflexivity. }
  rewrite E. ring.
Qed.
Lemma J2det_rescale a n D coord : J2det (Jac n D (rescale a coord)) = a * a * J2det (Jac n D coord).
Proof. unfold J2det. rewrite !Jac_rescale. ring. Qed.
Lemma grad_rescale a n D coord b k : a <> 0 -> J2det (Jac n D coord) <> 0 -> grad2 n D (rescale a coord) b k = / a * grad2 n D coord b k.
Proof. intros Ha Hd. unfold grad2. rewrite J2det_rescale. destruct b; rewrite !Jac_rescale; field; auto. Qed.
Lemma strain_rescale a n D coord u b : a <> 0 -> J2det (Jac n D coord) <> 0 -> strain2 n D (rescale a coord) u b = / a * strain2 n D coord u b.
Proof. intros Ha Hd. unfold strain2. destruct b as [|[|]]; rewrite <- rsum_scal; apply rsum_ext; intros k _; rewrite !grad_rescale by assumption; ring. Qed.

Lemma plane_size f n : In (f, n) plane_list -> forall coord params K m K' m' a, a <> 0 ->
  f coord params = Ok (K, m) -> f (rescale a coord) params = Ok (K', m') -> forall u v, form (2 * n) K' u v = form (2 * n) K u v.
Proof.
  intros Hin coord params K m K' m' a Ha Hf Hf' u v. destruct (plane_of f n Hin) as [p [Hp [<- <-]]].
  destruct (plane_summary p coord params K m Hp Hf) as [E [nu [rho [M [Hpar [Hnu [Hacc [Hm HS]]]]]]]].
  destruct (plane_summary p _ params K' m' Hp Hf') as [E' [nu' [rho' [M1 [Hpar' [_ [_ [Hm' HS']]]]]]]].
  rewrite Hpar in Hpar'. injection Hpar' as <- <- <-. destruct Hacc as (_ & _ & Hdet).
  rewrite (sa_K _ _ _ _ _ _ _ _ HS), (sa_K _ _ _ _ _ _ _ _ HS'). unfold gs_of. rewrite !lsum_map.
  apply lsum_ext. intros [[r s] w] Hq. unfold vK. cbn [gdat2 g_w g_eps]. unfold det_at. specialize (Hdet r s w Hq). unfold det_at in Hdet.
  rewrite J2det_rescale.
  rewrite (form_ext 3 _ _ (fun j => / a * strain2 (pl_n p) (snd (pl_sh p r s)) coord u j) _ (fun j => / a * strain2 (pl_n p) (snd (pl_sh p r s)) coord v j))
    by (intros j Hj; apply strain_rescale; [exact Ha|lra]).
  rewrite !umat_form. field. split; [|exact Ha]. lra.
Qed.

Lemma plane_params f n t : In (f, n) plane_list -> type_nodes t = Some n -> @ele_fun R Num_R t = Ok f -> forall coord E nu rest,
  f coord (E :: nu :: rest) = f coord [E; nu; opt_dens (E :: nu :: rest)].
Proof.
  intros _ Hn Hf coord E nu rest. unfold type_nodes in Hn. destruct t as [|p|p]; try discriminate.
  do 4 (try (destruct p as [p|p|]; try discriminate)); cbn [ele_fun] in Hf; apply Ok_inj in Hf; subst f; reflexivity.
Qed.

Lemma mscale_form n t K K' : (forall i j, (i < n)%nat -> (j < n)%nat -> ent K' i j = t * ent K i j) -> forall u v, form n K' u v = t * form n K u v.
Proof.
  intros H u v. unfold form, act. rewrite <- rsum_scal. apply rsum_ext. intros i Hi.
  transitivity (u i * (t * rsum n (fun j => ent K i j * v j))); [|ring]. f_equal. rewrite <- rsum_scal. apply rsum_ext. intros j Hj. rewrite H by assumption. ring.
Qed.

Lemma plane_two f n coord pr K m : In (f, n) plane_list -> f coord pr = Ok (K, m) -> exists E nu rest, pr = E :: nu :: rest.
Proof.
  intros Hin Hf. destruct (plane_of f n Hin) as [p [Hp [<- <-]]].
  destruct (plane_summary p coord pr K m Hp Hf) as [E [nu [rho [M [Hpar _]]]]].
  repeat (destruct Hp as [<-|Hp]; [cbn [pl_par pl_quad4 pl_tri6 pl_tri3 pl_quad9 pl_quad8] in Hpar; unfold par_opt, par3 in Hpar;
    destruct pr as [|? [|? ?]]; try discriminate Hpar; eauto|]). destruct Hp.
Qed.

Definition scale_mat (tE tA : R) (r : list R) : list R := match r with x :: y :: rest => tE * x :: tA * y :: rest | _ => r end.
Definition scale_row (a : R) (r : list R) : list R := [nth 0 r 0; a * nth 1 r 0; a * nth 2 r 0].

Lemma rescaled_coord md a e : node_rows_ok md -> (forall j, (j < e_n e)%nat -> (e_node e j < length (md_nodes md))%nat) ->
  e_coord (map (scale_row a) (md_nodes md)) e = rescale a (e_coord (md_nodes md) e).
Proof.
  intros Hrows HN. unfold rescale. apply e_coord_map; [exact HN|]. intros r Hin. unfold node_rows_ok in Hrows. rewrite Forall_forall in Hrows. specialize (Hrows r Hin).
  destruct r as [|? [|? [|? [|]]]]; try discriminate. reflexivity.
Qed.

Lemma rescaled_plane md a tE e t k m k' m' : wf_model md -> node_rows_ok md -> a <> 0 -> In e (md_elements md) ->
  nth_error e 1 = Some t -> t <> 6%Z -> type_nodes t = Some (e_n e) ->
  retriever e (md_mats md) (md_nodes md) None = Ok (k, m) ->
  retriever e (map (scale_mat tE 1) (md_mats md)) (map (scale_row a) (md_nodes md)) None = Ok (k', m') ->
  forall u v, form (2 * e_n e) k' u v = tE * form (2 * e_n e) k u v.
Proof.
  intros Hwf Hrows Ha He Ht H6 Hn Hr Hr' u v.
  destruct (retrieved md e k m Hwf He Hr) as (t' & im & pr & f & Ht' & Hi & Hp & Hf & Hk & _). rewrite Ht in Ht'. injection Ht' as <-.
  assert (HN : forall j, (j < e_n e)%nat -> (e_node e j < length (md_nodes md))%nat) by (intros j Hj; exact (e_node_lt md e j Hwf He Hj)).
  assert (Hp' : np_get (map (scale_mat tE 1) (md_mats md)) im = Ok (scale_mat tE 1 pr)) by (rewrite np_get_map, Hp; reflexivity).
  rewrite (retrieve_with md e t im _ f _ _ Hwf He (map_length _ _) Ht Hi Hp' Hf) in Hr'.
  rewrite rescaled_coord in Hr' by assumption.
  destruct (typed f t _ Hn Hf) as [[_ Hin]|(E6 & _)]; [|contradiction].
  destruct (plane_two f _ _ _ _ _ Hin Hk) as (E & nu & rest & ->). cbn [scale_mat] in Hr'. rewrite Rmult_1_l in Hr'.
  set (coord := e_coord (md_nodes md) e) in *.
  rewrite (plane_params f _ t Hin Hn Hf) in Hk, Hr'.
  assert (HD : @opt_dens R Num_R (tE * E :: nu :: rest) = opt_dens (E :: nu :: rest)) by (destruct rest; reflexivity).
  rewrite HD in Hr'. set (rho := opt_dens (E :: nu :: rest)) in *.
  assert (HM : exists M, m = M2 M).
  { destruct (plane_of f _ Hin) as [p [Hpl [<- _]]]. destruct (plane_summary p _ _ _ _ Hpl Hk) as [? [? [? [M [_ [_ [_ [Hm _]]]]]]]]. eauto. }
  destruct HM as [M ->]. destruct (plane_scaled f _ Hin coord E nu rho k M Hk tE 1) as (K1 & M1 & HK1 & HE). rewrite Rmult_1_l in HK1.
  rewrite (plane_size f _ Hin coord _ K1 _ k' m' a Ha HK1 Hr'). apply mscale_form. intros i j _ _. apply HE.
Qed.

Lemma bar_len_scale a xa ya xb yb : 0 < a -> bar_len (a * xa) (a * ya) (a * xb) (a * yb) = a * bar_len xa ya xb yb.
Proof.
  intros Ha. unfold bar_len. replace ((a * xb - a * xa) * (a * xb - a * xa) + (a * yb - a * ya) * (a * yb - a * ya))
    with ((a * a) * ((xb - xa) * (xb - xa) + (yb - ya) * (yb - ya))) by ring.
  rewrite sqrt_mult; [|nra|apply Rplus_le_le_0_compat; apply Rle_0_sqr]. rewrite sqrt_square by lra. reflexivity.
Qed.
Lemma axis_scale a xa ya xb yb nx ny L : 0 < a -> axis [[xa; ya]; [xb; yb]] = Ok (nx, ny, L) ->
  axis [[a * xa; a * ya]; [a * xb; a * yb]] = Ok (nx, ny, a * L).
Proof.
  intros Ha. rewrite !axis_unfold, bar_len_scale by exact Ha. set (l := bar_len xa ya xb yb). destruct (nis0 l) eqn:Hl; [discriminate|].
  apply nis0_false in Hl. assert (Hl' : nis0 (a * l) = false) by (apply nis0_false; intros E; apply Rmult_integral in E; destruct E; [lra|contradiction]).
  rewrite Hl'. intros H. apply Ok_inj in H. apply pair_equal_spec in H. destruct H as [H <-]. apply pair_equal_spec in H. destruct H as [<- <-].
  f_equal. f_equal. f_equal; field; split; auto; lra.
Qed.

Lemma rescaled_bar md a tE tA e k m : wf_model md -> node_rows_ok md -> 0 < a -> In e (md_elements md) ->
  nth_error e 1 = Some 6%Z -> e_n e = 2%nat ->
  retriever e (md_mats md) (md_nodes md) None = Ok (k, m) ->
  exists k' m', retriever e (map (scale_mat tE tA) (md_mats md)) (map (scale_row a) (md_nodes md)) None = Ok (k', M2 m') /\
  forall u v, form (2 * e_n e) k' u v = tE * tA / a * form (2 * e_n e) k u v.
Proof.
  intros Hwf Hrows Ha He Ht H2 Hr.
  destruct (retrieved md e k m Hwf He Hr) as (t' & im & pr & f & Ht' & Hi & Hp & Hf & Hk & _). rewrite Ht in Ht'. injection Ht' as <-.
  assert (HN : forall j, (j < e_n e)%nat -> (e_node e j < length (md_nodes md))%nat) by (intros j Hj; exact (e_node_lt md e j Hwf He Hj)).
  assert (Hp' : np_get (map (scale_mat tE tA) (md_mats md)) im = Ok (scale_mat tE tA pr)) by (rewrite np_get_map, Hp; reflexivity).
  rewrite (retrieve_with md e _ im _ f _ _ Hwf He (map_length _ _) Ht Hi Hp' Hf).
  rewrite rescaled_coord by assumption. cbn [ele_fun] in Hf. apply Ok_inj in Hf. subst f.
  destruct (e_coord_pair _ e Hrows H2 HN) as (xa & ya & xb & yb & EC). rewrite EC in *. cbn [rescale map].
  apply truss_inv in Hk. destruct Hk as [nx [ny [L [y [ar [r [Hx [-> [-> ->]]]]]]]]].
  pose proof (axis_scale a _ _ _ _ _ _ _ Ha Hx) as Hx'. cbn [scale_mat]. rewrite (truss_unfold _ _ _ _ _ _ _ Hx').
  eexists. eexists. split; [reflexivity|]. intros u v. rewrite H2. apply mscale_form. intros i j Hi' Hj'. pose proof (axis_inv _ _ _ _ Hx).
  rewrite !axial_ent by lia. field. split; auto; lra.
Qed.

Lemma rescaled_wf a tE tA tF md : wf_model md -> wf_model (rescaled a tE tA tF md).
Proof.
  intros (H1 & H2 & H3 & H4). split; [exact H1|]. cbn [rescaled md_nodes md_cons md_elements md_loads]. rewrite map_length.
  split; [exact H2|]. split; [exact H3|]. apply Forall_forall. intros r Hr. apply in_map_iff in Hr. destruct Hr as (r0 & <- & Hr0).
  rewrite Forall_forall in H4. destruct (H4 r0 Hr0) as (_ & n & Hn & E). split; [cbn; lia|]. exists n. split; [exact Hn|exact E].
Qed.
Lemma rescaled_loads a tE tA tF md i d : (d < 2)%nat -> applied (md_loads (rescaled a tE tA tF md)) i d = tF * applied (md_loads md) i d.
Proof.
  intros Hd. cbn [rescaled md_loads]. destruct d as [|[|]]; [| |lia].
  - rewrite (applied_map _ (fun x y => tF * x) 0); [reflexivity|reflexivity|reflexivity|ring].
  - rewrite (applied_map _ (fun x y => tF * y) 1); [reflexivity|reflexivity|reflexivity|ring].
Qed.

Lemma rescaled_gen a tE tA tF k md U U' : wf_model md -> k <> 0 -> stable md ->
  (forall e, In e (md_elements md) -> forall V W, eform (rescaled a tE tA tF md) V W e = k * eform md V W e) ->
  in_equilibrium md U -> in_equilibrium (rescaled a tE tA tF md) U' ->
  forall i d, (i < length (md_nodes md))%nat -> (d < 2)%nat -> U' i d = tF / k * U i d.
Proof.
  intros Hwf Hk Hst Hform Heq Heq' i d Hi Hd. pose proof (rescaled_wf a tE tA tF md Hwf) as Hwf'.
  assert (HL : length (md_nodes (rescaled a tE tA tF md)) = length (md_nodes md)) by apply map_length.
  assert (HT : forall V i d, (d < 2)%nat -> turned 1 0 V i d = V i d) by (intros V p q Hq; destruct q as [|[|]]; [| |lia]; cbn [turned]; ring).
  assert (HI : forall p q, (p < length (md_nodes md))%nat -> (q < 2)%nat -> ent (md_cons md) p q = 0 ->
    k * internal_force (md_mats md) (md_nodes md) (md_elements md) U' p q = tF * applied (md_loads md) p q).
  { intros p q Hp Hq C. apply (transfer md (rescaled a tE tA tF md) 1 0 k U' (fun p q => tF * applied (md_loads md) p q) (applied (md_loads (rescaled a tE tA tF md)))); auto.
    - ring.
    - intros e He V W. rewrite <- Hform by exact He. unfold eform. apply form_ext; intros j Hj; unfold e_disp; apply HT, Nat.mod_upper_bound; lia.
    - intros V HV. apply (admissible_ext _ V); [intros x y _ Hy; symmetry; apply HT; exact Hy|]. intros x y Hx Hy C'. rewrite HL in Hx. exact (HV x y Hx Hy C').
    - intros x y Hx Hy C'. rewrite <- (proj2 (Heq' x y Hx Hy) C'). apply internal_ext; [exact Hwf'|]. intros; apply HT; assumption.
    - intros x y Hx Hy. rewrite rescaled_loads, HT by exact Hy. reflexivity. }
  enough (E : k * U' i d + - tF * U i d = 0) by (apply Rmult_eq_reg_l with k; [|exact Hk]; transitivity (tF * U i d); [lra|field; exact Hk]).
  apply (Hst (fun i d => k * U' i d + - tF * U i d)); auto. intros p q Hp Hq. split; intros C.
  - rewrite (proj1 (Heq p q Hp Hq) C). assert (E : U' p q = 0) by (apply (Heq' p q); [rewrite HL; exact Hp|exact Hq|exact C]). rewrite E. ring.
  - rewrite internal_force_lin, HI by assumption. rewrite (proj2 (Heq p q Hp Hq) C). ring.
Qed.

(** ** C83 *)
Lemma rescaled_plane_run sv sv' md a tE tF plot strains plot' strains' out out' :
  wf_model md -> node_rows_ok md -> all_plane md -> a <> 0 -> tE <> 0 -> solver_ok sv -> solver_ok sv' -> stable md ->
  auto sv md plot strains = Ok out -> auto sv' (rescaled a tE 1 tF md) plot' strains' = Ok out' ->
  forall i d, (i < length (md_nodes md))%nat -> (d < 2)%nat -> table out' i d = tF / tE * table out i d.
Proof.
  intros Hwf Hrows Hty Ha HE Hsv Hsv' Hst Hrun Hrun'. pose proof (rescaled_wf a tE 1 tF md Hwf) as Hwf'.
  apply (rescaled_gen a tE 1 tF tE md (table out) (table out') Hwf HE Hst).
  - intros e He V W. destruct (run_retrieved _ _ _ _ _ Hwf Hsv Hrun e He) as (k & m & Hk).
    destruct (run_retrieved _ _ _ _ _ Hwf' Hsv' Hrun' e He) as (k' & m' & Hk').
    unfold all_plane in Hty. rewrite Forall_forall in Hty. destruct (Hty e He) as (t & Ht & H6 & Hn).
    unfold eform, e_stiff. rewrite Hk, Hk'. cbn [rescaled md_mats md_nodes] in Hk'.
    exact (rescaled_plane md a tE e t k m k' m' Hwf Hrows Ha He Ht H6 Hn Hk Hk' _ _).
  - exact (run_equilibrium _ _ _ _ _ Hwf Hsv Hrun).
  - exact (run_equilibrium _ _ _ _ _ Hwf' Hsv' Hrun').
Qed.
Lemma rescaled_bar_run sv sv' md a tE tA tF plot strains plot' strains' out out' :
  wf_model md -> node_rows_ok md -> all_bars md -> 0 < a -> tE <> 0 -> tA <> 0 -> solver_ok sv -> solver_ok sv' -> stable md ->
  auto sv md plot strains = Ok out -> auto sv' (rescaled a tE tA tF md) plot' strains' = Ok out' ->
  forall i d, (i < length (md_nodes md))%nat -> (d < 2)%nat -> table out' i d = a * tF / (tE * tA) * table out i d.
Proof.
  intros Hwf Hrows Hty Ha HE HA Hsv Hsv' Hst Hrun Hrun' i d Hi Hd. pose proof (rescaled_wf a tE tA tF md Hwf) as Hwf'.
  replace (a * tF / (tE * tA)) with (tF / (tE * tA / a)) by (field; repeat split; auto; lra).
  assert (Hk : tE * tA / a <> 0).
  { unfold Rdiv. repeat apply Rmult_integral_contrapositive_currified; auto. apply Rinv_neq_0_compat. lra. }
  apply (rescaled_gen a tE tA tF (tE * tA / a) md (table out) (table out') Hwf Hk Hst); auto.
  - intros e He V W. destruct (run_retrieved _ _ _ _ _ Hwf Hsv Hrun e He) as (k & m & Hr).
    unfold all_bars in Hty. rewrite Forall_forall in Hty. destruct (Hty e He) as (Ht & H2).
    destruct (rescaled_bar md a tE tA e k m Hwf Hrows Ha He Ht H2 Hr) as (k' & m' & Hr' & HF).
    unfold eform, e_stiff. cbn [rescaled md_mats md_nodes]. unfold scale_mat, scale_row in Hr'. rewrite Hr, Hr'. apply HF.
  - exact (run_equilibrium _ _ _ _ _ Hwf Hsv Hrun).
  - exact (run_equilibrium _ _ _ _ _ Hwf' Hsv' Hrun').
Qed.

(** ** runs in other units *)
Lemma plane_grows f n : In (f, n) plane_list -> forall coord E nu rho K M a tE, 1 <= a -> f coord [E; nu; rho] = Ok (K, M2 M) ->
  exists K' M', f (rescale a coord) [tE * E; nu; rho] = Ok (K', M2 M').
Proof.
  intros Hin coord E nu rho K M a tE Ha Hf. destruct (plane_of f n Hin) as [p [Hp [<- <-]]].
  destruct (plane_summary p coord _ K _ Hp Hf) as [E1 [nu1 [rho1 [M1 [Hpar [Hnu [(H1 & H2 & H3) _]]]]]]].
  rewrite (plane_par3 p E nu rho Hp) in Hpar. injection Hpar as <- <- <-.
  apply (plane_runs p (rescale a coord) _ (tE * E) nu rho Hp (plane_par3 p _ _ _ Hp) Hnu). split; [|split].
  - unfold rescale. rewrite map_length. exact H1.
  - unfold rescale. unfold ncols in *. destruct coord as [|r coord]; [exact H2|]. cbn in H2 |- *. rewrite map_length. exact H2.
  - intros r s w Hq. specialize (H3 r s w Hq). unfold det_at in *. rewrite J2det_rescale. assert (1 <= a * a) by nra. nra.
Qed.

Lemma rescaled_plane_total md a tE e t k m : wf_model md -> node_rows_ok md -> 1 <= a -> In e (md_elements md) ->
  nth_error e 1 = Some t -> t <> 6%Z -> type_nodes t = Some (e_n e) ->
  retriever e (md_mats md) (md_nodes md) None = Ok (k, M2 m) ->
  exists k' m', retriever e (map (scale_mat tE 1) (md_mats md)) (map (scale_row a) (md_nodes md)) None = Ok (k', M2 m').
Proof.
  intros Hwf Hrows Ha He Ht H6 Hn Hr.
  destruct (retrieved md e k _ Hwf He Hr) as (t' & im & pr & f & Ht' & Hi & Hp & Hf & Hk & _). rewrite Ht in Ht'. injection Ht' as <-.
  assert (HN : forall j, (j < e_n e)%nat -> (e_node e j < length (md_nodes md))%nat) by (intros j Hj; exact (e_node_lt md e j Hwf He Hj)).
  assert (Hp' : np_get (map (scale_mat tE 1) (md_mats md)) im = Ok (scale_mat tE 1 pr)) by (rewrite np_get_map, Hp; reflexivity).
  rewrite (retrieve_with md e t im _ f _ _ Hwf He (map_length _ _) Ht Hi Hp' Hf).
  rewrite rescaled_coord by assumption.
  destruct (typed f t _ Hn Hf) as [[_ Hin]|(E6 & _)]; [|contradiction].
  destruct (plane_two f _ _ _ _ _ Hin Hk) as (E & nu & rest & ->). cbn [scale_mat]. rewrite Rmult_1_l.
  rewrite (plane_params f _ t Hin Hn Hf) in Hk |- *.
  assert (HD : @opt_dens R Num_R (tE * E :: nu :: rest) = opt_dens (E :: nu :: rest)) by (destruct rest; reflexivity).
  rewrite HD. exact (plane_grows f _ Hin _ _ _ _ _ _ a tE Ha Hk).
Qed.

Lemma rescaled_stable a tE tA tF k md : wf_model md -> k <> 0 -> stable md ->
  (forall e, In e (md_elements md) -> forall V W, eform (rescaled a tE tA tF md) V W e = k * eform md V W e) -> stable (rescaled a tE tA tF md).
Proof.
  intros Hwf Hk Hst Hform U' HU' i d Hi Hd. pose proof (rescaled_wf a tE tA tF md Hwf) as Hwf'.
  assert (HL : length (md_nodes (rescaled a tE tA tF md)) = length (md_nodes md)) by apply map_length. rewrite HL in Hi.
  assert (HT : forall V i d, (d < 2)%nat -> turned 1 0 V i d = V i d) by (intros V p q Hq; destruct q as [|[|]]; [| |lia]; cbn [turned]; ring).
  apply Hst; auto. intros p q Hp Hq. split; intros C.
  - apply (HU' p q); [rewrite HL; exact Hp|exact Hq|exact C].
  - apply Rmult_eq_reg_l with k; [|exact Hk]. rewrite Rmult_0_r.
    apply (transfer md (rescaled a tE tA tF md) 1 0 k U' (fun _ _ => 0) (fun _ _ => 0)); auto.
    + ring.
    + intros e He V W. rewrite <- Hform by exact He. unfold eform. apply form_ext; intros j Hj; unfold e_disp; apply HT, Nat.mod_upper_bound; lia.
    + intros V HV. apply (admissible_ext _ V); [intros x y _ Hy; symmetry; apply HT; exact Hy|]. intros x y Hx Hy C'. rewrite HL in Hx. exact (HV x y Hx Hy C').
    + intros x y Hx Hy C'. transitivity (internal_force (md_mats (rescaled a tE tA tF md)) (md_nodes (rescaled a tE tA tF md)) (md_elements (rescaled a tE tA tF md)) U' x y); [|exact (proj2 (HU' x y Hx Hy) C')]. apply internal_ext; [exact Hwf'|]. intros; apply HT; assumption.
    + intros x y Hx Hy. rewrite HT by exact Hy. reflexivity.
Qed.

Lemma rescaled_plane_runs sv md a tE tF : wf_model md -> node_rows_ok md -> all_plane md -> 1 <= a -> tE <> 0 ->
  accepted md -> stable md -> solver_ok sv -> solver_total sv -> (exists i d, free md i d) ->
  exists out out', auto sv md false false = Ok out /\ auto sv (rescaled a tE 1 tF md) false false = Ok out' /\
    forall i d, (i < length (md_nodes md))%nat -> (d < 2)%nat -> table out' i d = tF / tE * table out i d.
Proof.
  intros Hwf Hrows Hty Ha HE Hacc Hst Hsv Htot Hfr. pose proof (rescaled_wf a tE 1 tF md Hwf) as Hwf'.
  destruct (model_runs sv md Hwf Hacc Hst Hsv Htot Hfr) as [out Hout].
  assert (Hacc' : accepted (rescaled a tE 1 tF md)).
  { unfold accepted in *. rewrite Forall_forall in *. intros e He. cbn [rescaled md_elements] in He. destruct (Hacc e He) as (G & k & m & Hk). split; [exact G|].
    unfold all_plane in Hty. rewrite Forall_forall in Hty. destruct (Hty e He) as (t & Ht & H6 & Hn).
    exact (rescaled_plane_total md a tE e t k m Hwf Hrows Ha He Ht H6 Hn Hk). }
  assert (Hform : forall e, In e (md_elements md) -> forall V W, eform (rescaled a tE 1 tF md) V W e = tE * eform md V W e).
  { intros e He V W. unfold accepted in Hacc, Hacc'. rewrite Forall_forall in Hacc, Hacc'. destruct (Hacc e He) as (_ & k & m & Hk). destruct (Hacc' e He) as (_ & k' & m' & Hk').
    unfold all_plane in Hty. rewrite Forall_forall in Hty. destruct (Hty e He) as (t & Ht & H6 & Hn).
    unfold eform, e_stiff. rewrite Hk, Hk'. cbn [rescaled md_mats md_nodes] in Hk'.
    exact (rescaled_plane md a tE e t k _ k' _ Hwf Hrows ltac:(lra) He Ht H6 Hn Hk Hk' _ _). }
  pose proof (rescaled_stable a tE 1 tF tE md Hwf HE Hst Hform) as Hst'.
  assert (Hfr' : exists i d, free (rescaled a tE 1 tF md) i d).
  { destruct Hfr as (i & d & Hi & Hd & C). exists i, d. split; [cbn [rescaled md_nodes]; rewrite map_length; exact Hi|split; assumption]. }
  destruct (model_runs sv _ Hwf' Hacc' Hst' Hsv Htot Hfr') as [out' Hout'].
  exists out, out'. split; [exact Hout|]. split; [exact Hout'|].
  exact (rescaled_plane_run sv sv md a tE tF false false false false out out' Hwf Hrows Hty ltac:(lra) HE Hsv Hsv Hst Hout Hout').
Qed.

Lemma rescaled_bar_runs sv md a tE tA tF : wf_model md -> node_rows_ok md -> all_bars md -> 0 < a -> tE <> 0 -> tA <> 0 ->
  accepted md -> stable md -> solver_ok sv -> solver_total sv -> (exists i d, free md i d) ->
  exists out out', auto sv md false false = Ok out /\ auto sv (rescaled a tE tA tF md) false false = Ok out' /\
    forall i d, (i < length (md_nodes md))%nat -> (d < 2)%nat -> table out' i d = a * tF / (tE * tA) * table out i d.
Proof.
  intros Hwf Hrows Hty Ha HE HA Hacc Hst Hsv Htot Hfr. pose proof (rescaled_wf a tE tA tF md Hwf) as Hwf'.
  destruct (model_runs sv md Hwf Hacc Hst Hsv Htot Hfr) as [out Hout].
  assert (HB : forall e, In e (md_elements md) -> exists k' m', retriever e (map (scale_mat tE tA) (md_mats md)) (map (scale_row a) (md_nodes md)) None = Ok (k', M2 m') /\
    forall u v, form (2 * e_n e) k' u v = tE * tA / a * form (2 * e_n e) (e_stiff (md_mats md) (md_nodes md) e) u v).
  { intros e He. unfold accepted in Hacc. rewrite Forall_forall in Hacc. destruct (Hacc e He) as (_ & k & m & Hk).
    unfold all_bars in Hty. rewrite Forall_forall in Hty. destruct (Hty e He) as (Ht & H2). unfold e_stiff. rewrite Hk.
    exact (rescaled_bar md a tE tA e k _ Hwf Hrows Ha He Ht H2 Hk). }
  assert (Hacc' : accepted (rescaled a tE tA tF md)).
  { unfold accepted in *. rewrite Forall_forall in *. intros e He. cbn [rescaled md_elements] in He. destruct (Hacc e He) as (G & _). split; [exact G|].
    destruct (HB e He) as (k' & m' & Hk' & _). exists k', m'. exact Hk'. }
  assert (Hform : forall e, In e (md_elements md) -> forall V W, eform (rescaled a tE tA tF md) V W e = tE * tA / a * eform md V W e).
  { intros e He V W. destruct (HB e He) as (k' & m' & Hk' & HF). unfold eform at 1. unfold e_stiff. cbn [rescaled md_mats md_nodes].
    unfold scale_mat, scale_row in Hk'. rewrite Hk'. apply HF. }
  assert (Hk : tE * tA / a <> 0).
  { unfold Rdiv. repeat apply Rmult_integral_contrapositive_currified; auto. apply Rinv_neq_0_compat. lra. }
  pose proof (rescaled_stable a tE tA tF _ md Hwf Hk Hst Hform) as Hst'.
  assert (Hfr' : exists i d, free (rescaled a tE tA tF md) i d).
  { destruct Hfr as (i & d & Hi & Hd & C). exists i, d. split; [cbn [rescaled md_nodes]; rewrite map_length; exact Hi|split; assumption]. }
  destruct (model_runs sv _ Hwf' Hacc' Hst' Hsv Htot Hfr') as [out' Hout'].
  exists out, out'. split; [exact Hout|]. split; [exact Hout'|].
  exact (rescaled_bar_run sv sv md a tE tA tF false false false false out out' Hwf Hrows Hty Ha HE HA Hsv Hsv Hst Hout Hout').
Qed.
