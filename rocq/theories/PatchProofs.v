(** * Lemmas: nodal forces of uniform stress *)
From Coq Require Import String Reals List Arith Lia Lra Bool ZArith Permutation QArith Qreals.
From Verif Require Import Num LinAlg Gauss Fem Uel Assem Spec LinR Base ElemShape BarProofs SpecElem SpecShape ShapeProofs ElemCore Sampled Elem2 MatProofs Elem2Props Elem2Mass Elem2Modes
  SpecModel SpecPost SpecPatch ElemFinal2 ElemFinal3 StaticProofs StaticProofs2.
Import ListNotations.
Local Open Scope R_scope.

(** work of an affine field on any field *)
Lemma plane_uniform_form p coord params K m E nu rho a0 a1 a2 b0 b1 b2 v : In p planes -> pl_f p coord params = Ok (K, m) ->
  pl_par p params = Some (E, nu, rho) ->
  form (2 * pl_n p) K v (affine2 coord a0 a1 a2 b0 b1 b2) =
  lsum (fun g => g_w g * (hooke2 E nu (affine_strain a1 a2 b1 b2) 0 * g_eps g v 0
    + hooke2 E nu (affine_strain a1 a2 b1 b2) 1 * g_eps g v 1
    + hooke2 E nu (affine_strain a1 a2 b1 b2) 2 * g_eps g v 2)) (gs_of p coord).
Proof.
  intros Hp Hrun Hpar. destruct (plane_summary p coord params K m Hp Hrun) as [E' [nu' [rho' [M [Hpar' [Hnu [Ha [_ HS]]]]]]]].
  rewrite Hpar in Hpar'. injection Hpar' as <- <- <-.
  rewrite (sa_K _ _ _ _ _ _ _ _ HS). apply lsum_ext. intros g Hg. unfold vK. f_equal.
  rewrite (form_ext 3 _ _ (g_eps g v) _ (affine_strain a1 a2 b1 b2)).
  3: { intros a Ha3. exact (plane_strain_affine p coord a0 a1 a2 b0 b1 b2 g a Hp Ha Hg Ha3). }
  2: { reflexivity. }
  unfold form, act, umat_R, ent, hooke2, affine_strain. cbn [rsum nth].
  assert (1 - nu <> 0) by (intros Z; apply Hnu; replace (1 - nu * nu) with ((1 - nu) * (1 + nu)) by ring; rewrite Z; ring).
  assert (1 + nu <> 0) by (intros Z; apply Hnu; replace (1 - nu * nu) with ((1 - nu) * (1 + nu)) by ring; rewrite Z; ring).
  field. repeat split; assumption.
Qed.

Definition share (n : nat) (coord : list (list R)) (s : nat -> R) (k d : nat) : R :=
  (side_force s (node_x coord k) (node_y coord k) (node_x coord ((k + 1) mod n)) (node_y coord ((k + 1) mod n)) d
   + side_force s (node_x coord ((k + n - 1) mod n)) (node_y coord ((k + n - 1) mod n)) (node_x coord k) (node_y coord k) d) / 2.

Lemma quad4_uniform coord params K m E nu rho a0 a1 a2 b0 b1 b2 k d : elast_quad4 coord params = Ok (K, m) ->
  par_opt params = Some (E, nu, rho) -> (k < 4)%nat -> (d < 2)%nat ->
  act 8 K (affine2 coord a0 a1 a2 b0 b1 b2) (2 * k + d) = share 4 coord (hooke2 E nu (affine_strain a1 a2 b1 b2)) k d.
Proof.
  intros Hrun Hpar Hk Hd. assert (Hp : In pl_quad4 planes) by (cbn; tauto).
  rewrite act_of_form by lia. change 8%nat with (2 * pl_n pl_quad4)%nat.
  rewrite (plane_uniform_form pl_quad4 coord params K m E nu rho a0 a1 a2 b0 b1 b2 _ Hp Hrun Hpar).
  destruct (plane_summary pl_quad4 coord params K m Hp Hrun) as [E' [nu' [rho' [M [_ [_ [Ha [_ _]]]]]]]].
  destruct Ha as [_ [_ Ha]]. set (s := hooke2 E nu (affine_strain a1 a2 b1 b2)). clearbody s. clear Hrun Hpar Hp.
  unfold gs_of. destruct quad4_points as [g [Hg Hgq]]. rewrite Hgq in *. clear Hgq.
  set (v := unitv (2 * k + d)).
  assert (HW : forall r t, In (r, t, 1) [(- g, - g, 1); (- g, g, 1); (g, - g, 1); (g, g, 1)] ->
    let X := fun k => ent coord k 0 in let Y := fun k => ent coord k 1 in
    (fun g => g_w g * (s 0%nat * g_eps g v 0%nat + s 1%nat * g_eps g v 1%nat + s 2%nat * g_eps g v 2%nat)) (gdat2 (pl_n pl_quad4) (pl_sh pl_quad4) coord (pl_c pl_quad4) (r, t, 1)) =
    s 0%nat * ((bl1 (ux v) * bl2 Y - bl2 (ux v) * bl1 Y) + (bl1 (ux v) * bl3 Y - bl3 (ux v) * bl1 Y) * r + (bl3 (ux v) * bl2 Y - bl2 (ux v) * bl3 Y) * t) +
    s 1%nat * ((bl1 X * bl2 (uy v) - bl2 X * bl1 (uy v)) + (bl1 X * bl3 (uy v) - bl3 X * bl1 (uy v)) * r + (bl3 X * bl2 (uy v) - bl2 X * bl3 (uy v)) * t) +
    s 2%nat * ((bl1 X * bl2 (ux v) - bl2 X * bl1 (ux v)) + (bl1 X * bl3 (ux v) - bl3 X * bl1 (ux v)) * r + (bl3 X * bl2 (ux v) - bl2 X * bl3 (ux v)) * t +
      ((bl1 (uy v) * bl2 Y - bl2 (uy v) * bl1 Y) + (bl1 (uy v) * bl3 Y - bl3 (uy v) * bl1 Y) * r + (bl3 (uy v) * bl2 Y - bl2 (uy v) * bl3 Y) * t))).
  { intros r t Hin. cbv zeta. assert (Hne : det_at 4 shape_quad4 coord r t <> 0) by (specialize (Ha r t 1 Hin); cbn [pl_n pl_sh pl_quad4] in Ha; lra).
    destruct (quad4_strain coord v r t Hne) as (_ & S0 & S1 & S2). cbn [gdat2 g_w g_eps pl_n pl_sh pl_c pl_quad4].
    rewrite <- S0, <- S1, <- S2.
    pose (q := strain2 4 (snd (shape_quad4 r t)) coord v). pose (dd := det_at 4 shape_quad4 coord r t).
    change (1 * (dd * 1) * (s 0%nat * q 0%nat + s 1%nat * q 1%nat + s 2%nat * q 2%nat) =
      s 0%nat * (q 0%nat * dd) + s 1%nat * (q 1%nat * dd) + s 2%nat * (q 2%nat * dd)). ring. }
  cbn [map lsum fold_right]. unfold lsum. cbn [fold_right].
  rewrite !HW by (cbn; tauto). clear HW Ha.
  unfold share, side_force, node_x, node_y, bl1, bl2, bl3, ux, uy, v, unitv.
  do 4 (destruct k as [|k]; [destruct d as [|[|d]]; [| |lia]; cbn -[Rmult Rplus Rminus Rdiv Ropp ent]; field|]). lia.
Qed.

Lemma tri3_strain coord u r s : det_at 3 shape_tri3 coord r s <> 0 ->
  let x k := ent coord k 0 in let y k := ent coord k 1 in
  det_at 3 shape_tri3 coord r s = 2 * area3 coord /\
  strain2 3 (snd (shape_tri3 r s)) coord u 0 * (2 * area3 coord) = (y 2%nat - y 0%nat) * (u 2%nat - u 0%nat) - (y 1%nat - y 0%nat) * (u 4%nat - u 0%nat) /\
  strain2 3 (snd (shape_tri3 r s)) coord u 1 * (2 * area3 coord) = (x 1%nat - x 0%nat) * (u 5%nat - u 1%nat) - (x 2%nat - x 0%nat) * (u 3%nat - u 1%nat) /\
  strain2 3 (snd (shape_tri3 r s)) coord u 2 * (2 * area3 coord) = (x 1%nat - x 0%nat) * (u 4%nat - u 0%nat) - (x 2%nat - x 0%nat) * (u 2%nat - u 0%nat)
     + (y 2%nat - y 0%nat) * (u 3%nat - u 1%nat) - (y 1%nat - y 0%nat) * (u 5%nat - u 1%nat).
Proof.
  intros Hdet. cbv zeta. unfold det_at in *. set (D := snd (shape_tri3 r s)) in *.
  change (J2det (Jac 3 D coord) <> 0) in Hdet.
  set (x0 := ent coord 0 0) in *. set (y0 := ent coord 0 1) in *. set (x1 := ent coord 1 0) in *.
  set (y1 := ent coord 1 1) in *. set (x2 := ent coord 2 0) in *. set (y2 := ent coord 2 1) in *.
  assert (J00 : Jac 3 D coord 0 0 = x1 - x0) by apply (tri3_dr r s (fun k => ent coord k 0)).
  assert (J01 : Jac 3 D coord 0 1 = y1 - y0) by apply (tri3_dr r s (fun k => ent coord k 1)).
  assert (J10 : Jac 3 D coord 1 0 = x2 - x0) by apply (tri3_ds r s (fun k => ent coord k 0)).
  assert (J11 : Jac 3 D coord 1 1 = y2 - y0) by apply (tri3_ds r s (fun k => ent coord k 1)).
  assert (Hdetv : J2det (Jac 3 D coord) = 2 * area3 coord).
  { unfold J2det. rewrite J00, J01, J10, J11. unfold area3, node_x, node_y. fold x0 y0 x1 y1 x2 y2. field. }
  rewrite <- Hdetv. split; [reflexivity|]. split; [|split].
  - unfold strain2. etransitivity; [apply (rsum_grad0 3 D coord (ux u) Hdet)|]. rewrite J11, J01. unfold D. rewrite tri3_dr, tri3_ds. unfold ux, uy. cbn [Nat.mul Nat.add]. ring.
  - unfold strain2. etransitivity; [apply (rsum_grad1 3 D coord (uy u) Hdet)|]. rewrite J00, J10. unfold D. rewrite tri3_dr, tri3_ds. unfold ux, uy. cbn [Nat.mul Nat.add]. ring.
  - unfold strain2. rewrite rsum_plus, Rmult_plus_distr_r.
    etransitivity; [apply (f_equal2 Rplus (rsum_grad1 3 D coord (ux u) Hdet) (rsum_grad0 3 D coord (uy u) Hdet))|]. rewrite J00, J01, J10, J11. unfold D.
    rewrite !tri3_dr, !tri3_ds. unfold ux, uy. cbn [Nat.mul Nat.add]. ring.
Qed.

Lemma tri3_uniform coord params K m E nu rho a0 a1 a2 b0 b1 b2 k d : elast_tri3 coord params = Ok (K, m) ->
  par_opt params = Some (E, nu, rho) -> (k < 3)%nat -> (d < 2)%nat ->
  act 6 K (affine2 coord a0 a1 a2 b0 b1 b2) (2 * k + d) =
  999999999999 / 1000000000000 * share 3 coord (hooke2 E nu (affine_strain a1 a2 b1 b2)) k d.
Proof.
  intros Hrun Hpar Hk Hd. assert (Hp : In pl_tri3 planes) by (cbn; tauto).
  rewrite act_of_form by lia. change 6%nat with (2 * pl_n pl_tri3)%nat.
  rewrite (plane_uniform_form pl_tri3 coord params K m E nu rho a0 a1 a2 b0 b1 b2 _ Hp Hrun Hpar).
  destruct (plane_summary pl_tri3 coord params K m Hp Hrun) as [E' [nu' [rho' [M [_ [_ [Ha [_ _]]]]]]]].
  destruct Ha as [_ [_ Ha]]. set (s := hooke2 E nu (affine_strain a1 a2 b1 b2)). clearbody s. clear Hrun Hpar.
  set (v := unitv (2 * k + d)).
  set (sh := share 3 coord s k d).
  assert (HA : area3 coord <> 0).
  { destruct (pl_gq pl_tri3) as [|[[r t] w] gq] eqn:Egq; [discriminate|].
    specialize (Ha r t w (or_introl eq_refl)). cbn [pl_n pl_sh pl_tri3] in Ha.
    destruct (tri3_strain coord v r t ltac:(lra)) as [He _]. rewrite He in Ha. lra. }
  assert (HW : forall g, In g (gs_of pl_tri3 coord) ->
     g_w g * (s 0%nat * g_eps g v 0%nat + s 1%nat * g_eps g v 1%nat + s 2%nat * g_eps g v 2%nat) = g_w g * (sh / area3 coord)).
  { intros g Hg. apply in_map_iff in Hg. destruct Hg as [[[r t] w] [<- Hin]]. specialize (Ha r t w Hin). cbn [pl_n pl_sh pl_tri3] in Ha.
    destruct (tri3_strain coord v r t ltac:(lra)) as (_ & S0 & S1 & S2). cbn [gdat2 g_w g_eps pl_n pl_sh pl_c pl_tri3].
    set (q0 := strain2 3 _ coord v 0) in *. set (q1 := strain2 3 _ coord v 1) in *. set (q2 := strain2 3 _ coord v 2) in *.
    f_equal. apply Rmult_eq_reg_r with (2 * area3 coord); [|lra].
    transitivity (s 0%nat * (q0 * (2 * area3 coord)) + s 1%nat * (q1 * (2 * area3 coord)) + s 2%nat * (q2 * (2 * area3 coord))); [ring|].
    rewrite S0, S1, S2. transitivity (2 * sh); [|field; exact HA].
    unfold sh, v, share, side_force, node_x, node_y, unitv.
    do 3 (destruct k as [|k]; [destruct d as [|[|d]]; [| |lia]; cbn -[Rmult Rplus Rminus Rdiv Ropp ent]; field|]). lia. }
  rewrite (lsum_ext _ _ _ HW), lsum_scal_r, wdet_sum, tri3_area. field. exact HA.
Qed.

Lemma lsum_flat_map {A B} (f : B -> R) (g : A -> list B) l : lsum f (flat_map g l) = lsum (fun a => lsum f (g a)) l.
Proof.
  induction l as [|a l IH]; [reflexivity|]. cbn [flat_map].
  assert (HA : forall p q, lsum f (p ++ q) = lsum f p + lsum f q).
  { intros p q. induction p as [|x p IHp]; [unfold lsum; cbn; ring|]. change (f x + lsum f (p ++ q) = f x + lsum f p + lsum f q). rewrite IHp. ring. }
  rewrite HA, IH. reflexivity.
Qed.
Lemma lsum_picked (f : nat -> R) (h : nat -> nat) (sel : nat -> bool) n :
  lsum f (map h (filter sel (seq 0 n))) = rsum n (fun k => if sel k then f (h k) else 0).
Proof.
  assert (HA : forall p q, lsum f (p ++ q) = lsum f p + lsum f q).
  { intros p q. induction p as [|x p IHp]; [unfold lsum; cbn; ring|]. change (f x + lsum f (p ++ q) = f x + lsum f p + lsum f q). rewrite IHp. ring. }
  induction n as [|n IH]; [reflexivity|]. rewrite seq_S, filter_app, map_app, HA, IH. cbn [rsum Nat.add filter].
  destruct (sel n); unfold lsum; cbn; ring.
Qed.
Lemma lsum_permutation {A} (f : A -> R) l l' : Permutation l l' -> lsum f l = lsum f l'.
Proof.
  induction 1 as [|x l l' _ IH|x y l|l l' l'' _ IH1 _ IH2]; [reflexivity| | |congruence].
  - change (f x + lsum f l = f x + lsum f l'). rewrite IH. reflexivity.
  - change (f y + (f x + lsum f l) = f x + (f y + lsum f l)). ring.
Qed.

Lemma affine_local nodes e n a0 a1 a2 b0 b1 b2 j : e_n e = n -> (j < 2 * n)%nat ->
  e_disp (affine_table nodes a0 a1 a2 b0 b1 b2) e j = affine2 (e_coord nodes e) a0 a1 a2 b0 b1 b2 j.
Proof.
  intros Hn Hj. assert (Hk : (j / 2 < e_n e)%nat) by (apply Nat.div_lt_upper_bound; lia).
  pose proof (Nat.div_mod j 2 ltac:(lia)) as Ej. assert (Hm : (j mod 2 = 0 \/ j mod 2 = 1)%nat) by (pose proof (Nat.mod_upper_bound j 2); lia).
  destruct Hm as [Hm|Hm]; rewrite Hm in Ej.
  - rewrite Ej, Nat.add_0_r, e_disp_even. unfold affine2. rewrite field2_even. unfold affine_table, node_x, node_y. cbn [Nat.eqb].
    rewrite !e_coord_ent by exact Hk. reflexivity.
  - rewrite Ej, e_disp_odd. unfold affine2. rewrite field2_odd. unfold affine_table, node_x, node_y. cbn [Nat.eqb].
    rewrite !e_coord_ent by exact Hk. reflexivity.
Qed.

Lemma patch_force md E nu c a0 a1 a2 b0 b1 b2 i d : wf_model md -> patch_mesh md E nu c -> (d < 2)%nat ->
  internal_force (md_mats md) (md_nodes md) (md_elements md) (affine_table (md_nodes md) a0 a1 a2 b0 b1 b2) i d =
  c * ((lsum (fun j => side (md_nodes md) (hooke2 E nu (affine_strain a1 a2 b1 b2)) i j d) (after (md_elements md) i)
        + lsum (fun j => side (md_nodes md) (hooke2 E nu (affine_strain a1 a2 b1 b2)) j i d) (before (md_elements md) i)) / 2).
Proof.
  intros Hwf (t & n & Htn & Hmesh & Hel) Hd. set (s := hooke2 E nu (affine_strain a1 a2 b1 b2)).
  unfold after, before. rewrite !lsum_flat_map. unfold Rdiv. rewrite <- lsum_plus, <- lsum_scal_r, <- lsum_scal. unfold internal_force.
  apply lsum_ext. intros e He. rewrite !lsum_picked, <- rsum_plus.
  rewrite Rmult_comm, Rmult_assoc, (Rmult_comm (rsum _ _)), <- rsum_scal.
  unfold mesh_of in Hmesh. rewrite Forall_forall in Hmesh, Hel. specialize (Hmesh e He). specialize (Hel e He).
  destruct Hmesh as (Le & Ht & _ & _). assert (Hn : e_n e = n) by (unfold e_n; rewrite Le; lia).
  destruct Hel as [(im & rest & Him & Hp) (k & m & Hr)].
  destruct (retrieved md e k m Hwf He Hr) as (t' & im' & pr & f & Ht' & Him' & Hp' & Hf & Hk & HS).
  assert (im' = im) by congruence. subst im'. assert (pr = E :: nu :: rest) by congruence. subst pr.
  assert (Et : t' = t) by (rewrite <- Ht; symmetry; apply (nth_error_nth _ _ 0%Z Ht')). subst t'.
  assert (HU : forall q, (q < n)%nat -> act (2 * n) k (affine2 (e_coord (md_nodes md) e) a0 a1 a2 b0 b1 b2) (2 * q + d) =
      c * share n (e_coord (md_nodes md) e) s q d).
  { intros q Hq. destruct Htn as [Et|[Et|[]]]; injection Et as <- <- <-; cbn in Hf; apply Ok_inj in Hf; subst f.
    - rewrite Rmult_1_l. exact (quad4_uniform _ _ k m E nu _ a0 a1 a2 b0 b1 b2 q d Hk eq_refl Hq Hd).
    - exact (tri3_uniform _ _ k m E nu _ a0 a1 a2 b0 b1 b2 q d Hk eq_refl Hq Hd). }
  assert (Hpos : (0 < n)%nat) by (destruct Htn as [Et|[Et|[]]]; injection Et as <- <- <-; lia).
  rewrite Hn. apply rsum_ext. intros q Hq. destruct (Nat.eqb_spec (e_node e q) i) as [Ei|Ei]; [|ring].
  unfold e_force. rewrite HS, Hn.
  etransitivity; [apply (act_ext (2 * n) k _ _ _ (fun j Hj => affine_local (md_nodes md) e n a0 a1 a2 b0 b1 b2 j Hn Hj))|].
  rewrite HU by exact Hq. unfold share, side.
  pose proof (Nat.mod_upper_bound (q + 1) n ltac:(lia)) as B1. pose proof (Nat.mod_upper_bound (q + n - 1) n ltac:(lia)) as B2.
  unfold node_x, node_y. rewrite !e_coord_ent by (rewrite Hn; lia). rewrite Ei. unfold Rdiv. ring.
Qed.

Lemma patch_interior md E nu c a0 a1 a2 b0 b1 b2 i d : wf_model md -> patch_mesh md E nu c -> (d < 2)%nat ->
  surrounded (md_elements md) i ->
  internal_force (md_mats md) (md_nodes md) (md_elements md) (affine_table (md_nodes md) a0 a1 a2 b0 b1 b2) i d = 0.
Proof.
  intros Hwf Hm Hd HP. rewrite (patch_force md E nu c) by assumption. unfold surrounded in HP. rewrite (lsum_permutation _ _ _ HP).
  rewrite <- lsum_plus. rewrite (lsum_ext _ (fun _ => 0)).
  - rewrite lsum_zero by reflexivity. field.
  - intros j _. unfold side, side_force. destruct (d =? 0)%nat; ring.
Qed.
