(** * Lemmas: refined meshes *)
From Coq Require Import Reals List Arith Lia Lra Bool ZArith.
From Verif Require Import Num LinAlg Gauss Fem Uel Assem Post Main Script Spec LinR Base SpecAssem SpecModel SpecElem SpecPost SpecStatic SpecModes SpecScript SpecSolid SpecMass SpecStiff SpecRefine
  ElemCore ElemShape Sampled Elem2 Elem2Props Elem2Mass Elem3 Elem3Props MatProofs BarProofs AssemProofs AssemProofs2 AssemProofs3 AssemProofs4 StaticProofs ModelProofs MeshProofs ElemFinal ElemFinal2 ElemFinal3 ConvexProofs PatchProofs ScriptProofs ScriptProofs2 ScriptFinal SolidProofs TetPatch StiffProofs.
Import ListNotations.
Local Open Scope R_scope.

(** ** work of the loads *)
Lemma flags01_ent d cons : flags01 d cons -> forall i c, (i < length cons)%nat -> (c < d)%nat -> ent cons i c = 0 \/ ent cons i c = -1.
Proof.
  intros F i c Hi Hc. unfold flags01 in F. rewrite Forall_forall in F. destruct (F (nth i cons []) (nth_In _ _ Hi)) as [L H]. unfold ent.
  rewrite Forall_forall in H. apply H. apply nth_In. lia.
Qed.
Section Finer.
  Variables (p q : problem) (W : nat -> nat -> R).
  Hypothesis HF : finer p q W.

  Lemma follow_admissible U : p_admissible p U -> p_admissible q (follow p W U).
  Proof.
    intros HU i d Hd C. unfold follow. apply rsum_zero. intros j Hj.
    destruct (Req_EM_T (W i j) 0) as [->|Hw]; [ring|]. rewrite (HU j d); [ring| |exact (fn_cons _ _ _ HF i d j Hd C Hj Hw)].
    split; [exact Hj|]. rewrite <- (fn_dofs _ _ _ HF). exact (proj2 Hd).
  Qed.
  Lemma follow_work U : wf_problem p -> p_admissible p U -> p_load_work q (follow p W U) = p_load_work p U.
  Proof.
    intros (_ & Fl & Lc & _) HU. unfold p_load_work, follow. rewrite (fn_dofs _ _ _ HF).
    rewrite (rsum_ext (length (p_nodes q)) _ (fun i => rsum (length (p_nodes p)) (fun j => rsum (p_dofs p) (fun d => W i j * applied (p_loads q) i d * U j d)))).
    - rewrite rsum_swap. apply rsum_ext. intros j Hj. rewrite rsum_swap. apply rsum_ext. intros d Hd.
      rewrite rsum_scal_r. destruct (Req_EM_T (ent (p_cons p) j d) (-1)) as [C|C].
      + rewrite (HU j d (conj Hj Hd) C). ring.
      + f_equal. symmetry. apply (fn_loads _ _ _ HF j d (conj Hj Hd)).
        pose proof (flags01_ent _ _ Fl j d ltac:(lia) Hd) as [H|H]; [exact H|contradiction].
    - intros i _. rewrite rsum_swap. apply rsum_ext. intros d _. rewrite <- rsum_scal. apply rsum_ext. intros j _. ring.
  Qed.
  Lemma follow_diff U V i d : follow p W (fun i d => U i d - V i d) i d = follow p W U i d - follow p W V i d.
  Proof. unfold follow. rewrite <- rsum_minus. apply rsum_ext. intros j _. ring. Qed.

  Lemma energy_diff r U V : p_psd r -> p_energy r (fun i d => U i d - V i d) (fun i d => U i d - V i d) = p_energy r U U - 2 * p_energy r V U + p_energy r V V.
  Proof.
    intros Pp. assert (X : forall W W', p_energy r (fun i d => U i d - V i d) W = p_energy r (fun i d => 1 * U i d + (-1) * V i d) W /\
       p_energy r W' (fun i d => U i d - V i d) = p_energy r W' (fun i d => 1 * U i d + (-1) * V i d)).
    { intros Y Y'. split; apply lsum_ext; intros e _; apply form_ext; intros j _; unfold p_disp; ring. }
    rewrite (proj1 (X _ U)), p_energy_lin_l, !(proj2 (X U _)), !p_energy_lin_r. rewrite (p_energy_sym r U V Pp). ring.
  Qed.

  Theorem finer_work U V : wf_problem p -> wf_problem q -> p_psd q -> p_equilibrium p U -> p_equilibrium q V ->
    p_load_work q V = p_load_work p U + p_energy q (fun i d => V i d - follow p W U i d) (fun i d => V i d - follow p W U i d).
  Proof.
    intros Wp Wq Pq HU HV. pose proof (equilibrium_admissible p U HU) as AU. pose proof (follow_admissible U AU) as AF.
    rewrite (energy_diff q V (follow p W U) Pq), (fn_energy _ _ _ HF).
    rewrite (p_work' q V V Wq HV (equilibrium_admissible q V HV)), (p_work' q V _ Wq HV AF), (p_work' p U U Wp HU AU), (follow_work U Wp AU). ring.
  Qed.
  Theorem finer_best U V X : wf_problem p -> wf_problem q -> p_psd p -> p_psd q -> p_equilibrium p U -> p_equilibrium q V -> p_admissible p X ->
    p_energy q (fun i d => V i d - follow p W X i d) (fun i d => V i d - follow p W X i d) =
    p_energy q (fun i d => V i d - follow p W U i d) (fun i d => V i d - follow p W U i d) + p_energy p (fun i d => U i d - X i d) (fun i d => U i d - X i d).
  Proof.
    intros Wp Wq Pp Pq HU HV AX. pose proof (equilibrium_admissible p U HU) as AU. pose proof (follow_admissible U AU) as AF. pose proof (follow_admissible X AX) as AFX.
    rewrite !(energy_diff q V _ Pq), (energy_diff p U X Pp), !(fn_energy _ _ _ HF).
    rewrite (p_work' q V _ Wq HV AF), (p_work' q V _ Wq HV AFX), (p_work' p U U Wp HU AU), (p_work' p U X Wp HU AX), (follow_work U Wp AU), (follow_work X Wp AX). ring.
  Qed.
  Theorem finer_stable : wf_problem p -> wf_problem q -> p_psd p -> p_psd q -> kept p q W -> p_stable q -> p_stable p.
  Proof.
    intros Wp Wq Pp Pq HK Hs. apply (proj2 (p_stable_energy p Wp Pp)). intros U HU HE j d [Hj Hd].
    destruct (HK j Hj) as (i & Hi & Hw).
    assert (F0 : follow p W U i d = 0).
    { apply (proj1 (p_stable_energy q Wq Pq) Hs (follow p W U) (follow_admissible U HU)); [|split; [exact Hi|rewrite (fn_dofs _ _ _ HF); exact Hd]].
      assert (Z : p_energy q (follow p W U) (follow p W U) = 0) by (rewrite (fn_energy _ _ _ HF); apply lsum_all0; exact HE).
      refine (proj2 (lsum_nonneg0 _ _ _) Z). intros e He. apply (Pq e He). }
    unfold follow in F0. rewrite (rsum_single _ j) in F0; [|exact Hj|].
    - rewrite (Hw j Hj), Nat.eqb_refl in F0. lra.
    - intros k Hk Hne. rewrite (Hw k Hk). apply Nat.eqb_neq in Hne. rewrite Hne. ring.
  Qed.
End Finer.

(** ** nested meshes *)
Lemma lsum_index (f : list Z -> R) l : lsum f l = rsum (length l) (fun k => f (nth k l [])).
Proof.
  induction l as [|a l IH] using rev_ind; [reflexivity|]. rewrite lsum_app, app_length, Nat.add_1_r, IH. cbn [rsum]. f_equal.
  - apply rsum_ext. intros k Hk. rewrite app_nth1 by exact Hk. reflexivity.
  - rewrite app_nth2, Nat.sub_diag by lia. unfold lsum. cbn. ring.
Qed.
Lemma follow_affine dim p q W i e' t (g : nat -> R) U d : placed dim p q W i e' ->
  (forall j, has_node e' j -> U j d = t + rsum dim (fun c => g c * ent (p_nodes p) j (S c))) ->
  follow p W U i d = t + rsum dim (fun c => g c * ent (p_nodes q) i (S c)).
Proof.
  intros (H1 & H2 & H3) HU. unfold follow. rewrite (rsum_ext _ _ (fun j => W i j * t + rsum dim (fun c => g c * (W i j * ent (p_nodes p) j (S c))))).
  - rewrite rsum_plus, rsum_scal_r, H1, Rmult_1_l. f_equal. rewrite rsum_swap. apply rsum_ext. intros c Hc. rewrite rsum_scal, (H2 c Hc). reflexivity.
  - intros j Hj. destruct (Req_EM_T (W i j) 0) as [E|E].
    + rewrite E, !Rmult_0_l, Rplus_0_l. symmetry. apply rsum_zero. intros; ring.
    + rewrite (HU j (H3 j Hj E)), Rmult_plus_distr_l. f_equal. rewrite <- rsum_scal. apply rsum_ext. intros; ring.
Qed.
Definition e_energy (p : problem) (e : list Z) (U V : nat -> nat -> R) : R := form (p_dofs p * e_n e) (p_stiff p e) (p_disp p U e) (p_disp p V e).

Lemma nested_energy dim elem size p q W parent : nested dim elem size p q W parent ->
  (forall e E nu, In e (p_elements p) -> elem p e E nu -> size (p_nodes p) e <> 0) ->
  (forall e e' E nu U V, In e (p_elements q) -> In e' (p_elements p) -> elem q e E nu -> elem p e' E nu ->
     (forall m, (m < S dim)%nat -> placed dim p q W (e_node e m) e') ->
     size (p_nodes p) e' * e_energy q e (follow p W U) (follow p W V) = size (p_nodes q) e * e_energy p e' U V) ->
  forall U V, p_energy q (follow p W U) (follow p W V) = p_energy p U V.
Proof.
  intros (_ & _ & _ & _ & Hel & Hch & Hsz) Hne Hsc U V. unfold p_energy.
  change (lsum (fun e => e_energy q e (follow p W U) (follow p W V)) (p_elements q) = lsum (fun e => e_energy p e U V) (p_elements p)).
  rewrite !lsum_index. set (N := length (p_elements q)) in *. set (n := length (p_elements p)) in *.
  rewrite (rsum_ext N _ (fun k => rsum n (fun l => if (parent k =? l)%nat then size (p_nodes q) (nth k (p_elements q) []) * (e_energy p (nth l (p_elements p) []) U V / size (p_nodes p) (nth l (p_elements p) [])) else 0))).
  - rewrite rsum_swap. apply rsum_ext. intros l Hl.
    assert (Hs : size (p_nodes p) (nth l (p_elements p) []) <> 0).
    { rewrite Forall_forall in Hel. destruct (Hel _ (nth_In _ [] Hl)) as (E & nu & H). exact (Hne _ E nu (nth_In _ [] Hl) H). }
    rewrite (rsum_ext N _ (fun k => (if (parent k =? l)%nat then size (p_nodes q) (nth k (p_elements q) []) else 0) * (e_energy p (nth l (p_elements p) []) U V / size (p_nodes p) (nth l (p_elements p) [])))).
    + rewrite rsum_scal_r, (Hsz l Hl). field. exact Hs.
    + intros k _. destruct (parent k =? l)%nat; ring.
  - intros k Hk. destruct (Hch k Hk) as (Hp & (E & nu & H1 & H2) & H3). rewrite (rsum_single n (parent k)); [|exact Hp|].
    + rewrite Nat.eqb_refl. pose proof (Hsc _ _ E nu U V (nth_In _ [] Hk) (nth_In _ [] Hp) H1 H2 H3) as X.
      pose proof (Hne _ E nu (nth_In _ [] Hp) H2) as Hs. apply (Rmult_eq_reg_l (size (p_nodes p) (nth (parent k) (p_elements p) []))); [|exact Hs].
      rewrite X. field. exact Hs.
    + intros l _ Hl. replace (parent k =? l)%nat with false by (symmetry; apply Nat.eqb_neq; auto). reflexivity.
Qed.

Lemma coords_ent p e k c : (k < e_n e)%nat -> ent (p_coords p e) k c = ent (p_nodes p) (e_node e k) (S c).
Proof.
  intros Hk. unfold ent, p_coords, e_node. unfold e_n in Hk.
  rewrite (nth_indep _ [] (tl (nth (Z.to_nat 0) (p_nodes p) []))) by (rewrite map_length, skipn_length; exact Hk).
  rewrite (map_nth (fun z => tl (nth (Z.to_nat z) (p_nodes p) []))), nth_skipn. destruct (nth (Z.to_nat (nth (3 + k) e 0%Z)) (p_nodes p) []); [destruct c; reflexivity|reflexivity].
Qed.

(** triangles *)
Lemma tri_at p e E nu : wf_problem p -> In e (p_elements p) -> triangle p e E nu -> e_n e = 3%nat /\ exists rest m, elast_tri3 (p_coords p e) (E :: nu :: rest) = Ok (p_stiff p e, m).
Proof.
  intros (_ & _ & Lc & Hel & _) He (Hu & id & im & a & b & c & rest & -> & Hm). split; [reflexivity|]. rewrite Forall_forall in Hel.
  destruct (Hel _ He) as [(ty & _ & _ & _ & Hr) (k & m & Hk & _)]. exists rest, (M2 m). unfold p_stiff. rewrite Hk. rewrite Hu in Hk.
  apply retriever_builtin in Hk as (t & im' & params & rows & f & E1 & E2 & E3 & E4 & E5 & E6).
  change (Ok 3%Z = Ok t) in E1. change (Ok im = Ok im') in E2. apply Ok_inj in E1, E2. subst t im'. rewrite Hm in E3. apply Ok_inj in E3. subst params.
  apply Ok_inj in E5. subst f. rewrite (mapM_total _ (fun z => nth (Z.to_nat z) (p_nodes p) [])) in E4.
  - apply Ok_inj in E4. subst rows. rewrite map_map in E6. exact E6.
  - intros z Hz. apply np_get_nonneg. rewrite Forall_forall in Hr. specialize (Hr z Hz). lia.
Qed.
Lemma tri_area_coords p e : e_n e = 3%nat -> SpecElem.area3 (p_coords p e) = triangle_area (p_nodes p) e.
Proof.
  intros H. unfold SpecElem.area3, triangle_area, node_x, node_y. rewrite !coords_ent by lia. reflexivity.
Qed.

Lemma tri_row p e : wf_problem p -> In e (p_elements p) -> forall j, has_node e j -> (j < length (p_nodes p))%nat.
Proof.
  intros (_ & _ & Lc & Hel & _) He j (k & Hk & <-). rewrite Forall_forall in Hel. destruct (Hel _ He) as [(ty & _ & _ & _ & Hr) _].
  rewrite Forall_forall in Hr. unfold e_node, e_n in *. assert (Hin : In (nth (3 + k) e 0%Z) (skipn 3 e)) by (rewrite <- nth_skipn; apply nth_In; rewrite skipn_length; lia).
  specialize (Hr _ Hin). lia.
Qed.
(** any three values are those of an affine function *)
Lemma tri_fit (nodes : list (list R)) e (u : nat -> R) : e_n e = 3%nat -> triangle_area nodes e <> 0 ->
  exists t (g : nat -> R), forall j, has_node e j -> u j = t + rsum 2 (fun c => g c * ent nodes j (S c)).
Proof.
  intros H3 HA. unfold triangle_area in HA. cbv beta zeta in HA.
  set (x0 := ent nodes (e_node e 0) 1) in *. set (y0 := ent nodes (e_node e 0) 2) in *. set (x1 := ent nodes (e_node e 1) 1) in *.
  set (y1 := ent nodes (e_node e 1) 2) in *. set (x2 := ent nodes (e_node e 2) 1) in *. set (y2 := ent nodes (e_node e 2) 2) in *.
  set (u0 := u (e_node e 0)). set (u1 := u (e_node e 1)). set (u2 := u (e_node e 2)).
  assert (HD : (x1 - x0) * (y2 - y0) - (x2 - x0) * (y1 - y0) <> 0) by (intros E; apply HA; rewrite E; lra).
  set (gx := ((u1 - u0) * (y2 - y0) - (u2 - u0) * (y1 - y0)) / ((x1 - x0) * (y2 - y0) - (x2 - x0) * (y1 - y0))).
  set (gy := ((x1 - x0) * (u2 - u0) - (x2 - x0) * (u1 - u0)) / ((x1 - x0) * (y2 - y0) - (x2 - x0) * (y1 - y0))).
  exists (u0 - gx * x0 - gy * y0), (fun c => match c with 0%nat => gx | _ => gy end).
  intros j (k & Hk & <-). rewrite H3 in Hk. assert (Ek : (k = 0 \/ k = 1 \/ k = 2)%nat) by lia.
  cbn [rsum]. destruct Ek as [->|[->| ->]].
  - fold u0 x0 y0. ring.
  - fold u1 x1 y1. unfold gx, gy. field. exact HD.
  - fold u2 x2 y2. unfold gx, gy. field. exact HD.
Qed.
Lemma disp_affine2 p e (Y : nat -> nat -> R) t0 (g0 : nat -> R) t1 (g1 : nat -> R) : p_dofs p = 2%nat -> e_n e = 3%nat ->
  (forall m, (m < 3)%nat -> Y (e_node e m) 0%nat = t0 + rsum 2 (fun c => g0 c * ent (p_nodes p) (e_node e m) (S c)) /\ Y (e_node e m) 1%nat = t1 + rsum 2 (fun c => g1 c * ent (p_nodes p) (e_node e m) (S c))) ->
  forall j, (j < 6)%nat -> p_disp p Y e j = affine2 (p_coords p e) t0 (g0 0%nat) (g0 1%nat) t1 (g1 0%nat) (g1 1%nat) j.
Proof.
  intros Hd H3 HY j Hj. unfold p_disp. rewrite Hd. unfold affine2, field2, node_x, node_y.
  assert (HY0 : forall m, (m < 3)%nat -> Y (e_node e m) 0%nat = t0 + g0 0%nat * ent (p_coords p e) m 0 + g0 1%nat * ent (p_coords p e) m 1).
  { intros m Hm. rewrite (proj1 (HY m Hm)), !coords_ent by lia. cbn [rsum]. ring. }
  assert (HY1 : forall m, (m < 3)%nat -> Y (e_node e m) 1%nat = t1 + g1 0%nat * ent (p_coords p e) m 0 + g1 1%nat * ent (p_coords p e) m 1).
  { intros m Hm. rewrite (proj2 (HY m Hm)), !coords_ent by lia. cbn [rsum]. ring. }
  do 6 (destruct j as [|j]; [first [exact (HY0 0%nat ltac:(lia))|exact (HY1 0%nat ltac:(lia))|exact (HY0 1%nat ltac:(lia))|exact (HY1 1%nat ltac:(lia))|exact (HY0 2%nat ltac:(lia))|exact (HY1 2%nat ltac:(lia))]|]). lia.
Qed.
Lemma tri_area_pos p e E nu : wf_problem p -> In e (p_elements p) -> triangle p e E nu -> 0 < triangle_area (p_nodes p) e.
Proof.
  intros Wp He HT. destruct (tri_at p e E nu Wp He HT) as (H3 & rest & m & HR).
  assert (Hin : In (elast_tri3, 3%nat, fun coord W => W = SpecElem.area3 coord * (999999999999 / 1000000000000)) area_list) by (cbn; tauto).
  destruct (plane_energy _ _ _ Hin _ _ _ _ _ _ HR) as (W & HW & -> & _). rewrite (tri_area_coords p e H3) in HW. lra.
Qed.
Lemma tri_scale p q W e e' E nu U V : wf_problem p -> wf_problem q -> p_dofs p = 2%nat -> p_dofs q = 2%nat -> In e (p_elements q) -> In e' (p_elements p) -> triangle q e E nu -> triangle p e' E nu ->
  (forall m, (m < 3)%nat -> placed 2 p q W (e_node e m) e') ->
  triangle_area (p_nodes p) e' * e_energy q e (follow p W U) (follow p W V) = triangle_area (p_nodes q) e * e_energy p e' U V.
Proof.
  intros Wp Wq Dp Dq He He' HT HT' HP. pose proof (tri_area_pos p e' E nu Wp He' HT') as HA.
  destruct (tri_at q e E nu Wq He HT) as (H3 & rest & m & HR). destruct (tri_at p e' E nu Wp He' HT') as (H3' & rest' & m' & HR').
  assert (Hin : In (elast_tri3, 3%nat, fun coord W => W = SpecElem.area3 coord * (999999999999 / 1000000000000)) area_list) by (cbn; tauto).
  destruct (plane_energy _ _ _ Hin _ _ _ _ _ _ HR) as (S & HS & -> & HF). destruct (plane_energy _ _ _ Hin _ _ _ _ _ _ HR') as (S' & HS' & -> & HF').
  rewrite (tri_area_coords q e H3) in HF. rewrite (tri_area_coords p e' H3') in HF'. clear HS HS' HR HR'.
  assert (Hfit : forall Y : nat -> nat -> R, exists t0 g0 t1 g1, forall j, has_node e' j -> Y j 0%nat = t0 + rsum 2 (fun c => g0 c * ent (p_nodes p) j (Datatypes.S c)) /\ Y j 1%nat = t1 + rsum 2 (fun c => g1 c * ent (p_nodes p) j (Datatypes.S c))).
  { intros Y. destruct (tri_fit (p_nodes p) e' (fun j => Y j 0%nat) H3' ltac:(lra)) as (t0 & g0 & Y0). destruct (tri_fit (p_nodes p) e' (fun j => Y j 1%nat) H3' ltac:(lra)) as (t1 & g1 & Y1).
    exists t0, g0, t1, g1. intros j Hj. split; [exact (Y0 j Hj)|exact (Y1 j Hj)]. }
  destruct (Hfit U) as (t0 & g0 & t1 & g1 & HU). destruct (Hfit V) as (s0 & h0 & s1 & h1 & HV).
  unfold e_energy. rewrite Dp, Dq, H3, H3'. change (2 * 3)%nat with 6%nat in *.
  rewrite (form_ext 6 (p_stiff p e') _ (affine2 (p_coords p e') t0 (g0 0%nat) (g0 1%nat) t1 (g1 0%nat) (g1 1%nat)) _ (affine2 (p_coords p e') s0 (h0 0%nat) (h0 1%nat) s1 (h1 0%nat) (h1 1%nat))).
  2, 3: apply disp_affine2; [exact Dp|exact H3'|]; intros k Hk; (apply HU || apply HV); exists k; split; [lia|reflexivity].
  rewrite (form_ext 6 (p_stiff q e) _ (affine2 (p_coords q e) t0 (g0 0%nat) (g0 1%nat) t1 (g1 0%nat) (g1 1%nat)) _ (affine2 (p_coords q e) s0 (h0 0%nat) (h0 1%nat) s1 (h1 0%nat) (h1 1%nat))).
  2, 3: apply disp_affine2; [exact Dq|exact H3|]; intros k Hk; split; (eapply follow_affine; [exact (HP k Hk)|]); intros j Hj; (apply HU || apply HV); exact Hj.
  rewrite HF, HF'. ring.
Qed.
