(** * Lemmas: tetrahedra cut into smaller ones; runs on two meshes *)
From Coq Require Import Reals List Arith Lia Lra Bool ZArith.
From Verif Require Import Num LinAlg Gauss Fem Uel Assem Post Main Script Spec LinR Base SpecAssem SpecModel SpecElem SpecPost SpecStatic SpecModes SpecScript SpecSolid SpecMass SpecStiff SpecRefine
  ElemCore ElemShape Sampled Elem2 Elem2Props Elem3 Elem3Props BarProofs AssemProofs AssemProofs2 AssemProofs3 StaticProofs ModelProofs MeshProofs ElemFinal ElemFinal2 ElemFinal3 ScriptProofs ScriptProofs2 ScriptFinal SolidProofs TetPatch MassPos2 StiffProofs StiffProofs3 RefineProofs.
Import ListNotations.
Local Open Scope R_scope.

Lemma tetra_at p e E nu : wf_problem p -> In e (p_elements p) -> tetrahedron p e E nu -> e_n e = 4%nat /\ exists rho m, elast_tet4 (p_coords p e) [E; nu; rho] = Ok (p_stiff p e, m).
Proof.
  intros (_ & _ & Lc & Hel & _) He (id & ty & im & a & b & c & d & rho & f & Ee & Hm & Hu & Hf). split; [rewrite Ee; reflexivity|]. rewrite Forall_forall in Hel.
  destruct (Hel _ He) as [(ty' & _ & _ & _ & Hr) (k & m & Hk & _)]. exists rho, (M2 m). unfold p_stiff. rewrite Hk, <- Hf. rewrite Hu in Hk.
  assert (HK : retriever e (p_mats p) (p_nodes p) (Some f) = f (p_coords p e) [E; nu; rho]); [|rewrite <- HK; exact Hk].
  unfold retriever. replace (np_get e 1) with (Ok ty) by (rewrite Ee; reflexivity). replace (np_get e 2) with (Ok im) by (rewrite Ee; reflexivity). cbn [bind]. rewrite Hm. cbn [bind].
  rewrite (mapM_total _ (fun z => nth (Z.to_nat z) (p_nodes p) [])).
  - cbn [bind]. rewrite map_map. reflexivity.
  - intros z Hz. apply np_get_nonneg. rewrite Forall_forall in Hr. specialize (Hr z Hz). lia.
Qed.
Lemma tetra_vol_coords p e : e_n e = 4%nat -> vol4 (p_coords p e) = tetrahedron_volume (p_nodes p) e.
Proof. intros H. unfold vol4, tetrahedron_volume, J3det. rewrite !coords_ent by lia. reflexivity. Qed.
Lemma tetra_vol_pos p e E nu : wf_problem p -> In e (p_elements p) -> tetrahedron p e E nu -> 0 < tetrahedron_volume (p_nodes p) e.
Proof.
  intros Wp He HT. destruct (tetra_at p e E nu Wp He HT) as (H4 & rho & m & HR).
  assert (Hv : In (elast_tet4, 4%nat, fun (coord : list (list R)) W => W = vol4 coord) volume_list) by (left; reflexivity).
  destruct (solid_energy _ _ _ Hv _ _ _ _ _ _ HR) as (W & HW & -> & _). rewrite (tetra_vol_coords p e H4) in HW. exact HW.
Qed.
(** any four values are those of an affine function *)
Lemma tetra_fit (nodes : list (list R)) e (u : nat -> R) : e_n e = 4%nat -> tetrahedron_volume nodes e <> 0 ->
  exists t (g : nat -> R), forall j, has_node e j -> u j = t + rsum 3 (fun c => g c * ent nodes j (S c)).
Proof.
  intros H4 HV. set (x := fun k c => ent nodes (e_node e k) (S c)). assert (HD : xD x <> 0).
  { intros E. apply HV. unfold tetrahedron_volume. change (xD x / 6 = 0). rewrite E. lra. }
  set (g := fun k c => xS x k c / xD x).
  exists (rsum 4 (fun k => u (e_node e k) * (1 - rsum 3 (fun c => g k c * x k c)))), (fun c => rsum 4 (fun k => u (e_node e k) * g k c)).
  intros j (m & Hm & <-). rewrite H4 in Hm. change (fun c => rsum 4 (fun k => u (e_node e k) * g k c) * ent nodes (e_node e m) (S c)) with (fun c => rsum 4 (fun k => u (e_node e k) * g k c) * x m c).
  transitivity (rsum 4 (fun k => u (e_node e k) * (1 - rsum 3 (fun c => xS x k c * (x k c - x m c)) / xD x))).
  - symmetry. rewrite (rsum_single 4 m); [|exact Hm|].
    + rewrite (rsum_zero 3); [unfold Rdiv; ring|]. intros c _. ring.
    + intros k Hk Hne. rewrite (corner_volume x k m Hk Hm ltac:(auto)). field. exact HD.
  - unfold g. cbn [rsum]. field. exact HD.
Qed.
Lemma disp_affine3 p e (Y : nat -> nat -> R) (t : nat -> R) (A : nat -> nat -> R) : p_dofs p = 3%nat -> e_n e = 4%nat ->
  (forall m d, (m < 4)%nat -> (d < 3)%nat -> Y (e_node e m) d = t d + rsum 3 (fun c => A d c * ent (p_nodes p) (e_node e m) (S c))) ->
  forall j, (j < 12)%nat -> p_disp p Y e j = affine3 (p_coords p e) t A j.
Proof.
  intros Hd H4 HY j Hj. unfold p_disp. rewrite Hd. unfold affine3. assert (Hk : (j / 3 < 4)%nat) by (apply Nat.div_lt_upper_bound; lia).
  rewrite (HY (j / 3) (j mod 3))%nat; [|exact Hk|apply Nat.mod_upper_bound; lia]. f_equal. apply rsum_ext. intros c _. rewrite coords_ent by lia. reflexivity.
Qed.
Lemma tetra_scale p q W e e' E nu U V : wf_problem p -> wf_problem q -> p_dofs p = 3%nat -> p_dofs q = 3%nat -> In e (p_elements q) -> In e' (p_elements p) -> tetrahedron q e E nu -> tetrahedron p e' E nu ->
  (forall m, (m < 4)%nat -> placed 3 p q W (e_node e m) e') ->
  tetrahedron_volume (p_nodes p) e' * e_energy q e (follow p W U) (follow p W V) = tetrahedron_volume (p_nodes q) e * e_energy p e' U V.
Proof.
  intros Wp Wq Dp Dq He He' HT HT' HP. pose proof (tetra_vol_pos p e' E nu Wp He' HT') as HA.
  destruct (tetra_at q e E nu Wq He HT) as (H4 & rho & m & HR). destruct (tetra_at p e' E nu Wp He' HT') as (H4' & rho' & m' & HR').
  assert (Hv : In (elast_tet4, 4%nat, fun (coord : list (list R)) W => W = vol4 coord) volume_list) by (left; reflexivity).
  destruct (solid_energy _ _ _ Hv _ _ _ _ _ _ HR) as (S & HS & -> & HF). destruct (solid_energy _ _ _ Hv _ _ _ _ _ _ HR') as (S' & HS' & -> & HF').
  rewrite (tetra_vol_coords q e H4) in HF. rewrite (tetra_vol_coords p e' H4') in HF'. clear HS HS' HR HR'.
  assert (Hfit : forall Y : nat -> nat -> R, exists (t : nat -> R) (A : nat -> nat -> R), forall j d, (d < 3)%nat -> has_node e' j -> Y j d = t d + rsum 3 (fun c => A d c * ent (p_nodes p) j (Datatypes.S c))).
  { intros Y. destruct (tetra_fit (p_nodes p) e' (fun j => Y j 0%nat) H4' ltac:(lra)) as (t0 & g0 & Y0). destruct (tetra_fit (p_nodes p) e' (fun j => Y j 1%nat) H4' ltac:(lra)) as (t1 & g1 & Y1).
    destruct (tetra_fit (p_nodes p) e' (fun j => Y j 2%nat) H4' ltac:(lra)) as (t2 & g2 & Y2).
    exists (fun d => match d with 0%nat => t0 | 1%nat => t1 | _ => t2 end), (fun d => match d with 0%nat => g0 | 1%nat => g1 | _ => g2 end).
    intros j d Hd Hj. destruct d as [|[|[|]]]; [exact (Y0 j Hj)|exact (Y1 j Hj)|exact (Y2 j Hj)|lia]. }
  destruct (Hfit U) as (t & A & HU). destruct (Hfit V) as (s & B & HV').
  unfold e_energy. rewrite Dp, Dq, H4, H4'. change (3 * 4)%nat with 12%nat in *.
  rewrite (form_ext 12 (p_stiff p e') _ (affine3 (p_coords p e') t A) _ (affine3 (p_coords p e') s B)).
  2, 3: apply disp_affine3; [exact Dp|exact H4'|]; intros k d Hk Hd; (apply HU || apply HV'); [exact Hd|exists k; split; [lia|reflexivity]].
  rewrite (form_ext 12 (p_stiff q e) _ (affine3 (p_coords q e) t A) _ (affine3 (p_coords q e) s B)).
  2, 3: apply disp_affine3; [exact Dq|exact H4|]; intros k d Hk Hd; (eapply follow_affine; [exact (HP k Hk)|]); intros j Hj; (apply HU || apply HV'); assumption.
  rewrite HF, HF'. ring.
Qed.

(** ** nested meshes are finer *)
Theorem triangles_finer p q W parent : wf_problem p -> wf_problem q -> nested 2 triangle triangle_area p q W parent ->
  (forall i d j, p_dof q i d -> ent (p_cons q) i d = -1 -> (j < length (p_nodes p))%nat -> W i j <> 0 -> ent (p_cons p) j d = -1) ->
  (forall j d, p_dof p j d -> ent (p_cons p) j d = 0 -> applied (p_loads p) j d = rsum (length (p_nodes q)) (fun i => W i j * applied (p_loads q) i d)) ->
  finer p q W.
Proof.
  intros Wp Wq HN HC HL. pose proof HN as (Dp & Dq & _). split; [congruence|exact HC|exact HL|].
  apply (nested_energy _ _ _ _ _ _ _ HN).
  - intros e E nu He HT. pose proof (tri_area_pos p e E nu Wp He HT). lra.
  - intros e e' E nu U V He He' HT HT' HP. exact (tri_scale p q W e e' E nu U V Wp Wq Dp Dq He He' HT HT' HP).
Qed.
Theorem tetrahedra_finer p q W parent : wf_problem p -> wf_problem q -> nested 3 tetrahedron tetrahedron_volume p q W parent ->
  (forall i d j, p_dof q i d -> ent (p_cons q) i d = -1 -> (j < length (p_nodes p))%nat -> W i j <> 0 -> ent (p_cons p) j d = -1) ->
  (forall j d, p_dof p j d -> ent (p_cons p) j d = 0 -> applied (p_loads p) j d = rsum (length (p_nodes q)) (fun i => W i j * applied (p_loads q) i d)) ->
  finer p q W.
Proof.
  intros Wp Wq HN HC HL. pose proof HN as (Dp & Dq & _). split; [congruence|exact HC|exact HL|].
  apply (nested_energy _ _ _ _ _ _ _ HN).
  - intros e E nu He HT. pose proof (tetra_vol_pos p e E nu Wp He HT). lra.
  - intros e e' E nu U V He He' HT HT' HP. exact (tetra_scale p q W e e' E nu U V Wp Wq Dp Dq He He' HT HT' HP).
Qed.

(** ** runs *)
Theorem finer_runs p q W : wf_problem p -> wf_problem q -> p_psd q -> finer p q W ->
  forall sv sv' sparse sparse' U V, solvers_ok sv -> solvers_ok sv' -> p_script sv p sparse = Ok U -> p_script sv' q sparse' = Ok V ->
  p_load_work p (ent U) <= p_load_work q (ent V).
Proof.
  intros Wp Wq Pq HF sv sv' sparse sparse' U V S1 S2 H1 H2.
  destruct (p_equilibrium_run sv p sparse U Wp S1 H1) as [_ EU]. destruct (p_equilibrium_run sv' q sparse' V Wq S2 H2) as [_ EV].
  rewrite (finer_work p q W HF _ _ Wp Wq Pq EU EV). pose proof (p_energy_nonneg q (fun i d => ent V i d - follow p W (ent U) i d) Pq). lra.
Qed.
Lemma plane_psd md : wf_model md -> accepted md -> materials_ok md -> p_psd (plane_problem md).
Proof.
  intros Hwf Hacc Hm e He. change (In e (md_elements md)) in He.
  destruct (plane_elem md Hacc e He) as (t & im & pr & f & nd & nn & ng & co & K & M & Et & Ei & Hp & Hf & Ht & Hk & En & Hret & SK & SM).
  destruct (builtin_sym_psd t f co pr K M Hf Hk (Hm e t im pr He Et Ei Hp)) as (A & _ & B & _).
  rewrite (proj1 SK), En in *. change (symmetric (2 * e_n e) (p_stiff (plane_problem md) e) /\ psd (2 * e_n e) (p_stiff (plane_problem md) e)).
  unfold p_stiff. cbn [p_mats p_nodes p_uel plane_problem]. rewrite Hret. split; assumption.
Qed.
Theorem finer_auto md md' W : wf_model md -> wf_model md' -> accepted md -> accepted md' -> materials_ok md' -> finer (plane_problem md) (plane_problem md') W ->
  forall sv sv' plot plot' strains strains' out out', solver_ok sv -> solver_ok sv' -> auto sv md plot strains = Ok out -> auto sv' md' plot' strains' = Ok out' ->
  load_work md (md_loads md) (table out) <= load_work md' (md_loads md') (table out').
Proof.
  intros Hwf Hwf' Ha Ha' Hm HF sv sv' plot plot' strains strains' out out' Hsv Hsv' H1 H2.
  pose proof (run_equilibrium _ _ _ _ _ Hwf Hsv H1) as E1. pose proof (run_equilibrium _ _ _ _ _ Hwf' Hsv' H2) as E2.
  assert (P1 : p_equilibrium (plane_problem md) (table out)) by (intros i d [Hi Hd]; exact (E1 i d Hi Hd)).
  assert (P2 : p_equilibrium (plane_problem md') (table out')) by (intros i d [Hi Hd]; exact (E2 i d Hi Hd)).
  pose proof (plane_wf md Hwf Ha) as W1. pose proof (plane_wf md' Hwf' Ha') as W2. pose proof (plane_psd md' Hwf' Ha' Hm) as Pq.
  pose proof (finer_work _ _ W HF _ _ W1 W2 Pq P1 P2) as X.
  pose proof (p_energy_nonneg (plane_problem md') (fun i d => table out' i d - follow (plane_problem md) W (table out) i d) Pq) as Y.
  change (p_load_work (plane_problem md) (table out) <= p_load_work (plane_problem md') (table out')). lra.
Qed.
Theorem finer_point p q W U V i0 j0 d0 F : wf_problem p -> wf_problem q -> p_psd q -> finer p q W -> p_equilibrium p U -> p_equilibrium q V ->
  p_dof p j0 d0 -> p_dof q i0 d0 -> (forall j d, p_dof p j d -> applied (p_loads p) j d = if ((j =? j0) && (d =? d0))%nat then F else 0) ->
  (forall i d, p_dof q i d -> applied (p_loads q) i d = if ((i =? i0) && (d =? d0))%nat then F else 0) -> F * U j0 d0 <= F * V i0 d0.
Proof.
  intros Wp Wq Pq HF EU EV Dj Di Hp Hq. pose proof (finer_work p q W HF U V Wp Wq Pq EU EV) as X.
  assert (N : forall i d i1 d1, (i, d) <> (i1, d1) -> ((i =? i1) && (d =? d1))%nat = false).
  { intros i d i1 d1 H. destruct (Nat.eqb_spec i i1); [|reflexivity]. destruct (Nat.eqb_spec d d1); [|reflexivity]. congruence. }
  rewrite (p_load_work_point p U j0 d0 Dj) in X by (intros j d Hj HN; rewrite (Hp j d Hj), (N _ _ _ _ HN); reflexivity).
  rewrite (p_load_work_point q V i0 d0 Di) in X by (intros j d Hj HN; rewrite (Hq j d Hj), (N _ _ _ _ HN); reflexivity).
  rewrite (Hp j0 d0 Dj), (Hq i0 d0 Di), !Nat.eqb_refl in X. cbn [andb] in X.
  pose proof (p_energy_nonneg q (fun i d => V i d - follow p W U i d) Pq). lra.
Qed.
