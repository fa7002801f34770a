(** * Lemmas: runs whose answer is a uniform strain *)
From Coq Require Import Reals List Arith Lia Lra Bool ZArith.
From Verif Require Import Num LinAlg Gauss Fem Uel Assem Post Main Spec LinR Base SpecAssem SpecModel SpecElem SpecPost SpecStatic SpecPatch
  AssemProofs ModelProofs ModelProofs2 MeshProofs PostProofs PostFinal StaticProofs StaticProofs2 StaticProofs3 PatchProofs DriverProofs.
Import ListNotations.
Local Open Scope R_scope.

Theorem patch_forces md E nu c a0 a1 a2 b0 b1 b2 i d : wf_model md -> patch_mesh md E nu c -> (d < 2)%nat ->
  internal_force (md_mats md) (md_nodes md) (md_elements md) (affine_table (md_nodes md) a0 a1 a2 b0 b1 b2) i d =
  c * sides_at (md_nodes md) (md_elements md) (hooke2 E nu (affine_strain a1 a2 b1 b2)) i d.
Proof. exact (patch_force md E nu c a0 a1 a2 b0 b1 b2 i d). Qed.

Theorem patch_run sv md plot strains out E nu c a0 a1 a2 b0 b1 b2 :
  wf_model md -> solver_ok sv -> stable md -> patch_mesh md E nu c ->
  admissible md (affine_table (md_nodes md) a0 a1 a2 b0 b1 b2) ->
  (forall i d, free md i d -> applied (md_loads md) i d = c * sides_at (md_nodes md) (md_elements md) (hooke2 E nu (affine_strain a1 a2 b1 b2)) i d) ->
  auto sv md plot strains = Ok out ->
  forall i d, (i < length (md_nodes md))%nat -> (d < 2)%nat -> table out i d = affine_table (md_nodes md) a0 a1 a2 b0 b1 b2 i d.
Proof.
  intros Hwf Hsv Hst Hm Had Hl Hrun. apply (patch sv md plot strains out _ Hwf Hsv Hst); [|exact Hrun].
  intros i d Hi Hd. split; [apply Had; assumption|]. intros Hc. rewrite (patch_forces md E nu c) by assumption. symmetry. apply Hl. split; [exact Hi|split; [exact Hd|exact Hc]].
Qed.

Lemma run_strains sv md plot out : auto sv md plot true = Ok out ->
  exists Es Ss, out_strains out = Some (Es, Ss) /\ strain_nodes (md_nodes md) (md_elements md) (md_mats md) (out_disp out) = Ok (Es, Ss).
Proof.
  unfold auto, solids_auto, run. intros H. inv_ok H. destruct r as [[op bc] neq]. inv_ok H. destruct r as [gk gm].
  inv_ok H. inv_ok H. inv_ok H. inv_ok H. inv_ok H. inv_ok H. apply Ok_inj in H. subst out. cbn [out_disp out_strains].
  inv_ok Hr5. destruct r5 as [Es Ss]. apply Ok_inj in Hr5. exists Es, Ss. split; [symmetry; exact Hr5|assumption].
Qed.

Lemma finite_rows_inv (X : list (option (list R))) Y : finite_rows X = Ok Y -> X = map Some Y.
Proof.
  unfold finite_rows. intros H. apply mapM_ok in H. induction H as [|o r X Y Ho _ IH]; [reflexivity|]. cbn [map]. rewrite <- IH.
  destruct o; [apply Ok_inj in Ho; subst; reflexivity|discriminate].
Qed.
Lemma strain_nodes_rows nodes elements mats sol Es Ss : strain_nodes nodes elements mats sol = Ok (Es, Ss) ->
  strain_rows nodes elements mats sol = Ok (map Some Es, map Some Ss).
Proof.
  unfold strain_nodes. intros H. inv_ok H. destruct r as [X Y]. inv_ok H. inv_ok H. apply Ok_pair_inj in H as [<- <-].
  rewrite Hr. rewrite (finite_rows_inv _ _ Hr0), (finite_rows_inv _ _ Hr1). reflexivity.
Qed.

Lemma strain_rows_lengths t n N nodes elements mats sol E S : In (t, n) [(1%Z, 4%nat); (2%Z, 6%nat); (3%Z, 3%nat)] ->
  length nodes = N -> length sol = N -> mesh_of t n N elements ->
  strain_rows nodes elements mats sol = Ok (E, S) -> length E = N /\ length S = N.
Proof.
  intros Ht LN LU HM. unfold strain_rows. intros H. inv_ok H. apply (np_get_nat_ok _ 0 _ []) in Hr as [Hlen ->].
  inv_ok H. apply (np_get_nat_ok _ 1 _ 0%Z) in Hr as [_ ->].
  assert (He0 : nth 1 (nth 0 elements []) 0%Z = t).
  { destruct elements as [|e0 es]; [cbn in Hlen; lia|]. apply Forall_inv in HM. apply HM. }
  rewrite He0 in H. destruct (eletype_plane t n Ht) as [g Hg]. rewrite Hg in H. cbn [bind] in H.
  inv_ok H. destruct r as [[E1 S1] c1]. apply Ok_inj, pair_equal_spec in H as [<- <-].
  rewrite LN in Hr. destruct (strain_elems_ok t n N nodes mats sol elements LN LU HM E1 S1 c1 Hr) as [_ [[L1 [L2 L3]] _]].
  unfold average, vec, mat in *. rewrite !map_length, !combine_length. lia.
Qed.

Lemma repeat_of {A} (l : list A) n a d : length l = n -> (forall i, (i < n)%nat -> nth i l d = a) -> l = repeat a n.
Proof.
  revert l. induction n as [|n IH]; intros l HL H; [destruct l; [reflexivity|discriminate]|]. destruct l as [|x l]; [discriminate|].
  cbn [repeat]. f_equal; [exact (H 0%nat ltac:(lia))|]. apply IH; [cbn in HL; lia|]. intros i Hi. exact (H (S i) ltac:(lia)).
Qed.

Theorem patch_recovered sv md plot out E nu a0 a1 a2 b0 b1 b2 :
  wf_model md -> solver_ok sv -> stable md -> patch_mesh md E nu 1 ->
  admissible md (affine_table (md_nodes md) a0 a1 a2 b0 b1 b2) ->
  (forall i d, free md i d -> applied (md_loads md) i d = 1 * sides_at (md_nodes md) (md_elements md) (hooke2 E nu (affine_strain a1 a2 b1 b2)) i d) ->
  auto sv md plot true = Ok out ->
  exists Es Ss, out_strains out = Some (Es, Ss) /\
    Es = repeat [a1; b2; a2 + b1] (length (md_nodes md)) /\
    Ss = repeat (map (hooke2 E nu (affine_strain a1 a2 b1 b2)) [0; 1; 2]%nat) (length (md_nodes md)).
Proof.
  intros Hwf Hsv Hst Hm Had Hl Hrun. pose proof (patch_run sv md plot true out E nu 1 a0 a1 a2 b0 b1 b2 Hwf Hsv Hst Hm Had Hl Hrun) as HT.
  destruct (run_strains sv md plot out Hrun) as (Es & Ss & HO & HS). exists Es, Ss. split; [exact HO|].
  pose proof (strain_nodes_rows _ _ _ _ _ _ HS) as HR. destruct (disp_shape _ _ _ _ _ Hrun) as [LD _].
  destruct Hm as (t & n & Hin & Hmesh & Hel).
  assert (Htn : t = 1%Z /\ n = 4%nat).
  { destruct Hin as [H|[H|[]]]; [injection H; auto|]. apply pair_equal_spec in H as [_ H]. lra. }
  destruct Htn as [-> ->].
  assert (Haff : affine_sol (md_nodes md) (out_disp out) a0 a1 a2 b0 b1 b2).
  { intros i Hi. split; [exact (HT i 0%nat Hi ltac:(lia))|exact (HT i 1%nat Hi ltac:(lia))]. }
  destruct (strain_rows_lengths 1 4 _ _ _ _ _ _ _ ltac:(cbn; tauto) eq_refl LD Hmesh HR) as [LE LS]. rewrite map_length in LE, LS.
  assert (HN : forall i, (i < length (md_nodes md))%nat -> nth i Es [] = [a1; b2; a2 + b1] /\
    nth i Ss [] = map (hooke2 E nu (affine_strain a1 a2 b1 b2)) [0; 1; 2]%nat).
  { intros i Hi.
    destruct (strain_rows_ok 1 4 _ _ _ _ _ _ _ ltac:(cbn; tauto) eq_refl LD Hmesh HR) as [_ HI]. destruct (HI i Hi) as [HI0 _].
    assert (Ho : occurs (md_elements md) i <> 0).
    { intros Ho. destruct (HI0 Ho) as [HN _]. rewrite (map_nth_def _ _ _ []) in HN by lia. discriminate. }
    destruct (occurs_some _ _ Ho) as (e & He & Hto).
    destruct (uniform_strain 1 4 _ _ _ _ _ _ _ a0 a1 a2 b0 b1 b2 ltac:(cbn; tauto) Hmesh eq_refl LD Haff HR i e Hi He Hto) as [H1 H2].
    rewrite (map_nth_def _ _ _ []) in H1 by lia. injection H1 as H1. split; [exact H1|].
    assert (HY : forall e', In e' (md_elements md) -> touches e' i -> e_young (md_mats md) e' = E /\ e_nu (md_mats md) e' = nu).
    { intros e' He' _. unfold mesh_of in Hmesh. rewrite Forall_forall in Hmesh, Hel. destruct (Hmesh e' He') as (_ & _ & Hpos & _).
      destruct (Hel e' He') as [(im & rest & Him & Hp) _].
      assert (im = nth 2 e' 0%Z) by (symmetry; apply nth_error_nth; exact Him). subst im.
      rewrite <- (Z2Nat.id (nth 2 e' 0%Z)) in Hp by exact Hpos. apply (np_get_nat_ok _ _ _ []) in Hp as [_ Hp].
      unfold e_young, e_nu, ent. rewrite <- Hp. split; reflexivity. }
    specialize (H2 E nu HY). rewrite (map_nth_def _ _ _ []) in H2 by lia. injection H2 as H2. exact H2. }
  split; apply (repeat_of _ _ _ []); try assumption; intros i Hi; apply HN; exact Hi.
Qed.
