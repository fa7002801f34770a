(** * Concrete model: a nine-node square and a six-node triangle with one curved side *)
From Coq Require Import Reals List Arith Lia Lra Bool ZArith Relations.
From Verif Require Import Num LinAlg Gauss Fem Uel Assem Post Main Spec LinR Base SpecAssem SpecModel SpecElem SpecShape SpecModes SpecStatic
  ShapeProofs ElemShape Elem2 Elem2Props Elem3 Elem3Props ElemAxi Areas AssemProofs4 ModelProofs ElemFinal2 ElemFinal3 MeshProofs BarProofs ExModel ExSolver StaticProofs StaticProofs2 StaticProofs3 ExPatch Elem3Modes Hex8Modes.
Import ListNotations.
Local Open Scope R_scope.

Definition hi_nodes : list (list R) :=
  [[0; -1; -1]; [1; 1; -1]; [2; 1; 1]; [3; -1; 1]; [4; 0; -1]; [5; 1; 0]; [6; 0; 1]; [7; -1; 0]; [8; 0; 0];
   [9; 3; -1]; [10; 2; -1]; [11; 9/4; 1/4]].
Definition hi_elements : list (list Z) :=
  [[0; 4; 0; 0; 1; 2; 3; 4; 5; 6; 7; 8]; [1; 2; 0; 1; 9; 2; 10; 11; 5]]%Z.
Definition hi_cons : list (list R) :=
  [[-1; -1]; [0; 0]; [0; 0]; [-1; 0]; [0; 0]; [0; 0]; [0; 0]; [-1; 0]; [0; 0]; [0; 0]; [0; 0]; [0; 0]].
Definition him : model := mkModel hi_nodes hi_cons hi_elements [[1; 1/4]] [[9; 1; 2]; [6; 0; 3]].
Definition hi_sq : list (list R) := [[-1; -1]; [1; -1]; [1; 1]; [-1; 1]; [0; -1]; [1; 0]; [0; 1]; [-1; 0]; [0; 0]].
Definition hi_tr : list (list R) := [[1; -1]; [3; -1]; [1; 1]; [2; -1]; [9/4; 1/4]; [1; 0]].

Lemma hi_det6 r s : det_at 6 shape_tri6 hi_tr r s = 4 + 2 * r + 2 * s.
Proof. unfold det_at, J2det, Jac, ent, hi_tr. shp. cbn [rsum nth]. field. Qed.
Lemma hi_det9 r s : det_at 9 shape_quad9 hi_sq r s = 1.
Proof. unfold det_at, J2det, Jac, ent, hi_sq. shp. cbn [rsum nth]. field. Qed.
Lemma hi_ret e : In e hi_elements -> exists K M, retriever e [[1; 1/4]] hi_nodes None = Ok (K, M2 M).
Proof.
  intros [<-|[<-|[]]].
  - destruct (plane_runs pl_quad9 hi_sq [1; 1/4] 1 (1/4) 1 ltac:(cbn; tauto) eq_refl ltac:(lra)) as (K & M & H); [|exists K, M; exact H].
    split; [reflexivity|split; [reflexivity|]]. intros r s w _. cbn [pl_n pl_sh pl_quad9]. rewrite hi_det9. lra.
  - destruct (plane_runs pl_tri6 hi_tr [1; 1/4] 1 (1/4) 1 ltac:(cbn; tauto) eq_refl ltac:(lra)) as (K & M & H); [|exists K, M; exact H].
    split; [reflexivity|split; [reflexivity|]]. intros r s w Hin. cbn [pl_n pl_sh pl_tri6]. rewrite hi_det6.
    cbn in Hin. repeat (destruct Hin as [Hin|Hin]; [injection Hin as <- <- _; q2r; lra|]). destruct Hin.
Qed.

Lemma hi_wf : wf_model him.
Proof.
  split; [|split; [reflexivity|split]].
  - flags.
  - cbn [md_elements him hi_elements]. all_forall; cbn; lia.
  - cbn [md_loads him]. all_forall; (split; [cbn; lia|]); [exists 9%nat|exists 6%nat]; (split; [cbn; lia|]); cbn; lra.
Qed.
Lemma hi_accepted : accepted him.
Proof.
  apply Forall_forall. intros e He. split.
  - destruct He as [<-|[<-|[]]]; [exists 4%Z|exists 2%Z]; (split; [reflexivity|]; split; [reflexivity|]; split; [cbn; lia|]; cbn [skipn]; all_forall; cbn; lia).
  - destruct (hi_ret e He) as (K & M & H). exists K, M. exact H.
Qed.
Lemma hi_straight : straight9 hi_sq.
Proof. unfold straight9, straight8, halfway, node_x, node_y, ent, hi_sq. cbn [nth]. lra. Qed.
Lemma hi_sound : Forall (sound_plane him) (md_elements him).
Proof.
  apply Forall_forall. intros e He. destruct (hi_ret e He) as (K & M & H).
  split; [|split; [|exists K, (M2 M); exact H]].
  - destruct He as [<-|[<-|[]]]; [exists 4%Z|exists 2%Z]; (split; [reflexivity|]).
    + right; right; right. split; [reflexivity|]. split; [reflexivity|]. exact hi_straight.
    + right; right; left. split; reflexivity.
  - exists 0%Z, 1, (1/4), []. destruct He as [<-|[<-|[]]]; (split; [reflexivity|split; [reflexivity|lra]]).
Qed.
Lemma hi_linked e e' : In e hi_elements -> In e' hi_elements -> linked him e e'.
Proof.
  intros [<-|[<-|[]]] [<-|[<-|[]]].
  - exists 0%nat, 1%nat, 0%nat, 1%nat. do 4 (split; [cbn; lia|]). do 2 (split; [reflexivity|]). left. cbv -[IZR]. lra.
  - exists 1%nat, 2%nat, 0%nat, 2%nat. do 4 (split; [cbn; lia|]). do 2 (split; [reflexivity|]). right. cbv -[IZR]. lra.
  - exists 0%nat, 2%nat, 1%nat, 2%nat. do 4 (split; [cbn; lia|]). do 2 (split; [reflexivity|]). right. cbv -[IZR]. lra.
  - exists 0%nat, 1%nat, 0%nat, 1%nat. do 4 (split; [cbn; lia|]). do 2 (split; [reflexivity|]). left. cbv -[IZR]. lra.
Qed.
Lemma hi_connected : connected him.
Proof.
  split.
  - intros e e' He He'. apply rt_step. split; [exact He'|]. exact (hi_linked e e' He He').
  - intros i Hi. cbn in Hi.
    destruct (Nat.lt_ge_cases i 9) as [L|L].
    + exists [0; 4; 0; 0; 1; 2; 3; 4; 5; 6; 7; 8]%Z, i. split; [left; reflexivity|]. split; [cbn; lia|]. clear Hi. lt9 i L; reflexivity.
    + exists [1; 2; 0; 1; 9; 2; 10; 11; 5]%Z, (match i with 9 => 1 | 10 => 3 | _ => 4 end)%nat. split; [right; left; reflexivity|].
      assert (Ei : (i = 9 \/ i = 10 \/ i = 11)%nat) by lia. destruct Ei as [E|[E|E]]; subst i; split; cbn; auto with arith.
Qed.
Lemma hi_supported : supported him.
Proof.
  intros a b w H.
  pose proof (H 0%nat 0%nat ltac:(cbn; lia) ltac:(lia) eq_refl) as H1.
  pose proof (H 0%nat 1%nat ltac:(cbn; lia) ltac:(lia) eq_refl) as H2.
  pose proof (H 3%nat 0%nat ltac:(cbn; lia) ltac:(lia) eq_refl) as H3.
  unfold node_rigid, ent in *. cbn in *. lra.
Qed.
Lemma hi_stable : stable him.
Proof. exact (supported_stable _ hi_wf hi_sound hi_connected hi_supported). Qed.
Lemma hi_runs : exists out, auto elim_solver him false false = Ok out.
Proof. apply (model_runs _ _ hi_wf hi_accepted hi_stable elim_ok elim_total). exists 9%nat, 0%nat. split; [cbn; lia|]. split; [lia|reflexivity]. Qed.

(** ** single elements: a skew straight-sided quadrilateral, the same at a distance from the axis, a skew brick *)
Definition skew9 : list (list R) := [[2; 0]; [4; 0]; [5; 2]; [2; 2]; [3; 0]; [9/2; 1]; [7/2; 2]; [2; 1]; [13/4; 1]].
Definition skew8 : list (list R) := firstn 8 skew9.
Definition brick : list (list R) := [[0; 0; 0]; [2; 0; 0]; [3; 2; 0]; [1; 2; 0]; [0; 1; 3]; [2; 1; 3]; [3; 3; 3]; [1; 3; 3]].
Definition skew4 : list (list R) := [[0; 0; 0]; [2; 0; 1]; [1; 2; 0]; [0; 1; 3]].

Lemma skew9_straight : straight9 skew9.
Proof. unfold straight9, straight8, halfway, node_x, node_y, ent, skew9. cbn [nth]. lra. Qed.
Lemma skew8_straight : straight8 skew8.
Proof. exact (proj1 skew9_straight). Qed.
Lemma skew9_det r s : det_at 9 shape_quad9 skew9 r s = 5/4 + 1/4 * s.
Proof. unfold det_at, J2det, Jac, ent, skew9. shp. cbn [rsum nth]. field. Qed.
Lemma skew8_det r s : det_at 8 shape_quad8 skew8 r s = 5/4 + 1/4 * s.
Proof. unfold det_at, J2det, Jac, ent, skew8, skew9. shp. cbn [rsum nth firstn]. field. Qed.
Lemma points33 r s w : In (r, s, w) (triples (gauss_nd 3 2)) -> -1 < r < 1 /\ -1 < s < 1.
Proof.
  destruct gauss33 as (g & w0 & w1 & Hg & _ & _ & E). rewrite E. clear E. assert (H : 0 < g < 1) by (rewrite Hg; lra). clear Hg.
  intros Hin. repeat (destruct Hin as [Hin|Hin]; [injection Hin as <- <- _; lra|]). destruct Hin.
Qed.
Lemma skew9_accepted : accepted2 9 shape_quad9 (triples (gauss_nd 3 2)) skew9.
Proof. split; [reflexivity|split; [reflexivity|]]. intros r s w Hin. rewrite skew9_det. pose proof (points33 r s w Hin). lra. Qed.
Lemma skew9_runs : exists K M, elast_quad9 skew9 [1; 1/4; 2] = Ok (K, M2 M).
Proof. exact (plane_runs pl_quad9 skew9 [1; 1/4; 2] 1 (1/4) 2 ltac:(cbn; tauto) eq_refl ltac:(lra) skew9_accepted). Qed.
Lemma skew8_runs : exists K M, elast_quad8 skew8 [1; 1/4; 2] = Ok (K, M2 M).
Proof.
  apply (plane_runs pl_quad8 skew8 [1; 1/4; 2] 1 (1/4) 2 ltac:(cbn; tauto) eq_refl ltac:(lra)).
  split; [reflexivity|split; [reflexivity|]]. intros r s w Hin. cbn [pl_n pl_sh pl_quad8]. rewrite skew8_det. pose proof (points33 r s w Hin). lra.
Qed.
Lemma skew9_axi_runs : exists K M, elast_axi_quad9 skew9 [1; 1/4; 2] = Ok (K, M2 M).
Proof.
  apply axi_runs; [lra|lra|]. split; [exact skew9_accepted|]. intros r s w Hin. pose proof (points33 r s w Hin) as [Hr Hs].
  assert (E : radius 9 (fst (shape_quad9 r s)) skew9 = 13/4 + 5/4 * r + 1/4 * s + 1/4 * (r * s)).
  { unfold radius, ent, skew9. shp. cbn [rsum nth]. field. }
  rewrite E. nra.
Qed.
Lemma brick_box : parallelepiped brick.
Proof.
  repeat (split; [intros c Hc; do 3 (destruct c as [|c]; [unfold ent, brick; cbn [nth]; lra|]); lia|]).
  intros c Hc; do 3 (destruct c as [|c]; [unfold ent, brick; cbn [nth]; lra|]); lia.
Qed.
Lemma brick_runs : exists K M, elast_hex8 brick [1; 1/4; 2] = Ok (K, M2 M).
Proof.
  apply (solid_runs so_hex8 brick 1 (1/4) 2 ltac:(cbn; tauto)); [lra|lra|]. split; [reflexivity|split; [reflexivity|]]. intros r s t w Hin. clear Hin.
  assert (E : det_at3 8 shape_hex8 brick r s t = 3/2). { unfold det_at3, J3det, Jac, ent, brick. shp. cbn [rsum nth]. field. }
  cbn [so_n so_sh so_hex8]. rewrite E. lra.
Qed.
Lemma skew4_runs : exists K M, elast_tet4 skew4 [1; 1/4; 2] = Ok (K, M2 M).
Proof.
  apply (solid_runs so_tet4 skew4 1 (1/4) 2 ltac:(cbn; tauto)); [lra|lra|]. split; [reflexivity|split; [reflexivity|]]. intros r s t w Hin. clear Hin.
  assert (E : det_at3 4 shape_tet4 skew4 r s t = 13). { unfold det_at3, J3det, Jac, ent, skew4. shp. cbn [rsum nth]. field. }
  cbn [so_n so_sh so_tet4]. rewrite E. lra.
Qed.
Lemma hi_tr_runs : exists K M, elast_tri6 hi_tr [1; 1/4] = Ok (K, M2 M).
Proof.
  apply (plane_runs pl_tri6 hi_tr [1; 1/4] 1 (1/4) 1 ltac:(cbn; tauto) eq_refl ltac:(lra)).
  split; [reflexivity|split; [reflexivity|]]. intros r s w Hin. cbn [pl_n pl_sh pl_tri6]. rewrite hi_det6.
  cbn in Hin. repeat (destruct Hin as [Hin|Hin]; [injection Hin as <- <- _; q2r; lra|]). destruct Hin.
Qed.

(** ** a truncated pyramid, and a box with one corner pulled out so that three of its faces are warped *)
Definition pyramid : list (list R) := [[-4; -4; -1]; [4; -4; -1]; [4; 4; -1]; [-4; 4; -1]; [-2; -2; 1]; [2; -2; 1]; [2; 2; 1]; [-2; 2; 1]].
Definition warped : list (list R) := [[-1; -1; -1]; [1; -1; -1]; [1; 1; -1]; [-1; 1; -1]; [-1; -1; 1]; [1; -1; 1]; [9; 9; 9]; [-1; 1; 1]].
Lemma pyramid_det r s t : J3det (brick_edge pyramid r s t) = (3 - t) * (3 - t).
Proof. unfold J3det, brick_edge, corner8, ent, pyramid. cbn [rsum nth]. field. Qed.
Lemma warped_det r s t : J3det (brick_edge warped r s t) = 1 + (1 + r) * (1 + s) + (1 + s) * (1 + t) + (1 + r) * (1 + t).
Proof. unfold J3det, brick_edge, corner8, ent, warped. cbn [rsum nth]. field. Qed.
Lemma pyramid_regular : regular_brick pyramid.
Proof. intros r s t _ _ Ht. rewrite pyramid_det. nra. Qed.
Lemma warped_regular : regular_brick warped.
Proof. intros r s t Hr Hs Ht. rewrite warped_det. nra. Qed.
Lemma pyramid_no_box : ~ parallelepiped pyramid.
Proof. intros (_ & A & _). specialize (A 0%nat ltac:(lia)). unfold ent, pyramid in A. cbn [nth] in A. lra. Qed.
Lemma warped_no_box : ~ parallelepiped warped.
Proof. intros (_ & _ & A & _). specialize (A 0%nat ltac:(lia)). unfold ent, warped in A. cbn [nth] in A. lra. Qed.
Lemma hex8_in r s t w : In (r, s, t, w) (so_gq so_hex8) -> -1 < r < 1 /\ -1 < s < 1 /\ -1 < t < 1.
Proof. intros Hin. cbn in Hin. repeat (destruct Hin as [Hin|Hin]; [injection Hin as <- <- <- _; q2r; lra|]). destruct Hin. Qed.
Lemma brick_det coord r s t : det_at3 8 shape_hex8 coord r s t = J3det (brick_edge coord r s t).
Proof.
  unfold det_at3, J3det. rewrite !brick_dvh. assert (E : forall i a, (i < 3)%nat -> Jac 8 (snd (shape_hex8 r s t)) coord i a = dvh r s t i (fun k => ent coord k a)) by (intros i a Hi; exact (dvh_D r s t i (fun k => ent coord k a) Hi)).
  rewrite !E by lia. reflexivity.
Qed.
Lemma pyramid_runs : exists K M, elast_hex8 pyramid [1; 1/4; 2] = Ok (K, M2 M).
Proof.
  apply (solid_runs so_hex8 pyramid 1 (1/4) 2 ltac:(cbn; tauto)); [lra|lra|]. split; [reflexivity|split; [reflexivity|]]. intros r s t w Hin.
  apply hex8_in in Hin. cbn [so_n so_sh so_hex8]. rewrite brick_det, pyramid_det. nra.
Qed.
Lemma warped_runs : exists K M, elast_hex8 warped [1; 1/4; 2] = Ok (K, M2 M).
Proof.
  apply (solid_runs so_hex8 warped 1 (1/4) 2 ltac:(cbn; tauto)); [lra|lra|]. split; [reflexivity|split; [reflexivity|]]. intros r s t w Hin.
  apply hex8_in in Hin. cbn [so_n so_sh so_hex8]. rewrite brick_det, warped_det. destruct Hin as (Hr & Hs & Ht).
  assert (0 < (1 + r) * (1 + s)) by nra. assert (0 < (1 + s) * (1 + t)) by nra. assert (0 < (1 + r) * (1 + t)) by nra. lra.
Qed.
