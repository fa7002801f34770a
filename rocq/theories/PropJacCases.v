(** * Concrete cases for C25-C27 *)
From Coq Require Import String Reals List Arith Lia Lra ZArith.
From Verif Require Import Num LinAlg Fem Spec LinR SpecElem SpecShape ShapeProofs ElemCore Elem2 Elem3 ElemAxi MatProofs ElemFinal ElemFinal3.
Import ListNotations.
Local Open Scope R_scope.

Lemma case25 : let D := snd (shape_quad4 (1/2) (-1/2)) in shape 2 4 D /\
  Jdet 2 (Jac 4 D [[0; 0]; [3; 1]; [4; 5]; [1; 2]]) = 9/4 /\
  Jdet 2 (Jac 4 D [[0; 0]; [1; 3]; [5; 4]; [2; 1]]) = -9/4.
Proof.
  cbv zeta. split; [split; [reflexivity|repeat constructor]|].
  unfold Jdet, J2det, Jac, ent. shp. cbn [rsum nth]. split; field.
Qed.

Lemma case26 : let D := snd (shape_quad4 0 0) in shape 2 4 D /\
  exists Ji, jacoper D [[0; 0]; [1; 0]; [1; 1]; [0; 1]] = Ok (1/4, Ji).
Proof. split; [split; [reflexivity|repeat constructor]|exact (proj1 unit_dependence)]. Qed.

Lemma case27 :
  (exists H B det, elast_diff_2d (1/2) (-1/2) [[0; 0]; [3; 1]; [4; 5]; [1; 2]] shape_quad4 = Ok (H, B, det)) /\
  (exists H B det, elast_diff_axi (1/2) (-1/2) [[0; 0]; [3; 1]; [4; 5]; [1; 2]] shape_quad4 = Ok (H, B, det)) /\
  (exists H B det, elast_diff_3d (1/2) (-1/2) 0 (pts3 ref_hex8) shape_hex8 = Ok (H, B, det)).
Proof.
  assert (HD : J2det (Jac 4 (snd (shape_quad4 (1/2) (-1/2))) [[0; 0]; [3; 1]; [4; 5]; [1; 2]]) = 9/4) by exact (proj1 (proj2 case25)).
  split; [|split].
  - destruct (diff2_total 4 shape_quad4 [[0; 0]; [3; 1]; [4; 5]; [1; 2]] (1/2) (-1/2)) as [H [B HH]].
    + exact (good2_all pl_quad4 ltac:(cbn; tauto)).
    + reflexivity.
    + reflexivity.
    + apply (Rlt_le_trans _ (9/4)); [lra|apply Req_le; symmetry; exact HD].
    + eauto.
  - destruct (diffA_total 4 shape_quad4 [[0; 0]; [3; 1]; [4; 5]; [1; 2]] (1/2) (-1/2)) as [H [B HH]].
    + exact (good2_all pl_quad4 ltac:(cbn; tauto)).
    + reflexivity.
    + reflexivity.
    + apply (Rlt_le_trans _ (9/4)); [lra|apply Req_le; symmetry; exact HD].
    + unfold radius, ent. shp. cbn [rsum nth]. lra.
    + eauto.
  - destruct (diff3_total 8 shape_hex8 (pts3 ref_hex8) (1/2) (-1/2) 0) as [H [B HH]].
    + exact (good3_all so_hex8 ltac:(cbn; tauto)).
    + reflexivity.
    + reflexivity.
    + pose proof (det_ref_hex8 (1/2) (-1/2) 0) as HH. unfold det_at3 in HH. apply (Rlt_le_trans _ 1); [lra|apply Req_le; symmetry; exact HH].
    + eauto.
Qed.
