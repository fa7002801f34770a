(** * Properties C33, C39-C42: beams, bars, springs, axisymmetric element *)
From Coq Require Import String Reals List Arith Lia Lra ZArith.
From Verif Require Import Num LinAlg Fem Uel Assem Spec SpecAssem SpecElem BarProofs BeamProofs ElemAxi ElemFinal2 ElemFinal3 SpringRows.
Import ListNotations.
Local Open Scope R_scope.

(** ** C33: false of the code.  Full statement: for every beam and every rigid motion
    (a - w y, b + w x, w) of its two nodes the nodal forces vanish.  Witness: a vertical beam and
    a rotation. *)
Theorem C33_beam_refuted :
  exists K m, beam2D [[0; 0]; [0; 1]] [1; 1; 1] = Ok (K, m) /\
  ~ forall i, (i < 6)%nat -> act 6 K (beam_rigid [[0; 0]; [0; 1]] 0 0 1) i = 0.
Proof. exact vertical_beam. Qed.
Print Assumptions C33_beam_refuted.

Theorem C33_beamU_refuted :
  exists K m, beam2DU [[0; 0]; [0; 1]] [1; 1] = Ok (K, m) /\
  ~ forall i, (i < 6)%nat -> act 6 K (beam_rigid [[0; 0]; [0; 1]] 0 0 1) i = 0.
Proof. exact vertical_beamU. Qed.
Print Assumptions C33_beamU_refuted.

(** what holds: translations of every beam, rotations of horizontal beams, and no other
    rotation *)
Theorem C33_beam_partial : forall xa ya xb yb, xa <> xb \/ ya <> yb ->
  forall young I area rest, I <> 0 -> rest = [] \/ (exists d, rest = [d]) -> 0 < young * I ->
  exists K m, beam2D [[xa; ya]; [xb; yb]] (young :: I :: area :: rest) = Ok (K, m) /\
    (0 <= young * area -> forall a b w,
       (forall i, (i < 6)%nat -> act 6 K (beam_rigid [[xa; ya]; [xb; yb]] a b w) i = 0) <-> w = 0 \/ ya = yb).
Proof. exact beams_rigid. Qed.
Print Assumptions C33_beam_partial.

Theorem C33_beamU_partial : forall xa ya xb yb, xa <> xb \/ ya <> yb ->
  forall young I rest, rest = [] \/ (exists d A, rest = [d; A]) -> 0 < young * I ->
  exists K m, beam2DU [[xa; ya]; [xb; yb]] (young :: I :: rest) = Ok (K, m) /\
    forall a b w, (forall i, (i < 6)%nat -> act 6 K (beam_rigid [[xa; ya]; [xb; yb]] a b w) i = 0) <-> w = 0 \/ ya = yb.
Proof. exact beamsU_rigid. Qed.
Print Assumptions C33_beamU_partial.

Example C33_case : (0 <> 3 \/ 4 <> 4) /\ (2:R) <> 0 /\ 0 < 200 * 2.
Proof. lra. Qed.

(** ** C39 *)
Theorem C39_closed_form : forall xa ya xb yb, xa <> xb \/ ya <> yb ->
  (forall young area rest, exists K M,
     truss2D [[xa; ya]; [xb; yb]] (young :: area :: rest) = Ok (K, M2 M) /\
     forall u i, (i < 4)%nat -> act 4 K u i = bar_force (young * area / bar_len xa ya xb yb) xa ya xb yb u i) /\
  (forall c, exists K m, spring [[xa; ya]; [xb; yb]] [c] = Ok (K, m) /\
     forall u i, (i < 4)%nat -> act 4 K u i = bar_force c xa ya xb yb u i).
Proof. exact bars_closed_form. Qed.
Print Assumptions C39_closed_form.

Theorem C39_zero_length : forall x y young area rest c,
  truss2D [[x; y]; [x; y]] (young :: area :: rest) = Err NonFinite /\ spring [[x; y]; [x; y]] [c] = Err NonFinite.
Proof. exact bars_zero_length. Qed.
Print Assumptions C39_zero_length.

(** pulling the end (3, 4) of a bar of length 5 along x by 5: elongation 3 *)
Example C39_case : bar_elong 0 0 3 4 (fun i => nth i [0; 0; 5; 0] 0) = 3.
Proof.
  unfold bar_elong, bar_len. replace ((3 - 0) * (3 - 0) + (4 - 0) * (4 - 0)) with (5 * 5) by ring.
  rewrite sqrt_square by lra. cbn. lra.
Qed.

(** ** C40: false of the code.  Full statement: assembler succeeds on every mesh with a spring (type
    5) whose local matrices are computed and which has a free dof.  It never does. *)
Theorem C40_spring_refuted :
  let elements := [[0; 5; 0; 0; 1]]%Z in let nodes := [[0; 0; 0]; [1; 1; 0]] in
  let cons := [[-1; -1]; [0; 0]] in
  (exists K m, retriever [0; 5; 0; 0; 1]%Z [[2]] nodes None = Ok (K, m)) /\
  exists op bc, DME cons elements 2 18 None = Ok (op, bc, 2%Z) /\
    forall sparse KM, assembler elements [[2]] nodes 2 op sparse None <> Ok KM.
Proof. exact one_spring. Qed.
Print Assumptions C40_spring_refuted.

Theorem C40_spring_never_refuted : forall elements mats nodes neq op sparse i elem arow,
  nth_error elements i = Some elem -> nth_error elem 1 = Some 5%Z -> nth_error op i = Some arow ->
  (exists j b, (j < 4)%nat /\ nth_error arow j = Some b /\ b <> (-1)%Z) ->
  forall KM, @assembler R Num_R elements mats nodes neq op sparse None <> Ok KM.
Proof. exact spring_never. Qed.
Print Assumptions C40_spring_never_refuted.

(** what a spring does with a material row of other than one number: two are multiplied column by column, so that the
    matrix is not symmetric unless they agree; any other count is refused *)
Theorem C40_spring_row : forall xa ya xb yb, xa <> xb \/ ya <> yb ->
  (forall a b, exists K m, spring [[xa; ya]; [xb; yb]] [a; b] = Ok (K, m) /\
     (forall u i, (i < 4)%nat -> act 4 K u i =
        (if (i <? 2)%nat then 1 else -1) * ((if (i mod 2 =? 0)%nat then xb - xa else yb - ya) / bar_len xa ya xb yb) *
        (a * ((xb - xa) * u 0%nat + (yb - ya) * u 1%nat) - b * ((xb - xa) * u 2%nat + (yb - ya) * u 3%nat)) / bar_len xa ya xb yb) /\
     (symmetric 4 K <-> a = b)) /\
  (forall row, (length row = 0 \/ 3 <= length row)%nat -> exists msg, spring [[xa; ya]; [xb; yb]] row = Err (ValueError msg)).
Proof. exact spring_row. Qed.
Print Assumptions C40_spring_row.

Example C40_case_row : (0 <> 3 \/ 0 <> 4) /\ (3 <= length [2; 5; 7])%nat.
Proof. split; [lra|cbn; lia]. Qed.

(** ** C41: false of the code.  Full statement: for all xa ya xb yb young I dens with distinct ends,
    beam2DU [[xa; ya]; [xb; yb]] [young; I; dens] = Ok _. *)
Theorem C41_beamU_three_refuted : forall xa ya xb yb young I dens, xa <> xb \/ ya <> yb ->
  exists msg, beam2DU [[xa; ya]; [xb; yb]] [young; I; dens] = Err (ValueError msg).
Proof. exact beamU_three. Qed.
Print Assumptions C41_beamU_three_refuted.

(** what holds: two parameters (density and area 1) and four parameters (missing: three) *)
Theorem C41_beamU_partial : forall xa ya xb yb young I, xa <> xb \/ ya <> yb ->
  (exists K m, beam2DU [[xa; ya]; [xb; yb]] [young; I] = Ok (K, m) /\
               beam2DU [[xa; ya]; [xb; yb]] [young; I; 1; 1] = Ok (K, m)) /\
  forall dens area, exists K m, beam2DU [[xa; ya]; [xb; yb]] [young; I; dens; area] = Ok (K, m).
Proof. exact beamU_two_four. Qed.
Print Assumptions C41_beamU_partial.

Example C41_case : 0 <> 3 \/ 0 <> 4.
Proof. lra. Qed.

(** ** C42: false of the code.  Full statement: the total mass of the ring is density times the
    integral of 2 pi r over the section, so moving the section away from the axis increases it.
    Witness: a section moved from radius 0..2 to 100..102 keeps its mass. *)
Theorem C42_ring_refuted : exists coord K m K' m',
  elast_axi_quad9 coord [1; 1/4; 1] = Ok (K, M2 m) /\
  elast_axi_quad9 (move2 1 0 100 0 coord) [1; 1/4; 1] = Ok (K', M2 m') /\
  form 18 m (trans2 0 1) (trans2 0 1) > 0 /\
  form 18 m' (trans2 0 1) (trans2 0 1) = form 18 m (trans2 0 1) (trans2 0 1).
Proof. exact axi_mass_no_ring. Qed.
Print Assumptions C42_ring_refuted.

(** what holds: the mass is density times the area of the section (missing: the factor 2 pi r) *)
Theorem C42_section_partial : forall coord E nu rho K m, elast_axi_quad9 coord [E; nu; rho] = Ok (K, m) ->
  1 - nu * nu <> 0 ->
  exists M W, m = M2 M /\ symmetric 18 M /\ (0 <= rho -> psd 18 M) /\ 0 < W /\
    (forall xc yc r, 0 <= r -> within2 9 coord xc yc r -> Rabs (W - area8 coord) <= 1 / 1000000000000000 * (r * r)) /\
    forall a b a' b', form 18 M (trans2 a b) (trans2 a' b') = rho * W * (a * a' + b * b').
Proof. exact axi_mass_is_plane. Qed.
Print Assumptions C42_section_partial.

Example C42_case : exists K M, elast_axi_quad9 (ring_coord 1) [1; 1/4; 1] = Ok (K, M2 M).
Proof. exact (axi_runs (ring_coord 1) 1 (1/4) 1 ltac:(lra) ltac:(lra) (ring_accepted 1 ltac:(lra))). Qed.
