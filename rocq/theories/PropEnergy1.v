(** * Property C114 for bars and beams: the matrices are integrals along the length *)
From Coq Require Import Reals List Arith Lia Lra.
From Verif Require Import Num LinAlg Fem Uel Spec SpecElem SpecQuad SpecEnergy1 BarProofs Energy1Proofs.
Import ListNotations.
Local Open Scope R_scope.

(** bars: stretch of displacements linear along the bar *)
Theorem C114_bar : forall xa ya xb yb, xa <> xb \/ ya <> yb ->
  forall X Y P Q X' Y' P' Q' E A rho,
  affine X -> affine Y -> affine P -> affine Q -> slope X X' -> slope Y Y' -> slope P P' -> slope Q Q' ->
  let L := bar_len xa ya xb yb in let nx := (xb - xa) / L in let ny := (yb - ya) / L in
  exists K M, truss2D [[xa; ya]; [xb; yb]] [E; A; rho] = Ok (K, M2 M) /\
    along L (fun s => E * A * (nx * X' s + ny * Y' s) * (nx * P' s + ny * Q' s)) (form 4 K (bar_ends L X Y) (bar_ends L P Q)) /\
    along L (fun s => rho * A * (X s * P s + Y s * Q s)) (form 4 M (bar_ends L X Y) (bar_ends L P Q)).
Proof. exact bar_integrals. Qed.
Print Assumptions C114_bar.

(** horizontal beams, to the right or to the left: [a] along the beam, [w] across *)
Theorem C114_beam : forall xa xb y a w w' w'' b v v' v'' a' b', xa <> xb -> affine a -> affine b -> cubic w -> cubic v ->
  slope a a' -> slope b b' -> slope w w' -> slope v v' -> slope w' w'' -> slope v' v'' ->
  let L := bar_len xa y xb y in let c := (xb - xa) / L in let d := (y - y) / L in
  (forall E I A rho, I <> 0 -> exists K M, beam2D [[xa; y]; [xb; y]] [E; I; A; rho] = Ok (K, M2 M) /\
     along L (fun s => E * A * a' s * b' s + E * I * w'' s * v'' s) (form 6 K (beam_ends c d L a w w') (beam_ends c d L b v v')) /\
     along L (fun s => rho * A * (a s * b s + w s * v s)) (form 6 M (beam_ends c d L a w w') (beam_ends c d L b v v'))) /\
  (forall E I A rho, exists K M, beam2DU [[xa; y]; [xb; y]] [E; I; rho; A] = Ok (K, M2 M) /\
     along L (fun s => E * I * w'' s * v'' s) (form 6 K (beam_ends c d L a w w') (beam_ends c d L b v v')) /\
     along L (fun s => rho * A * (w s * v s)) (form 6 M (beam_ends c d L a w w') (beam_ends c d L b v v'))).
Proof. exact beam_integrals_flat. Qed.
Print Assumptions C114_beam.

(** every beam, with the direction (nx, - ny) of the mirrored beam (C33) *)
Theorem C114_beam_mirrored : forall xa ya xb yb, xa <> xb \/ ya <> yb ->
  forall a w w' w'' b v v' v'' a' b', affine a -> affine b -> cubic w -> cubic v ->
  slope a a' -> slope b b' -> slope w w' -> slope v v' -> slope w' w'' -> slope v' v'' ->
  forall E I A rho, I <> 0 ->
  let L := bar_len xa ya xb yb in let nx := (xb - xa) / L in let ny := (yb - ya) / L in
  exists K M, beam2D [[xa; ya]; [xb; yb]] [E; I; A; rho] = Ok (K, M2 M) /\
    along L (fun s => E * A * a' s * b' s + E * I * w'' s * v'' s) (form 6 K (beam_ends nx (- ny) L a w w') (beam_ends nx (- ny) L b v v')) /\
    along L (fun s => rho * A * (a s * b s + w s * v s)) (form 6 M (beam_ends nx (- ny) L a w w') (beam_ends nx (- ny) L b v v')).
Proof. exact beam_integrals. Qed.
Print Assumptions C114_beam_mirrored.

Theorem C114_beamU_mirrored : forall xa ya xb yb, xa <> xb \/ ya <> yb ->
  forall a w w' w'' b v v' v'', cubic w -> cubic v -> slope w w' -> slope v v' -> slope w' w'' -> slope v' v'' ->
  forall E I A rho,
  let L := bar_len xa ya xb yb in let nx := (xb - xa) / L in let ny := (yb - ya) / L in
  exists K M, beam2DU [[xa; ya]; [xb; yb]] [E; I; rho; A] = Ok (K, M2 M) /\
    along L (fun s => E * I * w'' s * v'' s) (form 6 K (beam_ends nx (- ny) L a w w') (beam_ends nx (- ny) L b v v')) /\
    along L (fun s => rho * A * (w s * v s)) (form 6 M (beam_ends nx (- ny) L a w w') (beam_ends nx (- ny) L b v v')).
Proof. exact beamU_integrals. Qed.
Print Assumptions C114_beamU_mirrored.

(** every nodal vector is the trace of such fields *)
Theorem C114_bar_every : forall xa ya xb yb, xa <> xb \/ ya <> yb ->
  forall u, exists X Y, affine X /\ affine Y /\ forall i, (i < 4)%nat -> bar_ends (bar_len xa ya xb yb) X Y i = u i.
Proof. exact bar_reach. Qed.
Print Assumptions C114_bar_every.
Theorem C114_beam_every : forall xa ya xb yb, xa <> xb \/ ya <> yb ->
  forall cx cy u, cx * cx + cy * cy = 1 ->
  exists a w w', affine a /\ cubic w /\ slope w w' /\ forall i, (i < 6)%nat -> beam_ends cx cy (bar_len xa ya xb yb) a w w' i = u i.
Proof. exact beam_reach. Qed.
Print Assumptions C114_beam_every.

(** a beam of length 2 bent to w = s^3: twice the energy of bending is the integral of (6 s)^2, 96 *)
Example C114_case_beam : cubic (fun s => s ^ 3) /\ slope (fun s => s ^ 3) (fun s => 3 * s ^ 2) /\ slope (fun s => 3 * s ^ 2) (fun s => 6 * s) /\
  bar_len 1 5 3 5 = 2 /\ along 2 (fun s => 6 * s * (6 * s)) 96.
Proof.
  split; [exists 0, 0, 0, 1; intros; ring|]. split.
  { intros s. pose proof (derivable_pt_lim_pow s 3) as H. cbn in H. cbn. replace (3 * (s * (s * 1))) with ((1 + 1 + 1) * (s * (s * 1))) by ring. exact H. }
  split.
  { intros s. pose proof (derivable_pt_lim_scal _ 3 _ _ (derivable_pt_lim_pow s 2)) as H. replace (6 * s) with (3 * (INR 2 * s ^ Init.Nat.pred 2)) by (cbn; ring). exact H. }
  split; [unfold bar_len; replace ((3 - 1) * (3 - 1) + (5 - 5) * (5 - 5)) with (2 * 2) by ring; apply sqrt_square; lra|].
  apply (along_sextic 2 _ 0 0 36 0 0 0 0); [intros; ring|field].
Qed.
