(** * Proofs: beams *)
From Coq Require Import String Reals List Arith Lia Lra Bool ZArith QArith Qreals.
From Verif Require Import Num LinAlg Gauss Fem Uel Spec LinR Base SpecElem BarProofs ElemCore.
Import ListNotations.
Local Open Scope R_scope.

(** the code's local displacements of end k *)
Definition loc_ax (nx ny : R) (u : nat -> R) (k : nat) : R := nx * u (3 * k)%nat - ny * u (3 * k + 1)%nat.
Definition loc_tr (nx ny : R) (u : nat -> R) (k : nat) : R := ny * u (3 * k)%nat + nx * u (3 * k + 1)%nat.
Definition bend1 (nx ny L : R) (u : nat -> R) : R :=
  2 * (loc_tr nx ny u 0 - loc_tr nx ny u 1) + L * (u 2%nat + u 5%nat).
Definition bend2 (L : R) (u : nat -> R) : R := L * (u 2%nat - u 5%nat).
Definition stretch (nx ny : R) (u : nat -> R) : R := loc_ax nx ny u 1 - loc_ax nx ny u 0.

Definition bend_energy (EI nx ny L : R) (u v : nat -> R) : R :=
  EI / (L * (L * L)) * (3 * (bend1 nx ny L u * bend1 nx ny L v) + bend2 L u * bend2 L v).

Lemma beam2DU_spec coord nx ny L young I rest : axis coord = Ok (nx, ny, L) ->
  forall dens area, (rest = [] /\ dens = 1 /\ area = 1 \/ rest = [dens; area]) ->
  exists K M, beam2DU coord (young :: I :: rest) = Ok (K, M2 M) /\
    (forall u v, form 6 K u v = bend_energy (I * young) nx ny L u v) /\
    (forall a b a' b', form 6 M (field3 (fun _ => a) (fun _ => b) (fun _ => 0)) (field3 (fun _ => a') (fun _ => b') (fun _ => 0)) =
       area * L * dens * ((ny * a + nx * b) * (ny * a' + nx * b'))) /\ symmetric 6 M.
Proof.
  intros Ha dens area Hrest. pose proof (axis_inv _ _ _ _ Ha) as HL.
  assert (E : exists K M, beam2DU coord (young :: I :: rest) = Ok (K, M2 M) /\
     K = congr 4 6 [[ny; nx; 0; 0; 0; 0]; [0; 0; 1; 0; 0; 0]; [0; 0; 0; ny; nx; 0]; [0; 0; 0; 0; 0; 1]] (beam_bend (I * young / (L * (L * L))) L) /\
     M = congr 4 6 [[ny; nx; 0; 0; 0; 0]; [0; 0; 1; 0; 0; 0]; [0; 0; 0; ny; nx; 0]; [0; 0; 0; 0; 0; 1]]
        (mscale (area * L * dens / 420) [[156; 22 * L; 54; - (13) * L]; [22 * L; 4 * (L * L); 13 * L; - (3) * (L * L)];
           [54; 13 * L; 156; - (22) * L]; [- (13) * L; - (3) * (L * L); - (22) * L; 4 * (L * L)]])).
  { unfold beam2DU. rewrite Ha. cbn [bind].
    destruct Hrest as [[-> [-> ->]]| ->]; do 2 eexists; (split; [reflexivity|split; reflexivity]). }
  destruct E as [K [M [E [-> ->]]]]. do 2 eexists. split; [exact E|]. split; [|split].
  - intros u v. rewrite form_congr, beam_bend_form. unfold act, bend_energy, bend1, bend2, loc_tr, ent. cbn [rsum nth Nat.mul Nat.add]. field. exact HL.
  - intros. rewrite form_congr, form_mscale. unfold form, act, ent, field3. cbn. field.
  - apply sym_congr. apply sym_of_form. intros u v. rewrite !form_mscale. unfold form, act, ent. cbn [rsum nth]. ring.
Qed.

Lemma beam2D_spec coord nx ny L young I area rest : axis coord = Ok (nx, ny, L) -> I <> 0 ->
  forall dens, (rest = [] /\ dens = 1 \/ rest = [dens]) ->
  exists K M, beam2D coord (young :: I :: area :: rest) = Ok (K, M2 M) /\
    (forall u v, form 6 K u v = young * area / L * (stretch nx ny u * stretch nx ny v) + bend_energy (I * young) nx ny L u v) /\
    (forall a b a' b', form 6 M (field3 (fun _ => a) (fun _ => b) (fun _ => 0)) (field3 (fun _ => a') (fun _ => b') (fun _ => 0)) =
       area * L * dens * ((nx * a - ny * b) * (nx * a' - ny * b') + (ny * a + nx * b) * (ny * a' + nx * b'))) /\ symmetric 6 M.
Proof.
  intros Ha HI dens Hrest. pose proof (axis_inv _ _ _ _ Ha) as HL.
  set (Q := [[nx; - ny; 0; 0; 0; 0]; [ny; nx; 0; 0; 0; 0]; [0; 0; 1; 0; 0; 0];
             [0; 0; 0; nx; - ny; 0]; [0; 0; 0; ny; nx; 0]; [0; 0; 0; 0; 0; 1]]).
  assert (E : exists K M, beam2D coord (young :: I :: area :: rest) = Ok (K, M2 M) /\
     K = congr 6 6 Q (mscale (I * young / (L * (L * L)))
          [[area / I * (L * L); 0; 0; - (area / I) * (L * L); 0; 0];
           [0; 12; 6 * L; 0; - (12); 6 * L];
           [0; 6 * L; 4 * (L * L); 0; - (6) * L; 2 * (L * L)];
           [- (area / I) * (L * L); 0; 0; area / I * (L * L); 0; 0];
           [0; - (12); - (6) * L; 0; 12; - (6) * L];
           [0; 6 * L; 2 * (L * L); 0; - (6) * L; 4 * (L * L)]]) /\
     M = congr 6 6 Q (mscale (area * L * dens / 420)
          [[140; 0; 0; 70; 0; 0];
           [0; 156; 22 * L; 0; 54; - (13) * L];
           [0; 22 * L; 4 * (L * L); 0; 13 * L; - (3) * (L * L)];
           [70; 0; 0; 140; 0; 0];
           [0; 54; 13 * L; 0; 156; - (22) * L];
           [0; - (13) * L; - (3) * (L * L); 0; - (22) * L; 4 * (L * L)]])).
  { unfold beam2D. rewrite Ha. cbn [bind].
    replace (nis0 I) with false by (symmetry; apply nis0_false; exact HI). cbn [negb guard bind].
    destruct Hrest as [[-> ->]| ->]; cbn [map bcast_mul bind]; do 2 eexists; (split; [reflexivity|split; reflexivity]). }
  destruct E as [K [M [E [-> ->]]]]. do 2 eexists. split; [exact E|]. unfold Q. split; [|split].
  - intros u v. rewrite form_congr, form_mscale. unfold form, act.
    unfold bend_energy, bend1, bend2, stretch, loc_tr, loc_ax, ent. cbn [rsum nth Nat.mul Nat.add]. field. split; assumption.
  - intros. rewrite form_congr, form_mscale. unfold form, act, ent, field3. cbn. field.
  - apply sym_congr. apply sym_of_form. intros u v. rewrite !form_mscale. unfold form, act, ent. cbn [rsum nth]. ring.
Qed.

(** ** consequences for the beam from (xa, ya) to (xb, yb) *)
Lemma unit_axis xa ya xb yb : (xa <> xb \/ ya <> yb) -> let L := bar_len xa ya xb yb in
  0 < L /\ (xb - xa) / L * ((xb - xa) / L) + (yb - ya) / L * ((yb - ya) / L) = 1.
Proof.
  intros Hne. cbv zeta. pose proof (bar_len_pos _ _ _ _ Hne) as HL. split; [exact HL|].
  pose proof (bar_len_sqr xa ya xb yb) as Hs. set (L := bar_len _ _ _ _) in *.
  replace ((xb - xa) / L * ((xb - xa) / L) + (yb - ya) / L * ((yb - ya) / L)) with
    (((xb - xa) * (xb - xa) + (yb - ya) * (yb - ya)) / (L * L)) by (field; lra).
  rewrite <- Hs. field. lra.
Qed.

Lemma bend_energy_psd EI nx ny L u : 0 <= EI -> 0 < L -> 0 <= bend_energy EI nx ny L u u.
Proof.
  intros HE HL. unfold bend_energy. apply Rmult_le_pos.
  - unfold Rdiv. apply Rmult_le_pos; [exact HE|]. apply Rlt_le, Rinv_0_lt_compat. repeat apply Rmult_lt_0_compat; exact HL.
  - pose proof (Rle_0_sqr (bend1 nx ny L u)) as H1. pose proof (Rle_0_sqr (bend2 L u)) as H2. unfold Rsqr in *. lra.
Qed.

Lemma beam_nonzero w l n : w <> 0 -> 0 < l -> n <> 0 -> 4 * w * l * (n * n) <> 0.
Proof.
  intros Hw Hl Hn. apply Rmult_integral_contrapositive_currified; [|apply Rmult_integral_contrapositive_currified; assumption].
  apply Rmult_integral_contrapositive_currified; [|lra]. apply Rmult_integral_contrapositive_currified; [lra|exact Hw].
Qed.

Section Beam.
  Variables (xa ya xb yb : R).
  Hypothesis Hne : xa <> xb \/ ya <> yb.
  Let L := bar_len xa ya xb yb.
  Let nx := (xb - xa) / L.
  Let ny := (yb - ya) / L.
  Let coord := [[xa; ya]; [xb; yb]].

  Lemma beam_rigid_bend a b w : bend1 nx ny L (beam_rigid coord a b w) = 4 * w * L * (ny * ny).
  Proof.
    destruct (unit_axis xa ya xb yb Hne) as [HL H1]. fold L in HL, H1. fold nx ny in H1.
    assert (Ex : xb - xa = L * nx) by (unfold nx; field; lra). assert (Ey : yb - ya = L * ny) by (unfold ny; field; lra).
    unfold bend1, loc_tr, beam_rigid, field3, node_x, node_y, ent, coord. cbn.
    transitivity (2 * w * L - 2 * w * (nx * (xb - xa) - ny * (yb - ya))); [ring|]. rewrite Ex, Ey.
    transitivity (2 * w * L * (nx * nx + ny * ny) - 2 * w * (nx * (L * nx) - ny * (L * ny))); [rewrite H1; ring|ring].
  Qed.
  Lemma beam_rigid_bend2 a b w : bend2 L (beam_rigid coord a b w) = 0.
  Proof. unfold bend2, beam_rigid, field3. cbn. ring. Qed.
  Lemma beam_rigid_stretch a b w : stretch nx ny (beam_rigid coord a b w) = - (2 * w * L * (nx * ny)).
  Proof.
    destruct (unit_axis xa ya xb yb Hne) as [HL H1]. fold L in HL, H1.
    assert (Ex : xb - xa = L * nx) by (unfold nx; field; lra). assert (Ey : yb - ya = L * ny) by (unfold ny; field; lra).
    unfold stretch, loc_ax, beam_rigid, field3, node_x, node_y, ent, coord. cbn.
    transitivity (- w * (nx * (yb - ya)) - w * (ny * (xb - xa))); [ring|]. rewrite Ex, Ey. ring.
  Qed.

  Lemma beams_rigid young I area rest : I <> 0 ->
    (rest = [] \/ exists d, rest = [d]) -> 0 < young * I ->
    (exists K m, beam2D coord (young :: I :: area :: rest) = Ok (K, m) /\
      (0 <= young * area ->
      forall a b w, (forall i, (i < 6)%nat -> act 6 K (beam_rigid coord a b w) i = 0) <-> (w = 0 \/ ya = yb))).
  Proof.
    intros HI Hrest HEI.
    assert (Hrest' : exists dens, rest = [] /\ dens = 1 \/ rest = [dens]).
    { destruct Hrest as [-> |[d ->]]; [exists 1; left; auto|exists d; right; reflexivity]. }
    destruct Hrest' as [dens Hd].
    destruct (beam2D_spec coord nx ny L young I area rest (axis_ok xa ya xb yb Hne) HI dens Hd) as [K [M [E [HK _]]]].
    exists K, (M2 M). split; [exact E|]. intros HEA a b w.
    destruct (unit_axis xa ya xb yb Hne) as [HL H1]. fold L in HL, H1. split.
    - intros H0. set (u := beam_rigid coord a b w) in *.
      assert (Hz : form 6 K u u = 0) by (unfold form; apply rsum_zero; intros i Hi; rewrite H0 by exact Hi; ring).
      rewrite HK in Hz. unfold u in Hz. rewrite beam_rigid_stretch in Hz. unfold bend_energy in Hz.
      rewrite beam_rigid_bend, beam_rigid_bend2 in Hz.
      assert (HA : 0 <= young * area / L * (- (2 * w * L * (nx * ny)) * - (2 * w * L * (nx * ny)))).
      { apply Rmult_le_pos; [unfold Rdiv; apply Rmult_le_pos; [exact HEA|apply Rlt_le, Rinv_0_lt_compat, HL]|apply Rle_0_sqr]. }
      set (g := I * young / (L * (L * L))) in Hz.
      assert (Hg : 0 < g).
      { unfold g, Rdiv. apply Rmult_lt_0_compat; [lra|]. apply Rinv_0_lt_compat. repeat apply Rmult_lt_0_compat; exact HL. }
      set (y := 4 * w * L * (ny * ny)) in *.
      assert (Hy : y * y = 0).
      { pose proof (Rle_0_sqr y) as Hy. unfold Rsqr in Hy.
        assert (Hgy : g * (3 * (y * y)) <= 0) by (replace (g * (3 * (y * y))) with (g * (3 * (y * y) + 0 * 0)) by ring; lra).
        destruct (Rle_lt_or_eq_dec 0 (y * y) Hy) as [Hlt|Heq]; [|symmetry; exact Heq].
        assert (0 < g * (3 * (y * y))) by (apply Rmult_lt_0_compat; [exact Hg|lra]). lra. }
      assert (Hy0 : y = 0) by (destruct (Rmult_integral _ _ Hy); assumption).
      unfold y in Hy0. destruct (Req_dec w 0) as [Hw|Hw]; [left; exact Hw|right].
      destruct (Req_dec (yb - ya) 0) as [H|H]; [lra|]. exfalso.
      assert (H2 : ny <> 0) by (unfold ny, Rdiv; apply Rmult_integral_contrapositive_currified; [exact H|apply Rinv_neq_0_compat; lra]).
      exact (beam_nonzero w L ny Hw HL H2 Hy0).
    - intros Hor i Hi. rewrite act_of_form by exact Hi. rewrite HK.
      unfold bend_energy. rewrite beam_rigid_bend, beam_rigid_bend2, beam_rigid_stretch.
      destruct Hor as [-> |Hy].
      + ring.
      + assert (Hny : ny = 0) by (unfold ny; rewrite Hy; unfold Rdiv; ring). rewrite Hny. ring.
  Qed.

  Lemma beamsU_rigid young I rest : (rest = [] \/ exists d A, rest = [d; A]) -> 0 < young * I ->
    (exists K m, beam2DU coord (young :: I :: rest) = Ok (K, m) /\
      forall a b w, (forall i, (i < 6)%nat -> act 6 K (beam_rigid coord a b w) i = 0) <-> (w = 0 \/ ya = yb)).
  Proof.
    intros Hrest HEI.
    assert (Hrest' : exists dens A, rest = [] /\ dens = 1 /\ A = 1 \/ rest = [dens; A]).
    { destruct Hrest as [-> |[d [A ->]]]; [exists 1, 1; left; auto|exists d, A; right; reflexivity]. }
    destruct Hrest' as [dens [A Hd]].
    destruct (beam2DU_spec coord nx ny L young I rest (axis_ok xa ya xb yb Hne) dens A Hd) as [K [M [E [HK _]]]].
    exists K, (M2 M). split; [exact E|]. intros a b w.
    destruct (unit_axis xa ya xb yb Hne) as [HL H1]. fold L in HL, H1. split.
    - intros H0. set (u := beam_rigid coord a b w) in *.
      assert (Hz : form 6 K u u = 0) by (unfold form; apply rsum_zero; intros i Hi; rewrite H0 by exact Hi; ring).
      rewrite HK in Hz. unfold u in Hz. unfold bend_energy in Hz.
      rewrite beam_rigid_bend, beam_rigid_bend2 in Hz.
      set (g := I * young / (L * (L * L))) in Hz.
      assert (Hg : 0 < g).
      { unfold g, Rdiv. apply Rmult_lt_0_compat; [lra|]. apply Rinv_0_lt_compat. repeat apply Rmult_lt_0_compat; exact HL. }
      set (y := 4 * w * L * (ny * ny)) in *.
      assert (Hy : y * y = 0).
      { pose proof (Rle_0_sqr y) as Hy. unfold Rsqr in Hy.
        assert (Hgy : g * (3 * (y * y)) <= 0) by (replace (g * (3 * (y * y))) with (g * (3 * (y * y) + 0 * 0)) by ring; lra).
        destruct (Rle_lt_or_eq_dec 0 (y * y) Hy) as [Hlt|Heq]; [|symmetry; exact Heq].
        assert (0 < g * (3 * (y * y))) by (apply Rmult_lt_0_compat; [exact Hg|lra]). lra. }
      assert (Hy0 : y = 0) by (destruct (Rmult_integral _ _ Hy); assumption).
      unfold y in Hy0. destruct (Req_dec w 0) as [Hw|Hw]; [left; exact Hw|right].
      destruct (Req_dec (yb - ya) 0) as [H|H]; [lra|]. exfalso.
      assert (H2 : ny <> 0) by (unfold ny, Rdiv; apply Rmult_integral_contrapositive_currified; [exact H|apply Rinv_neq_0_compat; lra]).
      exact (beam_nonzero w L ny Hw HL H2 Hy0).
    - intros Hor i Hi. rewrite act_of_form by exact Hi. rewrite HK.
      unfold bend_energy. rewrite beam_rigid_bend, beam_rigid_bend2.
      destruct Hor as [-> |Hy].
      + ring.
      + assert (Hny : ny = 0) by (unfold ny; rewrite Hy; unfold Rdiv; ring). rewrite Hny. ring.
  Qed.

  Lemma beams_sym_psd young I area rest : I <> 0 -> (rest = [] \/ exists d, rest = [d]) ->
    exists K M, beam2D coord (young :: I :: area :: rest) = Ok (K, M2 M) /\ symmetric 6 K /\
      (0 <= young * I -> 0 <= young * area -> psd 6 K) /\ symmetric 6 M /\
      (forall a b, form 6 M (field3 (fun _ => a) (fun _ => b) (fun _ => 0)) (field3 (fun _ => a) (fun _ => b) (fun _ => 0)) =
         area * L * match rest with [d] => d | _ => 1 end * (a * a + b * b)).
  Proof.
    intros HI Hrest.
    assert (Hrest' : rest = [] /\ match rest with [d] => d | _ => 1 end = 1 \/ rest = [match rest with [d] => d | _ => 1 end]).
    { destruct Hrest as [-> |[d ->]]; [left; auto|right; reflexivity]. }
    destruct (beam2D_spec coord nx ny L young I area rest (axis_ok xa ya xb yb Hne) HI _ Hrest') as [K [M [E [HK [HM HS]]]]].
    destruct (unit_axis xa ya xb yb Hne) as [HL H1]. fold L in HL, H1. fold nx ny in H1.
    exists K, M. split; [exact E|]. split; [|split; [|split; [exact HS|]]].
    - apply sym_of_form. intros. rewrite !HK. unfold bend_energy. ring.
    - intros HEI HEA u. rewrite HK. apply Rplus_le_le_0_compat.
      + apply Rmult_le_pos; [unfold Rdiv; apply Rmult_le_pos; [exact HEA|apply Rlt_le, Rinv_0_lt_compat, HL]|apply Rle_0_sqr].
      + apply bend_energy_psd; [lra|exact HL].
    - intros a b. rewrite HM. f_equal. transitivity ((nx * nx + ny * ny) * (a * a + b * b)); [ring|rewrite H1; ring].
  Qed.

  Lemma beamsU_sym_psd young I rest : (rest = [] \/ exists d A, rest = [d; A]) ->
    exists K M, beam2DU coord (young :: I :: rest) = Ok (K, M2 M) /\ symmetric 6 K /\
      (0 <= young * I -> psd 6 K) /\ symmetric 6 M.
  Proof.
    intros Hrest.
    assert (Hrest' : exists dens A, rest = [] /\ dens = 1 /\ A = 1 \/ rest = [dens; A]).
    { destruct Hrest as [-> |[d [A ->]]]; [exists 1, 1; left; auto|exists d, A; right; reflexivity]. }
    destruct Hrest' as [dens [A Hd]].
    destruct (beam2DU_spec coord nx ny L young I rest (axis_ok xa ya xb yb Hne) dens A Hd) as [K [M [E [HK [HM HS]]]]].
    destruct (unit_axis xa ya xb yb Hne) as [HL H1]. fold L in HL, H1.
    exists K, M. split; [exact E|]. split; [|split; [|exact HS]].
    - apply sym_of_form. intros. rewrite !HK. unfold bend_energy. ring.
    - intros HEI u. rewrite HK. apply bend_energy_psd; [lra|exact HL].
  Qed.
End Beam.
