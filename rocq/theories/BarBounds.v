(** * Proofs: the frequencies of the mesh exceed those of the bar and converge to them *)
From Coq Require Import Reals Lra Lia.
From Verif Require Import Num SpecVib.
Local Open Scope R_scope.

Lemma fact_S n x : INR (fact n) = x -> INR (fact (S n)) = INR (S n) * x.
Proof. intros H. rewrite fact_simpl, mult_INR, H. reflexivity. Qed.
Lemma facts : INR (fact 0) = 1 /\ INR (fact 1) = 1 /\ INR (fact 2) = 2 /\ INR (fact 3) = 6 /\ INR (fact 4) = 24 /\
  INR (fact 5) = 120 /\ INR (fact 6) = 720 /\ INR (fact 7) = 5040 /\ INR (fact 8) = 40320.
Proof.
  assert (F0 : INR (fact 0) = 1) by reflexivity. pose proof (fact_S _ _ F0) as F1. pose proof (fact_S _ _ F1) as F2. pose proof (fact_S _ _ F2) as F3.
  pose proof (fact_S _ _ F3) as F4. pose proof (fact_S _ _ F4) as F5. pose proof (fact_S _ _ F5) as F6. pose proof (fact_S _ _ F6) as F7. pose proof (fact_S _ _ F7) as F8.
  rewrite F0, F1, F2, F3, F4, F5, F6, F7, F8. cbn [INR]. repeat split; lra.
Qed.

Lemma PI_33 : PI < 33 / 10.
Proof.
  destruct (Rlt_le_dec PI (33 / 10)) as [H|H]; [exact H|exfalso].
  assert (C : 0 <= cos (33 / 20)) by (apply cos_ge_0; lra).
  destruct (COS (33 / 20)) as [_ U]; [lra|lra|].
  unfold cos_ub, cos_approx in U. cbn [sum_f_R0 Nat.mul Nat.add] in U. unfold cos_term in U. cbn [Nat.mul Nat.add] in U.
  destruct facts as (F0 & F1 & F2 & F3 & F4 & F5 & F6 & F7 & F8). rewrite F0, F2, F4, F6, F8 in U. cbn [pow] in U. lra.
Qed.

Lemma sin_low a : 0 <= a -> a <= PI -> a - a ^ 3 / 6 + a ^ 5 / 120 - a ^ 7 / 5040 <= sin a.
Proof.
  intros H0 H1. destruct (SIN a H0 H1) as [L _]. unfold sin_lb, sin_approx in L. cbn [sum_f_R0 Nat.mul Nat.add] in L. unfold sin_term in L. cbn [Nat.mul Nat.add] in L.
  destruct facts as (F0 & F1 & F2 & F3 & F4 & F5 & F6 & F7 & F8). rewrite F1, F3, F5, F7 in L.
  eapply Rle_trans; [|exact L]. right. cbn [pow]. field.
Qed.

Lemma sin_lower phi : 0 < phi -> phi <= PI / 2 -> 3 * (phi * phi) <= sin phi * sin phi * (3 + 2 * (phi * phi)).
Proof.
  intros H0 H1. pose proof PI_33 as HP. pose proof (sin_low phi ltac:(lra) ltac:(lra)) as HS.
  set (t := phi * phi). assert (Ht : 0 < t) by (unfold t; apply Rmult_lt_0_compat; exact H0).
  assert (HT : t <= 273 / 100). { unfold t. assert (phi <= 33 / 20) by lra. apply Rle_trans with (33 / 20 * (33 / 20)); [apply Rmult_le_compat; lra|lra]. }
  assert (HL : phi * (1 - t / 6 + t * t / 130) <= sin phi).
  { eapply Rle_trans; [|exact HS]. replace (phi - phi ^ 3 / 6 + phi ^ 5 / 120 - phi ^ 7 / 5040) with (phi * (1 - t / 6 + t * t / 120 - t * t * t / 5040)) by (unfold t; field).
    apply Rmult_le_compat_l; [lra|]. assert (0 <= t * t * (273 / 100 - t)) by (apply Rmult_le_pos; [apply Rle_0_sqr|lra]). pose proof (Rle_0_sqr t) as Q; unfold Rsqr in Q; lra. }
  assert (HP0 : 0 < 1 - t / 6 + t * t / 130) by (pose proof (Rle_0_sqr t) as Q; unfold Rsqr in Q; lra).
  assert (HQ : phi * (1 - t / 6 + t * t / 130) * (phi * (1 - t / 6 + t * t / 130)) <= sin phi * sin phi).
  { apply Rmult_le_compat; try assumption; apply Rlt_le, Rmult_lt_0_compat; assumption. }
  apply Rle_trans with (phi * (1 - t / 6 + t * t / 130) * (phi * (1 - t / 6 + t * t / 130)) * (3 + 2 * t)); [|apply Rmult_le_compat_r; lra].
  replace (phi * (1 - t / 6 + t * t / 130) * (phi * (1 - t / 6 + t * t / 130)) * (3 + 2 * t)) with (t * ((1 - t / 6 + t * t / 130) * (1 - t / 6 + t * t / 130) * (3 + 2 * t))) by (unfold t; ring).
  replace (3 * t) with (t * 3) by ring. apply Rmult_le_compat_l; [lra|].
  assert (Q2 : 0 <= t * t * (t * t)) by (apply Rmult_le_pos; apply Rle_0_sqr).
  assert (Q3 : 0 <= t * (t * t * (t * t))) by (apply Rmult_le_pos; [lra|exact Q2]).
  assert (G : 0 <= 1 - (2 / 3 - 3 * (1 / 36 + 1 / 65)) * t + (2 * (1 / 36 + 1 / 65) - 1 / 130) * (t * t) - t * t * t / 195).
  { assert (A1 : 0 <= (273 / 100 - t) * (273 / 100 - t)) by apply Rle_0_sqr.
    assert (A2 : 0 <= t * t * (273 / 100 - t)) by (apply Rmult_le_pos; [apply Rle_0_sqr|lra]).
    assert (A3 : 0 <= t * (273 / 100 - t)) by (apply Rmult_le_pos; lra). lra. }
  assert (G' : 0 <= t * (1 - (2 / 3 - 3 * (1 / 36 + 1 / 65)) * t + (2 * (1 / 36 + 1 / 65) - 1 / 130) * (t * t) - t * t * t / 195)) by (apply Rmult_le_pos; lra).
  lra.
Qed.

Lemma ratio_bounds th : 0 < th -> th < PI ->
  th * th <= 6 * ((1 - cos th) / (2 + cos th)) /\ (th * th < 6 -> 6 * ((1 - cos th) / (2 + cos th)) <= th * th / (1 - th * th / 6)).
Proof.
  intros H0 H1. set (phi := th / 2). assert (Eth : th = 2 * phi) by (unfold phi; lra).
  pose proof (sin_lower phi ltac:(unfold phi; lra) ltac:(unfold phi; lra)) as HL.
  assert (Hs0 : 0 < sin phi) by (apply sin_gt_0; unfold phi; lra).
  assert (Hs1 : sin phi < phi) by (apply sin_lt_x; unfold phi; lra).
  assert (Ec : cos th = 1 - 2 * (sin phi * sin phi)) by (rewrite Eth, cos_2a_sin; ring).
  assert (Hc : 0 < 2 + cos th) by (pose proof (COS_bound th); lra).
  rewrite Eth. replace (2 * phi * (2 * phi)) with (4 * (phi * phi)) by ring. rewrite <- Eth, Ec in *.
  set (s2 := sin phi * sin phi) in *. assert (S2 : 0 < s2) by (apply Rmult_lt_0_compat; assumption).
  assert (S3 : s2 < phi * phi) by (apply Rmult_le_0_lt_compat; lra). set (t := phi * phi) in *.
  replace (6 * ((1 - (1 - 2 * s2)) / (2 + (1 - 2 * s2)))) with (12 * s2 / (3 - 2 * s2)) by (field; lra). split.
  - apply (Rmult_le_reg_r (3 - 2 * s2)); [lra|]. replace (12 * s2 / (3 - 2 * s2) * (3 - 2 * s2)) with (12 * s2) by (field; lra). lra.
  - intros H6. assert (D : 0 < 3 - 2 * t) by lra.
    replace (4 * t / (1 - 4 * t / 6)) with (12 * t / (3 - 2 * t)) by (field; lra).
    apply (Rmult_le_reg_r ((3 - 2 * s2) * (3 - 2 * t))); [apply Rmult_lt_0_compat; lra|].
    replace (12 * s2 / (3 - 2 * s2) * ((3 - 2 * s2) * (3 - 2 * t))) with (12 * s2 * (3 - 2 * t)) by (field; lra).
    replace (12 * t / (3 - 2 * t) * ((3 - 2 * s2) * (3 - 2 * t))) with (12 * t * (3 - 2 * s2)) by (field; lra). lra.
Qed.

Lemma frequency_bounds n l E rho m : (0 < m < n)%nat -> 0 < l -> 0 < E -> 0 < rho ->
  let th := INR m * PI / INR n in
  bar_frequency2 l E rho m <= mesh_frequency2 n l E rho m /\
  (th * th < 6 -> mesh_frequency2 n l E rho m <= bar_frequency2 l E rho m / (1 - th * th / 6)).
Proof.
  intros Hm Hl HE Hr. cbv zeta. assert (HN : 0 < INR n) by (apply lt_0_INR; lia). assert (HM : 0 < INR m) by (apply lt_0_INR; lia).
  assert (HMN : INR m < INR n) by (apply lt_INR; lia). pose proof PI_RGT_0 as HP.
  set (th := INR m * PI / INR n).
  assert (T0 : 0 < th) by (apply Rdiv_lt_0_compat; [apply Rmult_lt_0_compat; assumption|assumption]).
  assert (T1 : th < PI).
  { unfold th. apply (Rmult_lt_reg_r (INR n)); [assumption|]. unfold Rdiv. rewrite Rmult_assoc, Rinv_l by lra. rewrite Rmult_1_r, (Rmult_comm PI). apply Rmult_lt_compat_r; assumption. }
  destruct (ratio_bounds th T0 T1) as [B1 B2]. unfold bar_frequency2, mesh_frequency2. fold th. set (h := l / INR n).
  assert (Hh : 0 < h) by (apply Rdiv_lt_0_compat; assumption).
  assert (Eb : INR m * PI / l * (INR m * PI / l) * (E / rho) = E / (rho * (h * h)) * (th * th)) by (unfold h, th; field; repeat split; lra).
  set (c := cos th) in *. assert (Hc : 0 < 2 + c) by (pose proof (COS_bound th); unfold c; lra).
  assert (Em : 6 * E / (rho * (h * h)) * ((1 - c) / (2 + c)) = E / (rho * (h * h)) * (6 * ((1 - c) / (2 + c)))) by (field; repeat split; lra).
  rewrite Eb, Em. assert (Hg : 0 < E / (rho * (h * h))) by (apply Rdiv_lt_0_compat; [exact HE|apply Rmult_lt_0_compat; [exact Hr|apply Rmult_lt_0_compat; exact Hh]]). split.
  - apply Rmult_le_compat_l; [lra|exact B1].
  - intros H6. specialize (B2 H6). set (g := E / (rho * (h * h))) in *. replace (g * (th * th) / (1 - th * th / 6)) with (g * (th * th / (1 - th * th / 6))) by (unfold Rdiv; ring).
    apply Rmult_le_compat_l; [lra|exact B2].
Qed.
