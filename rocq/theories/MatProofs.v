(** * Proofs: material matrices *)
From Coq Require Import String Reals List Arith Lia Lra Bool ZArith QArith Qreals.
From Verif Require Import Num LinAlg Fem Spec LinR Base BarProofs SpecElem.
Import ListNotations.
Local Open Scope R_scope.

Definition umat_R (E nu : R) : list (list R) :=
  let enu := E / (1 - nu * nu) in
  [[enu; nu * enu; 0]; [nu * enu; enu; 0]; [0; 0; enu * ((1 - nu) / 2)]].

Lemma umat_eq E nu : umat [E; nu] = if Req_EM_T (1 - nu * nu) 0 then Err NonFinite else Ok (umat_R E nu).
Proof.
  unfold umat, npow. numR. destruct (Req_EM_T (1 - nu * nu) 0) as [H|H].
  - replace (nis0 (1 - nu * nu)) with true by (symmetry; apply nis0_spec; exact H). reflexivity.
  - replace (nis0 (1 - nu * nu)) with false by (symmetry; apply nis0_false; exact H). reflexivity.
Qed.

Lemma umat_inv E nu C : umat [E; nu] = Ok C -> 1 - nu * nu <> 0 /\ C = umat_R E nu.
Proof. rewrite umat_eq. destruct (Req_EM_T _ _); intros H; [discriminate|]. apply Ok_inj in H. split; auto. Qed.

Lemma umat_form E nu e e' :
  form 3 (umat_R E nu) e e' =
  E / (1 - nu * nu) * (e 0%nat * e' 0%nat + nu * (e 0%nat * e' 1%nat + e 1%nat * e' 0%nat) + e 1%nat * e' 1%nat
                      + (1 - nu) / 2 * (e 2%nat * e' 2%nat)).
Proof. unfold form, act, umat_R, ent. cbn [rsum nth]. ring. Qed.

Lemma umat_sym E nu : symmetric 3 (umat_R E nu).
Proof. apply sym_of_form. intros u v. rewrite !umat_form. ring. Qed.

Lemma umat_diag E nu e :
  form 3 (umat_R E nu) e e =
  E / (1 - nu * nu) * ((1 + nu) / 2 * ((e 0%nat + e 1%nat) * (e 0%nat + e 1%nat))
     + (1 - nu) / 2 * ((e 0%nat - e 1%nat) * (e 0%nat - e 1%nat)) + (1 - nu) / 2 * (e 2%nat * e 2%nat)).
Proof. rewrite umat_form. generalize (E / (1 - nu * nu)). intros k. field. Qed.

Lemma one_minus_sq nu : -1 < nu < 1 -> 0 < 1 - nu * nu.
Proof. intros. replace (1 - nu * nu) with ((1 - nu) * (1 + nu)) by ring. apply Rmult_lt_0_compat; lra. Qed.

Lemma sq_nonneg (x : R) : 0 <= x * x.
Proof. apply Rle_0_sqr. Qed.

Lemma umat_psd E nu : 0 <= E -> -1 < nu < 1 -> psd 3 (umat_R E nu).
Proof.
  intros HE Hn u. rewrite umat_diag. pose proof (one_minus_sq nu Hn).
  apply Rmult_le_pos; [apply Rmult_le_pos; [exact HE|apply Rlt_le, Rinv_0_lt_compat; lra]|].
  repeat apply Rplus_le_le_0_compat; apply Rmult_le_pos; try lra; apply sq_nonneg.
Qed.

Lemma umat_pd E nu e : 0 < E -> -1 < nu < 1 -> form 3 (umat_R E nu) e e = 0 ->
  e 0%nat = 0 /\ e 1%nat = 0 /\ e 2%nat = 0.
Proof.
  intros HE Hn H. rewrite umat_diag in H. pose proof (one_minus_sq nu Hn).
  assert (Hp : 0 < E / (1 - nu * nu)) by (apply Rdiv_lt_0_compat; lra).
  apply Rmult_integral in H. destruct H as [H|H]; [lra|].
  pose proof (sq_nonneg (e 0%nat + e 1%nat)). pose proof (sq_nonneg (e 0%nat - e 1%nat)). pose proof (sq_nonneg (e 2%nat)).
  assert (H4 : forall c x, 0 < c -> 0 <= x * x -> 0 <= c * (x * x)) by (intros; apply Rmult_le_pos; lra).
  pose proof (H4 ((1 + nu) / 2) _ ltac:(lra) H1). pose proof (H4 ((1 - nu) / 2) _ ltac:(lra) H2).
  pose proof (H4 ((1 - nu) / 2) _ ltac:(lra) H3).
  assert (Hz : forall c x, 0 < c -> c * (x * x) = 0 -> x = 0).
  { intros c x Hc Hx. apply Rmult_integral in Hx. destruct Hx as [Hx|Hx]; [lra|].
    apply Rmult_integral in Hx. destruct Hx; assumption. }
  assert (E1 : e 0%nat + e 1%nat = 0) by (apply (Hz ((1 + nu) / 2)); lra).
  assert (E2 : e 0%nat - e 1%nat = 0) by (apply (Hz ((1 - nu) / 2)); lra).
  assert (E3 : e 2%nat = 0) by (apply (Hz ((1 - nu) / 2)); lra). repeat split; lra.
Qed.

(** ** Lame parameters *)
Lemma lame_eq E nu : lame [E; nu] =
  if Req_EM_T (1 + nu) 0 then Err NonFinite
  else if Req_EM_T (1 - 2 * nu) 0 then Err NonFinite else Ok (lam E nu, mu E nu).
Proof.
  unfold lame. numR. destruct (Req_EM_T (1 + nu) 0) as [H|H].
  - replace (nis0 (1 + nu)) with true by (symmetry; apply nis0_spec; exact H). reflexivity.
  - replace (nis0 (1 + nu)) with false by (symmetry; apply nis0_false; exact H). cbn [negb guard bind].
    destruct (Req_EM_T (1 - 2 * nu) 0) as [H'|H'].
    + replace (nis0 (1 - 2 * nu)) with true by (symmetry; apply nis0_spec; exact H'). reflexivity.
    + replace (nis0 (1 - 2 * nu)) with false by (symmetry; apply nis0_false; exact H'). cbn [negb guard bind].
      unfold lam, mu. q2r. f_equal. f_equal. field. exact H.
Qed.

Definition hooke (E nu : R) : list (list R) :=
  let l := lam E nu in let m := mu E nu in
  [[2 * m + l; l; l; 0; 0; 0]; [l; 2 * m + l; l; 0; 0; 0]; [l; l; 2 * m + l; 0; 0; 0];
   [0; 0; 0; m; 0; 0]; [0; 0; 0; 0; m; 0]; [0; 0; 0; 0; 0; m]].
Definition axi_R (E nu : R) : list (list R) :=
  let l := lam E nu in let m := mu E nu in
  [[2 * m + l; l; 0; 0]; [l; 2 * m + l; 0; 0]; [0; 0; m; 0]; [0; 0; 0; 2 * m + l]].

Lemma elast_mat_eq E nu : elast_mat [E; nu] =
  if Req_EM_T (1 + nu) 0 then Err NonFinite
  else if Req_EM_T (1 - 2 * nu) 0 then Err NonFinite else Ok (hooke E nu).
Proof. unfold elast_mat. rewrite lame_eq. do 2 (destruct (Req_EM_T _ _); [reflexivity|]). reflexivity. Qed.
Lemma elast_mat_axi_eq E nu : elast_mat_axi [E; nu] =
  if Req_EM_T (1 + nu) 0 then Err NonFinite
  else if Req_EM_T (1 - 2 * nu) 0 then Err NonFinite else Ok (axi_R E nu).
Proof. unfold elast_mat_axi. rewrite lame_eq. do 2 (destruct (Req_EM_T _ _); [reflexivity|]). reflexivity. Qed.
Lemma elast_mat_2d_eq E nu : @elast_mat_2d R Num_R [E; nu] = elast_mat_axi [E; nu].
Proof. reflexivity. Qed.

Lemma hooke_inv E nu C : elast_mat [E; nu] = Ok C -> 1 + nu <> 0 /\ 1 - 2 * nu <> 0 /\ C = hooke E nu.
Proof.
  rewrite elast_mat_eq. destruct (Req_EM_T _ _); [discriminate|]. destruct (Req_EM_T _ _); [discriminate|].
  intros H. apply Ok_inj in H. auto.
Qed.
Lemma axi_inv E nu C : elast_mat_axi [E; nu] = Ok C -> 1 + nu <> 0 /\ 1 - 2 * nu <> 0 /\ C = axi_R E nu.
Proof.
  rewrite elast_mat_axi_eq. destruct (Req_EM_T _ _); [discriminate|]. destruct (Req_EM_T _ _); [discriminate|].
  intros H. apply Ok_inj in H. auto.
Qed.

Definition tr3 (e : nat -> R) : R := e 0%nat + e 1%nat + e 2%nat.
Lemma hooke_form E nu e e' :
  form 6 (hooke E nu) e e' =
  lam E nu * (tr3 e * tr3 e') + mu E nu * (2 * (e 0%nat * e' 0%nat + e 1%nat * e' 1%nat + e 2%nat * e' 2%nat)
    + e 3%nat * e' 3%nat + e 4%nat * e' 4%nat + e 5%nat * e' 5%nat).
Proof. unfold form, act, hooke, ent, tr3. cbn [rsum nth]. ring. Qed.
Lemma axi_form E nu e e' :
  form 4 (axi_R E nu) e e' =
  lam E nu * ((e 0%nat + e 1%nat) * (e' 0%nat + e' 1%nat) + e 3%nat * e' 3%nat)
  + mu E nu * (2 * (e 0%nat * e' 0%nat + e 1%nat * e' 1%nat + e 3%nat * e' 3%nat) + e 2%nat * e' 2%nat).
Proof. unfold form, act, axi_R, ent. cbn [rsum nth]. ring. Qed.

Lemma hooke_sym E nu : symmetric 6 (hooke E nu).
Proof. apply sym_of_form. intros u v. rewrite !hooke_form. ring. Qed.
Lemma axi_sym E nu : symmetric 4 (axi_R E nu).
Proof. apply sym_of_form. intros u v. rewrite !axi_form. ring. Qed.

(** with s = tr/3 : lam tr^2 + 2 mu sum = (lam + 2/3 mu) tr^2 + 2 mu |dev|^2 *)
Lemma hooke_diag E nu e :
  form 6 (hooke E nu) e e =
  (lam E nu + 2 / 3 * mu E nu) * (tr3 e * tr3 e)
  + mu E nu * (2 / 3 * ((e 0%nat - e 1%nat) * (e 0%nat - e 1%nat) + (e 1%nat - e 2%nat) * (e 1%nat - e 2%nat)
      + (e 2%nat - e 0%nat) * (e 2%nat - e 0%nat))
    + e 3%nat * e 3%nat + e 4%nat * e 4%nat + e 5%nat * e 5%nat).
Proof. rewrite hooke_form. unfold tr3. field. Qed.

Lemma bulk E nu : -1 < nu < 1 / 2 -> lam E nu + 2 / 3 * mu E nu = E / (3 * (1 - 2 * nu)).
Proof. intros. unfold lam, mu. field. lra. Qed.

Lemma mu_pos E nu : 0 < E -> -1 < nu -> 0 < mu E nu.
Proof. intros. unfold mu. apply Rdiv_lt_0_compat; lra. Qed.
Lemma bulk_pos E nu : 0 < E -> -1 < nu < 1 / 2 -> 0 < lam E nu + 2 / 3 * mu E nu.
Proof. intros. rewrite bulk by assumption. apply Rdiv_lt_0_compat; lra. Qed.

Lemma hooke_psd E nu : 0 < E -> -1 < nu < 1 / 2 -> psd 6 (hooke E nu).
Proof.
  intros HE Hn u. rewrite hooke_diag. pose proof (bulk_pos E nu HE Hn). pose proof (mu_pos E nu HE (proj1 Hn)).
  apply Rplus_le_le_0_compat; apply Rmult_le_pos; try lra; [apply sq_nonneg|].
  repeat apply Rplus_le_le_0_compat; try apply sq_nonneg.
  apply Rmult_le_pos; [lra|]. repeat apply Rplus_le_le_0_compat; apply sq_nonneg.
Qed.

Lemma sq_zero x : x * x = 0 -> x = 0.
Proof. intros H. apply Rmult_integral in H. destruct H; assumption. Qed.

Lemma hooke_pd E nu e : 0 < E -> -1 < nu < 1 / 2 -> form 6 (hooke E nu) e e = 0 ->
  forall i, (i < 6)%nat -> e i = 0.
Proof.
  intros HE Hn H. rewrite hooke_diag in H. pose proof (bulk_pos E nu HE Hn) as Hb. pose proof (mu_pos E nu HE (proj1 Hn)) as Hm.
  set (k := lam E nu + 2 / 3 * mu E nu) in *. set (m := mu E nu) in *.
  pose proof (sq_nonneg (tr3 e)) as A. pose proof (sq_nonneg (e 0%nat - e 1%nat)) as A1. pose proof (sq_nonneg (e 1%nat - e 2%nat)) as A2.
  pose proof (sq_nonneg (e 2%nat - e 0%nat)) as A3. pose proof (sq_nonneg (e 3%nat)) as A4. pose proof (sq_nonneg (e 4%nat)) as A5.
  pose proof (sq_nonneg (e 5%nat)) as A6.
  set (S := 2 / 3 * ((e 0%nat - e 1%nat) * (e 0%nat - e 1%nat) + (e 1%nat - e 2%nat) * (e 1%nat - e 2%nat)
      + (e 2%nat - e 0%nat) * (e 2%nat - e 0%nat))
    + e 3%nat * e 3%nat + e 4%nat * e 4%nat + e 5%nat * e 5%nat) in *.
  assert (HS : 0 <= S) by (unfold S; lra).
  assert (P1 : 0 <= k * (tr3 e * tr3 e)) by (apply Rmult_le_pos; lra).
  assert (P2 : 0 <= m * S) by (apply Rmult_le_pos; lra).
  assert (Q1 : k * (tr3 e * tr3 e) = 0) by lra. assert (Q2 : m * S = 0) by lra.
  apply Rmult_integral in Q1. destruct Q1 as [Q1|Q1]; [lra|]. apply Rmult_integral in Q2. destruct Q2 as [Q2|Q2]; [lra|].
  unfold S in Q2. apply sq_zero in Q1. unfold tr3 in Q1.
  assert (B1 : e 0%nat - e 1%nat = 0) by (apply sq_zero; lra).
  assert (B2 : e 1%nat - e 2%nat = 0) by (apply sq_zero; lra).
  assert (B4 : e 3%nat = 0) by (apply sq_zero; lra).
  assert (B5 : e 4%nat = 0) by (apply sq_zero; lra).
  assert (B6 : e 5%nat = 0) by (apply sq_zero; lra).
  intros i Hi. do 6 (destruct i as [|i]; [try assumption; lra|]). lia.
Qed.

Lemma axi_diag E nu e :
  form 4 (axi_R E nu) e e =
  (lam E nu + mu E nu) * ((e 0%nat + e 1%nat) * (e 0%nat + e 1%nat)) + mu E nu * ((e 0%nat - e 1%nat) * (e 0%nat - e 1%nat))
  + mu E nu * (e 2%nat * e 2%nat) + (lam E nu + 2 * mu E nu) * (e 3%nat * e 3%nat).
Proof. rewrite axi_form. ring. Qed.
Lemma axi_psd E nu : 0 < E -> -1 < nu < 1 / 2 -> psd 4 (axi_R E nu).
Proof.
  intros HE Hn u. rewrite axi_diag. pose proof (bulk_pos E nu HE Hn). pose proof (mu_pos E nu HE (proj1 Hn)).
  repeat apply Rplus_le_le_0_compat; apply Rmult_le_pos; try lra; apply sq_nonneg.
Qed.
