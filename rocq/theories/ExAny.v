(** * Concrete cases: binary rounding, a chain of two springs in any arithmetic, an unsymmetric bar *)
From Coq Require Import Reals List ZArith Arith Bool Lia Lra.
From Verif Require Import Num LinAlg Fem Uel Assem Spec SpecAny LinR Base AssemProofs AnyProofs RoundProofs.
Import ListNotations.
Local Open Scope R_scope.

Lemma expo_bounds x : x <> 0 -> powerRZ 2 (expo x) <= Rabs x.
Proof.
  intros Hx. assert (Hp : 0 < Rabs x) by (apply Rabs_pos_lt; exact Hx). assert (H2 : 0 < ln 2) by (rewrite <- ln_1; apply ln_increasing; lra).
  pose proof (base_Int_part (ln (Rabs x) / ln 2)) as [H _]. fold (expo x) in H. rewrite powerRZ_Rpower by lra. unfold Rpower.
  apply Rle_trans with (exp (ln (Rabs x))); [|rewrite exp_ln by exact Hp; lra].
  assert (IZR (expo x) * ln 2 <= ln (Rabs x)). { apply (Rmult_le_compat_r (ln 2)) in H; [|lra]. unfold Rdiv in H. rewrite Rmult_assoc, Rinv_l in H by lra. lra. }
  destruct H0 as [H0|H0]; [left; apply exp_increasing; exact H0|rewrite H0; right; reflexivity].
Qed.
Lemma binary_rounding p : (0 < p)%nat -> rounding (/ 2 ^ p) (binary p).
Proof.
  intros Hp. assert (H2p : 2 <= 2 ^ p) by (replace 2 with (2 ^ 1) at 1 by ring; apply Rle_pow; [lra|lia]).
  split.
  - split; [left; apply Rinv_0_lt_compat; lra|]. apply Rle_lt_trans with (/ 2); [apply Rinv_le_contravar; lra|lra].
  - intros x. unfold binary. destruct (Req_EM_T x 0) as [->|Hx]; [rewrite Rminus_diag_eq by reflexivity; rewrite Rabs_R0; lra|].
    pose proof (expo_bounds x Hx) as He. set (e := expo x) in *. set (s := powerRZ 2 (Z.of_nat p - 1 - e)). set (t := powerRZ 2 (e + 1 - Z.of_nat p)).
    assert (Hst : s * t = 1). { unfold s, t. rewrite <- powerRZ_add by lra. replace (Z.of_nat p - 1 - e + (e + 1 - Z.of_nat p))%Z with 0%Z by lia. reflexivity. }
    assert (Ht : 0 < t) by (apply powerRZ_lt; lra).
    pose proof (base_Int_part (x * s + / 2)) as [B1 B2]. set (k := IZR (Int_part (x * s + / 2))) in *.
    replace (k * t - x) with ((k - x * s) * t) by (rewrite Rmult_minus_distr_r, Rmult_assoc, Hst; ring). rewrite Rabs_mult, (Rabs_pos_eq t) by lra.
    assert (Hk : Rabs (k - x * s) <= / 2) by (apply Rabs_le; lra).
    apply Rle_trans with (/ 2 * t); [apply Rmult_le_compat_r; lra|].
    assert (E : / 2 * t = / 2 ^ p * powerRZ 2 e).
    { unfold t. replace (e + 1 - Z.of_nat p)%Z with (e + (1 + - Z.of_nat p))%Z by lia. rewrite !powerRZ_add by lra. rewrite powerRZ_neg'. rewrite <- pow_powerRZ. rewrite powerRZ_1. field. apply pow_nonzero. lra. }
    rewrite E. apply Rmult_le_compat_l; [left; apply Rinv_0_lt_compat; lra|exact He].
Qed.

(** two springs of stiffness 3 in a row, first node fixed, by a user element *)
Definition two_uel : uel_fun R := fun _ _ => Ok ([[3; -3]; [-3; 3]], M2 [[2; 1]; [1; 2]]).
Definition two_el : list (list Z) := [[0; 1; 0; 0; 1]; [1; 1; 0; 1; 2]]%Z.
Definition two_nodes : list (list R) := [[0; 0]; [1; 1]; [2; 2]].
Definition two_locs : list (tlocal R) := [mkT [-1; 0]%Z [[3; -3]; [-3; 3]] [[2; 1]; [1; 2]]; mkT [0; 1]%Z [[3; -3]; [-3; 3]] [[2; 1]; [1; 2]]].
Definition two_op : list (list Z) := [[-1; 0]; [0; 1]]%Z.
Lemma two_mesh (N : Num R) : @t_mesh R N two_el [[1]] two_nodes two_op (Some two_uel) two_locs.
Proof. split; [repeat constructor|reflexivity]. Qed.
Lemma two_ok : Forall (@t_ok R 2) two_locs.
Proof.
  constructor; [|constructor; [|constructor]].
  all: split; [split; [reflexivity|cbn; repeat apply Forall_cons; try apply Forall_nil; reflexivity]|]; split; [split; [reflexivity|cbn; repeat apply Forall_cons; try apply Forall_nil; reflexivity]|].
  all: split; [cbn; lia|]; intros r Hr; cbn in Hr; destruct r as [|[|]]; cbn; lia.
Qed.
Lemma two_once rnd : Forall (fun l => eqs_once l /\ @tsymmetric R (Num_F rnd) (t_n l) (t_K l) /\ @tsymmetric R (Num_F rnd) (t_n l) (t_M l)) two_locs.
Proof.
  constructor; [|constructor; [|constructor]]; (split; [|split]).
  all: (intros r s; cbn; intros Hr Hs; destruct r as [|[|]]; try lia; destruct s as [|[|]]; try lia; cbn; intros; try reflexivity; try congruence; try lia).
Qed.
Lemma two_run rnd : @dense_assem R (Num_F rnd) two_el [[1]] two_nodes 2 two_op (Some two_uel) =
  Ok ([[rnd (rnd (0 + 3) + 3); rnd (0 + -3)]; [rnd (0 + -3); rnd (0 + 3)]], [[rnd (rnd (0 + 2) + 2); rnd (0 + 1)]; [rnd (0 + 1); rnd (0 + 2)]]).
Proof. reflexivity. Qed.

(** a rounding that changes a single number *)
Definition bump (x : R) : R := if Req_EM_T x (6 / 5) then 27 / 20 else x.
Lemma bump_fix x : x <> 6 / 5 -> bump x = x.
Proof. intros H. unfold bump. destruct (Req_EM_T x (6 / 5)); [contradiction|reflexivity]. Qed.
Lemma bump_rounding : rounding (1 / 8) bump.
Proof. split; [lra|]. intros x. unfold bump. destruct (Req_EM_T x (6 / 5)) as [->|H]; [rewrite !Rabs_pos_eq by lra; lra|]. rewrite Rminus_diag_eq by reflexivity. rewrite Rabs_R0. pose proof (Rabs_pos x). lra. Qed.
Lemma bump_axis : @axis R (Num_F bump) [[0; 0]; [3; 4]] = Ok (3 / 5, 4 / 5, 5).
Proof.
  unfold axis. rewrite (get1 [0; 0] [3; 4]), (get0 [0; 0] [[3; 4]]). cbn [bind length Nat.eqb guard combine map fst snd fold_right].
  rewrite get0. cbn [bind]. rewrite get1. cbn [bind]. cbn [nadd nsub nmul ndiv nsqrt n0 Num_F].
  rewrite (bump_fix (3 - 0)), (bump_fix (4 - 0)) by lra. rewrite (bump_fix ((3 - 0) * (3 - 0))), (bump_fix ((4 - 0) * (4 - 0))) by lra. rewrite (bump_fix ((4 - 0) * (4 - 0) + 0)) by lra.
  rewrite (bump_fix ((3 - 0) * (3 - 0) + ((4 - 0) * (4 - 0) + 0))) by lra.
  replace ((3 - 0) * (3 - 0) + ((4 - 0) * (4 - 0) + 0)) with (5 * 5) by ring. rewrite sqrt_square by lra. rewrite (bump_fix 5) by lra.
  rewrite nis0_F, nis0_R by lra. cbn [negb guard bind]. rewrite (bump_fix ((3 - 0) / 5)), (bump_fix ((4 - 0) / 5)) by lra. do 2 f_equal. f_equal; lra.
Qed.
Lemma bump_unsymmetric : exists K M, @truss2D R (Num_F bump) [[0; 0]; [3; 4]] [10; 1; 1] = Ok (K, M2 M) /\ ent K 0 1 = 27 / 25 /\ ent K 1 0 = 24 / 25.
Proof.
  unfold truss2D. rewrite bump_axis. cbn [bind]. do 2 eexists. split; [reflexivity|].
  assert (E : @ndiv R (Num_F bump) (@nmul R (Num_F bump) 1 10) 5 = 2) by (cbn; rewrite (bump_fix (1 * 10)) by lra; rewrite bump_fix by lra; lra). rewrite E.
  pose proof bump_rounding as HR. assert (B0 : bump 0 = 0) by (apply bump_fix; lra).
  cbn. rewrite !Rmult_0_l, ?Rmult_0_r, ?Rplus_0_l, ?Rplus_0_r, ?B0, ?Rmult_0_l, ?Rmult_0_r, ?Rplus_0_l, ?Rplus_0_r, ?B0, ?Rplus_0_l, ?Rplus_0_r.
  rewrite (bump_fix (2 * 1)) by lra.
  assert (E1 : bump (3 / 5 * (2 * 1)) = 27 / 20) by (replace (3 / 5 * (2 * 1)) with (6 / 5) by lra; unfold bump; destruct (Req_EM_T (6 / 5) (6 / 5)); [reflexivity|contradiction]).
  rewrite E1. rewrite (bump_fix (4 / 5 * (2 * 1))) by lra. rewrite !(bump_fix (27 / 20)) by lra. rewrite !(bump_fix (4 / 5 * (2 * 1))) by lra.
  rewrite !(bump_fix (27 / 20 * (4 / 5))) by lra. rewrite !(bump_fix (4 / 5 * (2 * 1) * (3 / 5))) by lra. lra.
Qed.
