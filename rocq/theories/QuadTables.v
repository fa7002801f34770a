(** * Degrees of the quadrature tables (proof support) *)
From Coq Require Import Reals List Arith Lia Lra ZArith QArith Permutation Bool.
From Coq Require Import Qreals.
From Verif Require Import Num GaussTab Gauss Spec SpecQuad LinR Base QuadProofs.
Import ListNotations.
Local Open Scope R_scope.

(** ** Exact moments of the 1D tables: literals as integers over D *)
Definition sc (D : Z) (q : Q) : Z := (Qnum q * (D / Zpos (Qden q)))%Z.
Definition sc_ok (D : Z) (q : Q) : bool := ((D mod Zpos (Qden q)) =? 0)%Z.

Lemma sc_spec D q : (0 < D)%Z -> sc_ok D q = true -> Q2R q = IZR (sc D q) / IZR D.
Proof.
  unfold sc_ok, sc, Q2R. intros HD E. apply Z.eqb_eq in E. apply Z_div_exact_full_2 in E; [|lia].
  set (k := (D / Zpos (Qden q))%Z) in *. assert (Hk : k <> 0%Z) by (intros K; rewrite K in E; lia).
  rewrite E, !mult_IZR. apply not_0_IZR in Hk. assert (IZR (Zpos (Qden q)) <> 0) by (apply not_0_IZR; discriminate). field. auto.
Qed.

(** sums of a x^0 .. a x^n over the points, as one list *)
Fixpoint zpowers (a x : Z) (n : nat) : list Z :=
  match n with
  | O => [a]
  | S m => a :: zpowers (a * x) x m
  end.
Fixpoint vadd (u v : list Z) : list Z :=
  match u, v with
  | a :: u', b :: v' => (a + b)%Z :: vadd u' v'
  | _, _ => []
  end.
Fixpoint moments1 (D : Z) (n : nat) (pts wts : list Q) : list Z :=
  match pts, wts with
  | x :: p, w :: r => vadd (zpowers (sc D w) (sc D x) n) (moments1 D n p r)
  | _, _ => zpowers 0 0 n
  end.

Lemma zpowers_length a x n : length (zpowers a x n) = S n.
Proof. revert a; induction n; cbn; intros; [reflexivity|now rewrite IHn]. Qed.
Lemma zpowers_nth a x n k : (k <= n)%nat -> nth k (zpowers a x n) 0%Z = (a * x ^ Z.of_nat k)%Z.
Proof.
  revert a k; induction n; intros a k Hk.
  - destruct k; [|lia]. cbn. lia.
  - destruct k; [cbn; lia|]. cbn [zpowers nth]. rewrite IHn by lia. rewrite Nat2Z.inj_succ, Z.pow_succ_r by lia. ring.
Qed.
Lemma vadd_length u v : length u = length v -> length (vadd u v) = length v.
Proof. revert v; induction u; intros [|b v]; cbn; intros; try discriminate; auto. Qed.
Lemma vadd_nth u v k : length u = length v -> nth k (vadd u v) 0%Z = (nth k u 0 + nth k v 0)%Z.
Proof.
  revert v k; induction u; intros [|b v] k; cbn; intros E; try discriminate; [now destruct k|].
  destruct k; [reflexivity|]. apply IHu. congruence.
Qed.
Lemma moments1_length D n pts wts : length (moments1 D n pts wts) = S n.
Proof.
  revert wts; induction pts as [|x p IH]; intros [|w r]; cbn; try apply zpowers_length.
  rewrite vadd_length; [apply IH|]. now rewrite zpowers_length, IH.
Qed.

Definition scaled_ok (D : Z) (l : list Q) : bool := forallb (sc_ok D) l.

Lemma moments1_spec D n pts wts k : (0 < D)%Z -> scaled_ok D pts = true -> scaled_ok D wts = true -> (k <= n)%nat ->
  rule1 (map Q2R pts) (map Q2R wts) (fun x => x ^ k) = IZR (nth k (moments1 D n pts wts) 0%Z) / IZR D ^ S k.
Proof.
  intros HD. assert (HD' : IZR D <> 0) by (apply not_0_IZR; lia).
  assert (P0 : forall j, IZR D ^ j <> 0) by (intros; now apply pow_nonzero).
  unfold rule1. revert wts; induction pts as [|x p IH]; intros [|w r]; cbn [moments1]; intros HP HW Hk;
    try (rewrite zpowers_nth by exact Hk; cbn [map combine lsum fold_right]; rewrite Z.mul_0_l; unfold Rdiv; ring).
  cbn in HP, HW. apply andb_true_iff in HP as [Hx HP]. apply andb_true_iff in HW as [Hw HW].
  rewrite vadd_nth by now rewrite zpowers_length, moments1_length.
  cbn [map combine]. unfold lsum. cbn [fold_right].
  fold (lsum (fun '(x, w) => w * x ^ k) (combine (map Q2R p) (map Q2R r))).
  rewrite (IH r HP HW Hk), zpowers_nth by exact Hk. rewrite (sc_spec D x), (sc_spec D w) by assumption.
  rewrite plus_IZR, mult_IZR, <- pow_IZR. unfold Rdiv at 2. rewrite Rpow_mult_distr, pow_inv. cbn [pow]. field. auto.
Qed.

(** |M / D^(k+1) - J| <= 10^-17 for every power k <= n *)
Definition check1 (D : Z) (n : nat) (ms : list Z) : bool :=
  forallb (fun '(k, m) =>
    let kk := Z.of_nat k in let Dk := (D ^ (kk + 1))%Z in
    (Z.abs (m * (kk + 1) - (if Nat.even k then 2 else 0) * Dk) * 100000000000000000 <=? Dk * (kk + 1))%Z)
    (combine (seq 0 (S n)) ms).

Lemma forallb_combine {A} (f : nat * A -> bool) n (l : list A) d k :
  forallb f (combine (seq 0 n) l) = true -> length l = n -> (k < n)%nat -> f (k, nth k l d) = true.
Proof.
  intros H L Hk. rewrite forallb_forall in H. apply H.
  replace (k, nth k l d) with (nth k (combine (seq 0 n) l) (0%nat, d)).
  - apply nth_In. rewrite combine_length, seq_length. lia.
  - rewrite combine_nth by now rewrite seq_length. now rewrite seq_nth.
Qed.

Lemma odd_power k : Nat.even k = false -> (-1) ^ S k = 1.
Proof.
  intros E. apply Bool.negb_true_iff in E. rewrite Nat.negb_even in E. apply Nat.odd_spec in E as [m ->].
  replace (S (2 * m + 1)) with (2 * (m + 1))%nat by lia. rewrite pow_mult.
  replace ((-1) ^ 2) with 1 by ring. apply pow1.
Qed.
Lemma even_power k : Nat.even k = true -> (-1) ^ S k = -1.
Proof.
  intros E. apply Nat.even_spec in E as [m ->]. rewrite <- tech_pow_Rmult, pow_mult.
  replace ((-1) ^ 2) with 1 by ring. rewrite pow1. ring.
Qed.

Lemma moment1_bound D n pts wts k : (0 < D)%Z -> scaled_ok D pts = true -> scaled_ok D wts = true ->
  check1 D n (moments1 D n pts wts) = true -> (k <= n)%nat ->
  Rabs (rule1 (map Q2R pts) (map Q2R wts) (fun x => x ^ k) - (1 ^ S k - (-1) ^ S k) / INR (S k)) <= 1 / 100000000000000000.
Proof.
  intros HD HP HW HC Hk. rewrite (moments1_spec D n) by assumption.
  assert (C := forallb_combine _ (S n) _ 0%Z k HC (moments1_length D n pts wts) ltac:(lia)). cbv zeta in C.
  apply Z.leb_le in C. set (m := nth k (moments1 D n pts wts) 0%Z) in *.
  apply IZR_le in C. rewrite !mult_IZR, abs_IZR, minus_IZR, !mult_IZR in C.
  assert (EK : IZR (Z.of_nat k + 1) = INR (S k)).
  { rewrite S_INR, INR_IZR_INZ, plus_IZR. reflexivity. }
  assert (ED : IZR (D ^ (Z.of_nat k + 1)) = IZR D ^ S k).
  { replace (Z.of_nat k + 1)%Z with (Z.of_nat (S k)) by lia. now rewrite <- pow_IZR. }
  rewrite EK, ED in C. rewrite pow1.
  replace (1 - (-1) ^ S k) with (IZR (if Nat.even k then 2 else 0)).
  2:{ destruct (Nat.even k) eqn:E; [rewrite even_power by exact E; ring|rewrite odd_power by exact E; ring]. }
  set (e := IZR (if Nat.even k then 2 else 0)) in *.
  assert (A : 0 < INR (S k)) by (apply lt_0_INR; lia).
  assert (B : 0 < IZR D ^ S k) by (apply pow_lt, IZR_lt; exact HD).
  set (a := INR (S k)) in *. set (b := IZR D ^ S k) in *. clearbody a b e m.
  replace (IZR m / b - e / a) with ((IZR m * a - e * b) * / (b * a)) by (field; lra).
  rewrite Rabs_mult, (Rabs_right (/ (b * a))).
  2:{ apply Rle_ge, Rlt_le, Rinv_0_lt_compat. nra. }
  assert (0 < b * a) by nra.
  apply (Rmult_le_reg_r (b * a)); [assumption|]. rewrite Rmult_assoc, Rinv_l by lra. lra.
Qed.

(** lifting to polynomials *)
Lemma lsum_abs {A} (f : A -> R) l : Rabs (lsum f l) <= lsum (fun a => Rabs (f a)) l.
Proof.
  induction l as [|a l IH]; cbn; [rewrite Rabs_R0; lra|].
  eapply Rle_trans; [apply Rabs_triang|]. unfold lsum in IH. lra.
Qed.
Lemma lsum_le {A} (f g : A -> R) l : (forall a, In a l -> f a <= g a) -> lsum f l <= lsum g l.
Proof.
  induction l as [|a l IH]; cbn; intros H; [lra|].
  apply Rplus_le_compat; [apply H; now left|apply IH; intros; apply H; now right].
Qed.
Lemma lsum_swap {A B} (f : A -> B -> R) l m :
  lsum (fun a => lsum (fun b => f a b) m) l = lsum (fun b => lsum (fun a => f a b) l) m.
Proof.
  induction l as [|a l IH].
  - cbn. symmetry. apply lsum_zero. reflexivity.
  - cbn [lsum fold_right]. fold (lsum (fun a => lsum (fun b => f a b) m) l). rewrite IH, <- lsum_plus.
    apply lsum_ext. reflexivity.
Qed.
Lemma lsum_minus {A} (f g : A -> R) l : lsum f l - lsum g l = lsum (fun a => f a - g a) l.
Proof. induction l as [|a l IH]; cbn; [ring|]. unfold lsum in IH. rewrite <- IH. ring. Qed.

Lemma lift {A} (p : list (R * A)) (L J : A -> R) eps : 0 <= eps ->
  (forall t, In t p -> Rabs (L (snd t) - J (snd t)) <= eps) ->
  Rabs (lsum (fun t => fst t * L (snd t)) p - lsum (fun t => fst t * J (snd t)) p) <= eps * size p.
Proof.
  intros He H. rewrite lsum_minus. eapply Rle_trans; [apply lsum_abs|].
  unfold size. rewrite <- lsum_scal. apply lsum_le. intros [c t] Ht. cbn [fst snd].
  replace (c * L t - c * J t) with (c * (L t - J t)) by ring. rewrite Rabs_mult, Rmult_comm.
  apply Rmult_le_compat_r; [apply Rabs_pos|apply (H (c, t) Ht)].
Qed.

Lemma rule1_poly pts wts p :
  rule1 pts wts (poly1 p) = lsum (fun t => fst t * rule1 pts wts (fun x => x ^ snd t)) p.
Proof.
  unfold rule1, poly1.
  transitivity (lsum (fun xw : R * R => lsum (fun t => snd xw * (fst t * fst xw ^ snd t)) p) (combine pts wts)).
  - apply lsum_ext. intros [x w] _. cbn [fst snd]. rewrite <- lsum_scal. apply lsum_ext. now intros [c i] _.
  - rewrite lsum_swap. apply lsum_ext. intros [c i] _. cbn [fst snd]. rewrite <- lsum_scal.
    apply lsum_ext. intros [x w] _. cbn [fst snd]. ring.
Qed.

Lemma rule1_bound D n pts wts p I : (0 < D)%Z -> scaled_ok D pts = true -> scaled_ok D wts = true ->
  check1 D n (moments1 D n pts wts) = true -> Forall (fun t => (snd t <= n)%nat) p ->
  integral (poly1 p) (-1) 1 I ->
  Rabs (rule1 (map Q2R pts) (map Q2R wts) (poly1 p) - I) <= 1 / 100000000000000000 * size p.
Proof.
  intros HD HP HW HC Hp HI. rewrite Forall_forall in Hp.
  rewrite (integral_unique _ _ _ _ _ HI (poly1_integral p (-1) 1)), rule1_poly.
  replace (lsum (fun '(c, i) => c * ((1 ^ S i - (-1) ^ S i) / INR (S i))) p)
    with (lsum (fun t : R * nat => fst t * ((1 ^ S (snd t) - (-1) ^ S (snd t)) / INR (S (snd t)))) p)
    by (apply lsum_ext; now intros [c i] _).
  apply (lift p (fun i => rule1 _ _ (fun x => x ^ i)) (fun i => (1 ^ S i - (-1) ^ S i) / INR (S i))); [lra|].
  intros t Ht. apply (moment1_bound D n); auto.
Qed.
