(** * Lemmas: accuracy of bars in rounded arithmetic *)
From Coq Require Import Reals List ZArith Arith Bool Lia Lra.
From Verif Require Import Num LinAlg Fem Uel Assem Spec SpecAny LinR Base AssemProofs AnyProofs.
Import ListNotations.
Local Open Scope R_scope.

Section Close.
  Variables (u : R) (rnd : R -> R).
  Hypothesis HR : rounding u rnd.
  Definition close (k : nat) (x y : R) : Prop := exists t, (1 - u) ^ k <= t /\ t * (1 - u) ^ k <= 1 /\ x = y * t.

  Lemma pw_pos k : 0 < (1 - u) ^ k.
  Proof. apply pow_lt. destruct HR as [[? ?] _]. lra. Qed.
  Lemma pw_le1 k : (1 - u) ^ k <= 1.
  Proof. destruct HR as [[? ?] _]. apply Rle_trans with (1 ^ k); [apply pow_incr; lra|rewrite pow1; lra]. Qed.
  Lemma close_refl x : close 0 x x.
  Proof. exists 1. cbn. lra. Qed.
  Lemma close_mono k m x y : (k <= m)%nat -> close k x y -> close m x y.
  Proof.
    intros Hkm (t & H1 & H2 & E). exists t. split; [|split; [|exact E]].
    - eapply Rle_trans; [|exact H1]. replace m with (k + (m - k))%nat by lia. rewrite pow_add. pose proof (pw_le1 (m - k)). pose proof (pw_pos k). nra.
    - replace m with (k + (m - k))%nat by lia. rewrite pow_add. pose proof (pw_le1 (m - k)). pose proof (pw_pos (m - k)). pose proof (pw_pos k).
      assert (0 < t) by lra. nra.
  Qed.
  Lemma rnd_factor x : exists d, 1 - u <= d <= 1 + u /\ rnd x = x * d.
  Proof.
    destruct HR as [Hu H]. specialize (H x). destruct (Req_dec x 0) as [->|Hx].
    - exists 1. split; [lra|]. rewrite Rabs_R0, Rmult_0_r, Rminus_0_r in H. pose proof (Rabs_pos (rnd 0)). assert (Rabs (rnd 0) = 0) as E by lra. destruct (Req_dec (rnd 0) 0) as [E0|E0]; [lra|]. apply Rabs_no_R0 in E0. lra.
    - exists (rnd x / x). split; [|field; exact Hx]. assert (Hp : 0 < Rabs x) by (apply Rabs_pos_lt; exact Hx).
      assert (Rabs (rnd x / x - 1) <= u). { replace (rnd x / x - 1) with ((rnd x - x) / x) by (field; exact Hx). unfold Rdiv. rewrite Rabs_mult, Rabs_inv. apply (Rmult_le_reg_r (Rabs x)); [exact Hp|]. rewrite Rmult_assoc, Rinv_l, Rmult_1_r by lra. exact H. }
      pose proof (Rle_abs (rnd x / x - 1)). pose proof (Rle_abs (- (rnd x / x - 1))) as Hn. rewrite Rabs_Ropp in Hn. lra.
  Qed.
  Lemma rnd0 : rnd 0 = 0.
  Proof. destruct (rnd_factor 0) as (d & _ & ->). ring. Qed.
  Lemma rnd_nz x : rnd x = 0 -> x = 0.
  Proof. destruct HR as [[? ?] _]. destruct (rnd_factor x) as (d & Hd & ->). intros E. apply Rmult_integral in E. lra. Qed.
  Lemma close_rnd k x y : close k x y -> close (S k) (rnd x) y.
  Proof.
    intros (t & H1 & H2 & ->). destruct (rnd_factor (y * t)) as (d & Hd & ->). exists (t * d). destruct HR as [[Hu Hu1] _]. pose proof (pw_pos k). cbn [pow].
    split; [|split; [|ring]].
    - rewrite (Rmult_comm (1 - u)). apply Rmult_le_compat; lra.
    - replace (t * d * ((1 - u) * (1 - u) ^ k)) with ((t * (1 - u) ^ k) * (d * (1 - u))) by ring.
      assert (0 <= t * (1 - u) ^ k) by nra. assert (0 <= d * (1 - u) <= 1) by nra. nra.
  Qed.
  Lemma close_mul a b x x' y y' : close a x y -> close b x' y' -> close (a + b) (x * x') (y * y').
  Proof.
    intros (t & H1 & H2 & ->) (s & H3 & H4 & ->). exists (t * s). pose proof (pw_pos a). pose proof (pw_pos b). rewrite pow_add. split; [|split; [|ring]].
    - apply Rmult_le_compat; lra.
    - replace (t * s * ((1 - u) ^ a * (1 - u) ^ b)) with ((t * (1 - u) ^ a) * (s * (1 - u) ^ b)) by ring. assert (0 <= t * (1 - u) ^ a) by nra. assert (0 <= s * (1 - u) ^ b) by nra. nra.
  Qed.
  Lemma close_inv a x y : close a x y -> close a (/ x) (/ y).
  Proof.
    intros (t & H1 & H2 & ->). pose proof (pw_pos a). exists (/ t). split; [|split].
    - apply (Rmult_le_reg_l t); [lra|]. rewrite Rinv_r by lra. exact H2.
    - apply (Rmult_le_reg_l t); [lra|]. rewrite <- Rmult_assoc, Rinv_r by lra. lra.
    - rewrite Rinv_mult. reflexivity.
  Qed.
  Lemma close_div a b x x' y y' : close a x y -> close b x' y' -> close (a + b) (x / x') (y / y').
  Proof. intros H1 H2. apply close_mul; [exact H1|]. apply close_inv. exact H2. Qed.
  Lemma close_opp a x y : close a x y -> close a (- x) (- y).
  Proof. intros (t & H1 & H2 & ->). exists t. split; [exact H1|]. split; [exact H2|]. ring. Qed.
  Lemma close_add a x x' y y' : 0 <= y -> 0 <= y' -> close a x y -> close a x' y' -> close a (x + x') (y + y').
  Proof.
    intros Hy Hy' (t & H1 & H2 & ->) (s & H3 & H4 & ->). pose proof (pw_pos a) as Hp.
    destruct (Req_dec (y + y') 0) as [E|E].
    - assert (y = 0) by lra. assert (y' = 0) by lra. subst. exists 1. pose proof (pw_le1 a). split; [lra|]. split; [lra|]. ring.
    - assert (0 < y + y') by lra. exists ((y * t + y' * s) / (y + y')). split; [|split; [|field; lra]].
      + apply (Rmult_le_reg_r (y + y')); [lra|]. unfold Rdiv. rewrite Rmult_assoc, Rinv_l, Rmult_1_r by lra. assert (y * (1 - u) ^ a <= y * t) by (apply Rmult_le_compat_l; lra). assert (y' * (1 - u) ^ a <= y' * s) by (apply Rmult_le_compat_l; lra). lra.
      + apply (Rmult_le_reg_r (y + y')); [lra|]. unfold Rdiv.
        replace ((y * t + y' * s) * / (y + y') * (1 - u) ^ a * (y + y')) with (y * (t * (1 - u) ^ a) + y' * (s * (1 - u) ^ a)) by (field; lra).
        assert (y * (t * (1 - u) ^ a) <= y * 1) by (apply Rmult_le_compat_l; lra). assert (y' * (s * (1 - u) ^ a) <= y' * 1) by (apply Rmult_le_compat_l; lra). lra.
  Qed.
  Lemma close_sqrt a x y : 0 <= y -> close (a + a) x y -> close a (sqrt x) (sqrt y).
  Proof.
    intros Hy (t & H1 & H2 & ->). pose proof (pw_pos a) as Hp. rewrite pow_add in H1, H2. assert (Ht : 0 < t) by nra.
    exists (sqrt t). split; [|split; [|apply sqrt_mult; lra]].
    - rewrite <- (sqrt_square ((1 - u) ^ a)) by lra. apply sqrt_le_1; nra.
    - rewrite <- (sqrt_square ((1 - u) ^ a)) by lra. rewrite <- sqrt_mult by nra. apply Rle_trans with (sqrt 1); [apply sqrt_le_1; nra|rewrite sqrt_1; lra].
  Qed.
  Lemma bernoulli k : 1 - INR k * u <= (1 - u) ^ k.
  Proof.
    destruct HR as [[Hu Hu1] _]. induction k as [|k IH]; [cbn; lra|]. rewrite S_INR. cbn [pow]. pose proof (pos_INR k). nra.
  Qed.
  Lemma close_gamma k x y : INR k * u < 1 -> close k x y -> Rabs (x - y) <= gamma k u * Rabs y.
  Proof.
    intros Hk (t & H1 & H2 & ->). pose proof (bernoulli k) as B. pose proof (pw_pos k). destruct HR as [[Hu Hu1] _].
    replace (y * t - y) with ((t - 1) * y) by ring. rewrite Rabs_mult. apply Rmult_le_compat_r; [apply Rabs_pos|].
    pose proof (pos_INR k). unfold gamma. set (c := INR k * u) in *. assert (0 <= c) by (unfold c; nra).
    assert (Ht : t <= 1 / (1 - c)). { apply (Rmult_le_reg_r (1 - c)); [lra|]. unfold Rdiv. rewrite Rmult_assoc, Rinv_l by lra. assert (t * (1 - c) <= t * (1 - u) ^ k) by (apply Rmult_le_compat_l; lra). lra. }
    assert (E : c / (1 - c) = 1 / (1 - c) - 1) by (field; lra).
    assert (c <= c / (1 - c)). { apply (Rmult_le_reg_r (1 - c)); [lra|]. unfold Rdiv. rewrite Rmult_assoc, Rinv_l by lra. nra. }
    apply Rabs_le. lra.
  Qed.
End Close.

Lemma get0 {A} (a : A) l : np_get (a :: l) 0 = Ok a.
Proof. reflexivity. Qed.
Lemma get1 {A} (a b : A) : np_get [a; b] 1 = Ok b.
Proof. reflexivity. Qed.
Ltac chain := lazymatch goal with HR : rounding ?u ?rnd |- _ => lazymatch goal with
  | |- close _ _ (rnd _) _ => eapply (close_rnd u rnd HR); chain
  | |- close _ _ (_ * _) (_ * _) => eapply (close_mul u rnd HR); chain
  | |- close _ _ ?x ?x => apply close_refl
  | _ => idtac end end.
Section Bar.
  Variables (u : R) (rnd : R -> R).
  Hypothesis HR : rounding u rnd.
  Notation cl := (close u).
  Notation F := (Num_F rnd).
  Variables x0 y0 x1 y1 : R.
  Hypothesis Hne : x0 <> x1 \/ y0 <> y1.

  Lemma nis0_F x : @nis0 R F x = @nis0 R Num_R x.
  Proof. reflexivity. Qed.
  Lemma nis0_R x : x <> 0 -> @nis0 R Num_R x = false.
  Proof. intros H. unfold nis0. cbn. destruct (Rle_dec x 0); destruct (Rle_dec 0 x); cbn; try reflexivity. exfalso. apply H. lra. Qed.
  Definition ax_len : R := sqrt ((x1 - x0) * (x1 - x0) + ((y1 - y0) * (y1 - y0) + 0)).
  Lemma ax_len_pos : 0 < ax_len.
  Proof. apply sqrt_lt_R0. rewrite Rplus_0_r. pose proof (Rle_0_sqr (x1 - x0)). pose proof (Rle_0_sqr (y1 - y0)). unfold Rsqr in *. destruct Hne; [assert (0 < (x1 - x0) * (x1 - x0)) by (apply Rsqr_pos_lt; lra)|assert (0 < (y1 - y0) * (y1 - y0)) by (apply Rsqr_pos_lt; lra)]; lra. Qed.
  Lemma axis_exact : @axis R Num_R [[x0; y0]; [x1; y1]] = Ok ((x1 - x0) / ax_len, (y1 - y0) / ax_len, ax_len).
  Proof.
    pose proof ax_len_pos as HL. unfold axis. rewrite (get1 [x0; y0] [x1; y1]), (get0 [x0; y0] [[x1; y1]]). cbn [bind length Nat.eqb guard combine map fst snd fold_right].
    rewrite get0. cbn [bind]. rewrite get1. cbn [bind]. change (nsqrt _) with ax_len. rewrite nis0_R by lra. reflexivity. Qed.
  Lemma axis_close : exists nx ny L, @axis R F [[x0; y0]; [x1; y1]] = Ok (nx, ny, L) /\ cl 6 nx ((x1 - x0) / ax_len) /\ cl 6 ny ((y1 - y0) / ax_len) /\ cl 4 L ax_len.
  Proof.
    set (v := rnd (x1 - x0)). set (w := rnd (y1 - y0)). set (L := rnd (sqrt (rnd (rnd (v * v) + rnd (rnd (w * w) + 0))))).
    assert (Cv : cl 1 v (x1 - x0)) by (apply (close_rnd u rnd HR 0), close_refl). assert (Cw : cl 1 w (y1 - y0)) by (apply (close_rnd u rnd HR 0), close_refl).
    assert (CL : cl 4 L ax_len).
    { apply (close_rnd u rnd HR 3). apply (close_sqrt u rnd HR 3); [pose proof (Rle_0_sqr (x1 - x0)); pose proof (Rle_0_sqr (y1 - y0)); unfold Rsqr in *; lra|].
      apply (close_mono u rnd HR 5); [lia|]. apply (close_rnd u rnd HR 4). apply (close_add u rnd HR 4); [apply Rle_0_sqr|rewrite Rplus_0_r; apply Rle_0_sqr| |].
      - apply (close_mono u rnd HR 3); [lia|]. apply (close_rnd u rnd HR 2). exact (close_mul u rnd HR 1 1 _ _ _ _ Cv Cv).
      - apply (close_rnd u rnd HR 3). rewrite !Rplus_0_r. apply (close_rnd u rnd HR 2). exact (close_mul u rnd HR 1 1 _ _ _ _ Cw Cw). }
    assert (L <> 0). { pose proof ax_len_pos. destruct CL as (t & Ht & _ & E). rewrite E. pose proof (pw_pos u rnd HR 4). assert (0 < ax_len * t) by (apply Rmult_lt_0_compat; lra). lra. }
    exists (rnd (v / L)), (rnd (w / L)), L. split; [|split; [|split; [|exact CL]]].
    - unfold axis. rewrite (get1 [x0; y0] [x1; y1]), (get0 [x0; y0] [[x1; y1]]). cbn [bind length Nat.eqb guard combine map fst snd fold_right].
      rewrite get0. cbn [bind]. rewrite get1. cbn [bind]. change (nsqrt _) with L. rewrite nis0_F, nis0_R by assumption. reflexivity.
    - apply (close_rnd u rnd HR 5). exact (close_div u rnd HR 1 4 _ _ _ _ Cv CL).
    - apply (close_rnd u rnd HR 5). exact (close_div u rnd HR 1 4 _ _ _ _ Cw CL).
  Qed.
  (** K = Q^T (s A) Q, entry by entry *)
  Lemma congr_close nx ny s nx' ny' s' : cl 6 nx nx' -> cl 6 ny ny' -> cl 6 s s' -> forall i j, (i < 4)%nat -> (j < 4)%nat ->
    cl 25 (ent (@congr R F 2 4 (@axial_Q R F nx ny) (@mscale R F s (@axial_K R F))) i j) (ent (@congr R Num_R 2 4 (@axial_Q R Num_R nx' ny') (@mscale R Num_R s' (@axial_K R Num_R))) i j).
  Proof.
    intros Cx Cy Cs.
    intros i j Hi Hj. destruct i as [|[|[|[|i]]]]; try lia; destruct j as [|[|[|[|j]]]]; try lia; cbn; rewrite ?Rmult_0_l, ?Rmult_0_r, ?Rplus_0_l, ?Rplus_0_r, ?(rnd0 u rnd HR), ?Rmult_0_l, ?Rmult_0_r, ?Rplus_0_l, ?Rplus_0_r, ?(rnd0 u rnd HR), ?Rplus_0_l, ?Rplus_0_r.
    all: refine (close_mono u rnd HR _ 25 _ _ _ _); [|chain; eassumption]; lia.
  Qed.
  Lemma truss_close young area rest : exists K M K' M', @truss2D R F [[x0; y0]; [x1; y1]] (young :: area :: rest) = Ok (K, M2 M) /\ @truss2D R Num_R [[x0; y0]; [x1; y1]] (young :: area :: rest) = Ok (K', M2 M') /\
    (INR 25 * u < 1 -> entries_close (gamma 25 u) 4 K K' /\ entries_close (gamma 10 u) 4 M M').
  Proof.
    destruct axis_close as (nx & ny & L & EF & Cx & Cy & CL). unfold truss2D. rewrite EF, axis_exact. cbn [bind]. do 4 eexists. split; [reflexivity|]. split; [reflexivity|]. intros Hu.
    assert (Hu0 : 0 <= u) by apply HR.
    split.
    - split; [apply shape_mk_mat|]. split; [apply shape_mk_mat|]. intros i j Hi Hj. apply (close_gamma u rnd HR); [exact Hu|]. apply congr_close; try assumption.
      apply (close_rnd u rnd HR 5). refine (close_div u rnd HR 1 4 _ _ _ _ _ CL). apply (close_rnd u rnd HR 0), close_refl.
    - set (d := opt_dens (young :: area :: rest)). change (@opt_dens R F (young :: area :: rest)) with d.
      assert (Hd : close u 8 (@ndiv R F (@nmul R F (@nmul R F area L) d) (@nz R F 6)) (@ndiv R Num_R (@nmul R Num_R (@nmul R Num_R area ax_len) d) (@nz R Num_R 6))).
      { apply (close_rnd u rnd HR 7). refine (close_div u rnd HR 6 1 _ _ _ _ _ _); [|apply (close_rnd u rnd HR 0), close_refl].
        apply (close_rnd u rnd HR 5). refine (close_mul u rnd HR 5 0 _ _ _ _ _ (close_refl u d)). apply (close_rnd u rnd HR 4). exact (close_mul u rnd HR 0 4 _ _ _ _ (close_refl u area) CL). }
      set (a := @ndiv R F _ _) in *. set (b := @ndiv R Num_R _ _) in *. clearbody a b.
      split; [split; [reflexivity|repeat constructor]|]. split; [split; [reflexivity|repeat constructor]|].
      intros i j Hi Hj. apply (close_gamma u rnd HR); [replace (INR 25) with (INR 10 + 15) in Hu by (cbn; ring); nra|].
      destruct i as [|[|[|[|i]]]]; try lia; destruct j as [|[|[|[|j]]]]; try lia; cbn;
        rewrite ?Rmult_0_r, ?(rnd0 u rnd HR); (refine (close_mono u rnd HR _ 10 _ _ _ _); [|chain; eassumption]; lia).
  Qed.
End Bar.
