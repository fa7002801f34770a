(** * Lemmas: a smooth plane field without strain is rigid *)
From Coq Require Import Reals Lra Psatz.
Local Open Scope R_scope.

(** ** continuity in two variables *)
Definition cont2 (f : R -> R -> R) (r0 s0 : R) : Prop :=
  forall eps, 0 < eps -> exists del, 0 < del /\ forall r s, Rabs (r - r0) < del -> Rabs (s - s0) < del -> Rabs (f r s - f r0 s0) < eps.
Lemma cont2_const c r0 s0 : cont2 (fun _ _ => c) r0 s0.
Proof. intros eps He. exists 1. split; [lra|]. intros. rewrite Rminus_diag_eq by reflexivity. rewrite Rabs_R0. exact He. Qed.
Lemma cont2_fst r0 s0 : cont2 (fun r _ => r) r0 s0.
Proof. intros eps He. exists eps. split; [exact He|]. auto. Qed.
Lemma cont2_snd r0 s0 : cont2 (fun _ s => s) r0 s0.
Proof. intros eps He. exists eps. split; [exact He|]. auto. Qed.
Lemma cont2_two f g r0 s0 eps : cont2 f r0 s0 -> cont2 g r0 s0 -> 0 < eps ->
  exists del, 0 < del /\ forall r s, Rabs (r - r0) < del -> Rabs (s - s0) < del -> Rabs (f r s - f r0 s0) < eps /\ Rabs (g r s - g r0 s0) < eps.
Proof.
  intros Hf Hg He. destruct (Hf eps He) as (d1 & P1 & H1). destruct (Hg eps He) as (d2 & P2 & H2).
  exists (Rmin d1 d2). split; [apply Rmin_pos; assumption|]. intros r s A B.
  pose proof (Rmin_l d1 d2). pose proof (Rmin_r d1 d2). split; [apply H1|apply H2]; lra.
Qed.
Lemma cont2_plus f g r0 s0 : cont2 f r0 s0 -> cont2 g r0 s0 -> cont2 (fun r s => f r s + g r s) r0 s0.
Proof.
  intros Hf Hg eps He. destruct (cont2_two f g r0 s0 (eps / 2) Hf Hg ltac:(lra)) as (d & P & H). exists d. split; [exact P|].
  intros r s A B. destruct (H r s A B) as [X Y]. replace (f r s + g r s - (f r0 s0 + g r0 s0)) with ((f r s - f r0 s0) + (g r s - g r0 s0)) by ring.
  pose proof (Rabs_triang (f r s - f r0 s0) (g r s - g r0 s0)). lra.
Qed.
Lemma cont2_mult f g r0 s0 : cont2 f r0 s0 -> cont2 g r0 s0 -> cont2 (fun r s => f r s * g r s) r0 s0.
Proof.
  intros Hf Hg eps He. set (a := Rabs (f r0 s0)). set (b := Rabs (g r0 s0)).
  assert (Ha : 0 <= a) by apply Rabs_pos. assert (Hb : 0 <= b) by apply Rabs_pos.
  set (e := Rmin 1 (eps / (1 + a + b))). assert (He0 : 0 < eps / (1 + a + b)) by (apply Rdiv_lt_0_compat; lra).
  assert (P : 0 < e) by (apply Rmin_pos; lra). assert (E1 : e <= 1) by apply Rmin_l.
  assert (E2 : e * (1 + a + b) <= eps).
  { apply Rle_trans with (eps / (1 + a + b) * (1 + a + b)); [apply Rmult_le_compat_r; [lra|apply Rmin_r]|]. right. field. lra. }
  destruct (cont2_two f g r0 s0 e Hf Hg P) as (d & Pd & H). exists d. split; [exact Pd|].
  intros r s A B. destruct (H r s A B) as [X Y].
  replace (f r s * g r s - f r0 s0 * g r0 s0) with ((f r s - f r0 s0) * (g r s - g r0 s0) + f r0 s0 * (g r s - g r0 s0) + g r0 s0 * (f r s - f r0 s0)) by ring.
  set (p := f r s - f r0 s0) in *. set (q := g r s - g r0 s0) in *.
  pose proof (Rabs_triang (p * q + f r0 s0 * q) (g r0 s0 * p)) as T1. pose proof (Rabs_triang (p * q) (f r0 s0 * q)) as T2.
  rewrite !Rabs_mult in *. fold a in T1, T2 |- *. fold b in T1 |- *. pose proof (Rabs_pos p). pose proof (Rabs_pos q).
  assert (M1 : Rabs p * Rabs q <= 1 * Rabs q) by (apply Rmult_le_compat_r; lra).
  assert (M2 : a * Rabs q <= a * e) by (apply Rmult_le_compat_l; lra).
  assert (M3 : b * Rabs p <= b * e) by (apply Rmult_le_compat_l; lra). lra.
Qed.
Lemma cont2_minus f g r0 s0 : cont2 f r0 s0 -> cont2 g r0 s0 -> cont2 (fun r s => f r s - g r s) r0 s0.
Proof.
  intros Hf Hg eps He. destruct (cont2_two f g r0 s0 (eps / 2) Hf Hg ltac:(lra)) as (d & P & H). exists d. split; [exact P|].
  intros r s A B. destruct (H r s A B) as [X Y]. replace (f r s - g r s - (f r0 s0 - g r0 s0)) with ((f r s - f r0 s0) + - (g r s - g r0 s0)) by ring.
  pose proof (Rabs_triang (f r s - f r0 s0) (- (g r s - g r0 s0))). rewrite Rabs_Ropp in *. lra.
Qed.
Lemma cont2_nonzero f r0 s0 : cont2 f r0 s0 -> f r0 s0 <> 0 ->
  exists del, 0 < del /\ forall r s, Rabs (r - r0) < del -> Rabs (s - s0) < del -> f r s <> 0.
Proof.
  intros Hf H0. destruct (Hf (Rabs (f r0 s0)) (Rabs_pos_lt _ H0)) as (d & P & H). exists d. split; [exact P|].
  intros r s A B E. specialize (H r s A B). rewrite E in H. rewrite Rminus_0_l, Rabs_Ropp in H. lra.
Qed.

(** ** functions with derivatives *)
Record smooth (f fr fs frr frs fss : R -> R -> R) : Prop := {
  sm_r : forall r s, derivable_pt_lim (fun t => f t s) r (fr r s);
  sm_s : forall r s, derivable_pt_lim (fun t => f r t) s (fs r s);
  sm_rr : forall r s, derivable_pt_lim (fun t => fr t s) r (frr r s);
  sm_rs : forall r s, derivable_pt_lim (fun t => fr r t) s (frs r s);
  sm_sr : forall r s, derivable_pt_lim (fun t => fs t s) r (frs r s);
  sm_ss : forall r s, derivable_pt_lim (fun t => fs r t) s (fss r s)
}.

Lemma dpl_eq f a l l' : derivable_pt_lim f a l -> l = l' -> derivable_pt_lim f a l'.
Proof. intros H <-. exact H. Qed.
Lemma dpl_det f g h k a f' g' h' k' : derivable_pt_lim f a f' -> derivable_pt_lim g a g' -> derivable_pt_lim h a h' -> derivable_pt_lim k a k' ->
  derivable_pt_lim (fun t => f t * g t - h t * k t) a (f' * g a + f a * g' - (h' * k a + h a * k')).
Proof. intros. exact (derivable_pt_lim_minus _ _ _ _ _ (derivable_pt_lim_mult _ _ _ _ _ H H0) (derivable_pt_lim_mult _ _ _ _ _ H1 H2)). Qed.
Lemma dpl_mult f g a f' g' : derivable_pt_lim f a f' -> derivable_pt_lim g a g' -> derivable_pt_lim (fun t => f t * g t) a (f' * g a + f a * g').
Proof. intros. exact (derivable_pt_lim_mult _ _ _ _ _ H H0). Qed.
Lemma dpl_ext f g a l : (forall t, f t = g t) -> derivable_pt_lim f a l -> derivable_pt_lim g a l.
Proof. intros E H eps He. destruct (H eps He) as [d Hd]. exists d. intros h h0 hd. rewrite <- !E. apply Hd; assumption. Qed.
Lemma dpl_same f g a l l' : (forall t, f t = g t) -> derivable_pt_lim f a l -> derivable_pt_lim g a l' -> l = l'.
Proof. intros E H H'. exact (uniqueness_limite g a l l' (dpl_ext f g a l E H) H'). Qed.

Lemma flat_line f a b : (forall c, Rmin a b <= c <= Rmax a b -> derivable_pt_lim f c 0) -> f a = f b.
Proof.
  intros H. destruct (Rtotal_order a b) as [L|[->|L]]; [|reflexivity|].
  - rewrite Rmin_left, Rmax_right in H by lra. destruct (MVT_cor2 f (fun _ => 0) a b L H) as (c & E & _). lra.
  - rewrite Rmin_right, Rmax_left in H by lra. destruct (MVT_cor2 f (fun _ => 0) b a L H) as (c & E & _). lra.
Qed.

Section Rigid.
  Variables x xr xs xrr xrs xss : R -> R -> R.
  Variables y yr ys yrr yrs yss : R -> R -> R.
  Variables u ur us urr urs uss : R -> R -> R.
  Variables v vr vs vrr vrs vss : R -> R -> R.
  Hypothesis Hx : smooth x xr xs xrr xrs xss.
  Hypothesis Hy : smooth y yr ys yrr yrs yss.
  Hypothesis Hu : smooth u ur us urr urs uss.
  Hypothesis Hv : smooth v vr vs vrr vrs vss.
  Let d r s := xr r s * ys r s - xs r s * yr r s.
  Let q r s := vr r s * ys r s - vs r s * yr r s.
  Hypothesis e0 : forall r s, ur r s * ys r s - us r s * yr r s = 0.
  Hypothesis e1 : forall r s, xr r s * vs r s - xs r s * vr r s = 0.
  Hypothesis e2 : forall r s, xr r s * us r s - xs r s * ur r s + q r s = 0.

  Lemma parts r s : d r s * vr r s = q r s * xr r s /\ d r s * vs r s = q r s * xs r s /\
    d r s * ur r s = - q r s * yr r s /\ d r s * us r s = - q r s * ys r s.
  Proof.
    pose proof (e0 r s) as E0. pose proof (e1 r s) as E1. pose proof (e2 r s) as E2. unfold d, q in *.
    set (a := xr r s) in *. set (b := xs r s) in *. set (c := yr r s) in *. set (e := ys r s) in *.
    set (f := ur r s) in *. set (g := us r s) in *. set (h := vr r s) in *. set (k := vs r s) in *.
    assert (F1 : a * k = b * h) by lra. assert (F0 : f * e = g * c) by lra. assert (F2 : h * e - k * c = b * f - a * g) by lra.
    repeat split.
    - transitivity (a * h * e - (b * h) * c); [ring|]. rewrite <- F1. ring.
    - transitivity ((a * k) * e - b * c * k); [ring|]. rewrite F1. ring.
    - rewrite F2. transitivity (a * (f * e) - b * c * f); [ring|]. rewrite F0. ring.
    - rewrite F2. transitivity (a * e * g - b * (g * c)); [ring|]. rewrite <- F0. ring.
  Qed.

  Let d_r r s := xrr r s * ys r s + xr r s * yrs r s - (xrs r s * yr r s + xs r s * yrr r s).
  Let d_s r s := xrs r s * ys r s + xr r s * yss r s - (xss r s * yr r s + xs r s * yrs r s).
  Let q_r r s := vrr r s * ys r s + vr r s * yrs r s - (vrs r s * yr r s + vs r s * yrr r s).
  Let q_s r s := vrs r s * ys r s + vr r s * yss r s - (vss r s * yr r s + vs r s * yrs r s).
  Lemma d_der_r r s : derivable_pt_lim (fun t => d t s) r (d_r r s).
  Proof. exact (dpl_det _ _ _ _ r _ _ _ _ (sm_rr _ _ _ _ _ _ Hx r s) (sm_sr _ _ _ _ _ _ Hy r s) (sm_sr _ _ _ _ _ _ Hx r s) (sm_rr _ _ _ _ _ _ Hy r s)). Qed.
  Lemma d_der_s r s : derivable_pt_lim (fun t => d r t) s (d_s r s).
  Proof. exact (dpl_det _ _ _ _ s _ _ _ _ (sm_rs _ _ _ _ _ _ Hx r s) (sm_ss _ _ _ _ _ _ Hy r s) (sm_ss _ _ _ _ _ _ Hx r s) (sm_rs _ _ _ _ _ _ Hy r s)). Qed.
  Lemma q_der_r r s : derivable_pt_lim (fun t => q t s) r (q_r r s).
  Proof. exact (dpl_det _ _ _ _ r _ _ _ _ (sm_rr _ _ _ _ _ _ Hv r s) (sm_sr _ _ _ _ _ _ Hy r s) (sm_sr _ _ _ _ _ _ Hv r s) (sm_rr _ _ _ _ _ _ Hy r s)). Qed.
  Lemma q_der_s r s : derivable_pt_lim (fun t => q r t) s (q_s r s).
  Proof. exact (dpl_det _ _ _ _ s _ _ _ _ (sm_rs _ _ _ _ _ _ Hv r s) (sm_ss _ _ _ _ _ _ Hy r s) (sm_ss _ _ _ _ _ _ Hv r s) (sm_rs _ _ _ _ _ _ Hy r s)). Qed.

  Lemma mixed r s : d r s * (q r s * d_s r s - d r s * q_s r s) = 0 /\ d r s * (q r s * d_r r s - d r s * q_r r s) = 0.
  Proof.
    assert (Vs : d_s r s * vr r s + d r s * vrs r s = q_s r s * xr r s + q r s * xrs r s).
    { refine (dpl_same (fun t => d r t * vr r t) (fun t => q r t * xr r t) s _ _ (fun t => proj1 (parts r t)) _ _).
      - exact (dpl_mult _ _ s _ _ (d_der_s r s) (sm_rs _ _ _ _ _ _ Hv r s)).
      - exact (dpl_mult _ _ s _ _ (q_der_s r s) (sm_rs _ _ _ _ _ _ Hx r s)). }
    assert (Vr : d_r r s * vs r s + d r s * vrs r s = q_r r s * xs r s + q r s * xrs r s).
    { refine (dpl_same (fun t => d t s * vs t s) (fun t => q t s * xs t s) r _ _ (fun t => proj1 (proj2 (parts t s))) _ _).
      - exact (dpl_mult _ _ r _ _ (d_der_r r s) (sm_sr _ _ _ _ _ _ Hv r s)).
      - exact (dpl_mult _ _ r _ _ (q_der_r r s) (sm_sr _ _ _ _ _ _ Hx r s)). }
    assert (Us : d_s r s * ur r s + d r s * urs r s = - q_s r s * yr r s + - q r s * yrs r s).
    { refine (dpl_same (fun t => d r t * ur r t) (fun t => - q r t * yr r t) s _ _ (fun t => proj1 (proj2 (proj2 (parts r t)))) _ _).
      - exact (dpl_mult _ _ s _ _ (d_der_s r s) (sm_rs _ _ _ _ _ _ Hu r s)).
      - exact (dpl_mult _ _ s _ _ (derivable_pt_lim_opp _ _ _ (q_der_s r s)) (sm_rs _ _ _ _ _ _ Hy r s)). }
    assert (Ur : d_r r s * us r s + d r s * urs r s = - q_r r s * ys r s + - q r s * yrs r s).
    { refine (dpl_same (fun t => d t s * us t s) (fun t => - q t s * ys t s) r _ _ (fun t => proj2 (proj2 (proj2 (parts t s)))) _ _).
      - exact (dpl_mult _ _ r _ _ (d_der_r r s) (sm_sr _ _ _ _ _ _ Hu r s)).
      - exact (dpl_mult _ _ r _ _ (derivable_pt_lim_opp _ _ _ (q_der_r r s)) (sm_sr _ _ _ _ _ _ Hy r s)). }
    destruct (parts r s) as (P1 & P2 & P3 & P4).
    set (D := d r s) in *. set (Q := q r s) in *. set (A := Q * d_s r s - D * q_s r s). set (B := Q * d_r r s - D * q_r r s).
    assert (X : xr r s * A = xs r s * B).
    { unfold A, B. assert (E : d_s r s * vr r s - d_r r s * vs r s = q_s r s * xr r s - q_r r s * xs r s) by lra.
      assert (E' : d_s r s * (D * vr r s) - d_r r s * (D * vs r s) = D * (q_s r s * xr r s - q_r r s * xs r s)) by (rewrite <- E; ring).
      rewrite P1, P2 in E'. lra. }
    assert (Y : yr r s * A = ys r s * B).
    { unfold A, B. assert (E : d_s r s * ur r s - d_r r s * us r s = - q_s r s * yr r s + q_r r s * ys r s) by lra.
      assert (E' : d_s r s * (D * ur r s) - d_r r s * (D * us r s) = D * (- q_s r s * yr r s + q_r r s * ys r s)) by (rewrite <- E; ring).
      rewrite P3, P4 in E'. lra. }
    assert (HD : D = xr r s * ys r s - xs r s * yr r s) by reflexivity. rewrite HD. split.
    - transitivity (ys r s * (xr r s * A) - xs r s * (yr r s * A)); [ring|]. rewrite X, Y. ring.
    - transitivity (xr r s * (ys r s * B) - yr r s * (xs r s * B)); [ring|]. rewrite <- X, <- Y. ring.
  Qed.

  Variables r0 s0 del : R.
  Hypothesis Hdel : 0 < del.
  Hypothesis Hd : forall r s, Rabs (r - r0) < del -> Rabs (s - s0) < del -> d r s <> 0.

  Lemma between a c : Rabs (a - r0) < del -> Rmin r0 a <= c <= Rmax r0 a -> Rabs (c - r0) < del.
  Proof. intros H1 H2. revert H1 H2. unfold Rmin, Rmax. destruct (Rle_dec r0 a); unfold Rabs; destruct (Rcase_abs (a - r0)), (Rcase_abs (c - r0)); lra. Qed.
  Lemma between' a c : Rabs (a - s0) < del -> Rmin s0 a <= c <= Rmax s0 a -> Rabs (c - s0) < del.
  Proof. intros H1 H2. revert H1 H2. unfold Rmin, Rmax. destruct (Rle_dec s0 a); unfold Rabs; destruct (Rcase_abs (a - s0)), (Rcase_abs (c - s0)); lra. Qed.

  (** a function with zero derivatives on the rectangle is constant *)
  Lemma flat_rect (f : R -> R -> R) :
    (forall r s, Rabs (r - r0) < del -> Rabs (s - s0) < del -> derivable_pt_lim (fun t => f t s) r 0 /\ derivable_pt_lim (fun t => f r t) s 0) ->
    forall r s, Rabs (r - r0) < del -> Rabs (s - s0) < del -> f r s = f r0 s0.
  Proof.
    intros H r s Hr Hs. transitivity (f r0 s).
    - symmetry. apply (flat_line (fun t => f t s)). intros c Hc. apply H; [exact (between r c Hr Hc)|exact Hs].
    - symmetry. apply (flat_line (fun t => f r0 t)). intros c Hc. apply H; [|exact (between' s c Hs Hc)]. rewrite Rminus_diag_eq by reflexivity. rewrite Rabs_R0. exact Hdel.
  Qed.

  Theorem rigid_field : exists a b w, forall r s, Rabs (r - r0) < del -> Rabs (s - s0) < del ->
    u r s = a - w * y r s /\ v r s = b + w * x r s.
  Proof.
    set (w := q r0 s0 / d r0 s0).
    assert (W : forall r s, Rabs (r - r0) < del -> Rabs (s - s0) < del -> q r s = w * d r s).
    { intros r s Hr Hs. assert (E : q r s / d r s = w).
      { unfold w. apply (flat_rect (fun r s => q r s / d r s)); [|exact Hr|exact Hs]. clear r s Hr Hs. intros r s Hr Hs. pose proof (Hd r s Hr Hs) as D0.
        destruct (mixed r s) as [M1 M2]. apply Rmult_integral in M1. apply Rmult_integral in M2. destruct M1 as [M1|M1]; [contradiction|]. destruct M2 as [M2|M2]; [contradiction|]. split.
        - refine (dpl_eq _ _ _ _ (derivable_pt_lim_div _ _ _ _ _ (q_der_r r s) (d_der_r r s) D0) _). unfold Rsqr.
          replace (q_r r s * d r s - d_r r s * q r s) with (- (q r s * d_r r s - d r s * q_r r s)) by ring. rewrite M2. unfold Rdiv. ring.
        - refine (dpl_eq _ _ _ _ (derivable_pt_lim_div _ _ _ _ _ (q_der_s r s) (d_der_s r s) D0) _). unfold Rsqr.
          replace (q_s r s * d r s - d_s r s * q r s) with (- (q r s * d_s r s - d r s * q_s r s)) by ring. rewrite M1. unfold Rdiv. ring. }
      rewrite <- E. field. exact (Hd r s Hr Hs). }
    assert (G : forall r s, Rabs (r - r0) < del -> Rabs (s - s0) < del -> vr r s = w * xr r s /\ vs r s = w * xs r s /\ ur r s = - w * yr r s /\ us r s = - w * ys r s).
    { intros r s Hr Hs. pose proof (Hd r s Hr Hs) as D0. destruct (parts r s) as (P1 & P2 & P3 & P4). rewrite (W r s Hr Hs) in *.
      repeat split; apply (Rmult_eq_reg_l (d r s)); try exact D0; [rewrite P1|rewrite P2|rewrite P3|rewrite P4]; ring. }
    exists (u r0 s0 + w * y r0 s0), (v r0 s0 - w * x r0 s0), w. intros r s Hr Hs. split.
    - enough (E : u r s + w * y r s = u r0 s0 + w * y r0 s0) by lra.
      apply (flat_rect (fun r s => u r s + w * y r s)); [|exact Hr|exact Hs]. clear r s Hr Hs. intros r s Hr Hs. destruct (G r s Hr Hs) as (_ & _ & G1 & G2). split.
      + refine (dpl_eq _ _ _ _ (derivable_pt_lim_plus _ _ _ _ _ (sm_r _ _ _ _ _ _ Hu r s) (derivable_pt_lim_scal _ w _ _ (sm_r _ _ _ _ _ _ Hy r s))) _). rewrite G1. ring.
      + refine (dpl_eq _ _ _ _ (derivable_pt_lim_plus _ _ _ _ _ (sm_s _ _ _ _ _ _ Hu r s) (derivable_pt_lim_scal _ w _ _ (sm_s _ _ _ _ _ _ Hy r s))) _). rewrite G2. ring.
    - enough (E : v r s - w * x r s = v r0 s0 - w * x r0 s0) by lra.
      apply (flat_rect (fun r s => v r s - w * x r s)); [|exact Hr|exact Hs]. clear r s Hr Hs. intros r s Hr Hs. destruct (G r s Hr Hs) as (G1 & G2 & _ & _). split.
      + refine (dpl_eq _ _ _ _ (derivable_pt_lim_minus _ _ _ _ _ (sm_r _ _ _ _ _ _ Hv r s) (derivable_pt_lim_scal _ w _ _ (sm_r _ _ _ _ _ _ Hx r s))) _). rewrite G1. ring.
      + refine (dpl_eq _ _ _ _ (derivable_pt_lim_minus _ _ _ _ _ (sm_s _ _ _ _ _ _ Hv r s) (derivable_pt_lim_scal _ w _ _ (sm_s _ _ _ _ _ _ Hx r s))) _). rewrite G2. ring.
  Qed.
End Rigid.

(** ** polynomials of degree two in each variable; coefficient (i, j) goes with r^i s^j *)
Definition bq (c : nat -> nat -> R) (r s : R) : R :=
  (c 0%nat 0%nat + c 0%nat 1%nat * s + c 0%nat 2%nat * s * s) + (c 1%nat 0%nat + c 1%nat 1%nat * s + c 1%nat 2%nat * s * s) * r +
  (c 2%nat 0%nat + c 2%nat 1%nat * s + c 2%nat 2%nat * s * s) * r * r.
Definition bq_r (c : nat -> nat -> R) (r s : R) : R :=
  (c 1%nat 0%nat + c 1%nat 1%nat * s + c 1%nat 2%nat * s * s) + 2 * (c 2%nat 0%nat + c 2%nat 1%nat * s + c 2%nat 2%nat * s * s) * r.
Definition bq_s (c : nat -> nat -> R) (r s : R) : R :=
  (c 0%nat 1%nat + 2 * c 0%nat 2%nat * s) + (c 1%nat 1%nat + 2 * c 1%nat 2%nat * s) * r + (c 2%nat 1%nat + 2 * c 2%nat 2%nat * s) * r * r.
Definition bq_rr (c : nat -> nat -> R) (r s : R) : R := 2 * (c 2%nat 0%nat + c 2%nat 1%nat * s + c 2%nat 2%nat * s * s).
Definition bq_rs (c : nat -> nat -> R) (r s : R) : R := (c 1%nat 1%nat + 2 * c 1%nat 2%nat * s) + 2 * (c 2%nat 1%nat + 2 * c 2%nat 2%nat * s) * r.
Definition bq_ss (c : nat -> nat -> R) (r s : R) : R := 2 * (c 0%nat 2%nat + c 1%nat 2%nat * r + c 2%nat 2%nat * r * r).

Lemma dpl_quad a b c t : derivable_pt_lim (fun x => a + b * x + c * x * x) t (b + 2 * c * t).
Proof.
  intros eps He. set (k := Rabs c + 1). assert (Hk : 0 < k) by (unfold k; pose proof (Rabs_pos c); lra).
  assert (Hp : 0 < eps / k) by (apply Rdiv_lt_0_compat; lra). exists (mkposreal _ Hp). intros h h0 hd. cbn in hd.
  replace ((a + b * (t + h) + c * (t + h) * (t + h) - (a + b * t + c * t * t)) / h - (b + 2 * c * t)) with (c * h) by (field; exact h0).
  rewrite Rabs_mult. apply Rle_lt_trans with (k * Rabs h); [apply Rmult_le_compat_r; [apply Rabs_pos|unfold k; lra]|].
  apply (Rmult_lt_reg_r (/ k)); [apply Rinv_0_lt_compat; exact Hk|]. replace (k * Rabs h * / k) with (Rabs h) by (field; lra). exact hd.
Qed.
Lemma dpl_poly f a b c t l : (forall x, f x = a + b * x + c * x * x) -> l = b + 2 * c * t -> derivable_pt_lim f t l.
Proof. intros E ->. exact (dpl_ext _ f t _ (fun x => eq_sym (E x)) (dpl_quad a b c t)). Qed.

Lemma bq_smooth c : smooth (bq c) (bq_r c) (bq_s c) (bq_rr c) (bq_rs c) (bq_ss c).
Proof.
  split; intros r s.
  - apply (dpl_poly _ (c 0%nat 0%nat + c 0%nat 1%nat * s + c 0%nat 2%nat * s * s) (c 1%nat 0%nat + c 1%nat 1%nat * s + c 1%nat 2%nat * s * s) (c 2%nat 0%nat + c 2%nat 1%nat * s + c 2%nat 2%nat * s * s)); [intros x; unfold bq; ring|unfold bq_r; ring].
  - apply (dpl_poly _ (c 0%nat 0%nat + c 1%nat 0%nat * r + c 2%nat 0%nat * r * r) (c 0%nat 1%nat + c 1%nat 1%nat * r + c 2%nat 1%nat * r * r) (c 0%nat 2%nat + c 1%nat 2%nat * r + c 2%nat 2%nat * r * r)); [intros x; unfold bq; ring|unfold bq_s; ring].
  - apply (dpl_poly _ (c 1%nat 0%nat + c 1%nat 1%nat * s + c 1%nat 2%nat * s * s) (2 * (c 2%nat 0%nat + c 2%nat 1%nat * s + c 2%nat 2%nat * s * s)) 0); [intros x; unfold bq_r; ring|unfold bq_rr; ring].
  - apply (dpl_poly _ (c 1%nat 0%nat + 2 * c 2%nat 0%nat * r) (c 1%nat 1%nat + 2 * c 2%nat 1%nat * r) (c 1%nat 2%nat + 2 * c 2%nat 2%nat * r)); [intros x; unfold bq_r; ring|unfold bq_rs; ring].
  - apply (dpl_poly _ (c 0%nat 1%nat + 2 * c 0%nat 2%nat * s) (c 1%nat 1%nat + 2 * c 1%nat 2%nat * s) (c 2%nat 1%nat + 2 * c 2%nat 2%nat * s)); [intros x; unfold bq_s; ring|unfold bq_rs; ring].
  - apply (dpl_poly _ (c 0%nat 1%nat + c 1%nat 1%nat * r + c 2%nat 1%nat * r * r) (2 * (c 0%nat 2%nat + c 1%nat 2%nat * r + c 2%nat 2%nat * r * r)) 0); [intros x; unfold bq_s; ring|unfold bq_ss; ring].
Qed.
Lemma cont2_det (c1 c2 : nat -> nat -> R) r0 s0 : cont2 (fun r s => bq_r c1 r s * bq_s c2 r s - bq_s c1 r s * bq_r c2 r s) r0 s0.
Proof.
  unfold bq_r, bq_s. repeat first [apply cont2_minus|apply cont2_plus|apply cont2_mult|apply cont2_const|apply cont2_fst|apply cont2_snd].
Qed.

(** three zeros of a quadratic; a polynomial that is zero on a rectangle is zero *)
Lemma quad_zero a b c t h : h <> 0 -> a + b * (t - h) + c * (t - h) * (t - h) = 0 -> a + b * t + c * t * t = 0 -> a + b * (t + h) + c * (t + h) * (t + h) = 0 ->
  a = 0 /\ b = 0 /\ c = 0.
Proof.
  intros H0 H1 H2 H3. assert (C : c * (h * h) = 0) by nra. apply Rmult_integral in C. destruct C as [C|C]; [|nra]. subst c.
  assert (B : b * h = 0) by lra. apply Rmult_integral in B. destruct B as [B|B]; [|contradiction]. subst b. lra.
Qed.
Lemma bq_zero c r0 s0 del : 0 < del -> (forall r s, Rabs (r - r0) < del -> Rabs (s - s0) < del -> bq c r s = 0) -> forall r s, bq c r s = 0.
Proof.
  intros Hdel H. assert (A : forall z, Rabs (z - del / 2 - z) < del /\ Rabs (z - z) < del /\ Rabs (z + del / 2 - z) < del).
  { intros z. repeat split; unfold Rabs; destruct (Rcase_abs _); lra. }
  destruct (A r0) as (R1 & R2 & R3). destruct (A s0) as (S1 & S2 & S3).
  assert (Q : forall s, Rabs (s - s0) < del -> c 0%nat 0%nat + c 0%nat 1%nat * s + c 0%nat 2%nat * s * s = 0 /\ c 1%nat 0%nat + c 1%nat 1%nat * s + c 1%nat 2%nat * s * s = 0 /\
     c 2%nat 0%nat + c 2%nat 1%nat * s + c 2%nat 2%nat * s * s = 0).
  { intros s Hs. apply (quad_zero _ _ _ r0 (del / 2)); [lra| | |]; [exact (H _ s R1 Hs)|exact (H _ s R2 Hs)|exact (H _ s R3 Hs)]. }
  destruct (Q _ S1) as (A1 & B1 & C1). destruct (Q _ S2) as (A2 & B2 & C2). destruct (Q _ S3) as (A3 & B3 & C3).
  destruct (quad_zero _ _ _ s0 (del / 2) ltac:(lra) A1 A2 A3) as (Z1 & Z2 & Z3).
  destruct (quad_zero _ _ _ s0 (del / 2) ltac:(lra) B1 B2 B3) as (Z4 & Z5 & Z6).
  destruct (quad_zero _ _ _ s0 (del / 2) ltac:(lra) C1 C2 C3) as (Z7 & Z8 & Z9).
  intros r s. unfold bq. rewrite Z1, Z2, Z3, Z4, Z5, Z6, Z7, Z8, Z9. ring.
Qed.

(** the form used for elements *)
Theorem bq_rigid cx cy cu cv r0 s0 :
  (forall r s, bq_r cu r s * bq_s cy r s - bq_s cu r s * bq_r cy r s = 0) ->
  (forall r s, bq_r cx r s * bq_s cv r s - bq_s cx r s * bq_r cv r s = 0) ->
  (forall r s, bq_r cx r s * bq_s cu r s - bq_s cx r s * bq_r cu r s + (bq_r cv r s * bq_s cy r s - bq_s cv r s * bq_r cy r s) = 0) ->
  bq_r cx r0 s0 * bq_s cy r0 s0 - bq_s cx r0 s0 * bq_r cy r0 s0 <> 0 ->
  exists a b w, forall r s, bq cu r s = a - w * bq cy r s /\ bq cv r s = b + w * bq cx r s.
Proof.
  intros E0 E1 E2 D0. destruct (cont2_nonzero _ r0 s0 (cont2_det cx cy r0 s0) D0) as (del & P & H).
  destruct (rigid_field _ _ _ _ _ _ _ _ _ _ _ _ _ _ _ _ _ _ _ _ _ _ _ _ (bq_smooth cx) (bq_smooth cy) (bq_smooth cu) (bq_smooth cv) E0 E1 E2 r0 s0 del P H) as (a & b & w & F).
  exists a, b, w. intros r s. split.
  - enough (E : bq (fun i j => cu i j + w * cy i j - (if (i + j =? 0)%nat then a else 0)) r s = 0) by (unfold bq in E |- *; cbn [Nat.add Nat.eqb] in E; lra).
    revert r s. apply (bq_zero _ r0 s0 del P). intros r s Hr Hs. destruct (F r s Hr Hs) as [F1 _]. unfold bq in F1 |- *. cbn [Nat.add Nat.eqb]. lra.
  - enough (E : bq (fun i j => cv i j - w * cx i j - (if (i + j =? 0)%nat then b else 0)) r s = 0) by (unfold bq in E |- *; cbn [Nat.add Nat.eqb] in E; lra).
    revert r s. apply (bq_zero _ r0 s0 del P). intros r s Hr Hs. destruct (F r s Hr Hs) as [_ F1]. unfold bq in F1 |- *. cbn [Nat.add Nat.eqb]. lra.
Qed.
