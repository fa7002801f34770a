(** * Integrals of polynomials; tensor rules (proof support) *)
From Coq Require Import Reals List Arith Lia Lra ZArith QArith.
From Verif Require Import Num GaussTab Gauss Spec SpecQuad LinR Base.
Import ListNotations.
Local Open Scope R_scope.

Lemma integral_unique f a b I J : integral f a b I -> integral f a b J -> I = J.
Proof.
  intros [F [HF ->]] [G [HG ->]].
  assert (D : forall x, derivable_pt_lim (fun t => F t - G t) x 0).
  { intros x. replace 0 with (f x - f x) by ring. apply (derivable_pt_lim_minus F G); auto. }
  assert (pr : derivable (fun t => F t - G t)) by (intros x; exists 0; apply D).
  assert (C : constant (fun t => F t - G t)).
  { apply null_derivative_1 with pr. intros x. apply (derive_pt_eq_0 _ _ _ (pr x)), D. }
  specialize (C a b). cbn in C. lra.
Qed.

Lemma integral_ext f g a b I : (forall x, f x = g x) -> integral f a b I -> integral g a b I.
Proof. intros E [F [HF HI]]. exists F. split; [|exact HI]. intros x. rewrite <- E. apply HF. Qed.

Lemma integral_plus f g a b I J : integral f a b I -> integral g a b J -> integral (fun x => f x + g x) a b (I + J).
Proof.
  intros [F [HF ->]] [G [HG ->]]. exists (fun x => F x + G x). split; [|ring].
  intros x. apply (derivable_pt_lim_plus F G); auto.
Qed.

Lemma integral_scal c f a b I : integral f a b I -> integral (fun x => c * f x) a b (c * I).
Proof.
  intros [F [HF ->]]. exists (fun x => c * F x). split; [|ring].
  intros x. apply (derivable_pt_lim_scal F c); auto.
Qed.

Lemma integral_zero a b : integral (fun _ => 0) a b 0.
Proof. exists (fun _ => 0). split; [|ring]. intros x. apply derivable_pt_lim_const. Qed.

Lemma integral_lsum {A} (l : list A) (f : A -> R -> R) (I : A -> R) a b :
  (forall t, In t l -> integral (f t) a b (I t)) -> integral (fun x => lsum (fun t => f t x) l) a b (lsum I l).
Proof.
  induction l as [|t l IH]; cbn; intros H; [apply integral_zero|].
  apply integral_plus; [apply H; now left|apply IH; intros; apply H; now right].
Qed.

Lemma integral_pow n a b : integral (fun x => x ^ n) a b ((b ^ S n - a ^ S n) / INR (S n)).
Proof.
  exists (fun x => / INR (S n) * x ^ S n). split.
  - intros x. replace (x ^ n) with (/ INR (S n) * (INR (S n) * x ^ n)) by (field; apply not_0_INR; lia).
    apply (derivable_pt_lim_scal (fun x => x ^ S n)). apply (derivable_pt_lim_pow x (S n)).
  - field. apply not_0_INR; lia.
Qed.

Lemma integral_pow0 n y : integral (fun x => x ^ n) 0 y (y ^ S n / INR (S n)).
Proof.
  assert (H := integral_pow n 0 y). replace (y ^ S n / INR (S n)) with ((y ^ S n - 0 ^ S n) / INR (S n)); [exact H|].
  rewrite (pow_i (S n)) by lia. now rewrite Rminus_0_r.
Qed.

(** factorials as reals *)
Definition fac (n : nat) : R := INR (fact n).
Lemma fac_pos n : 0 < fac n. Proof. apply lt_0_INR, lt_O_fact. Qed.
Lemma fac_S n : fac (S n) = INR (S n) * fac n.
Proof. unfold fac. rewrite <- mult_INR. reflexivity. Qed.

Lemma integral_beta i n : integral (fun x => x ^ i * (1 - x) ^ n) 0 1 (fac i * fac n / fac (S (i + n))).
Proof.
  revert i; induction n as [|n IH]; intros i.
  - apply (integral_ext (fun x => x ^ i)); [intros; cbn; ring|].
    replace (fac i * fac 0 / fac (S (i + 0))) with (1 ^ S i / INR (S i)); [apply integral_pow0|].
    rewrite Nat.add_0_r, fac_S, pow1. unfold fac at 2. change (INR (fact 0)) with 1.
    assert (0 < fac i) by apply fac_pos. assert (INR (S i) <> 0) by (apply not_0_INR; lia). field. repeat split; first [assumption|lra].
  - apply (integral_ext (fun x => x ^ i * (1 - x) ^ n + -1 * (x ^ S i * (1 - x) ^ n))); [intros; cbn [pow]; ring|].
    replace (fac i * fac (S n) / fac (S (i + S n))) with
      (fac i * fac n / fac (S (i + n)) + -1 * (fac (S i) * fac n / fac (S (S i + n)))).
    + apply integral_plus; [apply IH|apply integral_scal, IH].
    + replace (S (i + S n)) with (S (S (i + n))) by lia. replace (S (S i + n)) with (S (S (i + n))) by lia.
      rewrite (fac_S (S (i + n))), (fac_S i), (fac_S n).
      rewrite (S_INR (S (i + n))), (S_INR (i + n)), (S_INR i), (S_INR n), plus_INR.
      assert (0 < fac (S (i + n))) by apply fac_pos.
      assert (0 <= INR i) by apply pos_INR. assert (0 <= INR n) by apply pos_INR. field. lra.
Qed.

(** ** One variable *)
Lemma poly1_integral p a b :
  integral (poly1 p) a b (lsum (fun '(c, i) => c * ((b ^ S i - a ^ S i) / INR (S i))) p).
Proof.
  unfold poly1.
  apply (integral_ext (fun x => lsum (fun t => fst t * x ^ snd t) p)).
  { intros x. apply lsum_ext. now intros [c i] _. }
  replace (lsum (fun '(c, i) => c * ((b ^ S i - a ^ S i) / INR (S i))) p)
    with (lsum (fun t : R * nat => fst t * ((b ^ S (snd t) - a ^ S (snd t)) / INR (S (snd t)))) p)
    by (apply lsum_ext; now intros [c i] _).
  apply (integral_lsum p (fun t x => fst t * x ^ snd t)). intros [c i] _. apply integral_scal, integral_pow.
Qed.

(** ** Triangle *)
Lemma tri_unique f I J : integral_tri f I -> integral_tri f J -> I = J.
Proof.
  intros [g [Hg HI]] [h [Hh HJ]]. apply (integral_unique g 0 1); [exact HI|].
  apply (integral_ext h); [|exact HJ]. intros x. exact (integral_unique _ _ _ _ _ (Hh x) (Hg x)).
Qed.

Lemma tri_ext f g I : (forall x y, f x y = g x y) -> integral_tri f I -> integral_tri g I.
Proof.
  intros E [h [Hh HI]]. exists h. split; [|exact HI]. intros x. apply (integral_ext (f x)); auto.
Qed.

Lemma tri_lsum {A} (l : list A) (f : A -> R -> R -> R) (I : A -> R) :
  (forall t, integral_tri (f t) (I t)) -> integral_tri (fun x y => lsum (fun t => f t x y) l) (lsum I l).
Proof.
  intros H. induction l as [|t l IH]; cbn.
  - exists (fun _ => 0). split; [intros; apply integral_zero|apply integral_zero].
  - destruct (H t) as [g [Hg HI]], IH as [h [Hh HJ]]. exists (fun x => g x + h x).
    split; [intros x; exact (integral_plus _ _ _ _ _ _ (Hg x) (Hh x))|exact (integral_plus _ _ _ _ _ _ HI HJ)].
Qed.

Lemma tri_scal c f I : integral_tri f I -> integral_tri (fun x y => c * f x y) (c * I).
Proof.
  intros [g [Hg HI]]. exists (fun x => c * g x).
  split; [intros x; apply (integral_scal c (f x)); auto|apply integral_scal; auto].
Qed.

Lemma tri_mono_gen i j n :
  integral_tri (fun x y => x ^ i * y ^ j * (1 - x - y) ^ n) (fac i * fac j * fac n / fac (S (S (i + j + n)))).
Proof.
  exists (fun x => x ^ i * (fac j * fac n / fac (S (j + n)) * (1 - x) ^ S (j + n))). split.
  - intros x. destruct (Req_dec (1 - x) 0) as [E|E].
    + rewrite E. rewrite (pow_i (S (j + n))) by lia. rewrite !Rmult_0_r.
      (* an antiderivative exists, the interval is a point *)
      assert (P : exists F, forall y, derivable_pt_lim F y (x ^ i * y ^ j * (0 - y) ^ n)).
      { destruct (integral_pow (j + n) 0 0) as [F [HF _]]. exists (fun y => x ^ i * (-1) ^ n * F y).
        intros y. replace (x ^ i * y ^ j * (0 - y) ^ n) with (x ^ i * (-1) ^ n * y ^ (j + n)).
        - apply (derivable_pt_lim_scal F), HF.
        - rewrite pow_add. replace (0 - y) with (-1 * y) by ring. rewrite Rpow_mult_distr. ring. }
      destruct P as [F HF]. exists F. split; [|ring]. exact HF.
    + destruct (integral_beta j n) as [F [HF HI]]. set (s := 1 - x) in *.
      exists (fun y => x ^ i * s ^ S (j + n) * F (y / s)). split.
      * intros y. replace (x ^ i * y ^ j * (s - y) ^ n) with
          (x ^ i * s ^ S (j + n) * ((y / s) ^ j * (1 - y / s) ^ n * / s)).
        -- apply (derivable_pt_lim_scal (fun y => F (y / s))).
           apply (derivable_pt_lim_comp (fun y => y / s) F); [|apply HF].
           replace (/ s) with (/ s * 1) by ring.
           apply (derivable_pt_lim_ext (fun y => / s * y)); [intros; unfold Rdiv; ring|].
           apply (derivable_pt_lim_scal id), derivable_pt_lim_id.
        -- replace (1 - y / s) with ((s - y) / s) by (field; exact E). unfold Rdiv. rewrite !Rpow_mult_distr.
           cbn [pow]. rewrite pow_add, !pow_inv. field. split; [|split]; try apply pow_nonzero; exact E.
      * unfold Rdiv at 2 3. rewrite Rmult_0_l, Rinv_r by exact E. rewrite HI. ring.
  - replace (fac i * fac j * fac n / fac (S (S (i + j + n)))) with
      (fac j * fac n / fac (S (j + n)) * (fac i * fac (S (j + n)) / fac (S (i + S (j + n))))).
    + apply (integral_ext (fun x => fac j * fac n / fac (S (j + n)) * (x ^ i * (1 - x) ^ S (j + n)))); [intros; ring|].
      apply integral_scal, integral_beta.
    + replace (S (i + S (j + n))) with (S (S (i + j + n))) by lia.
      assert (0 < fac (S (j + n))) by apply fac_pos. assert (0 < fac (S (S (i + j + n)))) by apply fac_pos. field. lra.
Qed.

Lemma tri_mono i j : integral_tri (fun x y => x ^ i * y ^ j) (fac i * fac j / fac (i + j + 2)).
Proof.
  apply (tri_ext (fun x y => x ^ i * y ^ j * (1 - x - y) ^ 0)); [intros; cbn; ring|].
  replace (fac i * fac j / fac (i + j + 2)) with (fac i * fac j * fac 0 / fac (S (S (i + j + 0)))).
  - apply tri_mono_gen.
  - replace (S (S (i + j + 0))) with (i + j + 2)%nat by lia. unfold fac at 3. change (INR (fact 0)) with 1. unfold Rdiv. ring.
Qed.

Lemma poly2_integral p : integral_tri (poly2 p) (lsum (fun '(c, (i, j)) => c * (fac i * fac j / fac (i + j + 2))) p).
Proof.
  apply (tri_ext (fun x y => lsum (fun t => fst t * (x ^ fst (snd t) * y ^ snd (snd t))) p)).
  { intros x y. apply lsum_ext. now intros [c [i j]] _. }
  replace (lsum (fun '(c, (i, j)) => c * (fac i * fac j / fac (i + j + 2))) p)
    with (lsum (fun t : R * (nat * nat) => fst t * (fac (fst (snd t)) * fac (snd (snd t)) / fac (fst (snd t) + snd (snd t) + 2))) p)
    by (apply lsum_ext; now intros [c [i j]] _).
  apply (tri_lsum p (fun t x y => fst t * (x ^ fst (snd t) * y ^ snd (snd t)))). intros [c [i j]].
  apply tri_scal, tri_mono.
Qed.

(** ** Tetrahedron *)
Lemma tet_unique f I J : integral_tet f I -> integral_tet f J -> I = J.
Proof.
  intros [g [Hg HI]] [h [Hh HJ]]. apply (tri_unique g); [exact HI|].
  apply (tri_ext h); [|exact HJ]. intros x y. exact (integral_unique _ _ _ _ _ (Hh x y) (Hg x y)).
Qed.

Lemma tet_ext f g I : (forall x y z, f x y z = g x y z) -> integral_tet f I -> integral_tet g I.
Proof.
  intros E [h [Hh HI]]. exists h. split; [|exact HI]. intros x y. apply (integral_ext (f x y)); auto.
Qed.

Lemma tri_plus f g I J : integral_tri f I -> integral_tri g J -> integral_tri (fun x y => f x y + g x y) (I + J).
Proof.
  intros [h [Hh HI]] [k [Hk HJ]]. exists (fun x => h x + k x).
  split; [intros x; apply (integral_plus (f x)); auto|apply integral_plus; auto].
Qed.

Lemma tet_lsum {A} (l : list A) (f : A -> R -> R -> R -> R) (I : A -> R) :
  (forall t, integral_tet (f t) (I t)) -> integral_tet (fun x y z => lsum (fun t => f t x y z) l) (lsum I l).
Proof.
  intros H. induction l as [|t l IH]; cbn.
  - exists (fun _ _ => 0). split; [intros; apply integral_zero|].
    exists (fun _ => 0). split; [intros; apply integral_zero|apply integral_zero].
  - destruct (H t) as [g [Hg HI]], IH as [h [Hh HJ]]. exists (fun x y => g x y + h x y).
    split; [intros x y; exact (integral_plus _ _ _ _ _ _ (Hg x y) (Hh x y))|exact (tri_plus _ _ _ _ HI HJ)].
Qed.

Lemma tet_scal c f I : integral_tet f I -> integral_tet (fun x y z => c * f x y z) (c * I).
Proof.
  intros [g [Hg HI]]. exists (fun x y => c * g x y).
  split; [intros x y; apply (integral_scal c (f x y)); auto|apply tri_scal; auto].
Qed.

Lemma tet_mono i j k :
  integral_tet (fun x y z => x ^ i * y ^ j * z ^ k) (fac i * fac j * fac k / fac (i + j + k + 3)).
Proof.
  exists (fun x y => / INR (S k) * (x ^ i * y ^ j * (1 - x - y) ^ S k)). split.
  - intros x y. replace (/ INR (S k) * (x ^ i * y ^ j * (1 - x - y) ^ S k))
      with (x ^ i * y ^ j * ((1 - x - y) ^ S k / INR (S k))) by (unfold Rdiv; ring).
    apply integral_scal, integral_pow0.
  - replace (fac i * fac j * fac k / fac (i + j + k + 3))
      with (/ INR (S k) * (fac i * fac j * fac (S k) / fac (S (S (i + j + S k))))).
    + apply tri_scal, tri_mono_gen.
    + replace (S (S (i + j + S k))) with (i + j + k + 3)%nat by lia. rewrite (fac_S k). field.
      split; [apply Rgt_not_eq, fac_pos|apply not_0_INR; lia].
Qed.

Lemma poly3_integral p :
  integral_tet (poly3 p) (lsum (fun '(c, (i, j, k)) => c * (fac i * fac j * fac k / fac (i + j + k + 3))) p).
Proof.
  set (f := fun (t : R * (nat * nat * nat)) x y z => let '(c, (i, j, k)) := t in c * (x ^ i * y ^ j * z ^ k)).
  set (I := fun t : R * (nat * nat * nat) => let '(c, (i, j, k)) := t in c * (fac i * fac j * fac k / fac (i + j + k + 3))).
  apply (tet_lsum p f I). intros [c [[i j] k]]. unfold f, I. apply tet_scal, tet_mono.
Qed.

(** ** Tensor rules *)
Lemma product_length {A} (l : list A) d : length (product l d) = (length l ^ d)%nat.
Proof.
  assert (H : forall q (m : list A), length (flat_map (fun x => map (cons x) q) m) = (length m * length q)%nat).
  { intros q m. induction m as [|x m IHm]; [reflexivity|]. cbn. rewrite app_length, map_length, IHm. reflexivity. }
  induction d as [|d IH]; [reflexivity|]. cbn [product Nat.pow]. rewrite H, IH. reflexivity.
Qed.

Lemma product_In {A} (l : list A) d x : In x (product l d) -> length x = d /\ Forall (fun a => In a l) x.
Proof.
  revert x; induction d as [|d IH]; cbn; intros x H.
  - destruct H as [<-|[]]. split; [reflexivity|constructor].
  - apply in_flat_map in H as [a [Ha H]]. apply in_map_iff in H as [y [<- Hy]].
    destruct (IH y Hy) as [E F]. split; [cbn; congruence|constructor; assumption].
Qed.

Lemma combine_app {A B} (l1 l2 : list A) (m1 m2 : list B) : length l1 = length m1 ->
  combine (l1 ++ l2) (m1 ++ m2) = combine l1 m1 ++ combine l2 m2.
Proof.
  revert m1; induction l1 as [|a l1 IH]; intros [|b m1]; cbn; intros E; try discriminate; [reflexivity|].
  now rewrite IH by congruence.
Qed.

Lemma nprod_prodl (l : list R) : nprod l = prodl l.
Proof. reflexivity. Qed.

Lemma tensor_rule (pts wts : list R) d : length pts = length wts -> forall fs, length fs = d ->
  rule (product pts d) (map nprod (product wts d)) (tensor fs) = prodl (map (rule1 pts wts) fs).
Proof.
  intros L. unfold rule, rule1. induction d as [|d IH]; intros fs Hf.
  - destruct fs; [|discriminate]. cbn. ring.
  - destruct fs as [|f fs]; [discriminate|]. injection Hf as Hf. cbn [product map prodl fold_right].
    fold (prodl (map (fun f0 => lsum (fun '(x, w) => w * f0 x) (combine pts wts)) fs)). rewrite <- (IH fs Hf). clear IH.
    assert (LP : length (product pts d) = length (product wts d)) by (rewrite !product_length; congruence).
    set (P := product pts d) in *. set (W := product wts d) in *. clearbody P W.
    revert wts L; induction pts as [|x pts IHp]; intros [|w wts] L; try discriminate; [cbn; ring|].
    cbn [flat_map combine]. rewrite map_app, combine_app by (rewrite !map_length; exact LP).
    rewrite lsum_app, IHp by (cbn in L; congruence).
    cbn [lsum fold_right]. fold (lsum (fun '(x0, w0) => w0 * f x0) (combine pts wts)).
    rewrite Rmult_plus_distr_r. f_equal.
    clear -LP. revert W LP; induction P as [|p P IH]; intros [|v W] LP; try discriminate; [cbn; ring|].
    specialize (IH W ltac:(cbn in LP; congruence)). cbn [map combine].
    unfold lsum in IH |- *. cbn [fold_right] in IH |- *. rewrite IH.
    cbn [tensor nth tl]. rewrite !nprod_prodl. cbn [prodl fold_right]. fold (prodl v). change (nprod v) with (prodl v). ring.
Qed.
