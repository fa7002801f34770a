(** * Proofs: energy and kinetic energy of polynomial fields *)
From Coq Require Import String Reals List Arith Lia Lra Bool ZArith QArith Qreals.
From Verif Require Import Num LinAlg Gauss Fem Uel Spec LinR Base ElemShape BarProofs SpecElem SpecShape ShapeProofs ElemCore Sampled Elem2 Elem2Props.
From Verif Require Import SpecQuad QuadProofs QuadTables QuadFinal SpecEnergy.
Import ListNotations.
Local Open Scope R_scope.

(** ** polynomial arithmetic *)
Lemma poly2_cons c i j p r s : poly2 ((c, (i, j)) :: p) r s = c * (r ^ i * s ^ j) + poly2 p r s.
Proof. reflexivity. Qed.
Lemma poly2_app p q r s : poly2 (p ++ q) r s = poly2 p r s + poly2 q r s.
Proof. unfold poly2. rewrite lsum_app. reflexivity. Qed.
Lemma poly2_scale k p r s : poly2 (pscale k p) r s = k * poly2 p r s.
Proof.
  induction p as [|[c [i j]] p IH]; [unfold poly2; cbn; ring|].
  cbn [pscale map]. rewrite !poly2_cons. fold (pscale k p). rewrite IH. ring.
Qed.
Lemma poly2_mul p q r s : poly2 (pmul p q) r s = poly2 p r s * poly2 q r s.
Proof.
  induction p as [|[c [i j]] p IH]; [unfold poly2; cbn; ring|].
  cbn [pmul flat_map]. rewrite poly2_app, poly2_cons. fold (pmul p q). rewrite IH.
  rewrite Rmult_plus_distr_r. f_equal. clear. induction q as [|[d [k l]] q IH]; [unfold poly2; cbn; ring|].
  cbn [map]. rewrite !poly2_cons, IH, !pow_add. ring.
Qed.

Lemma poly2_dr_cons c i j p r s : poly2 (d_r ((c, (i, j)) :: p)) r s = c * (INR i * r ^ pred i * s ^ j) + poly2 (d_r p) r s.
Proof.
  cbn [d_r flat_map]. rewrite poly2_app. fold (d_r p). f_equal. destruct i; [unfold poly2; cbn; ring|].
  rewrite poly2_cons. cbn [pred]. unfold poly2. cbn [lsum fold_right]. ring.
Qed.
Lemma poly2_ds_cons c i j p r s : poly2 (d_s ((c, (i, j)) :: p)) r s = c * (r ^ i * (INR j * s ^ pred j)) + poly2 (d_s p) r s.
Proof.
  cbn [d_s flat_map]. rewrite poly2_app. fold (d_s p). f_equal. destruct j; [unfold poly2; cbn; ring|].
  rewrite poly2_cons. cbn [pred]. unfold poly2. cbn [lsum fold_right]. ring.
Qed.

(** the lists of terms are the derivatives *)
Lemma d_r_derives p r s : derivable_pt_lim (fun x => poly2 p x s) r (poly2 (d_r p) r s).
Proof.
  induction p as [|[c [i j]] p IH].
  - unfold poly2. cbn. apply derivable_pt_lim_const.
  - rewrite poly2_dr_cons. apply (derivable_pt_lim_plus (fun x => c * (x ^ i * s ^ j)) (fun x => poly2 p x s)); [|exact IH].
    apply (derivable_pt_lim_scal (fun x => x ^ i * s ^ j)).
    replace (INR i * r ^ pred i * s ^ j) with (INR i * r ^ pred i * s ^ j + r ^ i * 0) by ring.
    apply (derivable_pt_lim_mult (fun x => x ^ i) (fun _ => s ^ j)); [apply derivable_pt_lim_pow|apply derivable_pt_lim_const].
Qed.
Lemma d_s_derives p r s : derivable_pt_lim (fun y => poly2 p r y) s (poly2 (d_s p) r s).
Proof.
  induction p as [|[c [i j]] p IH].
  - unfold poly2. cbn. apply derivable_pt_lim_const.
  - rewrite poly2_ds_cons. apply (derivable_pt_lim_plus (fun y => c * (r ^ i * y ^ j)) (fun y => poly2 p r y)); [|exact IH].
    apply (derivable_pt_lim_scal (fun y => r ^ i * y ^ j)). apply (derivable_pt_lim_scal (fun y => y ^ j)). apply derivable_pt_lim_pow.
Qed.

(** ** powers *)
Definition upto (a : nat) (p : pol) : Prop := Forall (fun t => (fst (snd t) + snd (snd t) <= a)%nat) p.
Definition box (a b : nat) (p : pol) : Prop := Forall (fun t => (fst (snd t) <= a)%nat /\ (snd (snd t) <= b)%nat) p.

Lemma upto_app a p q : upto a p -> upto a q -> upto a (p ++ q).
Proof. intros. apply Forall_app; auto. Qed.
Lemma box_app a b p q : box a b p -> box a b q -> box a b (p ++ q).
Proof. intros. apply Forall_app; auto. Qed.
Lemma upto_scale a k p : upto a p -> upto a (pscale k p).
Proof. unfold upto, pscale. rewrite Forall_map. apply Forall_impl. intros [c [i j]]; cbn; auto. Qed.
Lemma box_scale a b k p : box a b p -> box a b (pscale k p).
Proof. unfold box, pscale. rewrite Forall_map. apply Forall_impl. intros [c [i j]]; cbn; auto. Qed.
Lemma upto_mul a b c p q : upto a p -> upto b q -> (a + b <= c)%nat -> upto c (pmul p q).
Proof.
  intros Hp Hq L. unfold upto, pmul in *. rewrite Forall_flat_map. revert Hp. apply Forall_impl. intros [k [i j]] H. cbn in H.
  rewrite Forall_map. revert Hq. apply Forall_impl. intros [d [m l]] H'. cbn in *. lia.
Qed.
Lemma box_mul a b a' b' c d p q : box a b p -> box a' b' q -> (a + a' <= c)%nat -> (b + b' <= d)%nat -> box c d (pmul p q).
Proof.
  intros Hp Hq L L'. unfold box, pmul in *. rewrite Forall_flat_map. revert Hp. apply Forall_impl. intros [k [i j]] H. cbn in H.
  rewrite Forall_map. revert Hq. apply Forall_impl. intros [e [m l]] H'. cbn in *. lia.
Qed.
Lemma upto_le a b p : upto a p -> (a <= b)%nat -> upto b p.
Proof. intros H L. revert H. apply Forall_impl. intros; lia. Qed.
Lemma box_le a b c d p : box a b p -> (a <= c)%nat -> (b <= d)%nat -> box c d p.
Proof. intros H L L'. revert H. apply Forall_impl. intros; lia. Qed.
Lemma upto_dr a p : upto a p -> upto (pred a) (d_r p).
Proof.
  unfold upto, d_r. rewrite Forall_flat_map. apply Forall_impl. intros [k [[|i] j]] H; cbn in *; [constructor|].
  constructor; [cbn; lia|constructor].
Qed.
Lemma upto_ds a p : upto a p -> upto (pred a) (d_s p).
Proof.
  unfold upto, d_s. rewrite Forall_flat_map. apply Forall_impl. intros [k [i [|j]]] H; cbn in *; [constructor|].
  constructor; [cbn; lia|constructor].
Qed.
Lemma box_dr a b p : box a b p -> box (pred a) b (d_r p).
Proof.
  unfold box, d_r. rewrite Forall_flat_map. apply Forall_impl. intros [k [[|i] j]] H; cbn in *; [constructor|].
  constructor; [cbn; lia|constructor].
Qed.
Lemma box_ds a b p : box a b p -> box a (pred b) (d_s p).
Proof.
  unfold box, d_s. rewrite Forall_flat_map. apply Forall_impl. intros [k [i [|j]]] H; cbn in *; [constructor|].
  constructor; [cbn; lia|constructor].
Qed.

(** ** integrals over the square *)
Lemma sq_unique f I J : integral_sq f I -> integral_sq f J -> I = J.
Proof.
  intros [g [Hg HI]] [h [Hh HJ]]. apply (integral_unique g (-1) 1); [exact HI|].
  apply (integral_ext h); [|exact HJ]. intros x. exact (integral_unique _ _ _ _ _ (Hh x) (Hg x)).
Qed.
Lemma poly2_sq p : integral_sq (poly2 p) (lsum (fun t : R * (nat * nat) => fst t * (pow_int (fst (snd t)) * pow_int (snd (snd t)))) p).
Proof.
  exists (fun x => lsum (fun t : R * (nat * nat) => (fst t * x ^ fst (snd t)) * pow_int (snd (snd t))) p). split.
  - intros x. apply (integral_ext (fun y => lsum (fun t : R * (nat * nat) => (fst t * x ^ fst (snd t)) * y ^ snd (snd t)) p)).
    { intros y. unfold poly2. apply lsum_ext. intros [c [i j]] _. cbn. ring. }
    apply (integral_lsum p (fun t y => (fst t * x ^ fst (snd t)) * y ^ snd (snd t))). intros t _.
    apply integral_scal. apply pow_int_spec.
  - apply (integral_ext (fun x => lsum (fun t : R * (nat * nat) => (fst t * pow_int (snd (snd t))) * x ^ fst (snd t)) p)).
    { intros x. apply lsum_ext. intros t _. ring. }
    rewrite (lsum_ext _ (fun t : R * (nat * nat) => (fst t * pow_int (snd (snd t))) * pow_int (fst (snd t)))) by (intros; ring).
    apply (integral_lsum p (fun t x => (fst t * pow_int (snd (snd t))) * x ^ fst (snd t))). intros t _.
    apply integral_scal. apply pow_int_spec.
Qed.

Lemma gauss_sq_degree n pts wts p I a : @gauss_nd R Num_R n 2 = Ok (pts, wts) ->
  box a a p -> (Z.of_nat a <= 2 * n - 1)%Z -> integral_sq (poly2 p) I ->
  Rabs (rule2 pts wts (poly2 p) - I) <= 1 / 1000000000000 * size p.
Proof.
  intros H Hp Hn HI. rewrite (sq_unique _ _ _ HI (poly2_sq p)), rule2_poly.
  apply (lift p (fun ij => rule2 pts wts (fun x y => x ^ fst ij * y ^ snd ij)) (fun ij => pow_int (fst ij) * pow_int (snd ij))); [lra|].
  intros [c [i j]] Ht. cbn [fst snd]. unfold box in Hp. rewrite Forall_forall in Hp. specialize (Hp _ Ht). cbn in Hp.
  assert (B := gauss_nd_monomials n 2 pts wts [i; j] [pow_int i; pow_int j] H eq_refl).
  eapply Rle_trans; [|eapply Rle_trans; [apply B|]].
  - right. f_equal. f_equal.
    + unfold rule2, rule. apply lsum_ext. intros [x w] _. cbn [tensor map]. destruct x as [|x1 [|x2 x]]; cbn; ring.
    + cbn. ring.
  - repeat constructor; try lia; apply pow_int_spec.
  - cbn. lra.
Qed.
