(** * Proofs: shape functions *)
From Coq Require Import Reals List Arith Lia Lra ZArith QArith Qreals.
From Verif Require Import Num LinAlg Fem Spec LinR SpecShape.
Import ListNotations.
Local Open Scope R_scope.

Definition shapes2 : list (R -> R -> list R * list (list R)) :=
  [shape_tri3; shape_tri6; shape_quad4; shape_quad8; shape_quad9].
Definition shapes3 : list (R -> R -> R -> list R * list (list R)) := [shape_tet4; shape_hex8].

Ltac shp := unfold shape_tri3, shape_tri6, shape_quad4, shape_quad8, shape_quad9, shape_tet4,
  shape_hex8, vscale, mscale, npow; cbn [fst snd map]; numR; q2r.

(** ** partition of unity *)
Lemma unity2 sh : In sh shapes2 -> forall r s,
  total (fst (sh r s)) = 1 /\ length (snd (sh r s)) = 2%nat /\
  Forall (fun row => total row = 0 /\ length row = length (fst (sh r s))) (snd (sh r s)).
Proof.
  intros Hin r s.
  repeat (destruct Hin as [<-|Hin]; [shp; unfold total, lsum; cbn [fold_right length];
    split; [field|]; split; [reflexivity|];
    repeat (apply Forall_cons; [split; [cbn [fold_right]; field|reflexivity]|]); apply Forall_nil|]). destruct Hin.
Qed.

Lemma unity3 sh : In sh shapes3 -> forall r s t,
  total (fst (sh r s t)) = 1 /\ length (snd (sh r s t)) = 3%nat /\
  Forall (fun row => total row = 0 /\ length row = length (fst (sh r s t))) (snd (sh r s t)).
Proof.
  intros Hin r s t.
  repeat (destruct Hin as [<-|Hin]; [shp; unfold total, lsum; cbn [fold_right length];
    split; [field|]; split; [reflexivity|];
    repeat (apply Forall_cons; [split; [cbn [fold_right]; field|reflexivity]|]); apply Forall_nil|]). destruct Hin.
Qed.

(** ** Kronecker *)
Ltac kron i j Hi Hj :=
  repeat (destruct i as [|i]; [|try (exfalso; cbn in Hi; lia)]);
  try (exfalso; cbn in Hi; lia);
  (repeat (destruct j as [|j]; [|try (exfalso; cbn in Hj; lia)]);
   try (exfalso; cbn in Hj; lia));
  cbn [nth fst snd Nat.eqb app ref_tri3 ref_tri6 ref_quad4 ref_quad8 ref_quad9 ref_tet4 ref_hex8]; lra.

Lemma forall_lt_list {A} (P : nat -> A -> Prop) d (l : list A) :
  (forall j, (j < length l)%nat -> P j (nth j l d)) <->
  Forall (fun ja => P (fst ja) (snd ja)) (combine (seq 0 (length l)) l).
Proof.
  rewrite Forall_forall. split.
  - intros H [j a] Hin. apply (In_nth _ _ (O, d)) in Hin. destruct Hin as [k [Hk Hn]].
    rewrite combine_length, seq_length, Nat.min_id in Hk.
    rewrite combine_nth in Hn by apply seq_length. rewrite seq_nth in Hn by exact Hk.
    injection Hn as <- <-. cbn. apply H. exact Hk.
  - intros H j Hj. specialize (H (j, nth j l d)). cbn in H. apply H.
    assert (HH : In (nth j (combine (seq 0 (length l)) l) (O, d)) (combine (seq 0 (length l)) l)).
    { apply nth_In. rewrite combine_length, seq_length, Nat.min_id. exact Hj. }
    rewrite combine_nth in HH by apply seq_length. rewrite seq_nth in HH by exact Hj. exact HH.
Qed.

Lemma kron_tri3 : kronecker2 shape_tri3 ref_tri3.
Proof. intros i j Hi Hj. shp. kron i j Hi Hj. Qed.
Lemma kron_tri6 : kronecker2 shape_tri6 ref_tri6.
Proof. intros i j Hi Hj. shp. kron i j Hi Hj. Qed.
Lemma kron_quad4 : kronecker2 shape_quad4 ref_quad4.
Proof. intros i j Hi Hj. shp. kron i j Hi Hj. Qed.
Lemma kron_quad8 : kronecker2 shape_quad8 ref_quad8.
Proof. intros i j Hi Hj. shp. kron i j Hi Hj. Qed.
Lemma kron_quad9 : kronecker2 shape_quad9 ref_quad9.
Proof. intros i j Hi Hj. shp. kron i j Hi Hj. Qed.
Lemma kron_tet4 : kronecker3 shape_tet4 ref_tet4.
Proof. intros i j Hi Hj. shp. kron i j Hi Hj. Qed.
Lemma kron_hex8 : kronecker3 shape_hex8 ref_hex8.
Proof. intros i j Hi Hj. shp. kron i j Hi Hj. Qed.

(** ** completeness *)
Ltac complete :=
  unfold interp2, interp3, monos2, monos3, linear2, bilinear2, quadratic2, serendipity2, biquadratic2,
    linear3, trilinear3, ref_quad9, ref_quad8, ref_quad4, ref_tri6, ref_tri3, ref_tet4, ref_hex8, lsum; shp;
  cbn [app combine seq length fold_right fst snd]; cbn [pow]; field.

Lemma complete_tri3 c r s : interp2 (fst (shape_tri3 r s)) ref_tri3 (monos2 linear2 c) = monos2 linear2 c r s.
Proof. complete. Qed.
Lemma complete_tri6 c r s : interp2 (fst (shape_tri6 r s)) ref_tri6 (monos2 quadratic2 c) = monos2 quadratic2 c r s.
Proof. complete. Qed.
Lemma complete_quad4 c r s : interp2 (fst (shape_quad4 r s)) ref_quad4 (monos2 bilinear2 c) = monos2 bilinear2 c r s.
Proof. complete. Qed.
Lemma complete_quad8 c r s : interp2 (fst (shape_quad8 r s)) ref_quad8 (monos2 serendipity2 c) = monos2 serendipity2 c r s.
Proof. complete. Qed.
Lemma complete_quad9 c r s : interp2 (fst (shape_quad9 r s)) ref_quad9 (monos2 biquadratic2 c) = monos2 biquadratic2 c r s.
Proof. complete. Qed.
Lemma complete_tet4 c r s t : interp3 (fst (shape_tet4 r s t)) ref_tet4 (monos3 linear3 c) = monos3 linear3 c r s t.
Proof. complete. Qed.
Lemma complete_hex8 c r s t : interp3 (fst (shape_hex8 r s t)) ref_hex8 (monos3 trilinear3 c) = monos3 trilinear3 c r s t.
Proof. complete. Qed.

(** ** derivatives *)
Lemma d_const a x : derivable_pt_lim (fun _ => a) x 0.
Proof. apply derivable_pt_lim_const. Qed.
Lemma d_id x : derivable_pt_lim (fun t => t) x 1.
Proof. apply derivable_pt_lim_id. Qed.
Lemma d_plus f g x a b : derivable_pt_lim f x a -> derivable_pt_lim g x b ->
  derivable_pt_lim (fun t => f t + g t) x (a + b).
Proof. apply derivable_pt_lim_plus. Qed.
Lemma d_minus f g x a b : derivable_pt_lim f x a -> derivable_pt_lim g x b ->
  derivable_pt_lim (fun t => f t - g t) x (a - b).
Proof. apply derivable_pt_lim_minus. Qed.
Lemma d_mult f g x a b : derivable_pt_lim f x a -> derivable_pt_lim g x b ->
  derivable_pt_lim (fun t => f t * g t) x (a * g x + f x * b).
Proof. apply derivable_pt_lim_mult. Qed.
Lemma d_opp f x a : derivable_pt_lim f x a -> derivable_pt_lim (fun t => - f t) x (- a).
Proof. apply derivable_pt_lim_opp. Qed.
Lemma d_eq f x a b : derivable_pt_lim f x a -> a = b -> derivable_pt_lim f x b.
Proof. intros H <-. exact H. Qed.

Ltac dstep :=
  match goal with
  | |- derivable_pt_lim (fun t => t) _ _ => apply d_id
  | |- derivable_pt_lim (fun t => ?a) _ _ => apply d_const
  | |- derivable_pt_lim (fun t => @?f t + @?g t) _ _ => apply (d_plus f g)
  | |- derivable_pt_lim (fun t => @?f t - @?g t) _ _ => apply (d_minus f g)
  | |- derivable_pt_lim (fun t => @?f t * @?g t) _ _ => apply (d_mult f g)
  | |- derivable_pt_lim (fun t => - @?f t) _ _ => apply (d_opp f)
  end.
Ltac deriv := eapply d_eq; [repeat dstep|cbv beta; field].

Ltac grad k Hk :=
  unfold ent; revert Hk; shp; cbn [length]; intros Hk;
  repeat (first [exfalso; lia | destruct k as [|k]; [cbn [nth]; repeat split; deriv|]]).

Lemma grad2 sh : In sh shapes2 -> gradient2 sh.
Proof.
  intros Hin.
  repeat (destruct Hin as [<-|Hin]; [intros r s k Hk; grad k Hk|]). destruct Hin.
Qed.
Lemma grad3 sh : In sh shapes3 -> gradient3 sh.
Proof.
  intros Hin.
  repeat (destruct Hin as [<-|Hin]; [intros r s t k Hk; grad k Hk|]). destruct Hin.
Qed.
