(** * Linear algebra lemmas over R (proof support) *)
From Coq Require Import Reals List Arith Lia Lra Bool ZArith QArith Qreals.
From Verif Require Import Num LinAlg Spec.
Import ListNotations.
Local Open Scope R_scope.

Ltac numR := cbn [n0 n1 nadd nsub nmul ndiv nopp nz nofQ nsqrt ntrunc Num_R] in *.
Ltac q2r := unfold Q2R in *; cbn [Qnum Qden] in *.

(** ** rsum *)
Lemma rsum_ext n f g : (forall i, (i < n)%nat -> f i = g i) -> rsum n f = rsum n g.
Proof.
  induction n; simpl; intros Hx; [reflexivity|].
  rewrite IHn, Hx; auto with arith.
Qed.

Lemma rsum_zero n f : (forall i, (i < n)%nat -> f i = 0) -> rsum n f = 0.
Proof.
  induction n; simpl; intros Hx; [reflexivity|].
  rewrite IHn, Hx; auto with arith; lra.
Qed.

Lemma rsum_plus n f g : rsum n (fun i => f i + g i) = rsum n f + rsum n g.
Proof. induction n; simpl; [lra|]. rewrite IHn. lra. Qed.

Lemma rsum_minus n f g : rsum n (fun i => f i - g i) = rsum n f - rsum n g.
Proof. induction n; simpl; [lra|]. rewrite IHn. lra. Qed.

Lemma rsum_scal n c f : rsum n (fun i => c * f i) = c * rsum n f.
Proof. induction n; simpl; [lra|]. rewrite IHn. lra. Qed.

Lemma rsum_scal_r n c f : rsum n (fun i => f i * c) = rsum n f * c.
Proof. induction n; simpl; [lra|]. rewrite IHn. lra. Qed.

Lemma rsum_swap n m f :
  rsum n (fun i => rsum m (fun j => f i j)) = rsum m (fun j => rsum n (fun i => f i j)).
Proof.
  induction n; simpl.
  - symmetry. apply rsum_zero. reflexivity.
  - rewrite IHn, <- rsum_plus. reflexivity.
Qed.

Lemma rsum_nonneg n f : (forall i, (i < n)%nat -> 0 <= f i) -> 0 <= rsum n f.
Proof.
  induction n; simpl; intros Hx; [lra|].
  assert (0 <= rsum n f) by (apply IHn; auto with arith).
  assert (0 <= f n) by (apply Hx; auto with arith). lra.
Qed.

Lemma rsum_single n k f :
  (k < n)%nat -> (forall i, (i < n)%nat -> i <> k -> f i = 0) -> rsum n f = f k.
Proof.
  induction n; simpl; intros Hk Hz; [lia|].
  destruct (Nat.eq_dec k n) as [->|Hne].
  - rewrite rsum_zero; [lra|]. intros i Hi. apply Hz; lia.
  - rewrite IHn, (Hz n); try lia; try lra. intros; apply Hz; lia.
Qed.

Lemma rsum_split_mul n d f :
  rsum (d * n) f = rsum n (fun k => rsum d (fun a => f (d * k + a)%nat)).
Proof.
  induction n; simpl.
  - rewrite Nat.mul_0_r. reflexivity.
  - rewrite <- IHn. rewrite Nat.mul_succ_r.
    generalize (d * n)%nat as m. intros m. clear.
    induction d; simpl.
    + rewrite Nat.add_0_r. lra.
    + rewrite Nat.add_succ_r. simpl. rewrite IHd. lra.
Qed.

Lemma rsum_even_odd n f :
  rsum (2 * n) f = rsum n (fun k => f (2 * k)%nat + f (2 * k + 1)%nat).
Proof.
  rewrite rsum_split_mul. apply rsum_ext. intros i _. simpl.
  rewrite !Nat.add_0_r. lra.
Qed.

Lemma rsum_three n f :
  rsum (3 * n) f = rsum n (fun k => f (3 * k)%nat + f (3 * k + 1)%nat + f (3 * k + 2)%nat).
Proof.
  rewrite rsum_split_mul. apply rsum_ext. intros i _. cbn [rsum].
  rewrite !Nat.add_0_r. lra.
Qed.

Lemma rsum_eq_zero_nonneg n f :
  (forall i, (i < n)%nat -> 0 <= f i) -> rsum n f = 0 ->
  forall i, (i < n)%nat -> f i = 0.
Proof.
  induction n; simpl; intros Hp Hz i Hi; [lia|].
  assert (0 <= rsum n f) by (apply rsum_nonneg; auto with arith).
  assert (0 <= f n) by (apply Hp; lia).
  destruct (Nat.eq_dec i n) as [->|]; [lra|].
  apply IHn; try lia; try lra. intros; apply Hp; lia.
Qed.

(** ** lsum *)
Section Lsum.
  Context {A : Type}.
  Implicit Types (f g : A -> R) (l : list A).

  Lemma lsum_ext f g l : (forall a, In a l -> f a = g a) -> lsum f l = lsum g l.
  Proof.
    induction l; simpl; intros Hx; [reflexivity|].
    f_equal; [|apply IHl]; auto.
  Qed.
  Lemma lsum_app f l1 l2 : lsum f (l1 ++ l2) = lsum f l1 + lsum f l2.
  Proof. induction l1; simpl; [lra|]. rewrite IHl1. lra. Qed.
  Lemma lsum_plus f g l : lsum (fun a => f a + g a) l = lsum f l + lsum g l.
  Proof. induction l; simpl; [lra|]. rewrite IHl. lra. Qed.
  Lemma lsum_scal c f l : lsum (fun a => c * f a) l = c * lsum f l.
  Proof. induction l; simpl; [lra|]. rewrite IHl. lra. Qed.
  Lemma lsum_zero f l : (forall a, In a l -> f a = 0) -> lsum f l = 0.
  Proof.
    induction l; simpl; intros Hx; [reflexivity|].
    rewrite Hx, IHl; auto; lra.
  Qed.
  Lemma lsum_nonneg f l : (forall a, In a l -> 0 <= f a) -> 0 <= lsum f l.
  Proof.
    induction l; simpl; intros Hx; [lra|].
    assert (0 <= f a) by auto. assert (0 <= lsum f l) by auto. lra.
  Qed.
  Lemma lsum_rsum n l (f : A -> nat -> R) :
    lsum (fun a => rsum n (f a)) l = rsum n (fun i => lsum (fun a => f a i) l).
  Proof.
    induction l; simpl.
    - symmetry. apply rsum_zero. reflexivity.
    - rewrite IHl, <- rsum_plus. reflexivity.
  Qed.
  Lemma lsum_map {B} (h : B -> A) f (l : list B) :
    lsum f (map h l) = lsum (fun b => f (h b)) l.
  Proof. induction l; simpl; [reflexivity|]. rewrite IHl. reflexivity. Qed.
  Lemma lsum_eq_zero_nonneg f l :
    (forall a, In a l -> 0 <= f a) -> lsum f l = 0 -> forall a, In a l -> f a = 0.
  Proof.
    induction l; simpl; intros Hp Hz b Hb; [contradiction|]; destruct Hb as [->|Hb].
    - assert (0 <= f b) by auto. assert (0 <= lsum f l) by (apply lsum_nonneg; auto). lra.
    - apply IHl; auto. assert (0 <= f a) by auto.
      assert (0 <= lsum f l) by (apply lsum_nonneg; auto). lra.
  Qed.
End Lsum.

Lemma lsum_seq n f : lsum f (seq 0 n) = rsum n f.
Proof.
  induction n; [reflexivity|].
  rewrite seq_S, lsum_app, IHn. simpl. lra.
Qed.

(** ** model operations at R *)
Lemma sumn_rsum n (f : nat -> R) : sumn n f = rsum n f.
Proof. induction n; simpl; [reflexivity|]. rewrite IHn. reflexivity. Qed.

Lemma mget_ent (M : list (list R)) i j : mget M i j = ent M i j.
Proof. reflexivity. Qed.

Lemma mk_vec_length {T} n (f : nat -> T) : length (mk_vec n f) = n.
Proof. unfold mk_vec. rewrite map_length, seq_length. reflexivity. Qed.

Lemma mk_vec_nth {T} n (f : nat -> T) i d : (i < n)%nat -> nth i (mk_vec n f) d = f i.
Proof.
  intros Hi. unfold mk_vec.
  rewrite nth_indep with (d' := f O) by (rewrite map_length, seq_length; exact Hi).
  rewrite (map_nth f (seq 0 n) O). rewrite seq_nth; auto.
Qed.

Lemma mk_mat_length {T} p q (f : nat -> nat -> T) : length (mk_mat p q f) = p.
Proof. unfold mk_mat. rewrite map_length, seq_length. reflexivity. Qed.

Lemma mk_mat_nth {T} p q (f : nat -> nat -> T) i d :
  (i < p)%nat -> nth i (mk_mat p q f) d = mk_vec q (f i).
Proof.
  intros Hi. unfold mk_mat.
  rewrite nth_indep with (d' := (fun i => mk_vec q (f i)) O)
    by (rewrite map_length, seq_length; exact Hi).
  rewrite (map_nth (fun i => mk_vec q (f i)) (seq 0 p) O). rewrite seq_nth; auto.
Qed.

Lemma ent_mk_mat p q f i j : (i < p)%nat -> (j < q)%nat -> ent (mk_mat p q f) i j = f i j.
Proof.
  intros Hi Hj. unfold ent. rewrite mk_mat_nth by exact Hi.
  apply mk_vec_nth; exact Hj.
Qed.

Lemma ent_out_row M i j : (length M <= i)%nat -> ent M i j = 0.
Proof. intros Hi. unfold ent. rewrite (nth_overflow M) by exact Hi. destruct j; reflexivity. Qed.

Lemma shape_mk_mat p q f : shape p q (mk_mat p q f).
Proof.
  split; [apply mk_mat_length|].
  unfold mk_mat. apply Forall_forall. intros r Hr.
  apply in_map_iff in Hr. destruct Hr as [i [<- _]]. apply mk_vec_length.
Qed.

Lemma ent_mscale c M i j : ent (mscale c M) i j = c * ent M i j.
Proof.
  unfold mscale, ent. numR.
  destruct (Nat.lt_ge_cases i (length M)) as [Hi|Hi].
  - rewrite nth_indep with (d' := map (Rmult c) []) by (rewrite map_length; exact Hi).
    rewrite (map_nth (map (Rmult c))).
    destruct (Nat.lt_ge_cases j (length (nth i M []))) as [Hj|Hj].
    + rewrite nth_indep with (d' := c * 0) by (rewrite map_length; exact Hj).
      apply (map_nth (Rmult c)).
    + rewrite !nth_overflow by (rewrite ?map_length; exact Hj). lra.
  - rewrite !(nth_overflow _ []) by (rewrite ?map_length; exact Hi).
    destruct j; simpl; lra.
Qed.

Lemma shape_mscale p q c M : shape p q M -> shape p q (mscale c M).
Proof.
  intros [H1 H2]. unfold mscale. split; [rewrite map_length; exact H1|].
  apply Forall_forall. intros r Hr. apply in_map_iff in Hr. destruct Hr as [r' [<- Hr]].
  rewrite map_length. rewrite Forall_forall in H2. auto.
Qed.

Lemma ent_mmul p q r A B i j : (i < p)%nat -> (j < r)%nat ->
  ent (mmul p q r A B) i j = rsum q (fun k => ent A i k * ent B k j).
Proof. intros. unfold mmul. rewrite ent_mk_mat by assumption. apply sumn_rsum. Qed.

Lemma ent_mtr p q A i j : (i < q)%nat -> (j < p)%nat -> ent (mtr p q A) i j = ent A j i.
Proof. intros. unfold mtr. rewrite ent_mk_mat by assumption. reflexivity. Qed.

Lemma ent_madd p q A B i j : (i < p)%nat -> (j < q)%nat ->
  ent (madd p q A B) i j = ent A i j + ent B i j.
Proof. intros. unfold madd. rewrite ent_mk_mat by assumption. reflexivity. Qed.

Lemma ent_zeros p q i j : ent (zeros p q) i j = 0.
Proof.
  destruct (Nat.lt_ge_cases i p) as [Hi|Hi].
  - destruct (Nat.lt_ge_cases j q) as [Hj|Hj].
    + unfold zeros. rewrite ent_mk_mat by assumption. reflexivity.
    + unfold ent, zeros. rewrite mk_mat_nth by exact Hi.
      apply nth_overflow. rewrite mk_vec_length. exact Hj.
  - apply ent_out_row. unfold zeros. rewrite mk_mat_length. exact Hi.
Qed.

Lemma shape_rows p q M i : shape p q M -> (i < p)%nat -> length (nth i M []) = q.
Proof.
  intros [H1 H2] Hi. rewrite Forall_forall in H2. apply H2. apply nth_In. lia.
Qed.

(** extensional equality of arrays *)
Lemma mat_ext p q A B : shape p q A -> shape p q B ->
  (forall i j, (i < p)%nat -> (j < q)%nat -> ent A i j = ent B i j) -> A = B.
Proof.
  intros SA SB Hx. destruct SA as [LA FA], SB as [LB FB].
  apply nth_ext with (d := []) (d' := []); [congruence|].
  intros i Hi. rewrite LA in Hi.
  assert (Ra : length (nth i A []) = q) by (apply (shape_rows p); [split|]; auto).
  assert (Rb : length (nth i B []) = q) by (apply (shape_rows p); [split|]; auto).
  apply nth_ext with (d := 0) (d' := 0); [congruence|].
  intros j Hj. rewrite Ra in Hj. apply Hx; assumption.
Qed.

(** ** act / form *)
Lemma form_double n K u v :
  form n K u v = rsum n (fun i => rsum n (fun j => u i * (ent K i j * v j))).
Proof.
  unfold form, act. apply rsum_ext. intros i _. symmetry. apply rsum_scal.
Qed.

Lemma form_sym n K u v : symmetric n K -> form n K u v = form n K v u.
Proof.
  intros Hs. rewrite !form_double. rewrite rsum_swap.
  apply rsum_ext; intros i Hi. apply rsum_ext; intros j Hj.
  rewrite (Hs j i) by assumption. lra.
Qed.

Lemma act_ext n K u v i : (forall j, (j < n)%nat -> u j = v j) -> act n K u i = act n K v i.
Proof. intros Hx. unfold act. apply rsum_ext. intros j Hj. rewrite Hx; auto. Qed.

Lemma form_ext n K u u' v v' : (forall j, (j < n)%nat -> u j = u' j) ->
  (forall j, (j < n)%nat -> v j = v' j) -> form n K u v = form n K u' v'.
Proof.
  intros Hu Hv. unfold form. apply rsum_ext. intros i Hi.
  rewrite (act_ext n K v v' i Hv), Hu; auto.
Qed.

(** unit vectors: entries from forms *)
Definition unitv (i : nat) (k : nat) : R := if Nat.eqb k i then 1 else 0.

Lemma act_unit n K i j : (j < n)%nat -> act n K (unitv j) i = ent K i j.
Proof.
  intros Hj. unfold act. rewrite (rsum_single n j); auto.
  - unfold unitv. rewrite Nat.eqb_refl. lra.
  - intros k _ Hk. unfold unitv. apply Nat.eqb_neq in Hk. rewrite Hk. lra.
Qed.

Lemma form_unit n K i v : (i < n)%nat -> form n K (unitv i) v = act n K v i.
Proof.
  intros Hi. unfold form. rewrite (rsum_single n i); auto.
  - unfold unitv. rewrite Nat.eqb_refl. lra.
  - intros k _ Hk. unfold unitv. apply Nat.eqb_neq in Hk. rewrite Hk. lra.
Qed.
