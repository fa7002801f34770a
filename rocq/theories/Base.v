(** * Lemmas about exceptions, indexing and monadic loops (proof support) *)
From Coq Require Import Reals List Arith Lia Bool ZArith Permutation.
From Verif Require Import Num LinAlg.
Import ListNotations.
Local Open Scope nat_scope.

Lemma Forall2_len {A B} (P : A -> B -> Prop) l l' : Forall2 P l l' -> length l = length l'.
Proof. induction 1; simpl; congruence. Qed.

Lemma bind_ok {A B} (x : res A) (k : A -> res B) b :
  bind x k = Ok b <-> exists a, x = Ok a /\ k a = Ok b.
Proof.
  destruct x as [a|e]; simpl; split.
  - intros Hk. exists a. auto.
  - intros [a' [H1 H2]]. inversion H1; subst; assumption.
  - discriminate.
  - intros [a' [H1 _]]. discriminate.
Qed.

Lemma bind_err {A B} (x : res A) (k : A -> res B) e :
  bind x k = Err e <-> x = Err e \/ exists a, x = Ok a /\ k a = Err e.
Proof.
  destruct x as [a|e']; simpl; split.
  - intros Hk. right. exists a. auto.
  - intros [H1|[a' [H1 H2]]]; [discriminate|]. inversion H1; subst; assumption.
  - intros Hk. inversion Hk. auto.
  - intros [H1|[a' [H1 _]]]; [inversion H1; reflexivity|discriminate].
Qed.

Lemma bind_assoc {A B C} (x : res A) (k : A -> res B) (h : B -> res C) :
  bind (bind x k) h = bind x (fun a => bind (k a) h).
Proof. destruct x; reflexivity. Qed.

Lemma bind_ext {A B} (x : res A) (k h : A -> res B) :
  (forall a, x = Ok a -> k a = h a) -> bind x k = bind x h.
Proof. destruct x; simpl; auto. Qed.

Lemma bind_ret {A} (x : res A) : bind x (fun a => Ok a) = x.
Proof. destruct x; reflexivity. Qed.

Lemma guard_ok b e u : guard b e = Ok u <-> b = true.
Proof. destruct b, u; simpl; split; try discriminate; auto. Qed.

Lemma Ok_inj {A} (a b : A) : Ok a = Ok b -> a = b.
Proof. intros H. injection H as H. exact H. Qed.

Lemma Ok_pair_inj {A B} (a a' : A) (b b' : B) : Ok (a, b) = Ok (a', b') -> a = a' /\ b = b'.
Proof. intros H. injection H as -> ->. split; reflexivity. Qed.

(** inversion of successful computations *)
Ltac inv_ok H :=
  lazymatch type of H with
  | bind _ _ = Ok _ =>
      let a := fresh "r" in let H1 := fresh "Hr" in
      apply bind_ok in H; destruct H as [a [H1 H]]; cbv beta in H
  | Ok _ = Ok _ => apply Ok_inj in H
  | Err _ = Ok _ => discriminate H
  end.

Lemma mapM_ok {A B} (f : A -> res B) l bs :
  mapM f l = Ok bs <-> Forall2 (fun a b => f a = Ok b) l bs.
Proof.
  revert bs; induction l as [|a l IH]; intros bs; simpl; split.
  - intros Hm. inversion Hm. constructor.
  - intros Hf. inversion Hf. reflexivity.
  - intros Hm. apply bind_ok in Hm. destruct Hm as [b [Hb Hm]].
    apply bind_ok in Hm. destruct Hm as [t [Ht Hm]]. inversion Hm; subst.
    constructor; [exact Hb|]. apply IH. exact Ht.
  - intros Hf. inversion Hf as [|x b y t Hb Ht]; subst.
    rewrite Hb. simpl. apply IH in Ht. rewrite Ht. reflexivity.
Qed.

Lemma mapM_length {A B} (f : A -> res B) l bs : mapM f l = Ok bs -> length bs = length l.
Proof. intros Hm. apply mapM_ok in Hm. symmetry. eapply Forall2_len; exact Hm. Qed.

Lemma mapM_nth_error {A B} (f : A -> res B) l bs i a :
  mapM f l = Ok bs -> nth_error l i = Some a ->
  exists b, nth_error bs i = Some b /\ f a = Ok b.
Proof.
  intros Hm. apply mapM_ok in Hm. revert i a.
  induction Hm as [|x y l bs Hxy Hm IH]; intros [|i] a Ha; simpl in *; try discriminate.
  - inversion Ha; subst. eauto.
  - eauto.
Qed.

Lemma mapM_ext {A B} (f g : A -> res B) l :
  (forall a, In a l -> f a = g a) -> mapM f l = mapM g l.
Proof.
  induction l as [|a l IH]; simpl; intros Hx; [reflexivity|].
  rewrite Hx by auto. destruct (g a); simpl; [|reflexivity].
  rewrite IH by auto. reflexivity.
Qed.

Lemma mapM_map {A B C} (f : B -> res C) (g : A -> B) l :
  mapM f (map g l) = mapM (fun a => f (g a)) l.
Proof. induction l as [|a l IH]; simpl; [reflexivity|]. rewrite IH. reflexivity. Qed.

Lemma mapM_total {A B} (f : A -> res B) (g : A -> B) l :
  (forall a, In a l -> f a = Ok (g a)) -> mapM f l = Ok (map g l).
Proof.
  induction l as [|a l IH]; simpl; intros Hx; [reflexivity|].
  rewrite Hx by auto. simpl. rewrite IH by auto. reflexivity.
Qed.

Lemma mapM_app {A B} (f : A -> res B) l1 l2 :
  mapM f (l1 ++ l2) = (a <- mapM f l1 ;; b <- mapM f l2 ;; Ok (a ++ b)).
Proof.
  induction l1 as [|a l1 IH]; simpl.
  - destruct (mapM f l2); reflexivity.
  - destruct (f a); simpl; [|reflexivity]. rewrite IH.
    destruct (mapM f l1); simpl; [|reflexivity]. destruct (mapM f l2); reflexivity.
Qed.

Lemma mapM_Permutation {A B} (f : A -> res B) l l' bs :
  Permutation l l' -> mapM f l = Ok bs ->
  exists bs', mapM f l' = Ok bs' /\ Permutation bs bs'.
Proof.
  intros HP. revert bs. induction HP as [|x l l' HP IH|x y l|l l' l'' HP1 IH1 HP2 IH2];
    intros bs Hm; simpl in *.
  - exists bs. split; auto.
  - inv_ok Hm. inv_ok Hm. inv_ok Hm. subst bs.
    destruct (IH _ Hr0) as [bs' [Hb' HP']].
    rewrite Hr. simpl. rewrite Hb'. simpl. eexists; split; [reflexivity|].
    apply perm_skip. exact HP'.
  - inv_ok Hm. inv_ok Hm. inv_ok Hm. subst bs. inv_ok Hr0. inv_ok Hr0. inv_ok Hr0. subst r0.
    rewrite Hr1. simpl. rewrite Hr. simpl. rewrite Hr2. simpl.
    eexists; split; [reflexivity|]. apply perm_swap.
  - destruct (IH1 _ Hm) as [b1 [Hb1 HP1']]. destruct (IH2 _ Hb1) as [b2 [Hb2 HP2']].
    exists b2. split; [exact Hb2|]. eapply perm_trans; eassumption.
Qed.

(** ** foldM *)
Lemma foldM_app {A B} (f : B -> A -> res B) l1 l2 b :
  foldM f (l1 ++ l2) b = (b' <- foldM f l1 b ;; foldM f l2 b').
Proof.
  revert b; induction l1 as [|a l1 IH]; intros b; simpl; [reflexivity|].
  destruct (f b a); simpl; auto.
Qed.

Lemma foldM_ext {A B} (f g : B -> A -> res B) l b :
  (forall b a, In a l -> f b a = g b a) -> foldM f l b = foldM g l b.
Proof.
  revert b; induction l as [|a l IH]; intros b Hx; simpl; [reflexivity|].
  rewrite Hx by (left; reflexivity). destruct (g b a); simpl; [|reflexivity].
  apply IH. intros; apply Hx; right; assumption.
Qed.

Lemma foldM_seq_S {B} (f : B -> nat -> res B) n b :
  foldM f (seq 0 (S n)) b = (b' <- foldM f (seq 0 n) b ;; f b' n).
Proof.
  rewrite seq_S, foldM_app. apply bind_ext. intros b' _. simpl.
  destruct (f b' n); reflexivity.
Qed.

(** two loops that do corresponding things *)
Definition rres {A B} (P : A -> B -> Prop) (x : res A) (y : res B) : Prop :=
  match x, y with
  | Ok a, Ok b => P a b
  | Err e, Err e' => e = e'
  | _, _ => False
  end.

Lemma rres_bind {A B C D} (P : A -> B -> Prop) (S : C -> D -> Prop) x y k h :
  rres P x y -> (forall a b, x = Ok a -> y = Ok b -> P a b -> rres S (k a) (h b)) ->
  rres S (bind x k) (bind y h).
Proof. destruct x, y; simpl; try contradiction; auto. Qed.

Lemma rres_refl {A} (x : res A) : rres eq x x.
Proof. destruct x; simpl; reflexivity. Qed.

Lemma foldM_rel {A B C} (P : B -> C -> Prop) (f : B -> A -> res B) (g : C -> A -> res C) l b c :
  (forall b c a, In a l -> P b c -> rres P (f b a) (g c a)) ->
  P b c -> rres P (foldM f l b) (foldM g l c).
Proof.
  revert b c; induction l as [|a l IH]; intros b c Hs HP; simpl; [exact HP|].
  apply rres_bind with (P := P).
  - apply Hs; [left; reflexivity|exact HP].
  - intros b' c' _ _ HP'. apply IH; [|exact HP']. intros; apply Hs; [right|]; assumption.
Qed.

(** ** numpy indexing *)
Lemma np_index_nat n i : i < n -> np_index n (Z.of_nat i) = Some i.
Proof.
  intros Hi. unfold np_index.
  destruct ((0 <=? Z.of_nat i)%Z && (Z.of_nat i <? Z.of_nat n)%Z) eqn:E.
  - rewrite Nat2Z.id. reflexivity.
  - apply andb_false_iff in E. destruct E as [E|E]; [apply Z.leb_gt in E|apply Z.ltb_ge in E]; lia.
Qed.

Lemma np_index_lt n i k : np_index n i = Some k -> k < n.
Proof.
  unfold np_index.
  destruct ((0 <=? i)%Z && (i <? Z.of_nat n)%Z) eqn:E.
  - intros Hk; inversion Hk; subst. apply andb_true_iff in E. destruct E as [E1 E2].
    apply Z.leb_le in E1; apply Z.ltb_lt in E2. lia.
  - destruct ((- Z.of_nat n <=? i)%Z && (i <? 0)%Z) eqn:E'; [|discriminate].
    intros Hk; inversion Hk; subst. apply andb_true_iff in E'. destruct E' as [E1 E2].
    apply Z.leb_le in E1; apply Z.ltb_lt in E2. lia.
Qed.

Lemma np_index_nonneg n i : (0 <= i < Z.of_nat n)%Z -> np_index n i = Some (Z.to_nat i).
Proof.
  intros Hi. rewrite <- (Z2Nat.id i) at 1 by lia. apply np_index_nat. lia.
Qed.

Lemma np_get_nth {A} (l : list A) i d : i < length l -> np_get l (Z.of_nat i) = Ok (nth i l d).
Proof.
  intros Hi. unfold np_get. rewrite np_index_nat by exact Hi.
  rewrite (nth_error_nth' l d Hi). reflexivity.
Qed.

Lemma np_get_nonneg {A} (l : list A) z d :
  (0 <= z < Z.of_nat (length l))%Z -> np_get l z = Ok (nth (Z.to_nat z) l d).
Proof.
  intros Hz. rewrite <- (Z2Nat.id z) at 1 by lia. apply np_get_nth. lia.
Qed.

Lemma np_get_In {A} (l : list A) z a : np_get l z = Ok a -> In a l.
Proof.
  unfold np_get. destruct (np_index (length l) z) as [k|]; [|discriminate].
  destruct (nth_error l k) eqn:E; [|discriminate].
  intros Hk; inversion Hk; subst. eapply nth_error_In; exact E.
Qed.

Lemma np_get_nat_ok {A} (l : list A) i a d :
  np_get l (Z.of_nat i) = Ok a -> i < length l /\ a = nth i l d.
Proof.
  intros Hg. assert (Hi : i < length l).
  { unfold np_get in Hg. destruct (np_index (length l) (Z.of_nat i)) as [k|] eqn:E; [|discriminate].
    unfold np_index in E.
    destruct ((0 <=? Z.of_nat i)%Z && (Z.of_nat i <? Z.of_nat (length l))%Z) eqn:E1.
    - apply andb_true_iff in E1. destruct E1 as [_ E1]. apply Z.ltb_lt in E1. lia.
    - destruct ((- Z.of_nat (length l) <=? Z.of_nat i)%Z && (Z.of_nat i <? 0)%Z) eqn:E2; [|discriminate].
      apply andb_true_iff in E2. destruct E2 as [_ E2]. apply Z.ltb_lt in E2. lia. }
  split; [exact Hi|]. rewrite (np_get_nth l i d Hi) in Hg. inversion Hg; reflexivity.
Qed.

Lemma np_get_overflow {A} (l : list A) z :
  (Z.of_nat (length l) <= z)%Z -> np_get l z = Err IndexError.
Proof.
  intros Hz. unfold np_get, np_index.
  destruct ((0 <=? z)%Z && (z <? Z.of_nat (length l))%Z) eqn:E1.
  - apply andb_true_iff in E1. destruct E1 as [_ E1]. apply Z.ltb_lt in E1. lia.
  - destruct ((- Z.of_nat (length l) <=? z)%Z && (z <? 0)%Z) eqn:E2; [|reflexivity].
    apply andb_true_iff in E2. destruct E2 as [_ E2]. apply Z.ltb_lt in E2. lia.
Qed.

Lemma np_get_err {A} (l : list A) z e : np_get l z = Err e -> e = IndexError.
Proof.
  unfold np_get. destruct (np_index (length l) z); [|congruence].
  destruct (nth_error l n); congruence.
Qed.

Lemma upd_length {A} (l : list A) i f : length (upd l i f) = length l.
Proof. revert i; induction l; intros [|i]; simpl; auto. Qed.

Lemma upd_nth {A} (l : list A) i f j d :
  i < length l -> nth j (upd l i f) d = if j =? i then f (nth i l d) else nth j l d.
Proof.
  revert i j; induction l as [|a l IH]; intros [|i] [|j] Hi; simpl in *; try lia; auto.
  apply IH. lia.
Qed.

Lemma np_upd_nonneg {A} (l : list A) z f :
  (0 <= z < Z.of_nat (length l))%Z -> np_upd l z f = Ok (upd l (Z.to_nat z) f).
Proof. intros Hz. unfold np_upd. rewrite np_index_nonneg by exact Hz. reflexivity. Qed.

Lemma Forall2_nth {A B} (P : A -> B -> Prop) l l' i a b :
  Forall2 P l l' -> i < length l -> P (nth i l a) (nth i l' b).
Proof.
  intros HF. revert i. induction HF as [|x y l l' HP HF IH]; intros [|i] Hi; simpl in *; try lia; auto.
  apply IH; lia.
Qed.

Lemma Forall2_of_nth {A B} (P : A -> B -> Prop) l l' a b :
  length l = length l' -> (forall i, i < length l -> P (nth i l a) (nth i l' b)) -> Forall2 P l l'.
Proof.
  revert l'; induction l as [|x l IH]; intros [|y l'] HL HP; simpl in *; try discriminate; constructor.
  - apply (HP 0). lia.
  - apply IH; [lia|]. intros i Hi. apply (HP (S i)). lia.
Qed.

Lemma Forall2_map_l {A A' B} (P : A' -> B -> Prop) (f : A -> A') l l' :
  Forall2 P (map f l) l' -> Forall2 (fun a b => P (f a) b) l l'.
Proof.
  revert l'; induction l as [|a l IH]; intros l' HF; simpl in HF; inversion HF; subst; constructor; auto.
Qed.

Lemma Forall2_map_r {A B B'} (P : A -> B' -> Prop) (f : B -> B') l l' :
  Forall2 P l (map f l') -> Forall2 (fun a b => P a (f b)) l l'.
Proof.
  revert l; induction l' as [|a l' IH]; intros l HF; simpl in HF; inversion HF; subst; constructor; auto.
Qed.

Lemma Forall2_mono {A B} (P Q : A -> B -> Prop) l l' :
  (forall a b, P a b -> Q a b) -> Forall2 P l l' -> Forall2 Q l l'.
Proof. intros HPQ HF. induction HF; constructor; auto. Qed.
