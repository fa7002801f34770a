(** * Triangle and tetrahedron tables: moments in fixed point arithmetic with error bounds
      (proof support) *)
From Coq Require Import Reals List Arith Lia Lra ZArith QArith Permutation Bool.
From Coq Require Import Qreals.
From Verif Require Import Num GaussTab Gauss Spec SpecQuad LinR Base QuadProofs QuadTables.
Import ListNotations.
Local Open Scope R_scope.

Definition unit60 : Z := 1152921504606846976%Z.
Lemma unit60_pow : unit60 = (2 ^ 60)%Z. Proof. reflexivity. Qed.
Definition u : R := / IZR unit60.
Lemma u_pos : 0 < u.
Proof. apply Rinv_0_lt_compat, IZR_lt. reflexivity. Qed.
Lemma u_unit : IZR unit60 * u = 1.
Proof. apply Rinv_r, not_0_IZR. discriminate. Qed.
Global Opaque unit60.

(** A is a lower approximation of a, in units of 2^-60, with error at most e units *)
Definition near (e a : R) (A : Z) : Prop :=
  0 <= a <= 1 /\ (0 <= A)%Z /\ 0 <= a - IZR A * u <= e * u.

Lemma near_step e a A x X : near e a A -> near 1 x X -> near (e + 2) (a * x) (Z.shiftr (A * X) 60).
Proof.
  intros [Ha [HA Ea]] [Hx [HX Ex]]. unfold near.
  assert (HB : (0 <= Z.shiftr (A * X) 60)%Z) by (apply Z.shiftr_nonneg; nia).
  rewrite Z.shiftr_div_pow2 in * by lia. rewrite <- unit60_pow in *.
  assert (Hu : (0 < unit60)%Z) by reflexivity.
  assert (D := Z.div_mod (A * X) unit60 ltac:(lia)). assert (M := Z.mod_pos_bound (A * X) unit60 Hu).
  set (B := (A * X / unit60)%Z) in *. set (m := ((A * X) mod unit60)%Z) in *. clearbody B m.
  apply (f_equal IZR) in D. rewrite plus_IZR, !mult_IZR in D.
  destruct M as [M0 M1]. apply IZR_le in M0. apply IZR_lt in M1.
  assert (P := u_pos). assert (U := u_unit).
  assert (HA' : 0 <= IZR A) by now apply IZR_le. assert (HX' : 0 <= IZR X) by now apply IZR_le.
  split; [nra|]. split; [exact HB|].
  assert (E1 : IZR A * u * (IZR X * u) = IZR B * u + IZR m * u * u).
  { replace (IZR A * u * (IZR X * u)) with (IZR A * IZR X * u * u) by ring. rewrite D.
    replace ((IZR unit60 * IZR B + IZR m) * u * u) with (IZR unit60 * u * (IZR B * u) + IZR m * u * u) by ring.
    rewrite U. ring. }
  assert (E2 : 0 <= IZR m * u * u <= u).
  { split; [apply Rmult_le_pos; [apply Rmult_le_pos; lra|lra]|].
    rewrite <- (Rmult_1_l u) at 3. apply Rmult_le_compat_r; [lra|]. rewrite <- U. apply Rmult_le_compat_r; lra. }
  set (a' := IZR A * u) in *. set (x' := IZR X * u) in *.
  assert (0 <= a') by (apply Rmult_le_pos; lra).
  replace (a * x - IZR B * u) with ((a - a') * x + a' * (x - x') + IZR m * u * u) by lra.
  assert (0 <= (a - a') * x <= e * u).
  { split; [apply Rmult_le_pos; lra|]. apply Rle_trans with ((a - a') * 1); [apply Rmult_le_compat_l; lra|lra]. }
  assert (0 <= a' * (x - x') <= 1 * u).
  { split; [apply Rmult_le_pos; lra|]. apply Rle_trans with (1 * (x - x')); [apply Rmult_le_compat_r; lra|lra]. }
  lra.
Qed.

(** literals *)
Definition fx (q : Q) : Z := (Qnum q * unit60 / Zpos (Qden q))%Z.
Definition fx_ok (q : Q) : bool := ((0 <=? Qnum q) && (Qnum q <=? Zpos (Qden q)))%Z.

Lemma fx_near q : fx_ok q = true -> near 1 (Q2R q) (fx q).
Proof.
  unfold fx_ok. intros H. apply andb_true_iff in H as [H0 H1]. apply Z.leb_le in H0, H1.
  unfold near, fx, Q2R. set (n := Qnum q) in *. set (d := Zpos (Qden q)) in *.
  assert (Hd : (0 < d)%Z) by reflexivity. clearbody n d.
  assert (Hu : (0 < unit60)%Z) by reflexivity.
  assert (D := Z.div_mod (n * unit60) d ltac:(lia)). assert (M := Z.mod_pos_bound (n * unit60) d Hd).
  assert (HB : (0 <= n * unit60 / d)%Z) by (apply Z.div_pos; nia).
  set (B := (n * unit60 / d)%Z) in *. set (m := ((n * unit60) mod d)%Z) in *. clearbody B m.
  apply (f_equal IZR) in D. rewrite plus_IZR, !mult_IZR in D.
  destruct M as [M0 M1]. apply IZR_le in M0. apply IZR_lt in M1. apply IZR_lt in Hd. apply IZR_le in H0, H1.
  assert (P := u_pos). assert (U := u_unit). assert (I := Rinv_0_lt_compat _ Hd).
  assert (V : IZR d * / IZR d = 1) by (apply Rinv_r; lra).
  set (v := / IZR d) in *. clearbody v.
  split.
  { split; [apply Rmult_le_pos; lra|]. rewrite <- V. apply Rmult_le_compat_r; lra. }
  split; [exact HB|].
  replace (IZR n * v - IZR B * u) with (IZR m * v * u).
  - split; [apply Rmult_le_pos; [apply Rmult_le_pos; lra|lra]|].
    apply Rmult_le_compat_r; [lra|]. rewrite <- V. apply Rmult_le_compat_r; lra.
  - apply (Rmult_eq_reg_l (IZR d * IZR unit60)); [|apply Rmult_integral_contrapositive; split; [lra|intros K; rewrite K in U; lra]].
    transitivity (IZR m * (IZR d * v) * (IZR unit60 * u)); [ring|].
    transitivity (IZR n * IZR unit60 * (IZR d * v) - IZR d * IZR B * (IZR unit60 * u)); [|ring].
    rewrite U, V, D. ring.
Qed.

Fixpoint fpowers (A X : Z) (n : nat) : list Z :=
  match n with
  | O => [A]
  | S m => A :: fpowers (Z.shiftr (A * X) 60) X m
  end.

Lemma fpowers_length A X n : length (fpowers A X n) = S n.
Proof. revert A; induction n; cbn; intros; [reflexivity|now rewrite IHn]. Qed.

Lemma fpowers_near e a A x X n k : near e a A -> near 1 x X -> (k <= n)%nat ->
  near (e + 2 * INR k) (a * x ^ k) (nth k (fpowers A X n) 0%Z).
Proof.
  intros Ha Hx. revert e a A Ha k; induction n; intros e a A Ha k Hk.
  - destruct k; [|lia]. cbn [nth fpowers INR pow]. rewrite Rmult_1_r, Rmult_0_r, Rplus_0_r. exact Ha.
  - destruct k as [|k].
    + cbn [nth fpowers INR pow]. rewrite Rmult_1_r, Rmult_0_r, Rplus_0_r. exact Ha.
    + cbn [fpowers nth]. replace (e + 2 * INR (S k)) with (e + 2 + 2 * INR k) by (rewrite S_INR; ring).
      replace (a * x ^ S k) with (a * x * x ^ k) by (cbn; ring). apply IHn; [now apply near_step|lia].
Qed.

(** all monomials w x^i y^j ... of degree at most n with nonincreasing exponents, i <= m *)
Fixpoint tree (Xs : list Z) (n m : nat) (A : Z) : list Z :=
  match Xs with
  | [] => [A]
  | X :: r => flat_map (fun '(i, B) => tree r (n - i) i B)
                (combine (seq 0 (S (Nat.min n m))) (fpowers A X (Nat.min n m)))
  end.
Fixpoint exps (d n m : nat) : list (list nat) :=
  match d with
  | O => [[]]
  | S d' => flat_map (fun i => map (cons i) (exps d' (n - i) i)) (seq 0 (S (Nat.min n m)))
  end.
Fixpoint mono (x : list R) (e : list nat) : R :=
  match x, e with
  | a :: x', i :: e' => a ^ i * mono x' e'
  | _, _ => 1
  end.

Lemma Forall2_app_ {A B} (P : A -> B -> Prop) l1 l2 m1 m2 :
  Forall2 P l1 m1 -> Forall2 P l2 m2 -> Forall2 P (l1 ++ l2) (m1 ++ m2).
Proof. induction 1; cbn; intros; auto. Qed.

Lemma Forall2_mapl {A A' B} (P : A' -> B -> Prop) (f : A -> A') l l' :
  Forall2 (fun a b => P (f a) b) l l' -> Forall2 P (map f l) l'.
Proof. induction 1; cbn; auto. Qed.
Lemma Forall2_mapr {A B B'} (P : A -> B' -> Prop) (f : B -> B') l l' :
  Forall2 (fun a b => P a (f b)) l l' -> Forall2 P l (map f l').
Proof. induction 1; cbn; auto. Qed.

Lemma Forall2_flat_map {A A' B B'} (P : B -> B' -> Prop) (Q : A -> A' -> Prop) f g l l' :
  Forall2 Q l l' -> (forall a a', Q a a' -> Forall2 P (f a) (g a')) -> Forall2 P (flat_map f l) (flat_map g l').
Proof. intros H K. induction H; cbn; [constructor|]. apply Forall2_app_; auto. Qed.

Lemma exps_spec d n m ex : In ex (exps d n m) -> (length ex = d /\ list_sum ex <= n)%nat.
Proof.
  revert n m ex; induction d; cbn [exps]; intros n m ex H.
  - destruct H as [<-|[]]. cbn. lia.
  - apply in_flat_map in H as [i [Hi H]]. apply in_seq in Hi. apply in_map_iff in H as [e [<- He]].
    apply IHd in He as [E S]. change (list_sum (i :: e)) with (i + list_sum e)%nat. cbn [length]. lia.
Qed.

Lemma tree_near xs Xs : Forall2 (near 1) xs Xs -> forall n m e a A, near e a A ->
  Forall2 (fun ex B => near (e + 2 * INR (list_sum ex)) (a * mono xs ex) B) (exps (length xs) n m) (tree Xs n m A).
Proof.
  intros H. induction H as [|x X xs Xs Hx H IH]; intros n m e a A Ha.
  - cbn. constructor; [|constructor]. rewrite Rmult_1_r, Rmult_0_r, Rplus_0_r. exact Ha.
  - cbn [length exps tree].
    apply (Forall2_flat_map _ (fun i iB => fst iB = i /\ near (e + 2 * INR i) (a * x ^ i) (snd iB))).
    + apply Forall2_of_nth with (a := 0%nat) (b := (0%nat, 0%Z)).
      { now rewrite combine_length, seq_length, fpowers_length, Nat.min_id. }
      intros k Hk. rewrite seq_length in Hk.
      rewrite combine_nth by (now rewrite seq_length, fpowers_length). rewrite seq_nth by exact Hk. cbn [fst snd].
      split; [reflexivity|]. apply fpowers_near; [exact Ha|exact Hx|cbn in Hk |- *; lia].
    + intros i [i' B] [E HB]. cbn [fst snd] in E, HB. subst i'.
      apply Forall2_mapl. eapply Forall2_mono; [|apply (IH (n - i)%nat i _ _ _ HB)].
      intros ex C HC. cbn [mono list_sum fold_right]. fold (list_sum ex).
      replace (e + 2 * INR (i + list_sum ex)) with (e + 2 * INR i + 2 * INR (list_sum ex)) by (rewrite plus_INR; ring).
      replace (a * (x ^ i * mono xs ex)) with (a * x ^ i * mono xs ex) by ring. exact HC.
Qed.

(** sums over the points of a table *)
Definition moment (tab : list (list Q * Q)) (ex : list nat) : R :=
  lsum (fun pw => Q2R (snd pw) * mono (map Q2R (fst pw)) ex) tab.

Fixpoint sums (d n : nat) (tab : list (list Q * Q)) : list Z :=
  match tab with
  | [] => map (fun _ => 0%Z) (exps d n n)
  | (pt, w) :: r =>
      vadd (if (Qnum w <? 0)%Z then map Z.opp (tree (map fx pt) n n (fx (Qopp w))) else tree (map fx pt) n n (fx w))
           (sums d n r)
  end.

Definition table_ok (d : nat) (tab : list (list Q * Q)) : bool :=
  forallb (fun pw => (length (fst pw) =? d)%nat && forallb fx_ok (fst pw) &&
    fx_ok (if (Qnum (snd pw) <? 0)%Z then Qopp (snd pw) else snd pw)) tab.

Lemma vadd_Forall2 {A} (P Q S : A -> Z -> Prop) l v w :
  (forall a x y, In a l -> P a x -> Q a y -> S a (x + y)%Z) -> Forall2 P l v -> Forall2 Q l w -> Forall2 S l (vadd v w).
Proof.
  intros H HP. revert w; induction HP as [|a x l v Ha HP IH]; intros w HQ; inversion HQ; subst; cbn; [constructor|].
  constructor; [apply H; auto; now left|]. apply IH; auto. intros. apply H; auto. now right.
Qed.

Lemma sums_near d n tab : table_ok d tab = true ->
  Forall2 (fun ex s => Rabs (moment tab ex - IZR s * u) <= INR (length tab) * (1 + 2 * INR n) * u) (exps d n n) (sums d n tab).
Proof.
  induction tab as [|[pt w] tab IH]; intros H.
  - cbn [sums]. apply Forall2_mapr. induction (exps d n n); constructor; [|assumption].
    unfold moment. cbn. rewrite !Rmult_0_l, Rminus_0_r, Rabs_R0. lra.
  - cbn in H. apply andb_true_iff in H as [H1 H]. apply andb_true_iff in H1 as [H1 Hw]. apply andb_true_iff in H1 as [Hl Hp].
    apply Nat.eqb_eq in Hl. cbn [sums].
    assert (HX : Forall2 (near 1) (map Q2R pt) (map fx pt)).
    { apply Forall2_mapl, Forall2_mapr. rewrite forallb_forall in Hp.
      clear -Hp. induction pt as [|q pt IH]; constructor; [apply fx_near, Hp; now left|apply IH; intros; apply Hp; now right]. }
    assert (P := u_pos).
    assert (T : Forall2 (fun ex B => Rabs (Q2R w * mono (map Q2R pt) ex - IZR B * u) <= (1 + 2 * INR (list_sum ex)) * u)
                  (exps d n n)
                  (if (Qnum w <? 0)%Z then map Z.opp (tree (map fx pt) n n (fx (Qopp w))) else tree (map fx pt) n n (fx w))).
    { cbn [fst snd] in Hw. destruct (Qnum w <? 0)%Z.
      - assert (T := tree_near _ _ HX n n 1 (Q2R (- w)) (fx (- w)) (fx_near _ Hw)). rewrite map_length, Hl in T.
        apply Forall2_mapr. eapply Forall2_mono; [|exact T]. intros ex B [_ [_ HB]]. cbv beta.
        rewrite opp_IZR. rewrite Q2R_opp in HB.
        replace (Q2R w * mono (map Q2R pt) ex - - IZR B * u) with (- (- Q2R w * mono (map Q2R pt) ex - IZR B * u)) by ring.
        rewrite Rabs_Ropp, Rabs_right; lra.
      - assert (T := tree_near _ _ HX n n 1 (Q2R w) (fx w) (fx_near _ Hw)). rewrite map_length, Hl in T.
        eapply Forall2_mono; [|exact T]. intros ex B [_ [_ HB]]. cbv beta. rewrite Rabs_right; lra. }
    refine (vadd_Forall2 _ _ _ _ _ _ _ T (IH H)).
    intros ex x y Hin Hx Hy. apply exps_spec in Hin as [_ Hs]. apply le_INR in Hs.
    cbn [length]. rewrite S_INR, plus_IZR. unfold moment in Hy |- *. cbn [lsum fold_right fst snd].
    fold (lsum (fun pw => Q2R (snd pw) * mono (map Q2R (fst pw)) ex) tab).
    set (M := lsum _ tab) in *. set (m := Q2R w * mono (map Q2R pt) ex) in *.
    replace (m + M - (IZR x + IZR y) * u) with ((m - IZR x * u) + (M - IZR y * u)) by ring.
    eapply Rle_trans; [apply Rabs_triang|].
    assert ((1 + 2 * INR (list_sum ex)) * u <= (1 + 2 * INR n) * u) by (apply Rmult_le_compat_r; lra). lra.
Qed.

Fixpoint zfact (n : nat) : Z :=
  match n with O => 1%Z | S m => (Z.of_nat n * zfact m)%Z end.
Lemma zfact_fac n : IZR (zfact n) = fac n.
Proof.
  induction n; [reflexivity|]. rewrite fac_S, <- IHn. cbn [zfact]. now rewrite mult_IZR, <- INR_IZR_INZ.
Qed.
Definition zfacts (e : list nat) : Z := fold_right (fun i s => (zfact i * s)%Z) 1%Z e.
Definition facs (e : list nat) : R := fold_right (fun i s => fac i * s) 1 e.
Lemma zfacts_facs e : IZR (zfacts e) = facs e.
Proof. induction e as [|i e IH]; cbn; [reflexivity|]. rewrite mult_IZR, zfact_fac. fold (zfacts e). now rewrite IH. Qed.

Definition check (d n : nat) (tau : Z) (tab : list (list Q * Q)) : bool :=
  let slack := (tau - Z.of_nat (length tab) * (1 + 2 * Z.of_nat n))%Z in
  table_ok d tab &&
  forallb (fun '(ex, s) =>
    let f := zfact (list_sum ex + d) in
    (Z.abs (s * f - zfact d * zfacts ex * unit60) <=? slack * f)%Z) (combine (exps d n n) (sums d n tab)).

Lemma Forall2_forallb {A B} (P : A -> B -> Prop) (f : A * B -> bool) l m :
  Forall2 P l m -> forallb f (combine l m) = true -> Forall (fun a => exists b, P a b /\ f (a, b) = true) l.
Proof.
  induction 1; cbn; intros H1; constructor; apply andb_true_iff in H1 as [H1 H2]; eauto.
Qed.

Lemma check_spec d n tau tab : check d n tau tab = true -> forall ex, In ex (exps d n n) ->
  Rabs (moment tab ex - fac d * facs ex / fac (list_sum ex + d)) <= IZR tau * u.
Proof.
  unfold check. cbv zeta. intros H ex Hex. apply andb_true_iff in H as [H1 H2].
  assert (F := Forall2_forallb _ _ _ _ (sums_near d n tab H1) H2). rewrite Forall_forall in F.
  destruct (F ex Hex) as [s [B C]]. apply Z.leb_le in C. apply IZR_le in C.
  rewrite mult_IZR, abs_IZR, minus_IZR, !mult_IZR, !zfact_fac, zfacts_facs in C.
  rewrite minus_IZR, mult_IZR, plus_IZR, mult_IZR, <- !INR_IZR_INZ in C.
  assert (P := u_pos). assert (U := u_unit). assert (G := fac_pos (list_sum ex + d)).
  set (f := fac (list_sum ex + d)) in *. set (N := INR (length tab)) in *. set (K := 1 + 2 * INR n) in *.
  set (M := moment tab ex) in *. set (c := fac d * facs ex) in *. set (W := IZR unit60) in *. clearbody f N K M c W.
  assert (A : Rabs (IZR s * u - c / f) <= (IZR tau - N * K) * u).
  { replace (IZR s * u - c / f) with ((IZR s * f - c * W) * (u / f)).
    - rewrite Rabs_mult, (Rabs_right (u / f)) by (apply Rle_ge, Rlt_le, Rdiv_lt_0_compat; assumption).
      apply Rle_trans with ((IZR tau - N * K) * f * (u / f)).
      + apply Rmult_le_compat_r; [apply Rlt_le, Rdiv_lt_0_compat; assumption|exact C].
      + apply Req_le. field. lra.
    - transitivity (IZR s * u - c / f * (W * u)); [field; lra|]. rewrite U. ring. }
  replace (M - c / f) with ((M - IZR s * u) + (IZR s * u - c / f)) by ring.
  eapply Rle_trans; [apply Rabs_triang|]. lra.
Qed.

(** ** Symmetry of the tables under permutations of the coordinates *)
Definition qeqb (a b : Q) : bool := (Z.eqb (Qnum a) (Qnum b) && Pos.eqb (Qden a) (Qden b))%bool.
Lemma qeqb_eq a b : qeqb a b = true -> a = b.
Proof.
  unfold qeqb. intros H. apply andb_true_iff in H as [H1 H2]. apply Z.eqb_eq in H1. apply Pos.eqb_eq in H2.
  destruct a, b; cbn in *; congruence.
Qed.
Fixpoint leqb (a b : list Q) : bool :=
  match a, b with
  | [], [] => true
  | x :: a', y :: b' => qeqb x y && leqb a' b'
  | _, _ => false
  end.
Lemma leqb_eq a b : leqb a b = true -> a = b.
Proof.
  revert b; induction a; intros [|y b]; cbn; intros H; try discriminate; [reflexivity|].
  apply andb_true_iff in H as [H1 H2]. now rewrite (qeqb_eq _ _ H1), (IHa _ H2).
Qed.
Definition peqb (a b : list Q * Q) : bool := leqb (fst a) (fst b) && qeqb (snd a) (snd b).
Lemma peqb_eq a b : peqb a b = true -> a = b.
Proof.
  unfold peqb. intros H. apply andb_true_iff in H as [H1 H2]. apply leqb_eq in H1. apply qeqb_eq in H2.
  destruct a, b; cbn in *; congruence.
Qed.
Fixpoint remove1 (a : list Q * Q) (l : list (list Q * Q)) : option (list (list Q * Q)) :=
  match l with
  | [] => None
  | b :: r => if peqb a b then Some r else match remove1 a r with Some r' => Some (b :: r') | None => None end
  end.
Fixpoint permb (l m : list (list Q * Q)) : bool :=
  match l with
  | [] => match m with [] => true | _ => false end
  | a :: r => match remove1 a m with Some m' => permb r m' | None => false end
  end.
Lemma remove1_perm a l r : remove1 a l = Some r -> Permutation l (a :: r).
Proof.
  revert r; induction l as [|b l IH]; cbn; intros r H; [discriminate|].
  destruct (peqb a b) eqn:E.
  - apply peqb_eq in E. injection H as <-. subst. reflexivity.
  - destruct (remove1 a l) as [r'|] eqn:E'; [|discriminate]. injection H as <-.
    rewrite (IH r' eq_refl). apply perm_swap.
Qed.
Lemma permb_perm l m : permb l m = true -> Permutation l m.
Proof.
  revert m; induction l as [|a l IH]; cbn; intros m H; [now destruct m|].
  destruct (remove1 a m) as [m'|] eqn:E; [|discriminate]. rewrite (remove1_perm _ _ _ E). constructor. now apply IH.
Qed.

Lemma lsum_perm {A} (f : A -> R) l m : Permutation l m -> lsum f l = lsum f m.
Proof. induction 1; cbn in *; unfold lsum in *; lra. Qed.

(** exchange the first two / the second and third entries *)
Definition sw01 {A} (l : list A) : list A := match l with a :: b :: r => b :: a :: r | _ => l end.
Definition sw12 {A} (l : list A) : list A := match l with a :: r => a :: sw01 r | _ => l end.

Lemma moment_sym (sw : forall A, list A -> list A) tab :
  (forall A B (f : A -> B) l, map f (sw A l) = sw B (map f l)) ->
  (forall x e, mono (sw R x) (sw nat e) = mono x e) ->
  permb (map (fun pw => (sw Q (fst pw), snd pw)) tab) tab = true ->
  forall ex, moment tab (sw nat ex) = moment tab ex.
Proof.
  intros HM Hm HP ex. apply permb_perm in HP. unfold moment.
  rewrite <- (lsum_perm _ _ _ HP), lsum_map. apply lsum_ext. intros [pt w] _. cbn [fst snd].
  rewrite HM, Hm. reflexivity.
Qed.
Lemma sw01_map A B (f : A -> B) l : map f (sw01 l) = sw01 (map f l).
Proof. now destruct l as [|a [|b l]]. Qed.
Lemma sw12_map A B (f : A -> B) l : map f (sw12 l) = sw12 (map f l).
Proof. destruct l; cbn; [reflexivity|]. now rewrite sw01_map. Qed.

Definition sym2 (tab : list (list Q * Q)) : bool := permb (map (fun pw => (sw01 (fst pw), snd pw)) tab) tab.
Definition sym3 (tab : list (list Q * Q)) : bool :=
  sym2 tab && permb (map (fun pw => (sw12 (fst pw), snd pw)) tab) tab.

(** moments of tables of points of fixed dimension *)
Definition lens (d : nat) (tab : list (list Q * Q)) : Prop := Forall (fun pw => length (fst pw) = d) tab.
Lemma table_ok_lens d tab : table_ok d tab = true -> lens d tab.
Proof.
  unfold table_ok, lens. rewrite forallb_forall, Forall_forall. intros H pw Hin. specialize (H pw Hin).
  apply andb_true_iff in H as [H _]. apply andb_true_iff in H as [H _]. now apply Nat.eqb_eq.
Qed.

Lemma mono2_sw x e : length x = 2%nat -> length e = 2%nat -> mono (sw01 x) (sw01 e) = mono x e.
Proof.
  destruct x as [|a [|b [|c x]]]; try discriminate. destruct e as [|i [|j [|k e]]]; try discriminate.
  intros; cbn; ring.
Qed.
Lemma mono3_sw x e : length x = 3%nat -> length e = 3%nat ->
  mono (sw01 x) (sw01 e) = mono x e /\ mono (sw12 x) (sw12 e) = mono x e.
Proof.
  destruct x as [|a [|b [|c [|d x]]]]; try discriminate. destruct e as [|i [|j [|k [|l e]]]]; try discriminate.
  intros; cbn; split; ring.
Qed.

Lemma moment_swap (f : forall A, list A -> list A) d tab ex :
  (forall A B (g : A -> B) l, map g (f A l) = f B (map g l)) ->
  lens d tab -> (forall x : list R, length x = d -> mono (f R x) (f nat ex) = mono x ex) ->
  permb (map (fun pw => (f Q (fst pw), snd pw)) tab) tab = true ->
  moment tab (f nat ex) = moment tab ex.
Proof.
  intros HM HL Hm HP. apply permb_perm in HP. unfold moment.
  rewrite <- (lsum_perm _ _ _ HP), lsum_map. apply lsum_ext. intros [pt w] Hin. cbn [fst snd].
  unfold lens in HL. rewrite Forall_forall in HL. rewrite HM, Hm; [reflexivity|]. rewrite map_length. apply (HL _ Hin).
Qed.

Lemma exps_in2 n i j : (j <= i)%nat -> (i + j <= n)%nat -> In [i; j] (exps 2 n n).
Proof.
  intros. cbn [exps]. apply in_flat_map. exists i. split; [apply in_seq; lia|].
  apply in_map. apply in_flat_map. exists j. split; [apply in_seq; lia|]. now left.
Qed.
Lemma exps_in3 n i j k : (k <= j <= i)%nat -> (i + j + k <= n)%nat -> In [i; j; k] (exps 3 n n).
Proof.
  intros. cbn [exps]. apply in_flat_map. exists i. split; [apply in_seq; lia|].
  apply in_map. apply in_flat_map. exists j. split; [apply in_seq; lia|].
  apply in_map. apply in_flat_map. exists k. split; [apply in_seq; lia|]. now left.
Qed.

Lemma moment2_bound n tau tab : check 2 n tau tab = true -> sym2 tab = true -> forall i j, (i + j <= n)%nat ->
  Rabs (moment tab [i; j] - 2 * (fac i * fac j / fac (i + j + 2))) <= IZR tau * u.
Proof.
  intros HC HS. assert (HL : lens 2 tab) by (apply table_ok_lens; apply andb_true_iff in HC; tauto).
  assert (B : forall i j, (j <= i)%nat -> (i + j <= n)%nat ->
    Rabs (moment tab [i; j] - 2 * (fac i * fac j / fac (i + j + 2))) <= IZR tau * u).
  { intros i j H1 H2. assert (C := check_spec 2 n tau tab HC [i; j] (exps_in2 n i j H1 H2)).
    cbn [facs fold_right list_sum] in C. replace (i + (j + 0) + 2)%nat with (i + j + 2)%nat in C by lia.
    change (fac 2) with (1 + 1) in C. eapply Rle_trans; [|exact C]. apply Req_le, f_equal. unfold Rdiv. ring. }
  intros i j H. destruct (le_lt_dec j i) as [L|L]; [now apply B|].
  assert (E := moment_swap (@sw01) 2 tab [j; i] sw01_map HL (fun x Hx => mono2_sw x [j; i] Hx eq_refl) HS).
  cbn [sw01] in E. rewrite E, (Nat.add_comm i j), (Rmult_comm (fac i)). apply B; lia.
Qed.

Lemma moment3_bound n tau tab : check 3 n tau tab = true -> sym3 tab = true -> forall i j k, (i + j + k <= n)%nat ->
  Rabs (moment tab [i; j; k] - 6 * (fac i * fac j * fac k / fac (i + j + k + 3))) <= IZR tau * u.
Proof.
  intros HC HS. apply andb_true_iff in HS as [S1 S2].
  assert (HL : lens 3 tab) by (apply table_ok_lens; apply andb_true_iff in HC; tauto).
  set (G := fun i j k => Rabs (moment tab [i; j; k] - 6 * (fac i * fac j * fac k / fac (i + j + k + 3))) <= IZR tau * u).
  assert (B : forall i j k, (k <= j <= i)%nat -> (i + j + k <= n)%nat -> G i j k).
  { intros i j k H1 H2. unfold G. assert (C := check_spec 3 n tau tab HC [i; j; k] (exps_in3 n i j k H1 H2)).
    cbn [facs fold_right list_sum] in C. replace (i + (j + (k + 0)) + 3)%nat with (i + j + k + 3)%nat in C by lia.
    replace (fac 3) with 6 in C by (unfold fac; cbn; ring).
    eapply Rle_trans; [|exact C]. apply Req_le, f_equal. unfold Rdiv. ring. }
  assert (X01 : forall i j k, G j i k -> G i j k).
  { intros i j k. unfold G.
    assert (E := moment_swap (@sw01) 3 tab [j; i; k] sw01_map HL (fun x Hx => proj1 (mono3_sw x [j; i; k] Hx eq_refl)) S1).
    cbn [sw01] in E. rewrite E, (Nat.add_comm j i), (Rmult_comm (fac j)). auto. }
  assert (X12 : forall i j k, G i k j -> G i j k).
  { intros i j k. unfold G.
    assert (E := moment_swap (@sw12) 3 tab [i; k; j] sw12_map HL (fun x Hx => proj2 (mono3_sw x [i; k; j] Hx eq_refl)) S2).
    cbn [sw12 sw01] in E. rewrite E. replace (i + k + j + 3)%nat with (i + j + k + 3)%nat by lia.
    replace (fac i * fac k * fac j) with (fac i * fac j * fac k) by ring. auto. }
  intros i j k H. change (G i j k).
  destruct (le_lt_dec j i), (le_lt_dec k j), (le_lt_dec k i); try (exfalso; lia).
  - apply B; lia.
  - apply X12, B; lia.
  - apply X12, X01, B; lia.
  - apply X01, B; lia.
  - apply X01, X12, B; lia.
  - apply X01, X12, X01, B; lia.
Qed.
