(** * Quadrature: lemmas in the form of the properties *)
From Coq Require Import String Reals List Arith Lia Lra ZArith QArith Bool.
From Coq Require Import Qreals.
From Verif Require Import Num GaussTab Gauss Spec SpecQuad LinR Base QuadProofs QuadTables QuadSimplex.
Import ListNotations.
Local Open Scope R_scope.

(** ** 1D *)
Definition D19 : Z := 10000000000000000000%Z.
Definition ok1 (n : nat) (pw : list Q * list Q) : bool :=
  let '(p, w) := pw in
  scaled_ok D19 p && scaled_ok D19 w && (length p =? n)%nat && (length w =? n)%nat &&
  check1 D19 (2 * n - 1) (moments1 D19 (2 * n - 1) p w).

Lemma tables1 :
  forallb (fun n => match gauss_1d_tab (Z.of_nat n) with Some pw => ok1 n pw | None => false end) (seq 2 9) = true.
Proof. vm_compute. reflexivity. Qed.

Lemma tab1 n : (2 <= n <= 10)%Z -> exists p w, gauss_1d_tab n = Some (p, w) /\ ok1 (Z.to_nat n) (p, w) = true.
Proof.
  intros H. assert (T := tables1). rewrite forallb_forall in T.
  specialize (T (Z.to_nat n) ltac:(apply in_seq; lia)). rewrite Z2Nat.id in T by lia.
  destruct (gauss_1d_tab n) as [[p w]|]; [eauto|discriminate].
Qed.
Lemma tab1_none n : ~ (2 <= n <= 10)%Z -> gauss_1d_tab n = None.
Proof.
  intros H. destruct (gauss_1d_tab n) eqn:E; [|reflexivity]. exfalso. apply H.
  unfold gauss_1d_tab in E. repeat (match type of E with match ?k with _ => _ end = _ => destruct k end); try discriminate; lia.
Qed.

Lemma gauss_1d_range n :
  ((2 <= n <= 10)%Z -> exists pts wts, @gauss_1d R Num_R n = Ok (pts, wts) /\
     length pts = Z.to_nat n /\ length wts = Z.to_nat n) /\
  (~ (2 <= n <= 10)%Z -> @gauss_1d R Num_R n = Err (ValueError "The number of points should be in [2, 10]")).
Proof.
  unfold gauss_1d. split; intros H.
  - destruct (tab1 n H) as [p [w [-> O]]]. unfold ok1 in O. rewrite !andb_true_iff, !Nat.eqb_eq in O.
    exists (map Q2R p), (map Q2R w). rewrite !map_length. tauto.
  - rewrite (tab1_none n H). reflexivity.
Qed.

Lemma gauss_1d_inv n pts wts : @gauss_1d R Num_R n = Ok (pts, wts) -> exists p w,
  pts = map Q2R p /\ wts = map Q2R w /\ (2 <= n <= 10)%Z /\ ok1 (Z.to_nat n) (p, w) = true.
Proof.
  intros H. destruct (Z_le_dec 2 n) as [A|A], (Z_le_dec n 10) as [B|B].
  - unfold gauss_1d in H. destruct (tab1 n (conj A B)) as [p [w [E O]]]. rewrite E in H.
    apply Ok_pair_inj in H as [<- <-]. exists p, w. auto.
  - unfold gauss_1d in H. rewrite tab1_none in H by lia. discriminate.
  - unfold gauss_1d in H. rewrite tab1_none in H by lia. discriminate.
  - unfold gauss_1d in H. rewrite tab1_none in H by lia. discriminate.
Qed.

Lemma gauss_1d_degree n pts wts p I : @gauss_1d R Num_R n = Ok (pts, wts) ->
  Forall (fun t => (Z.of_nat (snd t) <= 2 * n - 1)%Z) p -> integral (poly1 p) (-1) 1 I ->
  Rabs (rule1 pts wts (poly1 p) - I) <= 1 / 100000000000000000 * size p.
Proof.
  intros H Hp HI. apply gauss_1d_inv in H as [q [w [-> [-> [Hn O]]]]].
  unfold ok1 in O. rewrite !andb_true_iff in O. destruct O as [[[[O1 O2] _] _] O3].
  apply (rule1_bound D19 (2 * Z.to_nat n - 1) q w p I); auto; [reflexivity|].
  eapply Forall_impl; [|exact Hp]. intros [c i] Hi. cbn [snd] in *. lia.
Qed.

Lemma poly1_integrable p a b : exists I, integral (poly1 p) a b I /\ forall J, integral (poly1 p) a b J -> J = I.
Proof.
  eexists. split; [apply poly1_integral|]. intros J HJ. exact (integral_unique _ _ _ _ _ HJ (poly1_integral p a b)).
Qed.

(** ** Tensor rules *)
Lemma gauss_nd_inv n d pts wts : @gauss_nd R Num_R n d = Ok (pts, wts) ->
  exists p w, @gauss_1d R Num_R n = Ok (p, w) /\ pts = product p d /\ wts = map nprod (product w d).
Proof.
  unfold gauss_nd. destruct (gauss_1d n) as [[p w]|e]; cbn; intros H; [|discriminate].
  apply Ok_pair_inj in H as [<- <-]. eauto.
Qed.

Lemma gauss_1d_lengths n p w : @gauss_1d R Num_R n = Ok (p, w) ->
  (2 <= n <= 10)%Z /\ length p = Z.to_nat n /\ length w = Z.to_nat n.
Proof.
  intros H. apply gauss_1d_inv in H as [q [v [-> [-> [Hn O]]]]]. unfold ok1 in O.
  rewrite !andb_true_iff, !Nat.eqb_eq in O. rewrite !map_length. tauto.
Qed.

Lemma gauss_nd_sizes n d pts wts : @gauss_nd R Num_R n d = Ok (pts, wts) ->
  length pts = (Z.to_nat n ^ d)%nat /\ length wts = (Z.to_nat n ^ d)%nat /\ Forall (fun x => length x = d) pts.
Proof.
  intros H. apply gauss_nd_inv in H as [p [w [E [-> ->]]]]. apply gauss_1d_lengths in E as [_ [Lp Lw]].
  rewrite map_length, !product_length, Lp, Lw. split; [reflexivity|]. split; [reflexivity|].
  apply Forall_forall. intros x Hx. now apply product_In in Hx.
Qed.

Lemma gauss_nd_runs n d :
  ((2 <= n <= 10)%Z -> exists pts wts, @gauss_nd R Num_R n d = Ok (pts, wts)) /\
  (~ (2 <= n <= 10)%Z -> @gauss_nd R Num_R n d = Err (ValueError "The number of points should be in [2, 10]")).
Proof.
  unfold gauss_nd. destruct (gauss_1d_range n) as [A B]. split; intros H.
  - destruct (A H) as [p [w [-> _]]]. cbn. eauto.
  - rewrite (B H). reflexivity.
Qed.

Lemma gauss_nd_tensor n d pts wts p w fs : @gauss_nd R Num_R n d = Ok (pts, wts) ->
  @gauss_1d R Num_R n = Ok (p, w) -> length fs = d ->
  rule pts wts (tensor fs) = prodl (map (rule1 p w) fs).
Proof.
  intros H E L. apply gauss_nd_inv in H as [p' [w' [E' [-> ->]]]].
  rewrite E in E'. apply Ok_pair_inj in E' as [<- <-]. apply tensor_rule; [|exact L].
  apply gauss_1d_lengths in E as [_ [-> ->]]. reflexivity.
Qed.

(** products of nearby numbers *)
Lemma prod_near eps (l m : list R) : 0 <= eps -> eps <= 1 ->
  Forall2 (fun a b => Rabs (a - b) <= eps /\ Rabs b <= 2) l m ->
  Rabs (prodl l - prodl m) <= INR (length l) * 3 ^ length l * eps /\ Rabs (prodl m) <= 3 ^ length l.
Proof.
  intros H0 H1 H. induction H as [|a b l m [Hab Hb] H [IH1 IH2]].
  - cbn. rewrite Rminus_diag_eq, Rabs_R0, Rabs_R1 by reflexivity. lra.
  - cbn [prodl fold_right length pow]. fold (prodl l). fold (prodl m). rewrite S_INR.
    set (N := INR (length l)) in *. set (X := 3 ^ length l) in *.
    assert (HX : 0 < X) by (apply pow_lt; lra). assert (HN : 0 <= N) by apply pos_INR.
    assert (Ha : Rabs a <= 3).
    { replace a with ((a - b) + b) by ring. eapply Rle_trans; [apply Rabs_triang|]. lra. }
    assert (Pm := Rabs_pos (prodl m)). assert (Pb := Rabs_pos b).
    split.
    + replace (a * prodl l - b * prodl m) with (a * (prodl l - prodl m) + (a - b) * prodl m) by ring.
      eapply Rle_trans; [apply Rabs_triang|]. rewrite !Rabs_mult.
      assert (Rabs a * Rabs (prodl l - prodl m) <= 3 * (N * X * eps)) by (apply Rmult_le_compat; auto using Rabs_pos).
      assert (Rabs (a - b) * Rabs (prodl m) <= eps * X) by (apply Rmult_le_compat; auto using Rabs_pos).
      assert (0 <= eps * X) by (apply Rmult_le_pos; lra). lra.
    + rewrite Rabs_mult. apply Rle_trans with (2 * X); [apply Rmult_le_compat; auto using Rabs_pos|lra].
Qed.

(** integral of x^e over [-1, 1] *)
Definition pow_int (e : nat) : R := (1 - (-1) ^ S e) / INR (S e).

Lemma pow_int_spec e : integral (fun x => x ^ e) (-1) 1 (pow_int e).
Proof. assert (H := integral_pow e (-1) 1). rewrite pow1 in H. exact H. Qed.

Lemma pow_int_le e : Rabs (pow_int e) <= 2.
Proof.
  unfold pow_int. assert (A : 1 <= INR (S e)) by (rewrite S_INR; assert (H := pos_INR e); lra).
  assert (B : Rabs (1 - (-1) ^ S e) <= 2).
  { destruct (Nat.even e) eqn:E; [rewrite (even_power e E)|rewrite (odd_power e E)];
      [replace (1 - -1) with 2 by ring; rewrite Rabs_right|rewrite Rminus_diag_eq, Rabs_R0]; lra. }
  unfold Rdiv. rewrite Rabs_mult, (Rabs_right (/ INR (S e))) by (apply Rle_ge, Rlt_le, Rinv_0_lt_compat; lra).
  assert (/ INR (S e) <= 1) by (rewrite <- Rinv_1; apply Rinv_le_contravar; lra).
  assert (0 < / INR (S e)) by (apply Rinv_0_lt_compat; lra). assert (P := Rabs_pos (1 - (-1) ^ S e)).
  apply Rle_trans with (Rabs (1 - (-1) ^ S e) * 1); [apply Rmult_le_compat_l; lra|lra].
Qed.

Lemma gauss_nd_monomials n d pts wts es Is : @gauss_nd R Num_R n d = Ok (pts, wts) -> length es = d ->
  Forall2 (fun e I => (Z.of_nat e <= 2 * n - 1)%Z /\ integral (fun x => x ^ e) (-1) 1 I) es Is ->
  Rabs (rule pts wts (tensor (map (fun e x => x ^ e) es)) - prodl Is) <=
    INR d * 3 ^ d * (1 / 100000000000000000).
Proof.
  intros H L HF. destruct (gauss_nd_inv _ _ _ _ H) as [p [w [E _]]].
  rewrite (gauss_nd_tensor n d pts wts p w _ H E) by now rewrite map_length.
  rewrite map_map. set (l := map (fun e => rule1 p w (fun x => x ^ e)) es).
  replace d with (length l) by (unfold l; now rewrite map_length).
  apply prod_near; [lra|lra|]. unfold l. clear L l H.
  induction HF as [|e I es Is [He HI] HF IH]; cbn; constructor; [|exact IH].
  rewrite (integral_unique _ _ _ _ _ HI (pow_int_spec e)). split; [|apply pow_int_le].
  assert (B := gauss_1d_degree n p w [(1, e)] (pow_int e) E ltac:(repeat constructor; exact He)).
  assert (X : forall x, x ^ e = poly1 [(1, e)] x) by (intros; unfold poly1; cbn; ring).
  replace (rule1 p w (fun x => x ^ e)) with (rule1 p w (poly1 [(1, e)])).
  2:{ unfold rule1. apply lsum_ext. intros [x v] _. now rewrite X. }
  assert (S1 : size [(1, e)] = 1) by (unfold size; cbn; rewrite Rabs_R1; ring). rewrite S1 in B.
  rewrite Rmult_1_r in B. apply B. apply (integral_ext (fun x => x ^ e)); [exact X|apply pow_int_spec].
Qed.

(** ** Triangle and tetrahedron *)
Definition tau2 : Z := 2305843%Z.
Definition ok2 (n : nat) (pw : list (list Q) * list Q) : bool :=
  let '(p, w) := pw in (length p =? length w)%nat && check 2 n tau2 (combine p w) && sym2 (combine p w).
Lemma tables2 :
  forallb (fun n => match gauss_tri_tab n with Some pw => ok2 (Z.to_nat n) pw | None => false end) [1; 2; 5; 7]%Z = true.
Proof. vm_compute. reflexivity. Qed.
Lemma tab2 z : (1 <= z <= 7)%Z -> exists p w n, gauss_tri_tab z = Some (p, w) /\ ok2 n (p, w) = true /\ (z <= Z.of_nat n)%Z.
Proof.
  intros H. assert (T := tables2). cbn [forallb] in T. rewrite !andb_true_iff in T. destruct T as [T1 [T2 [T5 [T7 _]]]].
  change (gauss_tri_tab 5) with (gauss_tri_tab 3) in T5. change (gauss_tri_tab 7) with (gauss_tri_tab 6) in T7.
  assert (C : (z = 1 \/ z = 2 \/ z = 3 \/ z = 4 \/ z = 5 \/ z = 6 \/ z = 7)%Z) by lia.
  destruct C as [->|[->|[->|[->|[->|[->| ->]]]]]].
  - do 3 eexists. split; [reflexivity|]. split; [exact T1|lia].
  - do 3 eexists. split; [reflexivity|]. split; [exact T2|lia].
  - do 3 eexists. split; [reflexivity|]. split; [exact T5|lia].
  - do 3 eexists. split; [reflexivity|]. split; [exact T5|lia].
  - do 3 eexists. split; [reflexivity|]. split; [exact T5|lia].
  - do 3 eexists. split; [reflexivity|]. split; [exact T7|lia].
  - do 3 eexists. split; [reflexivity|]. split; [exact T7|lia].
Qed.
Lemma tab2_none n : ~ (1 <= n <= 7)%Z -> gauss_tri_tab n = None.
Proof.
  intros H. destruct (gauss_tri_tab n) eqn:E; [|reflexivity]. exfalso. apply H.
  unfold gauss_tri_tab in E. repeat (match type of E with match ?k with _ => _ end = _ => destruct k end); try discriminate; lia.
Qed.

Lemma gauss_tri_range n :
  ((1 <= n <= 7)%Z -> exists pts wts, @gauss_tri R Num_R n = Ok (pts, wts) /\ length pts = length wts /\
     Forall (fun x => length x = 2%nat) pts) /\
  (~ (1 <= n <= 7)%Z -> @gauss_tri R Num_R n = Err (ValueError "The order should be in [1, 7]")).
Proof.
  unfold gauss_tri. split; intros H.
  - destruct (tab2 n H) as [p [w [m [-> [O _]]]]]. exists (map (map Q2R) p), (map Q2R w).
    unfold ok2 in O. rewrite !andb_true_iff, Nat.eqb_eq in O. destruct O as [[L C] _].
    split; [reflexivity|]. split; [now rewrite !map_length|].
    unfold check in C. apply andb_true_iff in C as [C _]. apply table_ok_lens in C. unfold lens in C.
    rewrite Forall_forall in C |- *. intros x Hx. apply in_map_iff in Hx as [q [<- Hq]]. rewrite map_length.
    apply In_nth with (d := []) in Hq as [k [Hk <-]].
    apply (C (nth k p [], nth k w 0%Q)). rewrite <- combine_nth by exact L. apply nth_In. rewrite combine_length. lia.
  - rewrite (tab2_none n H). reflexivity.
Qed.

Lemma combine_map2 {A B A' B'} (f : A -> A') (g : B -> B') l m :
  combine (map f l) (map g m) = map (fun ab => (f (fst ab), g (snd ab))) (combine l m).
Proof. revert m; induction l; intros [|b m]; cbn; [reflexivity..|]. now rewrite IHl. Qed.

Lemma rule_moment2 p w i j : lens 2 (combine p w) ->
  rule2 (map (map Q2R) p) (map Q2R w) (fun x y => x ^ i * y ^ j) = moment (combine p w) [i; j].
Proof.
  intros L. unfold rule2, rule, moment. rewrite combine_map2, lsum_map. apply lsum_ext.
  intros [q v] Hin. cbn [fst snd]. unfold lens in L. rewrite Forall_forall in L. specialize (L _ Hin). cbn [fst] in L.
  destruct q as [|a [|b [|c q]]]; try discriminate. cbn. ring.
Qed.
Lemma rule_moment3 p w i j k : lens 3 (combine p w) ->
  rule3 (map (map Q2R) p) (map Q2R w) (fun x y z => x ^ i * y ^ j * z ^ k) = moment (combine p w) [i; j; k].
Proof.
  intros L. unfold rule3, rule, moment. rewrite combine_map2, lsum_map. apply lsum_ext.
  intros [q v] Hin. cbn [fst snd]. unfold lens in L. rewrite Forall_forall in L. specialize (L _ Hin). cbn [fst] in L.
  destruct q as [|a [|b [|c [|d q]]]]; try discriminate. cbn. ring.
Qed.

Lemma rule2_poly pts wts p :
  rule2 pts wts (poly2 p) = lsum (fun t => fst t * rule2 pts wts (fun x y => x ^ fst (snd t) * y ^ snd (snd t))) p.
Proof.
  unfold rule2, rule, poly2.
  transitivity (lsum (fun xw : list R * R => lsum (fun t : R * (nat * nat) =>
    snd xw * (fst t * (nth 0 (fst xw) 0 ^ fst (snd t) * nth 1 (fst xw) 0 ^ snd (snd t)))) p) (combine pts wts)).
  - apply lsum_ext. intros [x w] _. cbn [fst snd]. rewrite <- lsum_scal. apply lsum_ext. now intros [c [i j]] _.
  - rewrite lsum_swap. apply lsum_ext. intros [c [i j]] _. cbn [fst snd]. rewrite <- lsum_scal.
    apply lsum_ext. intros [x w] _. cbn [fst snd]. ring.
Qed.
Lemma rule3_poly pts wts p :
  rule3 pts wts (poly3 p) =
  lsum (fun t => fst t * rule3 pts wts (fun x y z => x ^ fst (fst (snd t)) * y ^ snd (fst (snd t)) * z ^ snd (snd t))) p.
Proof.
  unfold rule3, rule, poly3.
  transitivity (lsum (fun xw : list R * R => lsum (fun t : R * (nat * nat * nat) =>
    snd xw * (fst t * (nth 0 (fst xw) 0 ^ fst (fst (snd t)) * nth 1 (fst xw) 0 ^ snd (fst (snd t)) * nth 2 (fst xw) 0 ^ snd (snd t)))) p)
    (combine pts wts)).
  - apply lsum_ext. intros [x w] _. cbn [fst snd]. rewrite <- lsum_scal. apply lsum_ext. now intros [c [[i j] k]] _.
  - rewrite lsum_swap. apply lsum_ext. intros [c [[i j] k]] _. cbn [fst snd]. rewrite <- lsum_scal.
    apply lsum_ext. intros [x w] _. cbn [fst snd]. ring.
Qed.

Lemma tau2_small : IZR tau2 * u <= 2 * (1 / 1000000000000).
Proof.
  assert (U := u_unit). assert (P := u_pos). apply (Rmult_le_reg_l (IZR unit60)); [apply IZR_lt; reflexivity|].
  replace (IZR unit60 * (IZR tau2 * u)) with (IZR tau2 * (IZR unit60 * u)) by ring. rewrite U.
  change unit60 with 1152921504606846976%Z. unfold tau2. lra.
Qed.
Lemma tau3_small : IZR 6917 * u <= 6 * (1 / 1000000000000000).
Proof.
  assert (U := u_unit). assert (P := u_pos). apply (Rmult_le_reg_l (IZR unit60)); [apply IZR_lt; reflexivity|].
  replace (IZR unit60 * (IZR 6917 * u)) with (IZR 6917 * (IZR unit60 * u)) by ring. rewrite U.
  change unit60 with 1152921504606846976%Z. lra.
Qed.

Lemma gauss_tri_degree n pts wts p I : @gauss_tri R Num_R n = Ok (pts, wts) ->
  Forall (fun '(_, (i, j)) => (Z.of_nat (i + j) <= n)%Z) p -> integral_tri (poly2 p) I ->
  Rabs (rule2 pts wts (poly2 p) / 2 - I) <= 1 / 1000000000000 * size p.
Proof.
  intros H Hp HI.
  assert (Hn : (1 <= n <= 7)%Z).
  { destruct (Z_le_dec 1 n) as [A|A], (Z_le_dec n 7) as [B|B]; try lia; unfold gauss_tri in H;
      rewrite tab2_none in H by lia; discriminate. }
  unfold gauss_tri in H. destruct (tab2 n Hn) as [q [w [m [E [O Hm]]]]]. rewrite E in H.
  apply Ok_pair_inj in H as [<- <-]. cbn [nofQ Num_R] in *.
  unfold ok2 in O. rewrite !andb_true_iff in O. destruct O as [[_ HC] HS].
  assert (HL : lens 2 (combine q w)) by (apply table_ok_lens; apply andb_true_iff in HC; tauto).
  rewrite (tri_unique _ _ _ HI (poly2_integral p)), rule2_poly.
  replace (lsum (fun '(c, (i, j)) => c * (fac i * fac j / fac (i + j + 2))) p)
    with (lsum (fun t : R * (nat * nat) => fst t * (fac (fst (snd t)) * fac (snd (snd t)) / fac (fst (snd t) + snd (snd t) + 2))) p)
    by (apply lsum_ext; now intros [c [i j]] _).
  match goal with |- Rabs (?a / _ - _) <= _ => unfold Rdiv at 1; rewrite (Rmult_comm a), <- lsum_scal end.
  rewrite (lsum_ext _ (fun t => fst t * (/ 2 * rule2 (map (map Q2R) q) (map Q2R w) (fun x y => x ^ fst (snd t) * y ^ snd (snd t)))))
    by (intros; ring).
  apply (lift p (fun ij => / 2 * rule2 _ _ (fun x y => x ^ fst ij * y ^ snd ij)) (fun ij => fac (fst ij) * fac (snd ij) / fac (fst ij + snd ij + 2))); [lra|].
  intros [c [i j]] Ht. cbn [fst snd]. rewrite Forall_forall in Hp. specialize (Hp _ Ht). cbn in Hp.
  rewrite rule_moment2 by exact HL.
  assert (B := moment2_bound m tau2 _ HC HS i j ltac:(lia)). assert (T := tau2_small).
  replace (/ 2 * moment (combine q w) [i; j] - fac i * fac j / fac (i + j + 2))
    with (/ 2 * (moment (combine q w) [i; j] - 2 * (fac i * fac j / fac (i + j + 2)))) by (field; apply Rgt_not_eq, fac_pos).
  rewrite Rabs_mult, (Rabs_right (/ 2)) by lra. lra.
Qed.

Lemma poly2_integrable p : exists I, integral_tri (poly2 p) I /\ forall J, integral_tri (poly2 p) J -> J = I.
Proof. eexists. split; [apply poly2_integral|]. intros J HJ. exact (tri_unique _ _ _ HJ (poly2_integral p)). Qed.
Lemma poly3_integrable p : exists I, integral_tet (poly3 p) I /\ forall J, integral_tet (poly3 p) J -> J = I.
Proof. eexists. split; [apply poly3_integral|]. intros J HJ. exact (tet_unique _ _ _ HJ (poly3_integral p)). Qed.

Definition ok3 (n : nat) (pw : list (list Q) * list Q) : bool :=
  let '(p, w) := pw in (length p =? length w)%nat && check 3 n 6917 (combine p w) && sym3 (combine p w).
Lemma tables3 : 
  forallb (fun n => match gauss_tet_tab n with Some pw => ok3 (Z.to_nat n) pw | None => false end)
    [1; 2; 3; 5; 6; 7; 8; 9; 10]%Z = true.
Proof. vm_compute. reflexivity. Qed.
Lemma tab3 z : (1 <= z <= 10)%Z -> exists p w n, gauss_tet_tab z = Some (p, w) /\ ok3 n (p, w) = true /\ (z <= Z.of_nat n)%Z.
Proof.
  intros H. assert (T := tables3). rewrite forallb_forall in T.
  assert (C : In z [1; 2; 3; 5; 6; 7; 8; 9; 10]%Z \/ z = 4%Z) by (cbn; lia).
  destruct C as [C| ->].
  - specialize (T z C). destruct (gauss_tet_tab z) as [[p w]|]; [|discriminate]. exists p, w, (Z.to_nat z).
    split; [reflexivity|]. split; [exact T|lia].
  - specialize (T 5%Z ltac:(cbn; lia)). change (gauss_tet_tab 5) with (gauss_tet_tab 4) in T.
    destruct (gauss_tet_tab 4) as [[p w]|]; [|discriminate]. exists p, w, 5%nat.
    split; [reflexivity|]. split; [exact T|lia].
Qed.
Lemma tab3_none n : ~ (1 <= n <= 10)%Z -> gauss_tet_tab n = None.
Proof.
  intros H. destruct (gauss_tet_tab n) eqn:E; [|reflexivity]. exfalso. apply H.
  unfold gauss_tet_tab in E. repeat (match type of E with match ?k with _ => _ end = _ => destruct k end); try discriminate; lia.
Qed.

Lemma gauss_tet_range n :
  ((1 <= n <= 10)%Z -> exists pts wts, @gauss_tet R Num_R n = Ok (pts, wts) /\ length pts = length wts /\
     Forall (fun x => length x = 3%nat) pts) /\
  (~ (1 <= n <= 10)%Z -> @gauss_tet R Num_R n = Err (ValueError "The order should be in [1, 10]")).
Proof.
  unfold gauss_tet. split; intros H.
  - destruct (tab3 n H) as [p [w [m [-> [O _]]]]]. exists (map (map Q2R) p), (map Q2R w).
    unfold ok3 in O. rewrite !andb_true_iff, Nat.eqb_eq in O. destruct O as [[L C] _].
    split; [reflexivity|]. split; [now rewrite !map_length|].
    unfold check in C. apply andb_true_iff in C as [C _]. apply table_ok_lens in C. unfold lens in C.
    rewrite Forall_forall in C |- *. intros x Hx. apply in_map_iff in Hx as [q [<- Hq]]. rewrite map_length.
    apply In_nth with (d := []) in Hq as [k [Hk <-]].
    apply (C (nth k p [], nth k w 0%Q)). rewrite <- combine_nth by exact L. apply nth_In. rewrite combine_length. lia.
  - rewrite (tab3_none n H). reflexivity.
Qed.

Lemma gauss_tet_degree n pts wts p I : @gauss_tet R Num_R n = Ok (pts, wts) ->
  Forall (fun '(_, (i, j, k)) => (Z.of_nat (i + j + k) <= n)%Z) p -> integral_tet (poly3 p) I ->
  Rabs (rule3 pts wts (poly3 p) / 6 - I) <= 1 / 1000000000000000 * size p.
Proof.
  intros H Hp HI.
  assert (Hn : (1 <= n <= 10)%Z).
  { destruct (Z_le_dec 1 n) as [A|A], (Z_le_dec n 10) as [B|B]; try lia; unfold gauss_tet in H;
      rewrite tab3_none in H by lia; discriminate. }
  unfold gauss_tet in H. destruct (tab3 n Hn) as [q [w [m [E [O Hm]]]]]. rewrite E in H.
  apply Ok_pair_inj in H as [<- <-]. cbn [nofQ Num_R] in *.
  unfold ok3 in O. rewrite !andb_true_iff in O. destruct O as [[_ HC] HS].
  assert (HL : lens 3 (combine q w)) by (apply table_ok_lens; apply andb_true_iff in HC; tauto).
  rewrite (tet_unique _ _ _ HI (poly3_integral p)), rule3_poly.
  set (J := fun t : nat * nat * nat => fac (fst (fst t)) * fac (snd (fst t)) * fac (snd t) / fac (fst (fst t) + snd (fst t) + snd t + 3)).
  replace (lsum (fun '(c, (i, j, k)) => c * (fac i * fac j * fac k / fac (i + j + k + 3))) p)
    with (lsum (fun t : R * (nat * nat * nat) => fst t * J (snd t)) p)
    by (apply lsum_ext; now intros [c [[i j] k]] _).
  set (L := fun t : nat * nat * nat => / 6 * rule3 (map (map Q2R) q) (map Q2R w)
     (fun x y z => x ^ fst (fst t) * y ^ snd (fst t) * z ^ snd t)).
  match goal with |- Rabs (?a / _ - _) <= _ => unfold Rdiv at 1; rewrite (Rmult_comm a), <- lsum_scal end.
  rewrite (lsum_ext _ (fun t => fst t * L (snd t))) by (intros; unfold L; ring).
  apply (lift p L J); [lra|].
  intros [c [[i j] k]] Ht. unfold L, J. cbn [fst snd]. rewrite Forall_forall in Hp. specialize (Hp _ Ht). cbn in Hp.
  rewrite rule_moment3 by exact HL.
  assert (B := moment3_bound m 6917 _ HC HS i j k ltac:(lia)). assert (T := tau3_small).
  replace (/ 6 * moment (combine q w) [i; j; k] - fac i * fac j * fac k / fac (i + j + k + 3))
    with (/ 6 * (moment (combine q w) [i; j; k] - 6 * (fac i * fac j * fac k / fac (i + j + k + 3)))) by (field; apply Rgt_not_eq, fac_pos).
  rewrite Rabs_mult, (Rabs_right (/ 6)) by lra. lra.
Qed.
