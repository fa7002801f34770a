(** * Strains and stresses at the nodes (proof support) *)
From Coq Require Import String Reals List Arith Lia Lra ZArith QArith Bool.
From Verif Require Import Num LinAlg Gauss Fem Uel Assem Post Spec LinR Base SpecElem SpecModel SpecPost.
Import ListNotations.
Local Open Scope R_scope.

Lemma np_get2_ent (a : list (list R)) z c v : (0 <= z < Z.of_nat (length a))%Z ->
  np_get2 a z (Z.of_nat c) = Ok v -> v = ent a (Z.to_nat z) c.
Proof.
  intros Hz. unfold np_get2. rewrite (np_get_nonneg a z [] Hz). cbn. intros H.
  apply (np_get_nat_ok _ _ _ 0) in H as [_ ->]. reflexivity.
Qed.

Lemma take_col_ok (a : list (list R)) ids c vs : Forall (fun z => (0 <= z < Z.of_nat (length a))%Z) ids ->
  take_col a ids (Z.of_nat c) = Ok vs -> vs = map (fun z => ent a (Z.to_nat z) c) ids.
Proof.
  unfold take_col. revert vs; induction ids as [|z ids IH]; intros vs HF H; cbn in H.
  - now apply Ok_inj in H.
  - inversion HF; subst. inv_ok H. inv_ok H. inv_ok H. subst vs. cbn. f_equal; [eapply np_get2_ent; eauto|now apply IH].
Qed.

Lemma np_get2_len (a : list (list R)) z c v : np_get2 a z c = Ok v -> (- Z.of_nat (length a) <= z < Z.of_nat (length a))%Z.
Proof.
  unfold np_get2. intros H. inv_ok H. unfold np_get in Hr.
  destruct (np_index (length a) z) as [k|] eqn:E; [|discriminate]. unfold np_index in E.
  destruct ((0 <=? z)%Z && (z <? Z.of_nat (length a))%Z) eqn:E1.
  - apply andb_true_iff in E1 as [A B]. apply Z.leb_le in A. apply Z.ltb_lt in B. lia.
  - destruct ((- Z.of_nat (length a) <=? z)%Z && (z <? 0)%Z) eqn:E2; [|discriminate].
    apply andb_true_iff in E2 as [A B]. apply Z.leb_le in A. apply Z.ltb_lt in B. lia.
Qed.

(** one node *)
Lemma node_acc_ok N f1 f2 g (epsG : list (list R)) E S cnt E' S' cnt' k z :
  length E = N -> length S = N -> length cnt = N -> (0 <= z < Z.of_nat N)%Z ->
  node_acc f1 f2 g epsG (E, S, cnt) (k, z) = Ok (E', S', cnt') ->
  (length E' = N /\ length S' = N /\ length cnt' = N /\ (k < length epsG)%nat) /\
  forall i, (i < N)%nat ->
   (let h := (Z.to_nat z =? i)%nat in
    (forall c, (c < 3)%nat -> ent E' i c = ent E i c + (if h then ent epsG k c else 0)) /\
    ent S' i 0 = ent S i 0 + (if h then f1 * ent epsG k 0 + f2 * ent epsG k 1 else 0) /\
    ent S' i 1 = ent S i 1 + (if h then f2 * ent epsG k 0 + f1 * ent epsG k 1 else 0) /\
    ent S' i 2 = ent S i 2 + (if h then g * ent epsG k 2 else 0) /\
    nth i cnt' 0%Z = (nth i cnt 0 + (if h then 1 else 0))%Z).
Proof.
  intros LE LS LC Hz. unfold node_acc. intros H. inv_ok H. apply (np_get_nat_ok _ _ _ []) in Hr as [Hk ->].
  rewrite np_upd_nonneg in H by (rewrite LE; exact Hz). cbn [bind] in H.
  rewrite np_upd_nonneg in H by (rewrite LS; exact Hz). cbn [bind] in H.
  rewrite np_upd_nonneg in H by (rewrite LC; exact Hz). cbn [bind] in H.
  apply Ok_inj, pair_equal_spec in H as [H <-]. apply pair_equal_spec in H as [<- <-].
  rewrite !upd_length. split; [tauto|]. intros i Hi. cbv zeta. unfold ent.
  rewrite !upd_nth by lia. rewrite (Nat.eqb_sym i (Z.to_nat z)).
  destruct (Z.to_nat z =? i)%nat eqn:Ei.
  - apply Nat.eqb_eq in Ei. subst i. unfold add_row, vget. cbn. numR. repeat split; try ring.
    intros c Hc. destruct c as [|[|[|c]]]; [ring|ring|ring|lia].
  - repeat split; try ring. intros. ring.
Qed.

(** the nodes of one element *)
Definition sumk (n : nat) (con : list Z) (i : nat) (f : nat -> R) : R :=
  rsum n (fun k => if (Z.to_nat (nth k con 0%Z) =? i)%nat then f k else 0).

Lemma sumk_S n con i f : sumk (S n) con i f = sumk n con i f + (if (Z.to_nat (nth n con 0%Z) =? i)%nat then f n else 0).
Proof. reflexivity. Qed.

Lemma combine_seq_snoc {A} (l : list A) (a : A) :
  combine (seq 0 (length (l ++ [a]))) (l ++ [a]) = combine (seq 0 (length l)) l ++ [(length l, a)].
Proof.
  rewrite app_length. cbn [length]. rewrite Nat.add_1_r, seq_S. cbn [Nat.add].
  assert (G : forall (l1 : list nat) (l2 : list A), length l1 = length l2 -> forall x y,
     combine (l1 ++ [x]) (l2 ++ [y]) = combine l1 l2 ++ [(x, y)]).
  { induction l1; intros [|b l2] HL x y; try discriminate; [reflexivity|]. cbn in *. rewrite IHl1 by lia. reflexivity. }
  apply G. now rewrite seq_length.
Qed.

Lemma nodes_acc_ok N f1 f2 g (epsG : list (list R)) con : Forall (fun z => (0 <= z < Z.of_nat N)%Z) con ->
  forall E S cnt E' S' cnt', length E = N -> length S = N -> length cnt = N ->
  foldM (node_acc f1 f2 g epsG) (combine (seq 0 (length con)) con) (E, S, cnt) = Ok (E', S', cnt') ->
  (length E' = N /\ length S' = N /\ length cnt' = N /\ (length con <= length epsG)%nat) /\
  forall i, (i < N)%nat ->
   (let sk := sumk (length con) con i in
    (forall c, (c < 3)%nat -> ent E' i c = ent E i c + sk (fun k => ent epsG k c)) /\
    ent S' i 0 = ent S i 0 + sk (fun k => f1 * ent epsG k 0 + f2 * ent epsG k 1) /\
    ent S' i 1 = ent S i 1 + sk (fun k => f2 * ent epsG k 0 + f1 * ent epsG k 1) /\
    ent S' i 2 = ent S i 2 + sk (fun k => g * ent epsG k 2) /\
    IZR (nth i cnt' 0%Z) = IZR (nth i cnt 0%Z) + sk (fun _ => 1)).
Proof.
  intros HF E S cnt E' S' cnt' LE LS LC. revert E' S' cnt'.
  induction con as [|z con IH] using rev_ind; intros E' S' cnt' H.
  - cbn in H. apply Ok_inj, pair_equal_spec in H as [H <-]. apply pair_equal_spec in H as [<- <-].
    split; [cbn; repeat split; auto; lia|]. intros i Hi. cbn. repeat split; intros; ring.
  - apply Forall_app in HF as [HF Hz]. inversion Hz; subst. clear Hz.
    rewrite combine_seq_snoc, foldM_app in H. inv_ok H. destruct r as [[E1 S1] c1].
    destruct (IH HF E1 S1 c1 Hr) as [[L1 [L2 [L3 L4]]] HI]. cbn in H. inv_ok H. destruct r as [[E2 S2] c2].
    apply Ok_inj, pair_equal_spec in H as [H <-]. apply pair_equal_spec in H as [<- <-].
    destruct (node_acc_ok (length E) f1 f2 g epsG E1 S1 c1 E2 S2 c2 (length con) z L1 L2 L3 ltac:(assumption) Hr0)
      as [[M1 [M2 [M3 M4]]] HJ].
    rewrite app_length. cbn [length]. split; [repeat split; auto; lia|].
    intros i Hi. destruct (HI i Hi) as [A0 [A1 [A2 [A3 A4]]]]. destruct (HJ i Hi) as [B0 [B1 [B2 [B3 B4]]]].
    cbv zeta in *. rewrite Nat.add_1_r.
    assert (X : forall f, sumk (Datatypes.S (length con)) (con ++ [z]) i f =
                          sumk (length con) con i f + (if (Z.to_nat z =? i)%nat then f (length con) else 0)).
    { intros f. rewrite sumk_S. rewrite app_nth2, Nat.sub_diag by lia. cbn [nth]. f_equal.
      apply rsum_ext. intros k Hk. now rewrite app_nth1 by lia. }
    rewrite !X. split; [|split; [|split; [|split]]].
    + intros c Hc. rewrite X, (B0 c Hc), (A0 c Hc). ring.
    + rewrite B1, A1. ring.
    + rewrite B2, A2. ring.
    + rewrite B3, A3. ring.
    + rewrite B4, plus_IZR, A4. destruct (Z.to_nat z =? i)%nat; ring.
Qed.

Lemma even_mod2 k : Nat.even k = (k mod 2 =? 0)%nat.
Proof.
  destruct (Nat.Even_or_Odd k) as [[m ->]|[m ->]].
  - rewrite Nat.even_mul. cbn [Nat.even orb]. rewrite Nat.mul_comm, Nat.mod_mul by lia. reflexivity.
  - rewrite Nat.even_add, Nat.even_mul. cbn [Nat.even orb eqb].
    rewrite Nat.add_comm, Nat.mul_comm, Nat.mod_add by lia. reflexivity.
Qed.

(** one element *)
Definition strains_of (iet : Z) (nodes sol : list (list R)) (e : list Z) : res (list (list R)) :=
  element_strains iet (e_coords nodes e) (mk_vec (2 * e_n e) (e_field sol e)).

Lemma nth_skipn {A} n (l : list A) k d : nth k (skipn n l) d = nth (n + k) l d.
Proof. revert l; induction n; intros l; [reflexivity|]. destruct l; [now destruct k|]. cbn. apply IHn. Qed.

Lemma e_node_skipn e k : e_node e k = Z.to_nat (nth k (skipn 3 e) 0%Z).
Proof. unfold e_node. now rewrite nth_skipn. Qed.

Lemma strain_elem_ok iet n N nodes mats sol E S cnt E' S' cnt' e :
  length nodes = N -> length sol = N -> length e = (3 + n)%nat ->
  Forall (fun z => (0 <= z < Z.of_nat N)%Z) (skipn 3 e) ->
  length E = N -> length S = N -> length cnt = N ->
  strain_elem iet (2 * n) n nodes mats sol (E, S, cnt) e = Ok (E', S', cnt') ->
  exists young nu epsG, (exists im, np_get e 2 = Ok im /\ np_get mats im = Ok [young; nu]) /\
    1 + nu <> 0 /\ 1 - nu * nu <> 0 /\
    strains_of iet nodes sol e = Ok epsG /\ (n <= length epsG)%nat /\
    (length E' = N /\ length S' = N /\ length cnt' = N) /\
    forall i, (i < N)%nat ->
     (let sk f := rsum n (fun k => if (e_node e k =? i)%nat then f k else 0) in
      (forall c, (c < 3)%nat -> ent E' i c = ent E i c + sk (fun k => ent epsG k c) /\
         ent S' i c = ent S i c + sk (fun k => hooke2 young nu (ent epsG k) c)) /\
      IZR (nth i cnt' 0%Z) = IZR (nth i cnt 0%Z) + sk (fun _ => 1)).
Proof.
  intros LN LU Le HF LE LS LC. unfold strain_elem. intros H. inv_ok H. rename r into im, Hr into Him.
  inv_ok H. rename r into row, Hr into Hrow. destruct row as [|young [|nu [|x row]]]; try discriminate.
  inv_ok H. apply guard_ok in Hr. rename Hr into G1. inv_ok H. apply guard_ok in Hr. rename Hr into G2. clear r r0.
  assert (Lc : length (skipn 3 e) = n) by (rewrite skipn_length; lia).
  set (con := skipn 3 e) in *.
  assert (HFn : Forall (fun z => (0 <= z < Z.of_nat (length nodes))%Z) con) by (rewrite LN; exact HF).
  assert (HFs : Forall (fun z => (0 <= z < Z.of_nat (length sol))%Z) con) by (rewrite LU; exact HF).
  inv_ok H. apply (take_col_ok _ _ 1) in Hr; [|exact HFn]. subst r.
  inv_ok H. unfold fit in Hr. rewrite map_length, Lc, Nat.eqb_refl in Hr. apply Ok_inj in Hr. subst r.
  inv_ok H. apply (take_col_ok _ _ 2) in Hr; [|exact HFn]. subst r.
  inv_ok H. unfold fit in Hr. rewrite map_length, Lc, Nat.eqb_refl in Hr. apply Ok_inj in Hr. subst r.
  inv_ok H. apply (take_col_ok _ _ 0) in Hr; [|exact HFs]. subst r.
  assert (D2 : (2 * n / 2 = n)%nat) by (rewrite Nat.mul_comm; apply Nat.div_mul; lia).
  assert (D3 : (2 * n - 2 * n / 2 = n)%nat) by lia. rewrite D3 in H.
  inv_ok H. unfold fit in Hr. rewrite map_length, Lc, Nat.eqb_refl in Hr. apply Ok_inj in Hr. subst r.
  inv_ok H. apply (take_col_ok _ _ 1) in Hr; [|exact HFs]. subst r. rewrite D2 in H.
  inv_ok H. unfold fit in Hr. rewrite map_length, Lc, Nat.eqb_refl in Hr. apply Ok_inj in Hr. subst r.
  inv_ok H. rename r into epsG, Hr into Heps.
  destruct (nodes_acc_ok N _ _ _ epsG con HF E S cnt E' S' cnt' LE LS LC H) as [[L1 [L2 [L3 L4]]] HI].
  apply negb_true_iff in G1, G2. 
  assert (N1 : 1 + nu <> 0).
  { intros K. cbn in G1. unfold nis0, nltb in G1. numR. rewrite K, Rmult_0_r in G1. cbn in G1. destruct (Rle_dec 0 0); [discriminate|lra]. }
  assert (N2 : 1 - nu * nu <> 0).
  { intros K. cbn in G2. unfold nis0 in G2. numR. replace (1 - nu * (nu * 1)) with (1 - nu * nu) in G2 by ring. rewrite K in G2.
    cbn in G2. destruct (Rle_dec 0 0); [discriminate|lra]. }
  exists young, nu, epsG. split; [exists im; auto|]. split; [exact N1|]. split; [exact N2|]. split; [|split; [lia|split; [auto|]]].
  - unfold strains_of. etransitivity; [|exact Heps]. unfold e_n. rewrite Le, Nat.add_comm, Nat.add_sub. f_equal.
    + unfold e_coords. fold con. clear -con. induction con as [|z l IH]; cbn; [reflexivity|]. now rewrite IH.
    + apply nth_ext with (d := 0) (d' := 0); rewrite !mk_vec_length; [reflexivity|]. intros k Hk.
      rewrite !mk_vec_nth by exact Hk. unfold e_field, field2. rewrite Nat.div2_div.
      assert (Hk2 : (k / 2 < n)%nat) by (apply Nat.div_lt_upper_bound; lia).
      rewrite !e_node_skipn. fold con. unfold vget. rewrite even_mod2. numR.
      change 0%Z with ((fun z : Z => z) 0%Z).
      destruct (k mod 2 =? 0)%nat; [set (F := fun z => ent sol (Z.to_nat z) 0)|set (F := fun z => ent sol (Z.to_nat z) 1)];
        rewrite (nth_indep _ 0 (F 0%Z)) by (rewrite map_length, Lc; exact Hk2); now rewrite map_nth.
  - intros i Hi. destruct (HI i Hi) as [A0 [A1 [A2 [A3 A4]]]]. cbv zeta in *.
    assert (X : forall f, sumk (length con) con i f = rsum n (fun k => if (e_node e k =? i)%nat then f k else 0)).
    { intros f. unfold sumk. rewrite Lc. apply rsum_ext. intros k _. now rewrite e_node_skipn. }
    rewrite X in A1, A2, A3, A4. split; [|exact A4].
    intros c Hc. specialize (A0 c Hc). rewrite X in A0. split; [exact A0|].
    destruct c as [|[|[|c]]]; [rewrite A1|rewrite A2|rewrite A3|lia]; f_equal; apply rsum_ext; intros k _;
      destruct (e_node e k =? i)%nat; auto; unfold hooke2; cbn; numR; field; auto.
Qed.

(** all elements *)
Lemma lsum_snoc {A} (f : A -> R) l a : lsum f (l ++ [a]) = lsum f l + f a.
Proof. rewrite lsum_app. cbn. ring. Qed.

Lemma strain_elems_ok iet n N nodes mats sol elements : length nodes = N -> length sol = N -> mesh_of iet n N elements ->
  forall E S cnt, foldM (strain_elem iet (2 * n) n nodes mats sol) elements (zeros N 3, zeros N 3, repeat 0%Z N) = Ok (E, S, cnt) ->
  let eps e k c := match strains_of iet nodes sol e with Ok m => ent m k c | Err _ => 0 end in
  Forall (fun e => (exists epsG, strains_of iet nodes sol e = Ok epsG /\ (n <= length epsG)%nat) /\
     np_get mats (nth 2 e 0%Z) = Ok [e_young mats e; e_nu mats e] /\
     1 + e_nu mats e <> 0 /\ 1 - e_nu mats e * e_nu mats e <> 0) elements /\
  (length E = N /\ length S = N /\ length cnt = N) /\
  forall i, (i < N)%nat ->
    (forall c, (c < 3)%nat -> ent E i c = gathered elements i (fun e k => eps e k c) /\
       ent S i c = gathered elements i (fun e k => hooke2 (e_young mats e) (e_nu mats e) (eps e k) c)) /\
    IZR (nth i cnt 0%Z) = occurs elements i.
Proof.
  intros LN LU HM. induction elements as [|e es IH] using rev_ind; intros E S cnt H.
  - cbn in H. apply Ok_inj, pair_equal_spec in H as [H <-]. apply pair_equal_spec in H as [<- <-]. cbv zeta.
    split; [constructor|]. split; [unfold zeros; rewrite mk_mat_length, repeat_length; auto|].
    intros i Hi. split; [|unfold occurs, gathered; cbn; now rewrite nth_repeat].
    intros c Hc. rewrite ent_zeros. auto.
  - apply Forall_app in HM as [HM He]. apply Forall_inv in He. destruct He as [Le [Ht [Hm HF]]].
    rewrite foldM_app in H. inv_ok H. destruct r as [[E1 S1] c1]. cbn in H. inv_ok H. destruct r as [[E2 S2] c2].
    apply Ok_inj, pair_equal_spec in H as [H <-]. apply pair_equal_spec in H as [<- <-].
    destruct (IH HM E1 S1 c1 Hr) as [FA [[L1 [L2 L3]] HI]].
    replace (n + (n + 0))%nat with (2 * n)%nat in Hr0 by lia.
    destruct (strain_elem_ok iet n N nodes mats sol E1 S1 c1 E2 S2 c2 e LN LU Le HF L1 L2 L3 Hr0)
      as [Y [nu [epsG [[im [Him Hrow]] [G1 [G2 [HS [Hn [[M1 [M2 M3]] HJ]]]]]]]]]. cbv zeta in *.
    apply (np_get_nat_ok e 2 im 0%Z) in Him as [_ ->].
    assert (EY : Y = e_young mats e /\ nu = e_nu mats e).
    { unfold e_young, e_nu, ent. destruct (Z_lt_dec (nth 2 e 0%Z) (Z.of_nat (length mats))) as [Hlt|Hge].
      - rewrite (np_get_nonneg mats _ []) in Hrow by lia. apply Ok_inj in Hrow. rewrite Hrow. auto.
      - rewrite np_get_overflow in Hrow by lia. discriminate. }
    destruct EY as [-> ->].
    split; [apply Forall_app; split; [exact FA|constructor; [|constructor]]; split; [exists epsG; auto|auto]|].
    split; [auto|]. intros i Hi. destruct (HI i Hi) as [A B]. destruct (HJ i Hi) as [C D].
    assert (X : forall g, gathered (es ++ [e]) i g = gathered es i g + rsum n (fun k => if (e_node e k =? i)%nat then g e k else 0)).
    { intros g. unfold gathered. rewrite lsum_snoc. unfold e_n. rewrite Le, Nat.add_comm, Nat.add_sub. reflexivity. }
    split.
    + intros c Hc. destruct (A c Hc) as [A1 A2]. destruct (C c Hc) as [C1 C2]. rewrite C1, C2, A1, A2, !X, HS. auto.
    + unfold occurs. rewrite X, D, B. reflexivity.
Qed.

Lemma average_nth (a : list (list R)) cnt N i : length a = N -> length cnt = N -> (i < N)%nat ->
  nth i (average a cnt) None =
  if (nth i cnt 0 =? 0)%Z then None else Some (mk_vec 3 (fun k => ent a i k / IZR (nth i cnt 0%Z))).
Proof.
  intros La Lc Hi. unfold average.
  match goal with |- nth i (map ?f _) None = _ => set (F := f) end.
  rewrite (nth_indep _ None (F ([], 0%Z))) by (rewrite map_length, combine_length; lia).
  rewrite map_nth, combine_nth by lia. reflexivity.
Qed.

Lemma lsum_nonneg {A} (f : A -> R) l : (forall a, In a l -> 0 <= f a) -> 0 <= lsum f l.
Proof.
  induction l; intros Hf; unfold lsum in *; cbn; [lra|]. pose proof (Hf a (or_introl eq_refl)).
  assert (0 <= fold_right (fun a acc => f a + acc) 0 l) by (apply IHl; intros; apply Hf; now right). lra.
Qed.

Lemma occurs_pos elements i e : In e elements -> touches e i -> 0 < occurs elements i.
Proof.
  intros Hin [k [Hk Hki]]. unfold occurs, gathered. induction elements as [|a l IH]; [destruct Hin|].
  unfold lsum in *. cbn [fold_right].
  assert (P : forall e', 0 <= rsum (e_n e') (fun k => if (e_node e' k =? i)%nat then 1 else 0)).
  { intros. apply rsum_nonneg. intros. destruct (_ =? _)%nat; lra. }
  destruct Hin as [->|Hin].
  - assert (0 <= fold_right (fun a acc => rsum (e_n a) (fun k => if (e_node a k =? i)%nat then 1 else 0) + acc) 0 l).
    { apply (lsum_nonneg (fun a => rsum (e_n a) (fun k => if (e_node a k =? i)%nat then 1 else 0))). intros. apply P. }
    assert (0 < rsum (e_n e) (fun k => if (e_node e k =? i)%nat then 1 else 0)); [|lra].
    destruct (Rle_lt_or_eq_dec _ _ (P e)) as [Hl|He]; [exact Hl|]. exfalso. symmetry in He.
    pose proof (rsum_eq_zero_nonneg (e_n e) (fun k => if (e_node e k =? i)%nat then 1 else 0)) as Z0.
    cbv beta in Z0. assert (X : (if (e_node e k =? i)%nat then 1 else 0) = 0).
    { apply Z0; auto. intros. destruct (_ =? _)%nat; lra. }
    rewrite Hki, Nat.eqb_refl in X. lra.
  - specialize (IH Hin). specialize (P a). lra.
Qed.

Lemma eletype_plane t n : In (t, n) [(1%Z, 4%nat); (2%Z, 6%nat); (3%Z, 3%nat)] ->
  exists g, eletype t = Ok ((2 * n)%nat, n, g).
Proof. intros [E|[E|[E|[]]]]; apply pair_equal_spec in E as [<- <-]; eexists; reflexivity. Qed.

Lemma strain_rows_ok t n N nodes elements mats sol E S : In (t, n) [(1%Z, 4%nat); (2%Z, 6%nat); (3%Z, 3%nat)] ->
  length nodes = N -> length sol = N -> mesh_of t n N elements ->
  strain_rows nodes elements mats sol = Ok (E, S) ->
  let eps e k c := match strains_of t nodes sol e with Ok m => ent m k c | Err _ => 0 end in
  (forall e, In e elements -> (exists epsG, strains_of t nodes sol e = Ok epsG) /\
     np_get mats (nth 2 e 0%Z) = Ok [e_young mats e; e_nu mats e] /\
     1 + e_nu mats e <> 0 /\ 1 - e_nu mats e * e_nu mats e <> 0) /\
  forall i, (i < N)%nat ->
    (occurs elements i = 0 -> nth i E None = None /\ nth i S None = None) /\
    (occurs elements i <> 0 -> exists er sr, nth i E None = Some er /\ nth i S None = Some sr /\ length er = 3%nat /\ length sr = 3%nat /\
      forall c, (c < 3)%nat ->
        nth c er 0 * occurs elements i = gathered elements i (fun e k => eps e k c) /\
        nth c sr 0 * occurs elements i = gathered elements i (fun e k => hooke2 (e_young mats e) (e_nu mats e) (eps e k) c)).
Proof.
  intros Ht LN LU HM. unfold strain_rows. intros H. inv_ok H. apply (np_get_nat_ok _ 0 _ []) in Hr as [Hlen ->].
  inv_ok H. apply (np_get_nat_ok _ 1 _ 0%Z) in Hr as [_ ->].
  assert (He0 : nth 1 (nth 0 elements []) 0%Z = t).
  { destruct elements as [|e0 es]; [cbn in Hlen; lia|]. apply Forall_inv in HM. apply HM. }
  rewrite He0 in H. destruct (eletype_plane t n Ht) as [g Hg]. rewrite Hg in H. cbn [bind] in H.
  inv_ok H. destruct r as [[E1 S1] c1]. apply Ok_inj, pair_equal_spec in H as [<- <-].
  rewrite LN in Hr.
  destruct (strain_elems_ok t n N nodes mats sol elements LN LU HM E1 S1 c1 Hr) as [FA [[L1 [L2 L3]] HI]].
  cbv zeta in *. split.
  - intros e Hin. rewrite Forall_forall in FA. destruct (FA e Hin) as [[m [A _]] B]. split; [exists m; exact A|exact B].
  - intros i Hi. destruct (HI i Hi) as [A B]. rewrite !(average_nth _ _ N) by assumption. split; intros Ho.
    + rewrite Ho in B. change 0 with (IZR 0) in B. apply eq_IZR in B. rewrite B. auto.
    + destruct (Z.eqb_spec (nth i c1 0%Z) 0) as [E0|E0]; [rewrite E0 in B; now symmetry in B|].
      eexists; eexists. do 2 (split; [reflexivity|]). rewrite !mk_vec_length. do 2 (split; [reflexivity|]).
      intros c Hc. rewrite !mk_vec_nth by exact Hc. destruct (A c Hc) as [A1 A2]. rewrite <- A1, <- A2, B.
      split; field; exact Ho.
Qed.

(** the rows of str_el3/4/6 *)
Lemma map_nth_def {A B} (f : A -> B) l k a b : (k < length l)%nat -> nth k (map f l) b = f (nth k l a).
Proof. intros Hk. rewrite (nth_indep _ b (f a)) by (rewrite map_length; exact Hk). apply map_nth. Qed.

Lemma str_loop_ok sh n cap pts coord u eps xl : (forall r s, length (fst (sh r s)) = n) -> length coord = n ->
  str_el_loop sh cap pts coord (mk_vec (2 * n) u) = Ok (eps, xl) ->
  (forall k, (k < length pts)%nat -> strain_at sh coord u (nth k pts []) (ent eps k) /\
      exists r s H B det, nth k pts [] = [r; s] /\ elast_diff_2d r s coord sh = Ok (H, B, det) /\
        nth k xl [] = [rsum n (fun j => ent H 0 (2 * j) * ent coord j 0); rsum n (fun j => ent H 0 (2 * j) * ent coord j 0)]) /\
  (forall k c, (length pts <= k)%nat -> ent eps k c = 0) /\
  length eps = Nat.max cap (length pts).
Proof.
  intros Hs Lc. unfold str_el_loop. intros H. inv_ok H. apply Ok_inj, pair_equal_spec in H as [<- <-].
  pose proof (mapM_length _ _ _ Hr) as LR. apply mapM_ok in Hr. unfold vec, mat in *. split; [|split].
  - intros k Hk. pose proof (Forall2_nth _ _ _ k [] ([], []) Hr Hk) as P. cbv beta in P.
    unfold str_el_point in P. inv_ok P. destruct r0 as [r0 s0].
    unfold unpack2 in Hr0. destruct (nth k pts []) as [|r1 [|s1 [|]]] eqn:Ep; try discriminate.
    apply Ok_pair_inj in Hr0 as [-> ->]. inv_ok P. destruct r1 as [[Hm B] det]. inv_ok P. inv_ok P.
    unfold ent. rewrite !app_nth1 by (rewrite map_length; lia).
    rewrite !(map_nth_def _ _ _ ([], [])) by lia. rewrite <- P. cbn [fst snd]. split.
    + exists Hm, B, det. cbn [nth]. split; [exact Hr0|]. intros c Hc. rewrite Hs, Lc. unfold mvmul.
      rewrite mk_vec_nth by exact Hc. rewrite sumn_rsum. unfold act. apply rsum_ext. intros j Hj.
      unfold vget. rewrite mk_vec_nth by exact Hj. reflexivity.
    + exists r0, s0, Hm, B, det. split; [reflexivity|]. split; [exact Hr0|]. rewrite !sumn_rsum, Hs. reflexivity.
  - intros k c Hk. unfold ent. rewrite app_nth2 by (rewrite map_length; lia).
    match goal with |- nth c (nth ?m (repeat ?x ?y) ?d) 0 = 0 => destruct (nth_in_or_default m (repeat x y) d) as [HI|HD] end.
    + apply repeat_spec in HI. rewrite HI. cbn. numR. destruct c as [|[|[|[|]]]]; reflexivity.
    + rewrite HD. now destruct c.
  - rewrite app_length, map_length, repeat_length, LR. lia.
Qed.
