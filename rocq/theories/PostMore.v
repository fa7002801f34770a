(** * Truss stresses, principal values, triangulations (proof support) *)
From Coq Require Import String Reals List Arith Lia Lra ZArith QArith Qreals Bool.
From Verif Require Import Num LinAlg Gauss Fem Uel Assem Post Spec LinR Base SpecElem SpecModel SpecPost BarProofs PostProofs.
Import ListNotations.
Local Open Scope R_scope.

(** ** C53 *)
Lemma firstn2_skipn1 (r : list R) : (2 < length r)%nat -> firstn 2 (skipn 1 r) = [nth 1 r 0; nth 2 r 0].
Proof. destruct r as [|a [|b [|c r]]]; cbn; intros; try lia; reflexivity. Qed.

Lemma e_get (e : list Z) k : (k < length e)%nat -> np_get e (Z.of_nat k) = Ok (nth k e 0%Z).
Proof. intros. now apply np_get_nth. Qed.

Lemma row_get (l : list (list R)) z : (0 <= z)%Z -> (Z.to_nat z < length l)%nat -> np_get l z = Ok (nth (Z.to_nat z) l []).
Proof. intros. apply np_get_nonneg. lia. Qed.

Lemma stress_bar_ok nodes mats disp e : bar_row nodes mats disp e -> stress_bar nodes mats disp e = Ok (bar_stress nodes mats disp e).
Proof.
  intros [Le [Hk [Hm0 [Hm1 [Lrow [HA Hne]]]]]].
  destruct (Hk 0%nat ltac:(lia)) as [A0 [A1 [A2 [A3 A4]]]]. destruct (Hk 1%nat ltac:(lia)) as [B0 [B1 [B2 [B3 B4]]]].
  unfold e_node in *. cbn [Nat.add] in *.
  unfold stress_bar.
  change (np_get e 3) with (np_get e (Z.of_nat 3)). change (np_get e 4) with (np_get e (Z.of_nat 4)).
  change (np_get e 2) with (np_get e (Z.of_nat 2)). rewrite !e_get by lia. cbn [bind].
  rewrite !row_get by assumption. cbn [bind]. rewrite !firstn2_skipn1 by assumption.
  cbn [combine map fst snd fold_right]. numR.
  unfold bar_stress, bar_disp, e_young, e_node, ent in *. cbn [Nat.add] in *. cbv zeta.
  set (ra := nth (Z.to_nat (nth 3 e 0%Z)) nodes []) in *. set (rb := nth (Z.to_nat (nth 4 e 0%Z)) nodes []) in *.
  set (da := nth (Z.to_nat (nth 3 e 0%Z)) disp []) in *. set (db := nth (Z.to_nat (nth 4 e 0%Z)) disp []) in *.
  set (mr := nth (Z.to_nat (nth 2 e 0%Z)) mats []) in *.
  destruct mr as [|Y [|A rest]] eqn:Emr; [cbn in Lrow; lia|cbn in Lrow; lia|]. cbn [nth] in HA |- *.
  destruct (bars_closed_form (nth 1 ra 0) (nth 2 ra 0) (nth 1 rb 0) (nth 2 rb 0) Hne) as [HT _].
  destruct (HT Y A rest) as [K [M [HK HF]]]. rewrite HK. cbn [bind].
  rewrite app_length, A4, B4. cbn [Nat.add Nat.eqb guard bind].
  change (np_get (Y :: A :: rest) 1) with (np_get (Y :: A :: rest) (Z.of_nat 1)).
  rewrite (np_get_nth _ 1 0) by (cbn; lia). cbn [bind nth].
  rewrite Rplus_0_r. fold (bar_len (nth 1 ra 0) (nth 2 ra 0) (nth 1 rb 0) (nth 2 rb 0)).
  pose proof (bar_len_pos _ _ _ _ Hne) as HL. pose proof (bar_len_sqr (nth 1 ra 0) (nth 2 ra 0) (nth 1 rb 0) (nth 2 rb 0)) as HS.
  set (L := bar_len (nth 1 ra 0) (nth 2 ra 0) (nth 1 rb 0) (nth 2 rb 0)) in *.
  replace (nis0 (L * A)) with false.
  2:{ symmetry. apply nis0_false. apply Rmult_integral_contrapositive. split; [lra|exact HA]. }
  cbn [negb guard bind]. f_equal.
  unfold vget. cbn [nth]. unfold mvmul. rewrite !mk_vec_nth by lia. rewrite !sumn_rsum.
  assert (X : forall i, (i < 4)%nat -> rsum 4 (fun k => mget K i k * vget (da ++ db) k) =
     bar_force (Y * A / L) (nth 1 ra 0) (nth 2 ra 0) (nth 1 rb 0) (nth 2 rb 0)
       (fun j => nth (j mod 2) (nth (Z.to_nat (nth (3 + j / 2) e 0%Z)) disp []) 0) i).
  { intros i Hi. rewrite <- HF by exact Hi. unfold act. apply rsum_ext. intros j Hj. f_equal.
    unfold vget. destruct da as [|d0 [|d1 [|]]] eqn:Ea; try discriminate. destruct db as [|d2 [|d3 [|]]] eqn:Eb; try discriminate.
    destruct j as [|[|[|[|]]]]; [| | | |lia]; cbn [app nth Nat.modulo Nat.div Nat.divmod fst snd Nat.sub Nat.add]; fold da; fold db; rewrite ?Ea, ?Eb; reflexivity. }
  pose proof (X 2%nat ltac:(lia)) as X2. pose proof (X 3%nat ltac:(lia)) as X3. cbv beta in X2, X3. unfold bar_force in X2, X3.
  fold L in X2, X3.
  etransitivity; [exact (f_equal2 (fun p q => (p * (nth 1 rb 0 - nth 1 ra 0) + q * (nth 2 rb 0 - nth 2 ra 0)) / (L * A)) X2 X3)|]. cbv beta.
  match goal with |- context [bar_elong ?p ?q ?r ?s ?u] => set (el := bar_elong p q r s u) end.
  match goal with |- _ = Y * ?z / L => change z with el end.
  replace ((Y * A / L * el * ((nth 1 rb 0 - nth 1 ra 0) / L) * (nth 1 rb 0 - nth 1 ra 0) +
            Y * A / L * el * ((nth 2 rb 0 - nth 2 ra 0) / L) * (nth 2 rb 0 - nth 2 ra 0)) / (L * A))
    with (Y * el / (L * L * L) * ((nth 1 rb 0 - nth 1 ra 0) * (nth 1 rb 0 - nth 1 ra 0) + (nth 2 rb 0 - nth 2 ra 0) * (nth 2 rb 0 - nth 2 ra 0)))
    by (field; repeat split; first [assumption|lra]).
  rewrite <- HS. field. lra.
Qed.

Theorem truss_hooke nodes elements mats disp : Forall (bar_row nodes mats disp) elements ->
  stress_truss nodes elements mats disp = Ok (map (bar_stress nodes mats disp) elements).
Proof.
  intros HF. unfold stress_truss. apply mapM_total. intros e He. apply stress_bar_ok. rewrite Forall_forall in HF. auto.
Qed.

Theorem truss_rigid nodes elements mats disp a b w : Forall (bar_row nodes mats disp) elements ->
  (forall i, (i < length nodes)%nat -> ent disp i 0 = a - w * ent nodes i 2 /\ ent disp i 1 = b + w * ent nodes i 1) ->
  stress_truss nodes elements mats disp = Ok (map (fun _ => 0) elements).
Proof.
  intros HF Hr. rewrite truss_hooke by exact HF. f_equal. apply map_ext_in. intros e He. rewrite Forall_forall in HF.
  destruct (HF e He) as [_ [Hk [_ [_ [_ [_ Hne]]]]]].
  destruct (Hk 0%nat ltac:(lia)) as [_ [A1 _]]. destruct (Hk 1%nat ltac:(lia)) as [_ [B1 _]].
  unfold bar_stress, bar_elong, bar_disp. cbv zeta.
  change (0 / 2)%nat with 0%nat. change (1 / 2)%nat with 0%nat. change (2 / 2)%nat with 1%nat. change (3 / 2)%nat with 1%nat.
  change (0 mod 2)%nat with 0%nat. change (1 mod 2)%nat with 1%nat. change (2 mod 2)%nat with 0%nat. change (3 mod 2)%nat with 1%nat.
  destruct (Hr _ A1) as [-> ->]. destruct (Hr _ B1) as [-> ->]. pose proof (bar_len_pos _ _ _ _ Hne). field. lra.
Qed.

Lemma bar_len_swap xa ya xb yb : bar_len xb yb xa ya = bar_len xa ya xb yb.
Proof. unfold bar_len. f_equal. ring. Qed.

Theorem truss_swap nodes elements mats disp : Forall (bar_row nodes mats disp) elements ->
  stress_truss nodes (map swap_bar elements) mats disp = stress_truss nodes elements mats disp.
Proof.
  intros HF. rewrite (truss_hooke nodes elements) by exact HF. rewrite truss_hooke.
  - f_equal. rewrite map_map. apply map_ext_in. intros e He. rewrite Forall_forall in HF.
    destruct (HF e He) as [_ [_ [_ [_ [_ [_ Hne]]]]]].
    unfold bar_stress, bar_elong, bar_disp. cbv zeta.
    change (e_node (swap_bar e) 0) with (e_node e 1). change (e_node (swap_bar e) 1) with (e_node e 0).
    change (0 / 2)%nat with 0%nat. change (1 / 2)%nat with 0%nat. change (2 / 2)%nat with 1%nat. change (3 / 2)%nat with 1%nat.
    change (0 mod 2)%nat with 0%nat. change (1 mod 2)%nat with 1%nat. change (2 mod 2)%nat with 0%nat. change (3 mod 2)%nat with 1%nat.
    change (e_node (swap_bar e) 0) with (e_node e 1). change (e_node (swap_bar e) 1) with (e_node e 0).
    change (e_young mats (swap_bar e)) with (e_young mats e).
    rewrite (bar_len_swap (ent nodes (e_node e 0) 1)). pose proof (bar_len_pos _ _ _ _ Hne). field. lra.
  - apply Forall_map. eapply Forall_impl; [|exact HF]. intros e [_ [Hk [Hm [Hm1 [Hm2 [HA Hne]]]]]].
    split; [cbn; lia|]. split; [|split; [exact Hm|split; [exact Hm1|split; [exact Hm2|split; [exact HA|]]]]].
    + intros k Hk2. destruct k as [|[|]]; [exact (Hk 1%nat ltac:(lia))|exact (Hk 0%nat ltac:(lia))|lia].
    + change (e_node (swap_bar e) 0) with (e_node e 1). change (e_node (swap_bar e) 1) with (e_node e 0). destruct Hne as [H|H]; [left|right]; auto.
Qed.

Theorem truss_linear nodes elements mats d1 d2 d3 s t s1 s2 s3 :
  Forall (bar_row nodes mats d1) elements -> Forall (bar_row nodes mats d2) elements -> Forall (bar_row nodes mats d3) elements ->
  (forall i c, (i < length nodes)%nat -> (c < 2)%nat -> ent d3 i c = s * ent d1 i c + t * ent d2 i c) ->
  stress_truss nodes elements mats d1 = Ok s1 -> stress_truss nodes elements mats d2 = Ok s2 -> stress_truss nodes elements mats d3 = Ok s3 ->
  forall k, (k < length elements)%nat -> nth k s3 0 = s * nth k s1 0 + t * nth k s2 0.
Proof.
  intros F1 F2 F3 Hd. rewrite !truss_hooke by assumption. intros E1 E2 E3. apply Ok_inj in E1, E2, E3. subst s1 s2 s3.
  intros k Hk. rewrite !(map_nth_def _ _ _ []) by exact Hk.
  set (e := nth k elements []). assert (He : In e elements) by (apply nth_In; exact Hk).
  rewrite Forall_forall in F1. destruct (F1 e He) as [_ [Hkk [_ [_ [_ [_ Hne]]]]]].
  destruct (Hkk 0%nat ltac:(lia)) as [_ [A1 _]]. destruct (Hkk 1%nat ltac:(lia)) as [_ [B1 _]].
  unfold bar_stress, bar_elong, bar_disp. cbv zeta.
  change (0 / 2)%nat with 0%nat. change (1 / 2)%nat with 0%nat. change (2 / 2)%nat with 1%nat. change (3 / 2)%nat with 1%nat.
  change (0 mod 2)%nat with 0%nat. change (1 mod 2)%nat with 1%nat. change (2 mod 2)%nat with 0%nat. change (3 mod 2)%nat with 1%nat.
  rewrite !Hd by (assumption || lia). pose proof (bar_len_pos _ _ _ _ Hne). field. lra.
Qed.

(** ** C54, C55 *)
Lemma nltb_true (x y : R) : nltb x y = true <-> x < y.
Proof. unfold nltb. cbn [nleb Num_R]. destruct (Rle_dec y x); cbn; split; intros; try lra; try discriminate; reflexivity. Qed.
Lemma nltb_false (x y : R) : nltb x y = false <-> y <= x.
Proof. unfold nltb. cbn [nleb Num_R]. destruct (Rle_dec y x); cbn; split; intros; try lra; try discriminate; reflexivity. Qed.
Lemma nabs_R (x : R) : nabs x = Rabs x.
Proof.
  unfold nabs. cbn [nleb Num_R nopp n0]. unfold Rabs. destruct (Rle_dec 0 x), (Rcase_abs x); try lra; reflexivity.
Qed.
Lemma nmax_R (x y : R) : nmax x y = Rmax x y.
Proof. unfold nmax, Rmax. cbn [nleb Num_R]. destruct (Rle_dec x y); reflexivity. Qed.

Lemma abs_max_R a b c d : c = b \/ c = 0 -> abs_max [[a; b]; [c; d]] = largest a b d.
Proof.
  intros Hc. unfold abs_max, mget. cbn [nth]. rewrite !nabs_R, !nmax_R. unfold largest.
  assert (H : Rabs c <= Rabs b) by (destruct Hc as [-> | ->]; [lra|rewrite Rabs_R0; apply Rabs_pos]).
  unfold Rmax. repeat destruct (Rle_dec _ _); lra.
Qed.

Lemma largest_ge a b d : Rabs a <= largest a b d /\ Rabs b <= largest a b d /\ Rabs d <= largest a b d.
Proof. unfold largest, Rmax. repeat destruct (Rle_dec _ _); lra. Qed.

Definition sorted_pair (l1 l2 : R) (v1 v2 : list R) : R * R * option (list R) * option (list R) :=
  if Rlt_dec (Rabs l1) (Rabs l2) then (l2, l1, Some v2, Some v1) else (l1, l2, Some v1, Some v2).

Definition eig_root (a b d : R) : R := sqrt ((a - d) * (a - d) + 4 * (b * b)).
Definition eig_lo (a b d : R) : R := (a + d - eig_root a b d) / 2.
Definition eig_hi (a b d : R) : R := (a + d + eig_root a b d) / 2.
Definition eig_nrm (a b d : R) : R := sqrt ((a - eig_hi a b d) * (a - eig_hi a b d) + b * b).
Definition eig_v1 (a b d : R) : list R := [(a - eig_hi a b d) / eig_nrm a b d; b / eig_nrm a b d].
Definition eig_v2 (a b d : R) : list R := [- (b / eig_nrm a b d); (a - eig_hi a b d) / eig_nrm a b d].

Lemma sq_pos b : b <> 0 -> 0 < b * b.
Proof. intros H. apply Rsqr_pos_lt. exact H. Qed.

Lemma eig_nrm_pos a b d : b <> 0 -> 0 < eig_nrm a b d.
Proof.
  intros Hb. unfold eig_nrm. apply sqrt_lt_R0. pose proof (Rle_0_sqr (a - eig_hi a b d)) as H. unfold Rsqr in H. pose proof (sq_pos b Hb). lra.
Qed.

Lemma eigvals_R a b c d tol : c = b \/ c = 0 -> 0 < tol ->
  eigvals [[a; b]; [c; d]] tol =
  if Rlt_dec (largest a b d) tol then Ok (0, 0, None, None)
  else if Rlt_dec (Rabs b / largest a b d) tol then Ok (sorted_pair a d [1; 0] [0; 1])
  else Ok (sorted_pair (eig_lo a b d) (eig_hi a b d) (eig_v1 a b d) (eig_v2 a b d)).
Proof.
  intros Hc Ht. unfold eigvals. rewrite (abs_max_R a b c d Hc). rewrite !nabs_R.
  change (mget [[a; b]; [c; d]] 0 0) with a. change (mget [[a; b]; [c; d]] 0 1) with b. change (mget [[a; b]; [c; d]] 1 1) with d.
  destruct (Rlt_dec (largest a b d) tol) as [H1|H1].
  - replace (nltb (largest a b d) tol) with true by (symmetry; apply nltb_true; exact H1). cbn [bind].
    rewrite !nabs_R. replace (nltb _ _) with false; [reflexivity|]. symmetry. apply nltb_false. lra.
  - replace (nltb (largest a b d) tol) with false by (symmetry; apply nltb_false; lra).
    replace (nis0 (largest a b d)) with false by (symmetry; apply nis0_false; lra). cbn [negb guard bind].
    change (ndiv (Rabs b) (largest a b d)) with (Rabs b / largest a b d).
    destruct (Rlt_dec (Rabs b / largest a b d) tol) as [H2|H2].
    + replace (nltb (Rabs b / largest a b d) tol) with true by (symmetry; apply nltb_true; exact H2). cbn [bind]. unfold sorted_pair.
      rewrite !nabs_R. destruct (Rlt_dec (Rabs a) (Rabs d)) as [H3|H3].
      * replace (nltb (Rabs a) (Rabs d)) with true by (symmetry; apply nltb_true; exact H3). reflexivity.
      * replace (nltb (Rabs a) (Rabs d)) with false by (symmetry; apply nltb_false; lra). reflexivity.
    + replace (nltb (Rabs b / largest a b d) tol) with false by (symmetry; apply nltb_false; lra).
      assert (Hb : b <> 0). { intros ->. rewrite Rabs_R0 in H2. apply H2. unfold Rdiv. rewrite Rmult_0_l. exact Ht. }
      unfold npow. numR. q2r.
      assert (Eroot : sqrt ((a + d) * (a + d) - 4 * (a * d - b * b)) = eig_root a b d) by (unfold eig_root; f_equal; ring).
      rewrite Eroot.
      replace (5 * / 10 * (a + d - eig_root a b d)) with (eig_lo a b d) by (unfold eig_lo; field).
      replace (5 * / 10 * (a + d + eig_root a b d)) with (eig_hi a b d) by (unfold eig_hi; field).
      fold (eig_nrm a b d).
      replace (nis0 (eig_nrm a b d)) with false by (symmetry; apply nis0_false; pose proof (eig_nrm_pos a b d Hb); lra).
      cbn [negb guard bind]. rewrite !nabs_R. unfold sorted_pair.
      destruct (Rlt_dec (Rabs (eig_lo a b d)) (Rabs (eig_hi a b d))) as [H3|H3].
      * replace (nltb _ _) with true by (symmetry; apply nltb_true; exact H3). reflexivity.
      * replace (nltb _ _) with false by (symmetry; apply nltb_false; lra). reflexivity.
Qed.

Lemma eig_root_sqr a b d : eig_root a b d * eig_root a b d = (a - d) * (a - d) + 4 * (b * b).
Proof.
  unfold eig_root. apply sqrt_sqrt. pose proof (Rle_0_sqr (a - d)). pose proof (Rle_0_sqr b). unfold Rsqr in *. lra.
Qed.
Lemma eig_nrm_sqr a b d : eig_nrm a b d * eig_nrm a b d = (a - eig_hi a b d) * (a - eig_hi a b d) + b * b.
Proof.
  unfold eig_nrm. apply sqrt_sqrt. pose proof (Rle_0_sqr (a - eig_hi a b d)). pose proof (Rle_0_sqr b). unfold Rsqr in *. lra.
Qed.
Lemma eig_char a b d : (a - eig_lo a b d) * (a - eig_hi a b d) + b * b = 0 /\ eig_lo a b d + eig_hi a b d = a + d /\
  eig_lo a b d * eig_hi a b d = a * d - b * b.
Proof. pose proof (eig_root_sqr a b d) as H. unfold eig_lo, eig_hi. repeat split; nra. Qed.

Lemma eig_vectors a b d : b <> 0 ->
  let l1 := eig_lo a b d in let l2 := eig_hi a b d in let v1 := eig_v1 a b d in let v2 := eig_v2 a b d in
  tmul a b d v1 = (l1 * nth 0 v1 0, l1 * nth 1 v1 0) /\ tmul a b d v2 = (l2 * nth 0 v2 0, l2 * nth 1 v2 0) /\
  dot2 v1 v1 = 1 /\ dot2 v2 v2 = 1 /\ dot2 v1 v2 = 0.
Proof.
  intros Hb. cbv zeta. pose proof (eig_nrm_pos a b d Hb) as HN. pose proof (eig_nrm_sqr a b d) as HS.
  destruct (eig_char a b d) as [C1 [C2 C3]]. unfold tmul, dot2, eig_v1, eig_v2. cbn [nth].
  set (n := eig_nrm a b d) in *. set (h := eig_hi a b d) in *. set (l := eig_lo a b d) in *.
  assert (Hl : l = a + d - h) by lra. rewrite Hl in *. clear Hl.
  repeat split.
  - f_equal.
    + replace (a * ((a - h) / n) + b * (b / n)) with ((a * (a - h) + b * b) / n) by (field; lra).
      replace ((a + d - h) * ((a - h) / n)) with ((a + d - h) * (a - h) / n) by (field; lra). f_equal. nra.
    + field. lra.
  - f_equal.
    + field. lra.
    + replace (b * - (b / n) + d * ((a - h) / n)) with ((d * (a - h) - b * b) / n) by (field; lra).
      replace (h * ((a - h) / n)) with (h * (a - h) / n) by (field; lra). f_equal. nra.
  - replace ((a - h) / n * ((a - h) / n) + b / n * (b / n)) with (((a - h) * (a - h) + b * b) / (n * n)) by (field; lra).
    rewrite HS. field. rewrite <- HS. apply Rmult_integral_contrapositive. split; lra.
  - replace (- (b / n) * - (b / n) + (a - h) / n * ((a - h) / n)) with (((a - h) * (a - h) + b * b) / (n * n)) by (field; lra).
    rewrite HS. field. rewrite <- HS. apply Rmult_integral_contrapositive. split; lra.
  - field. lra.
Qed.

Theorem eig_exact a b c d tol : c = b \/ c = 0 -> 0 < tol -> tol <= largest a b d -> tol <= Rabs b / largest a b d ->
  exists l1 l2 v1 v2, eigvals [[a; b]; [c; d]] tol = Ok (l1, l2, Some v1, Some v2) /\
    length v1 = 2%nat /\ length v2 = 2%nat /\
    tmul a b d v1 = (l1 * nth 0 v1 0, l1 * nth 1 v1 0) /\ tmul a b d v2 = (l2 * nth 0 v2 0, l2 * nth 1 v2 0) /\
    dot2 v1 v1 = 1 /\ dot2 v2 v2 = 1 /\ dot2 v1 v2 = 0 /\ Rabs l2 <= Rabs l1.
Proof.
  intros Hc Ht H1 H2. rewrite eigvals_R by assumption.
  destruct (Rlt_dec (largest a b d) tol); [lra|]. destruct (Rlt_dec (Rabs b / largest a b d) tol); [lra|].
  assert (Hb : b <> 0). { intros ->. rewrite Rabs_R0 in H2. unfold Rdiv in H2. rewrite Rmult_0_l in H2. lra. }
  destruct (eig_vectors a b d Hb) as [A1 [A2 [A3 [A4 A5]]]]. unfold sorted_pair.
  destruct (Rlt_dec _ _).
  - do 4 eexists. split; [reflexivity|]. repeat (split; [first [reflexivity|assumption]|]).
    split; [unfold dot2 in *; lra|lra].
  - do 4 eexists. split; [reflexivity|]. repeat (split; [first [reflexivity|assumption]|]). lra.
Qed.

(** residual |M v - l v| of the diagonal answer *)
Theorem eig_diagonal a b c d tol : c = b \/ c = 0 -> 0 < tol -> tol <= largest a b d -> Rabs b / largest a b d < tol ->
  exists l1 l2 v1 v2, eigvals [[a; b]; [c; d]] tol = Ok (l1, l2, Some v1, Some v2) /\
    length v1 = 2%nat /\ length v2 = 2%nat /\
    (forall l v, (l, v) = (l1, v1) \/ (l, v) = (l2, v2) ->
       Rabs (fst (tmul a b d v) - l * nth 0 v 0) < tol * largest a b d /\ Rabs (snd (tmul a b d v) - l * nth 1 v 0) < tol * largest a b d) /\
    dot2 v1 v1 = 1 /\ dot2 v2 v2 = 1 /\ dot2 v1 v2 = 0 /\ Rabs l2 <= Rabs l1.
Proof.
  intros Hc Ht H1 H2. rewrite eigvals_R by assumption.
  destruct (Rlt_dec (largest a b d) tol); [lra|]. destruct (Rlt_dec (Rabs b / largest a b d) tol); [|lra].
  assert (Hb : Rabs b < tol * largest a b d).
  { apply (Rmult_lt_compat_r (largest a b d)) in H2; [|lra]. unfold Rdiv in H2. rewrite Rmult_assoc, Rinv_l, Rmult_1_r in H2 by lra. exact H2. }
  assert (Hp : 0 < tol * largest a b d) by (apply Rmult_lt_0_compat; lra).
  assert (R1 : Rabs (fst (tmul a b d [1; 0]) - a * nth 0 [1; 0] 0) < tol * largest a b d /\ Rabs (snd (tmul a b d [1; 0]) - a * nth 1 [1; 0] 0) < tol * largest a b d).
  { unfold tmul. cbn [fst snd nth]. split; [replace (a * 1 + b * 0 - a * 1) with 0 by ring; rewrite Rabs_R0; exact Hp|].
    replace (b * 1 + d * 0 - a * 0) with b by ring. exact Hb. }
  assert (R2 : Rabs (fst (tmul a b d [0; 1]) - d * nth 0 [0; 1] 0) < tol * largest a b d /\ Rabs (snd (tmul a b d [0; 1]) - d * nth 1 [0; 1] 0) < tol * largest a b d).
  { unfold tmul. cbn [fst snd nth]. split; [replace (a * 0 + b * 1 - d * 0) with b by ring; exact Hb|].
    replace (b * 0 + d * 1 - d * 1) with 0 by ring. rewrite Rabs_R0. exact Hp. }
  unfold sorted_pair. destruct (Rlt_dec (Rabs a) (Rabs d)).
  - do 4 eexists. split; [reflexivity|]. split; [reflexivity|]. split; [reflexivity|].
    split; [intros l v [E|E]; apply pair_equal_spec in E as [-> ->]; assumption|].
    unfold dot2. cbn [nth]. repeat split; lra.
  - do 4 eexists. split; [reflexivity|]. split; [reflexivity|]. split; [reflexivity|].
    split; [intros l v [E|E]; apply pair_equal_spec in E as [-> ->]; assumption|].
    unfold dot2. cbn [nth]. repeat split; lra.
Qed.

Theorem eig_small a b c d tol : c = b \/ c = 0 -> 0 < tol -> largest a b d < tol ->
  eigvals [[a; b]; [c; d]] tol = Ok (0, 0, None, None).
Proof. intros Hc Ht H. rewrite eigvals_R by assumption. destruct (Rlt_dec _ _); [reflexivity|lra]. Qed.

(** the eigenvalues are the roots of the characteristic polynomial *)
Theorem eig_invariants a b c d tol l1 l2 v1 v2 : c = b \/ c = 0 -> 0 < tol -> tol <= largest a b d ->
  eigvals [[a; b]; [c; d]] tol = Ok (l1, l2, v1, v2) ->
  l1 + l2 = a + d /\ (tol <= Rabs b / largest a b d -> l1 * l2 = a * d - b * b).
Proof.
  intros Hc Ht H1. rewrite eigvals_R by assumption. destruct (Rlt_dec (largest a b d) tol); [lra|].
  destruct (eig_char a b d) as [_ [C2 C3]].
  unfold sorted_pair. destruct (Rlt_dec (Rabs b / largest a b d) tol); destruct (Rlt_dec _ _); intros E; apply Ok_inj in E;
    apply pair_equal_spec in E as [E _]; apply pair_equal_spec in E as [E _]; apply pair_equal_spec in E as [<- <-]; split; intros; lra.
Qed.

Lemma largest_scale k a b d : 0 < k -> largest (k * a) (k * b) (k * d) = k * largest a b d.
Proof.
  intros Hk. unfold largest. rewrite !Rabs_mult, !(Rabs_pos_eq k) by lra.
  rewrite <- !RmaxRmult by lra. reflexivity.
Qed.
Lemma sqrt_scale k x y : 0 < k -> 0 <= x -> y = k * k * x -> sqrt y = k * sqrt x.
Proof. intros Hk Hx ->. rewrite sqrt_mult by nra. rewrite sqrt_square by lra. reflexivity. Qed.

Lemma eig_root_scale k a b d : 0 < k -> eig_root (k * a) (k * b) (k * d) = k * eig_root a b d.
Proof.
  intros Hk. unfold eig_root. apply sqrt_scale; [exact Hk| |ring].
  pose proof (Rle_0_sqr (a - d)). pose proof (Rle_0_sqr b). unfold Rsqr in *. lra.
Qed.

Theorem eig_scale a b c d tol k : c = b \/ c = 0 -> 0 < tol -> 0 < k -> tol <= largest a b d -> tol <= k * largest a b d ->
  exists r, eigvals [[a; b]; [c; d]] tol = Ok r /\ eigvals [[k * a; k * b]; [k * c; k * d]] tol = Ok (scale_res k r).
Proof.
  intros Hc Ht Hk H1 H2. assert (Hc' : k * c = k * b \/ k * c = 0) by (destruct Hc as [-> | ->]; [left; reflexivity|right; ring]).
  rewrite !eigvals_R by assumption. rewrite largest_scale by exact Hk.
  destruct (Rlt_dec (largest a b d) tol); [lra|]. destruct (Rlt_dec (k * largest a b d) tol); [lra|].
  assert (Er : Rabs (k * b) / (k * largest a b d) = Rabs b / largest a b d).
  { rewrite Rabs_mult, (Rabs_pos_eq k) by lra. field. lra. }
  rewrite Er.
  assert (S : forall l1 l2 v1 v2, sorted_pair (k * l1) (k * l2) v1 v2 = scale_res k (sorted_pair l1 l2 v1 v2)).
  { intros. unfold sorted_pair. rewrite !Rabs_mult, (Rabs_pos_eq k) by lra.
    destruct (Rlt_dec (Rabs l1) (Rabs l2)) as [A|A]; destruct (Rlt_dec (k * Rabs l1) (k * Rabs l2)) as [B|B]; try reflexivity; exfalso.
    - apply B. apply Rmult_lt_compat_l; assumption.
    - apply A. apply (Rmult_lt_reg_l k); assumption. }
  destruct (Rlt_dec (Rabs b / largest a b d) tol) as [A|A].
  - eexists. split; [reflexivity|]. f_equal. apply S.
  - eexists. split; [reflexivity|]. f_equal. rewrite <- S.
    assert (Hb : b <> 0). { intros ->. rewrite Rabs_R0 in A. apply A. unfold Rdiv. rewrite Rmult_0_l. exact Ht. }
    pose proof (eig_nrm_pos a b d Hb) as HN.
    assert (E1 : eig_lo (k * a) (k * b) (k * d) = k * eig_lo a b d) by (unfold eig_lo; rewrite eig_root_scale by exact Hk; field).
    assert (E2 : eig_hi (k * a) (k * b) (k * d) = k * eig_hi a b d) by (unfold eig_hi; rewrite eig_root_scale by exact Hk; field).
    assert (E3 : eig_nrm (k * a) (k * b) (k * d) = k * eig_nrm a b d).
    { unfold eig_nrm. rewrite E2. apply sqrt_scale; [exact Hk| |ring].
      pose proof (Rle_0_sqr (a - eig_hi a b d)). pose proof (Rle_0_sqr b). unfold Rsqr in *. lra. }
    rewrite E1, E2. f_equal.
    + unfold eig_v1. rewrite E2, E3. f_equal; [field; lra|]. f_equal. field. lra.
    + unfold eig_v2. rewrite E2, E3. f_equal; [field; lra|]. f_equal. field. lra.
Qed.

Theorem eig_scale_refuted : exists a b d k r, 0 < k /\ @eigvals R Num_R [[a; b]; [b; d]] (nofQ 1e-6) = Ok r /\
  @eigvals R Num_R [[k * a; k * b]; [k * b; k * d]] (nofQ 1e-6) <> Ok (scale_res k r).
Proof.
  assert (Ht : @nofQ R Num_R 1e-6 = 1 / 1000000) by (cbn [nofQ Num_R]; unfold Q2R; cbn [Qnum Qden]; simpl Pos.to_nat; cbn; lra).
  exists 1, 0, 0, (1 / 10000000), (sorted_pair 1 0 [1; 0] [0; 1]). split; [lra|]. rewrite Ht.
  assert (L1 : largest 1 0 0 = 1) by (unfold largest; rewrite Rabs_R0, Rabs_R1; unfold Rmax; repeat destruct (Rle_dec _ _); lra).
  split.
  - rewrite eigvals_R by (try (left; reflexivity); lra). rewrite L1, Rabs_R0.
    destruct (Rlt_dec 1 (1 / 1000000)); [lra|]. destruct (Rlt_dec (0 / 1) (1 / 1000000)); [reflexivity|lra].
  - rewrite eig_small; [|left; reflexivity|lra|rewrite largest_scale, L1 by lra; lra].
    unfold sorted_pair, scale_res. rewrite Rabs_R0, Rabs_R1. destruct (Rlt_dec 1 0); [lra|]. intros K. apply Ok_inj in K. discriminate K.
Qed.

(** ** C54: the rows of a field *)
Theorem principal_rows field r :
  principal_dirs field = Ok r ->
  length r = length field /\
  forall i, (i < length field)%nat -> exists s1 s2 s3 rest x, nth i field [] = s1 :: s2 :: s3 :: rest /\
    nth i r (0, 0, None, None) = x /\ @eigvals R Num_R [[s1; s3]; [0; s2]] (nofQ 1e-6) = Ok x.
Proof.
  unfold principal_dirs. intros H. pose proof (mapM_length _ _ _ H) as L. split; [exact L|].
  intros i Hi. destruct (mapM_nth_error _ _ _ i (nth i field []) H) as [x [E1 E2]]; [apply nth_error_nth'; exact Hi|].
  assert (Ex : nth i r (0, 0, None, None) = x) by (apply nth_error_nth; assumption).
  cut (exists s1 s2 s3 rest, nth i field [] = s1 :: s2 :: s3 :: rest /\ @eigvals R Num_R [[s1; s3]; [0; s2]] (nofQ 1e-6) = Ok x).
  { intros (s1 & s2 & s3 & rest & A & B). exists s1, s2, s3, rest, x. auto. }
  clear H Ex. match goal with K : bind _ _ = Ok x |- _ => rename K into E end.
  destruct (nth i field []) as [|s1 [|s2 [|s3 rest]]]; try (cbn in E; discriminate).
  exists s1, s2, s3, rest. split; [reflexivity|].
  change (np_get (s1 :: s2 :: s3 :: rest) 2) with (np_get (s1 :: s2 :: s3 :: rest) (Z.of_nat 2)) in E.
  change (np_get (s1 :: s2 :: s3 :: rest) 1) with (np_get (s1 :: s2 :: s3 :: rest) (Z.of_nat 1)) in E.
  change (np_get (s1 :: s2 :: s3 :: rest) 0) with (np_get (s1 :: s2 :: s3 :: rest) (Z.of_nat 0)) in E.
  rewrite (np_get_nth _ 2 0), (np_get_nth _ 1 0), (np_get_nth _ 0 0) in E by (cbn [length]; lia). exact E.
Qed.

(** ** C56 *)
Theorem triangs_ok e : (1 <= nth 1 e 0 <= 4)%Z -> length e = (3 + nodes_of_type (nth 1 e 0%Z))%nat ->
  exists ts, elem_triangs e = Ok ts /\
    (forall t, In t ts -> length t = 3%nat /\ forall k, In k t -> In k (skipn 3 e)) /\
    forall X Y : Z -> R, lsum (tri_area X Y) ts = e_area X Y e.
Proof.
  intros Ht. assert (C : nth 1 e 0%Z = 1%Z \/ nth 1 e 0%Z = 2%Z \/ nth 1 e 0%Z = 3%Z \/ nth 1 e 0%Z = 4%Z) by lia.
  destruct C as [C|[C|[C|C]]]; rewrite C; cbn [nodes_of_type Nat.add]; intros L;
    repeat (destruct e as [|? e]; [discriminate L|]; cbn [length] in L; apply Nat.succ_inj in L || fail);
    destruct e; try discriminate L; cbn [nth] in C; subst.
  all: eexists; split; [reflexivity|]; split.
  all: try (intros t Hin; cbn [In] in Hin; repeat (destruct Hin as [<-|Hin]; [split; [reflexivity|intros k Hk; cbn [In skipn] in *; tauto]|]); destruct Hin).
  all: intros X Y; unfold e_area, e_boundary; cbn [nth boundary map Nat.add]; unfold lsum, polygon, tri_area; cbn; field.
Qed.

Theorem triangs_positive t : (1 <= t <= 4)%Z ->
  exists ts, elem_triangs ([0; t; 0] ++ map Z.of_nat (seq 0 (nodes_of_type t)))%Z = Ok ts /\ ts <> [] /\
    forall tr, In tr ts ->
      0 < tri_area (fun k => fst (nth (Z.to_nat k) (reference t) (0, 0))) (fun k => snd (nth (Z.to_nat k) (reference t) (0, 0))) tr.
Proof.
  intros Ht. assert (C : t = 1%Z \/ t = 2%Z \/ t = 3%Z \/ t = 4%Z) by lia.
  destruct C as [-> |[-> |[-> | ->]]].
  all: eexists; split; [reflexivity|]; split; [discriminate|].
  all: intros tr Hin; cbn in Hin; repeat (destruct Hin as [<-|Hin]; [unfold tri_area; cbn [nth fst snd reference Z.to_nat];
     repeat match goal with |- context [Pos.to_nat ?p] => let n := eval compute in (Pos.to_nat p) in change (Pos.to_nat p) with n end; cbn [nth fst snd]; lra|]); destruct Hin.
Qed.

Theorem triangs_other e : nth_error e 1 <> None -> ~ (1 <= nth 1 e 0 <= 4)%Z -> elem_triangs e = Ok [].
Proof.
  intros He Ht. unfold elem_triangs. destruct e as [|e0 [|e1 er]]; [exfalso; apply He; reflexivity..|]. cbn [nth] in Ht.
  change (np_get (e0 :: e1 :: er) 1) with (np_get (e0 :: e1 :: er) (Z.of_nat 1)). rewrite (np_get_nth _ 1 0%Z) by (cbn [length]; lia).
  cbn [bind nth].
  destruct (Z.eqb_spec e1 1); [lia|]. destruct (Z.eqb_spec e1 2); [lia|]. destruct (Z.eqb_spec e1 3); [lia|]. destruct (Z.eqb_spec e1 4); [lia|]. reflexivity.
Qed.

Lemma lsum_concat {A} (f : A -> R) ls : lsum f (concat ls) = lsum (lsum f) ls.
Proof. induction ls as [|l ls IH]; [reflexivity|]. cbn [concat]. rewrite lsum_app. unfold lsum in IH |- *. cbn [map fold_right]. rewrite IH. reflexivity. Qed.

Lemma col_nth nodes (c : nat) v : mapM (fun row : list R => np_get row (Z.of_nat c)) nodes = Ok v -> v = map (fun r => nth c r 0) nodes.
Proof.
  intros H. apply mapM_ok in H. induction H as [|x y l l' Hxy H IH]; [reflexivity|]. cbn [map]. f_equal; [|exact IH].
  apply (np_get_nat_ok _ _ _ 0) in Hxy. apply Hxy.
Qed.

Theorem mesh_triangs nodes elements X Y ts :
  (forall e, In e elements -> (1 <= nth 1 e 0 <= 4)%Z /\ length e = (3 + nodes_of_type (nth 1 e 0%Z))%nat) ->
  mesh2tri nodes elements = Ok (X, Y, ts) ->
  X = map (fun r => nth 1 r 0) nodes /\ Y = map (fun r => nth 2 r 0) nodes /\
  (forall t, In t ts -> length t = 3%nat /\ exists e, In e elements /\ forall k, In k t -> In k (skipn 3 e)) /\
  (forall t k, In t ts -> In k t -> (0 <= k < Z.of_nat (length nodes))%Z) /\
  forall x y : Z -> R, lsum (tri_area x y) ts = lsum (e_area x y) elements.
Proof.
  intros He H. unfold mesh2tri in H. do 5 inv_ok H. rename r into cx, r0 into cy, r1 into tss.
  apply Ok_inj in H. apply pair_equal_spec in H as [H <-]. apply pair_equal_spec in H as [<- <-].
  match goal with K : mapM elem_triangs _ = _ |- _ => rename K into Hts end.
  match goal with K : mapM (fun row => np_get row 1) _ = _ |- _ => pose proof K as Hx; apply (col_nth _ 1) in Hx end.
  match goal with K : mapM (fun row => np_get row 2) _ = _ |- _ => pose proof K as Hy; apply (col_nth _ 2) in Hy end.
  split; [exact Hx|]. split; [exact Hy|].
  assert (Lx : length cx = length nodes) by (rewrite Hx, map_length; reflexivity).
  apply mapM_ok in Hts.
  split; [|split].
  - clear - He Hts. induction Hts as [|e ts' l l' H1 H2 IH]; [intros t []|].
    intros t Ht. cbn [concat] in Ht. apply in_app_or in Ht as [Ht|Ht].
    + destruct (He e (or_introl eq_refl)) as [A B]. destruct (triangs_ok e A B) as [ts0 [E [P _]]].
      rewrite E in H1. apply Ok_inj in H1. subst ts'. destruct (P t Ht) as [P1 P2]. split; [exact P1|]. exists e. split; [left; reflexivity|exact P2].
    + destruct (IH (fun e' h => He e' (or_intror h)) t Ht) as [P1 [e' [P2 P3]]]. split; [exact P1|]. exists e'. split; [right; exact P2|exact P3].
  - intros t k Ht Hk. match goal with K : guard (forallb (forallb _) _) _ = Ok _ |- _ => apply guard_ok in K; rename K into G end.
    rewrite forallb_forall in G. specialize (G t Ht). rewrite forallb_forall in G. specialize (G k Hk).
    apply andb_true_iff in G as [G1 G2]. rewrite <- Lx. lia.
  - intros x y. rewrite lsum_concat. clear - He Hts. induction Hts as [|e ts' l l' H1 H2 IH]; [reflexivity|].
    destruct (He e (or_introl eq_refl)) as [A B]. destruct (triangs_ok e A B) as [ts0 [E [_ P]]].
    rewrite E in H1. apply Ok_inj in H1. subst ts'. specialize (IH (fun e' h => He e' (or_intror h))).
    change (lsum (tri_area x y) ts0 + lsum (lsum (tri_area x y)) l' = e_area x y e + lsum (e_area x y) l). rewrite IH, P. reflexivity.
Qed.

(** ** C57 *)
Lemma types_of elements : (forall e, In e elements -> (2 <= length e)%nat) ->
  mapM (fun e : list Z => np_get e 1) elements = Ok (map (fun e => nth 1 e 0%Z) elements).
Proof.
  intros H. apply mapM_total. intros e He. change 1%Z with (Z.of_nat 1). rewrite (np_get_nth _ 1 0%Z); [reflexivity|]. apply H in He. lia.
Qed.
Lemma has_type_spec elements t : has_type (map (fun e => nth 1 e 0%Z) elements) t = true <-> exists e, In e elements /\ nth 1 e 0%Z = t.
Proof.
  unfold has_type. rewrite existsb_exists. split.
  - intros [x [Hx E]]. apply in_map_iff in Hx as [e [He Hin]]. apply Z.eqb_eq in E. exists e. split; [exact Hin|congruence].
  - intros [e [Hin E]]. exists t. split; [|apply Z.eqb_refl]. apply in_map_iff. exists e. auto.
Qed.

Theorem structural_printed elements nodes disp E S :
  (forall e, In e elements -> (2 <= length e)%nat) ->
  (exists e, In e elements /\ (5 <= nth 1 e 0 <= 7)%Z) ->
  @fields_plot R elements nodes disp E S = Ok (Printed disp).
Proof.
  intros He [e [Hin Ht]]. unfold fields_plot. rewrite types_of by exact He. cbn [bind].
  assert (C : nth 1 e 0%Z = 5%Z \/ nth 1 e 0%Z = 6%Z \/ nth 1 e 0%Z = 7%Z) by lia.
  destruct C as [C|[C|C]]; assert (X := proj2 (has_type_spec elements _) (ex_intro _ e (conj Hin C))); rewrite X, ?orb_true_r; reflexivity.
Qed.

Theorem continuum_not_printed elements nodes disp E S r :
  (forall e, In e elements -> ~ (5 <= nth 1 e 0 <= 7)%Z) ->
  @fields_plot R elements nodes disp E S = Ok r -> exists p, r = Contours p.
Proof.
  intros Hn H. unfold fields_plot in H. inv_ok H. rename r0 into types.
  apply mapM_ok in Hr.
  assert (G : forall t, (5 <= t <= 7)%Z -> has_type types t = false).
  { intros t Ht. destruct (has_type types t) eqn:Eh; [exfalso|reflexivity]. unfold has_type in Eh. rewrite existsb_exists in Eh.
    destruct Eh as [x [Hx Ex]]. apply Z.eqb_eq in Ex. subst x. clear - Hn Hr Hx Ht.
    induction Hr as [|e y l l' H1 H2 IH]; [destruct Hx|]. destruct Hx as [->|Hx].
    - change 1%Z with (Z.of_nat 1) in H1. apply (np_get_nat_ok _ _ _ 0%Z) in H1 as [_ ->]. apply (Hn e); [left; reflexivity|exact Ht].
    - apply IH; [intros e' h; apply Hn; right; exact h|exact Hx]. }
  rewrite !G in H by lia. cbn [orb] in H. do 3 inv_ok H. apply Ok_inj in H. subst r. eexists. reflexivity.
Qed.

Theorem beams_contoured_refuted : exists elements nodes disp,
  (exists e, In e elements /\ (5 <= nth 1 e 0 <= 8)%Z) /\
  exists p, @fields_plot R elements nodes disp None None = Ok (Contours p).
Proof.
  exists [[0; 3; 0; 0; 1; 2]; [1; 8; 0; 0; 1]]%Z, [[0; 0; 0]; [1; 1; 0]; [2; 0; 1]], [[0; 0]; [0; 0]; [0; 0]].
  split; [exists [1; 8; 0; 0; 1]%Z; split; [right; left; reflexivity|cbn; lia]|]. eexists. cbv -[IZR]. reflexivity.
Qed.
Theorem beams_error_refuted elements nodes disp E S r :
  (forall e, In e elements -> nth 1 e 0%Z = 8%Z) -> @fields_plot R elements nodes disp E S <> Ok r.
Proof.
  intros Hn H. unfold fields_plot in H. inv_ok H. rename r0 into types.
  assert (T : mapM elem_triangs elements = Ok (map (fun _ => []) elements)).
  { apply mapM_ok in Hr. apply mapM_total. intros e He. 
    apply triangs_other; [|rewrite Hn by exact He; lia].
    intros C. apply nth_error_None in C. specialize (Hn e He). rewrite nth_overflow in Hn by exact C. discriminate. }
  assert (M : forall p, mesh2tri nodes elements <> Ok p).
  { intros p K. unfold mesh2tri in K. do 2 inv_ok K. rewrite T in K. cbn [bind] in K.
    replace (concat (map (fun _ => []) elements)) with (@nil (list Z)) in K by (clear; induction elements; [reflexivity|assumption]).
    cbn in K. discriminate. }
  destruct (_ || _) eqn:B.
  - apply mapM_ok in Hr. assert (G : forall t, t <> 8%Z -> has_type types t = false).
    { intros t Ht. destruct (has_type types t) eqn:Eh; [exfalso|reflexivity]. unfold has_type in Eh. rewrite existsb_exists in Eh.
      destruct Eh as [x [Hx Ex]]. apply Z.eqb_eq in Ex. subst x. clear - Hn Hr Hx Ht.
      induction Hr as [|e y l l' H1 H2 IH]; [destruct Hx|]. destruct Hx as [->|Hx].
      - change 1%Z with (Z.of_nat 1) in H1. apply (np_get_nat_ok _ _ _ 0%Z) in H1 as [_ ->]. apply Ht, (Hn e). left; reflexivity.
      - apply IH; [intros e' h; apply Hn; right; exact h|exact Hx]. }
    rewrite !G in B by lia. discriminate.
  - inv_ok H. unfold plot_node_field in Hr0. inv_ok Hr0. exact (M _ Hr1).
Qed.
