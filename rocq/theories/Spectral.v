(** * Linear algebra: K x = lam M x with K symmetric and M symmetric positive definite has n
      independent solutions *)
From Coq Require Import Reals List Arith Lia Lra Bool Classical.
From Verif Require Import Num LinAlg Spec LinR Base SpecModel SpecMass ElemCore StaticProofs StaticProofs3 Areas Assem Main SpecScript ExSolver ScriptFinal.
Import ListNotations.
Local Open Scope R_scope.

Definition dot (n : nat) (u v : nat -> R) : R := rsum n (fun i => u i * v i).
Definition nonzero (n : nat) (u : nat -> R) : Prop := exists j, (j < n)%nat /\ u j <> 0.

(** ** fewer equations than unknowns *)
Lemma under_determined n : forall L : list (nat -> R), (length L < n)%nat -> exists u, nonzero n u /\ forall a, In a L -> dot n a u = 0.
Proof.
  induction n as [|n IH]; intros L HL; [lia|].
  destruct (classic (forall a, In a L -> a n = 0)) as [H|H].
  - exists (fun j => if (j =? n)%nat then 1 else 0). split; [exists n; split; [lia|rewrite Nat.eqb_refl; lra]|].
    intros a Ha. unfold dot. apply rsum_zero. intros i Hi. destruct (Nat.eqb_spec i n) as [->|]; [rewrite (H a Ha)|]; ring.
  - apply not_all_ex_not in H. destruct H as [a H]. apply imply_to_and in H. destruct H as [Ha Hn].
    apply in_split in Ha. destruct Ha as (L1 & L2 & ->). rewrite app_length in HL. cbn [length] in HL.
    set (red := fun b : nat -> R => fun j => b j - b n / a n * a j).
    destruct (IH (map red (L1 ++ L2))) as (u & (j & Hj & Hu) & HD); [rewrite map_length, app_length; lia|].
    set (u' := fun j => if (j =? n)%nat then - dot n a u / a n else u j).
    assert (Hu' : forall b, dot (S n) b u' = dot n b u + b n * (- dot n a u / a n)).
    { intros b. unfold dot. cbn [rsum]. unfold u' at 2. rewrite Nat.eqb_refl. f_equal. apply rsum_ext. intros i Hi.
      unfold u'. destruct (Nat.eqb_spec i n); [lia|reflexivity]. }
    exists u'. split; [exists j; split; [lia|]; unfold u'; destruct (Nat.eqb_spec j n); [lia|exact Hu]|].
    assert (Hred : forall b, In b (L1 ++ L2) -> dot (S n) b u' = 0).
    { intros b Hb. specialize (HD (red b) (in_map red _ _ Hb)). rewrite Hu'.
      assert (E : dot n (red b) u = dot n b u - b n / a n * dot n a u).
      { unfold dot, red. rewrite <- rsum_scal. rewrite <- rsum_minus. apply rsum_ext. intros; ring. }
      rewrite E in HD. replace (dot n b u) with (b n / a n * dot n a u) by lra. field. exact Hn. }
    intros b Hb. apply in_app_iff in Hb. destruct Hb as [Hb|[<-|Hb]]; [apply Hred, in_app_iff; tauto| |apply Hred, in_app_iff; tauto].
    rewrite Hu'. field. exact Hn.
Qed.

(** ** bounds of quadratic forms *)
Lemma dot_nonneg n u : 0 <= dot n u u.
Proof. apply rsum_nonneg. intros. exact (Rle_0_sqr _). Qed.
Lemma dot_ge n u i : (i < n)%nat -> u i * u i <= dot n u u.
Proof.
  intros Hi. unfold dot. induction n as [|n IH]; [lia|]. cbn [rsum]. pose proof (Rle_0_sqr (u n)) as H. unfold Rsqr in H.
  destruct (Nat.eq_dec i n) as [->|]; [pose proof (dot_nonneg n u) as H'; unfold dot in H'; lra|]. specialize (IH ltac:(lia)). lra.
Qed.
Lemma dot_pos n u : nonzero n u -> 0 < dot n u u.
Proof. intros (j & Hj & Hu). eapply Rlt_le_trans; [|exact (dot_ge n u j Hj)]. exact (Rsqr_pos_lt _ Hu). Qed.
Lemma bilinear_bound n (a : nat -> nat -> R) u :
  Rabs (rsum n (fun i => rsum n (fun j => a i j * (u i * u j)))) <= rsum n (fun i => rsum n (fun j => Rabs (a i j))) * dot n u u.
Proof.
  eapply Rle_trans; [apply rsum_abs|]. rewrite <- rsum_scal_r. apply rsum_le. intros i Hi.
  eapply Rle_trans; [apply rsum_abs|]. rewrite <- rsum_scal_r. apply rsum_le. intros j Hj. rewrite Rabs_mult.
  apply Rmult_le_compat_l; [apply Rabs_pos|]. pose proof (dot_ge n u i Hi). pose proof (dot_ge n u j Hj).
  apply Rabs_le. pose proof (Rle_0_sqr (u i - u j)). pose proof (Rle_0_sqr (u i + u j)). unfold Rsqr in *. lra.
Qed.
Lemma form_bound n A : exists b, 0 <= b /\ forall u, Rabs (form n A u u) <= b * dot n u u.
Proof.
  exists (rsum n (fun i => rsum n (fun j => Rabs (ent A i j)))). split.
  - apply rsum_nonneg. intros. apply rsum_nonneg. intros. apply Rabs_pos.
  - intros u. eapply Rle_trans; [|apply (bilinear_bound n (fun i j => ent A i j))]. right. f_equal. unfold form, act.
    apply rsum_ext. intros i _. rewrite <- rsum_scal. apply rsum_ext. intros j _. ring.
Qed.
Lemma schwarz n A u v : symmetric n A -> psd n A -> form n A u v * form n A u v <= form n A u u * form n A v v.
Proof.
  intros HS HP. set (a := form n A u u). set (b := form n A u v). set (c := form n A v v).
  assert (Q : forall s t, 0 <= s * s * a + 2 * s * t * b + t * t * c).
  { intros s t. pose proof (HP (fun i => s * u i + t * v i)) as H.
    rewrite form_add_l, !form_add_r, (form_sym n A v u HS) in H. fold a b c in H. lra. }
  assert (Ha : 0 <= a) by apply HP. assert (Hc : 0 <= c) by apply HP.
  destruct (Req_dec c 0) as [Z|Z].
  - pose proof (Q b (- (a + 1) / 2)) as H. rewrite Z in *.
    assert (b * b <= 0) by lra. pose proof (Rle_0_sqr b). unfold Rsqr in *. lra.
  - pose proof (Q c (- b)) as H. assert (0 <= c * (a * c - b * b)) by lra.
    assert (0 <= a * c - b * b); [|lra]. apply (Rmult_le_reg_l c); lra.
Qed.
Lemma coercive n A : shape n n A -> symmetric n A -> psd n A -> regular n A -> exists c, 0 < c /\ forall u, c * dot n u u <= form n A u u.
Proof.
  intros HA HS HP HR.
  assert (Y : forall j, exists y, (j < n)%nat -> forall i, (i < n)%nat -> act n A y i = if (i =? j)%nat then 1 else 0).
  { intros j. destruct (proj2 elim_both n A (mk_vec n (fun i => if (i =? j)%nat then 1 else 0)) HA (mk_vec_length _ _) HR) as [(x & Hx) _].
    apply (proj1 (proj1 elim_both)) in Hx. rewrite mk_vec_length in Hx. exists (fun q => nth q x 0). intros Hj i Hi.
    rewrite (proj2 Hx i Hi). apply mk_vec_nth. exact Hi. }
  assert (Y' : exists y : nat -> nat -> R, forall i j, (j < n)%nat -> (i < n)%nat -> act n A (y j) i = if (i =? j)%nat then 1 else 0).
  { clear - Y. assert (G : forall m, (m <= n)%nat -> exists y : nat -> nat -> R, forall i j, (j < m)%nat -> (i < n)%nat -> act n A (y j) i = if (i =? j)%nat then 1 else 0).
    { induction m as [|m IH]; intros Hm; [exists (fun _ _ => 0); intros; lia|]. destruct (IH ltac:(lia)) as [y Hy]. destruct (Y m) as [ym Hym].
      exists (fun j => if (j =? m)%nat then ym else y j). intros i j Hj Hi. destruct (Nat.eqb_spec j m) as [->|]; [apply Hym; lia|apply Hy; lia]. }
    exact (G n (le_n n)). }
  destruct Y' as [y Hy]. set (b := rsum n (fun i => rsum n (fun j => Rabs (y j i)))).
  assert (Hb : 0 <= b) by (apply rsum_nonneg; intros; apply rsum_nonneg; intros; apply Rabs_pos).
  exists (/ (b + 1)). split; [apply Rinv_0_lt_compat; lra|]. intros u.
  set (z := fun i => rsum n (fun j => u j * y j i)).
  assert (Az : forall i, (i < n)%nat -> act n A z i = u i).
  { intros i Hi. unfold act, z. transitivity (rsum n (fun j => u j * act n A (y j) i)).
    - unfold act. transitivity (rsum n (fun k => rsum n (fun j => ent A i k * (u j * y j k)))); [apply rsum_ext; intros; rewrite <- rsum_scal; reflexivity|].
      rewrite rsum_swap. apply rsum_ext. intros j _. rewrite <- rsum_scal. apply rsum_ext. intros; ring.
    - rewrite (rsum_single n i _ Hi).
      + rewrite Hy by assumption. rewrite Nat.eqb_refl. ring.
      + intros j Hj Hne. rewrite Hy by assumption. destruct (Nat.eqb_spec i j); [congruence|ring]. }
  assert (E1 : form n A u z = dot n u u) by (unfold form, dot; apply rsum_ext; intros i Hi; rewrite (Az i Hi); reflexivity).
  assert (E2 : form n A z z = rsum n (fun i => rsum n (fun j => y j i * (u i * u j)))).
  { unfold form. apply rsum_ext. intros i Hi. rewrite (Az i Hi). unfold z. rewrite Rmult_comm, <- rsum_scal. apply rsum_ext. intros; ring. }
  pose proof (bilinear_bound n (fun i j => y j i) u) as B. cbv beta in B. fold b in B. rewrite <- E2 in B.
  pose proof (Rle_abs (form n A z z)) as B'. pose proof (schwarz n A u z HS HP) as C. rewrite E1 in C.
  pose proof (HP u) as P. pose proof (dot_nonneg n u) as D. set (d := dot n u u) in *. set (a := form n A u u) in *.
  assert (C' : d * d <= a * (b + 1) * d).
  { eapply Rle_trans; [exact C|]. rewrite Rmult_assoc. apply Rmult_le_compat_l; [exact P|]. lra. }
  assert (C'' : d <= a * (b + 1)).
  { destruct D as [D|<-]; [|apply Rmult_le_pos; lra]. apply (Rmult_le_reg_r d); [exact D|]. exact C'. }
  apply (Rmult_le_reg_l (b + 1)); [lra|]. rewrite <- Rmult_assoc, Rinv_r by lra. lra.
Qed.
Lemma pd_psd n M : positive_definite n M -> psd n M.
Proof.
  intros H u. destruct (classic (nonzero n u)) as [N|N]; [apply Rlt_le, H, N|].
  right. unfold form. symmetry. apply rsum_zero. intros i Hi. destruct (Req_dec (u i) 0) as [->|Z]; [ring|]. exfalso. apply N. exists i. auto.
Qed.
Lemma pd_regular n M : positive_definite n M -> regular n M.
Proof.
  intros H u Hu q Hq. destruct (Req_dec (u q) 0) as [Z|Z]; [exact Z|]. exfalso. specialize (H u (ex_intro _ q (conj Hq Z))).
  unfold form in H. rewrite rsum_zero in H; [lra|]. intros i Hi. rewrite (Hu i Hi). ring.
Qed.

(** ** the lowest solution *)
Definition pencil (n : nat) (K M : list (list R)) (t : R) : list (list R) := mk_mat n n (fun i j => ent K i j - t * ent M i j).
Lemma pencil_act n K M t u i : (i < n)%nat -> act n (pencil n K M t) u i = act n K u i - t * act n M u i.
Proof.
  intros Hi. unfold act, pencil. rewrite <- rsum_scal, <- rsum_minus. apply rsum_ext. intros j Hj. rewrite ent_mk_mat by assumption. ring.
Qed.
Lemma pencil_form n K M t u v : form n (pencil n K M t) u v = form n K u v - t * form n M u v.
Proof.
  unfold form. rewrite <- rsum_scal, <- rsum_minus. apply rsum_ext. intros i Hi. rewrite pencil_act by exact Hi. ring.
Qed.
Lemma lowest n K M : (0 < n)%nat -> symmetric n K -> symmetric n M -> shape n n M -> positive_definite n M ->
  exists lam x, nonzero n x /\ (forall i, (i < n)%nat -> act n K x i = lam * act n M x i) /\ forall u, lam * form n M u u <= form n K u u.
Proof.
  intros Hn SK SM HM PM.
  destruct (coercive n M HM SM (pd_psd n M PM) (pd_regular n M PM)) as (c & Hc & HcM).
  destruct (form_bound n K) as (k & Hk & HK). destruct (form_bound n M) as (m & Hm & HmM).
  set (S := fun l => forall u, l * form n M u u <= form n K u u).
  assert (HB : bound S).
  { set (e := fun i : nat => if (i =? 0)%nat then 1 else 0). assert (He : 0 < form n M e e) by (apply PM; exists 0%nat; split; [exact Hn|unfold e; cbn; lra]).
    exists (form n K e e / form n M e e). intros l Hl. specialize (Hl e). apply (Rmult_le_reg_r (form n M e e)); [exact He|].
    unfold Rdiv. rewrite Rmult_assoc, Rinv_l by lra. lra. }
  assert (HE : exists l, S l).
  { exists (- (k / c)). intros u. specialize (HcM u). pose proof (HK u) as H. pose proof (Rle_abs (- form n K u u)) as H'. rewrite Rabs_Ropp in H'.
    pose proof (dot_nonneg n u) as D.
    assert (k * dot n u u <= k / c * form n M u u).
    { replace (k * dot n u u) with (k / c * (c * dot n u u)) by (field; lra). apply Rmult_le_compat_l; [|exact HcM].
      apply Rmult_le_pos; [exact Hk|apply Rlt_le, Rinv_0_lt_compat; exact Hc]. }
    lra. }
  destruct (completeness S HB HE) as [lam [Hub Hlub]].
  assert (HS : S lam).
  { intros u. destruct (pd_psd n M PM u) as [P|P].
    - assert (L : lam <= form n K u u / form n M u u).
      { apply Hlub. intros l Hl. specialize (Hl u). apply (Rmult_le_reg_r (form n M u u)); [exact P|]. unfold Rdiv. rewrite Rmult_assoc, Rinv_l by lra. lra. }
      apply (Rmult_le_compat_r (form n M u u)) in L; [|lra]. unfold Rdiv in L. rewrite Rmult_assoc, Rinv_l in L by lra. lra.
    - destruct HE as [l Hl]. specialize (Hl u). rewrite <- P in *. lra. }
  set (A := pencil n K M lam).
  assert (SA : symmetric n A).
  { intros i j Hi Hj. unfold A, pencil. rewrite !ent_mk_mat by assumption. rewrite (SK i j Hi Hj), (SM i j Hi Hj). reflexivity. }
  assert (PA : psd n A) by (intros u; unfold A; rewrite pencil_form; specialize (HS u); lra).
  assert (NR : ~ regular n A).
  { intros HR. destruct (coercive n A (shape_mk_mat _ _ _) SA PA HR) as (a & Ha & HA).
    assert (HS' : S (lam + a / (m + 1))).
    { intros u. specialize (HA u). unfold A in HA. rewrite pencil_form in HA. specialize (HmM u). pose proof (Rle_abs (form n M u u)) as H.
      pose proof (dot_nonneg n u) as D.
      assert (a / (m + 1) * form n M u u <= a * dot n u u).
      { replace (a * dot n u u) with (a / (m + 1) * ((m + 1) * dot n u u)) by (field; lra). apply Rmult_le_compat_l; [|lra].
        apply Rmult_le_pos; [lra|apply Rlt_le, Rinv_0_lt_compat; lra]. }
      lra. }
    specialize (Hub _ HS'). assert (0 < a / (m + 1)) by (apply Rmult_lt_0_compat; [exact Ha|apply Rinv_0_lt_compat; lra]). lra. }
  unfold regular in NR. apply not_all_ex_not in NR. destruct NR as [x NR]. apply imply_to_and in NR. destruct NR as [Hx NR].
  apply not_all_ex_not in NR. destruct NR as [q NR]. apply imply_to_and in NR. destruct NR as [Hq NR].
  exists lam, x. split; [exists q; split; assumption|]. split; [|exact HS].
  intros i Hi. specialize (Hx i Hi). unfold A in Hx. rewrite pencil_act in Hx by exact Hi. lra.
Qed.

(** ** all of them *)
Definition delta (i j : nat) : R := if (i =? j)%nat then 1 else 0.
Lemma delta_sum n i f : (i < n)%nat -> rsum n (fun j => delta i j * f j) = f i.
Proof.
  intros Hi. rewrite (rsum_single n i _ Hi); [unfold delta; rewrite Nat.eqb_refl; ring|].
  intros j Hj Hne. unfold delta. destruct (Nat.eqb_spec i j); [congruence|ring].
Qed.
Section Basis.
  Variables (n : nat) (K M : list (list R)).
  Hypotheses (SK : symmetric n K) (SM : symmetric n M) (HM : shape n n M) (PM : positive_definite n M).
  Definition modes (k : nat) (lam : nat -> R) (x : nat -> nat -> R) : Prop :=
    (forall i a, (i < k)%nat -> (a < n)%nat -> act n K (x i) a = lam i * act n M (x i) a) /\
    (forall i j, (i < k)%nat -> (j < k)%nat -> form n M (x i) (x j) = delta i j).

  Lemma dot_act u v : dot n (act n M u) v = form n M v u.
  Proof. unfold dot, form. apply rsum_ext. intros; ring. Qed.

  Lemma next_mode k lam x : (k < n)%nat -> modes k lam x -> exists lam' y, nonzero n y /\
    (forall a, (a < n)%nat -> act n K y a = lam' * act n M y a) /\ forall i, (i < k)%nat -> form n M (x i) y = 0.
  Proof.
    intros Hk [HE HO].
    destruct (under_determined n (map (fun i => act n M (x i)) (seq 0 k))) as (v & Hv & Hov); [rewrite map_length, seq_length; exact Hk|].
    assert (Ov : forall i, (i < k)%nat -> form n M (x i) v = 0).
    { intros i Hi. rewrite (form_sym n M _ _ SM), <- dot_act. apply Hov. apply in_map_iff. exists i. split; [reflexivity|]. apply in_seq. lia. }
    pose proof (PM v Hv) as Pv. set (T := form n K v v / form n M v v + 1).
    set (K' := mk_mat n n (fun a b => ent K a b + rsum k (fun i => (T - lam i) * (act n M (x i) a * act n M (x i) b)))).
    assert (A' : forall u a, (a < n)%nat -> act n K' u a = act n K u a + rsum k (fun i => (T - lam i) * (act n M (x i) a * form n M (x i) u))).
    { intros u a Ha. unfold act at 1. unfold K'.
      transitivity (rsum n (fun b => ent K a b * u b + rsum k (fun i => (T - lam i) * (act n M (x i) a * act n M (x i) b) * u b))).
      - apply rsum_ext. intros b Hb. rewrite ent_mk_mat by assumption. rewrite rsum_scal_r. ring.
      - rewrite rsum_plus. f_equal. rewrite rsum_swap. apply rsum_ext. intros i Hi. rewrite (form_sym n M _ _ SM), <- dot_act.
        unfold dot. rewrite <- !rsum_scal. apply rsum_ext. intros; ring. }
    assert (S' : symmetric n K').
    { intros a b Ha Hb. unfold K'. rewrite !ent_mk_mat by assumption. rewrite (SK a b Ha Hb). f_equal. apply rsum_ext. intros; ring. }
    destruct (lowest n K' M ltac:(lia) S' SM HM PM) as (l & y & Hy & Ey & Ly).
    assert (LT : l < T).
    { specialize (Ly v). assert (E : form n K' v v = form n K v v).
      { unfold form. apply rsum_ext. intros a Ha. rewrite (A' v a Ha). rewrite (rsum_zero k); [ring|]. intros i Hi. rewrite (Ov i Hi). ring. }
      rewrite E in Ly. assert (l <= form n K v v / form n M v v); [|unfold T; lra].
      apply (Rmult_le_reg_r (form n M v v)); [exact Pv|]. unfold Rdiv. rewrite Rmult_assoc, Rinv_l by lra. lra. }
    assert (Oy : forall i, (i < k)%nat -> form n M (x i) y = 0).
    { intros i Hi. assert (E1 : form n K' (x i) y = l * form n M (x i) y).
      { unfold form. rewrite <- rsum_scal. apply rsum_ext. intros a Ha. rewrite (Ey a Ha). ring. }
      assert (E2 : form n K' y (x i) = T * form n M y (x i)).
      { unfold form. rewrite <- rsum_scal. apply rsum_ext. intros a Ha. rewrite (A' (x i) a Ha), (HE i a Hi Ha).
        rewrite (rsum_ext k _ (fun j => delta i j * ((T - lam j) * act n M (x j) a))).
        - rewrite (delta_sum k i (fun j => (T - lam j) * act n M (x j) a) Hi). ring.
        - intros j Hj. rewrite (HO j i Hj Hi). unfold delta. rewrite (Nat.eqb_sym j i). ring. }
      rewrite (form_sym n K' y _ S'), (form_sym n M y _ SM), E1 in E2.
      assert ((l - T) * form n M (x i) y = 0) by lra. apply Rmult_integral in H. destruct H; [lra|exact H]. }
    exists l, y. split; [exact Hy|]. split; [|exact Oy]. intros a Ha. rewrite <- (Ey a Ha), (A' y a Ha).
    rewrite (rsum_zero k); [ring|]. intros i Hi. rewrite (Oy i Hi). ring.
  Qed.

  Lemma act_scal A t u i : act n A (fun a => t * u a) i = t * act n A u i.
  Proof. unfold act. rewrite <- rsum_scal. apply rsum_ext. intros; ring. Qed.
  Lemma form_scal_l A t u v : form n A (fun a => t * u a) v = t * form n A u v.
  Proof. unfold form. rewrite <- rsum_scal. apply rsum_ext. intros; ring. Qed.
  Lemma form_scal_r A t u v : form n A u (fun a => t * v a) = t * form n A u v.
  Proof. unfold form. rewrite <- rsum_scal. apply rsum_ext. intros. rewrite act_scal. ring. Qed.

  Lemma modes_exist k : (k <= n)%nat -> exists lam x, modes k lam x.
  Proof.
    induction k as [|k IH]; intros Hk; [exists (fun _ => 0), (fun _ _ => 0); split; intros; lia|].
    destruct (IH ltac:(lia)) as (lam & x & H). pose proof H as [HE HO].
    destruct (next_mode k lam x ltac:(lia) H) as (l & y & Hy & Ey & Oy). pose proof (PM y Hy) as Py.
    set (t := / sqrt (form n M y y)). assert (Ht : t * t * form n M y y = 1).
    { unfold t. rewrite <- (sqrt_sqrt (form n M y y)) at 3 by lra. field. apply Rgt_not_eq, sqrt_lt_R0, Py. }
    exists (fun i => if (i =? k)%nat then l else lam i), (fun i => if (i =? k)%nat then (fun a => t * y a) else x i). split.
    - intros i a Hi Ha. destruct (Nat.eqb_spec i k) as [->|]; [|apply HE; [lia|exact Ha]]. rewrite !act_scal, (Ey a Ha). ring.
    - intros i j Hi Hj. destruct (Nat.eqb_spec i k) as [->|Ni]; destruct (Nat.eqb_spec j k) as [->|Nj].
      + rewrite form_scal_l, form_scal_r. unfold delta. rewrite Nat.eqb_refl. lra.
      + rewrite form_scal_l, (form_sym n M _ _ SM), Oy by lia. unfold delta. destruct (Nat.eqb_spec k j); [lia|ring].
      + rewrite form_scal_r, Oy by lia. unfold delta. destruct (Nat.eqb_spec i k); [lia|ring].
      + apply HO; lia.
  Qed.

  Lemma form_sum_r A (q : nat -> R) (x : nat -> nat -> R) k u : form n A u (fun a => rsum k (fun j => q j * x j a)) = rsum k (fun j => q j * form n A u (x j)).
  Proof.
    induction k as [|k IH]; cbn [rsum].
    - unfold form. apply rsum_zero. intros i _. unfold act. rewrite (rsum_zero n); [ring|]. intros; ring.
    - rewrite <- IH. transitivity (form n A u (fun a => 1 * rsum k (fun j => q j * x j a) + q k * x k a)).
      + apply form_ext; intros; ring.
      + rewrite form_add_r. ring.
  Qed.
  (** every vector is a combination of the solutions *)
  Lemma modes_span lam x : modes n lam x -> forall u a, (a < n)%nat -> u a = rsum n (fun j => form n M (x j) u * x j a).
  Proof.
    intros [_ HO] u. set (w := fun a => u a - rsum n (fun j => form n M (x j) u * x j a)).
    assert (Ow : forall i, (i < n)%nat -> form n M (x i) w = 0).
    { intros i Hi. transitivity (form n M (x i) (fun a => 1 * u a + (-1) * rsum n (fun j => form n M (x j) u * x j a))).
      - apply form_ext; intros; unfold w; ring.
      - rewrite form_add_r, form_sum_r. rewrite (rsum_ext n _ (fun j => delta i j * form n M (x j) u)).
        + rewrite (delta_sum n i (fun j => form n M (x j) u) Hi). ring.
        + intros j Hj. rewrite (HO i j Hi Hj). ring. }
    destruct (classic (nonzero n w)) as [N|N].
    - exfalso. set (X := fun j => if (j =? n)%nat then w else x j).
      destruct (under_determined (S n) (map (fun a j => X j a) (seq 0 n))) as (c & (j & Hj & Hc) & HD); [rewrite map_length, seq_length; lia|].
      assert (Z : forall a, (a < n)%nat -> rsum (S n) (fun j => c j * X j a) = 0).
      { intros a Ha. specialize (HD (fun j => X j a)). unfold dot in HD. rewrite <- HD.
        - apply rsum_ext. intros; ring.
        - apply in_map_iff. exists a. split; [reflexivity|]. apply in_seq. lia. }
      assert (Z0 : forall v, form n M v (fun a => rsum (S n) (fun j => c j * X j a)) = 0).
      { intros v. rewrite (form_ext n M v v _ (fun _ => 0)); [|reflexivity|exact Z]. unfold form. apply rsum_zero. intros i _.
        unfold act. rewrite (rsum_zero n); [ring|]. intros; ring. }
      assert (C : forall i, (i < S n)%nat -> c i = 0).
      { intros i Hi. specialize (Z0 (X i)). rewrite form_sum_r in Z0. destruct (Nat.eq_dec i n) as [->|Ni].
        - rewrite (rsum_single (S n) n) in Z0; [|lia|].
          + unfold X in Z0. rewrite Nat.eqb_refl in Z0. pose proof (PM w N). apply Rmult_integral in Z0. destruct Z0; [assumption|lra].
          + intros j' Hj' Hne. unfold X. rewrite Nat.eqb_refl. destruct (Nat.eqb_spec j' n); [lia|]. rewrite (form_sym n M _ _ SM), Ow by lia. ring.
        - rewrite (rsum_single (S n) i) in Z0; [|lia|].
          + unfold X in Z0. destruct (Nat.eqb_spec i n); [lia|]. rewrite (HO i i) in Z0 by lia. unfold delta in Z0. rewrite Nat.eqb_refl in Z0. lra.
          + intros j' Hj' Hne. unfold X. destruct (Nat.eqb_spec i n); [lia|]. destruct (Nat.eqb_spec j' n).
            * rewrite Ow by lia. ring.
            * rewrite (HO i j') by lia. unfold delta. destruct (Nat.eqb_spec i j'); [lia|ring]. }
      apply Hc, C, Hj.
    - intros a Ha. destruct (Req_dec (w a) 0) as [E|E]; [unfold w in E; lra|]. exfalso. apply N. exists a. auto.
  Qed.
  (** no other values *)
  Lemma modes_all lam x l y : modes n lam x -> nonzero n y -> (forall a, (a < n)%nat -> act n K y a = l * act n M y a) -> exists i, (i < n)%nat /\ l = lam i.
  Proof.
    intros H Hy Ey. pose proof H as [HE HO]. apply NNPP. intros N.
    assert (O : forall i, (i < n)%nat -> form n M (x i) y = 0).
    { intros i Hi. assert (E1 : form n K (x i) y = l * form n M (x i) y).
      { unfold form. rewrite <- rsum_scal. apply rsum_ext. intros a Ha. rewrite (Ey a Ha). ring. }
      assert (E2 : form n K y (x i) = lam i * form n M y (x i)).
      { unfold form. rewrite <- rsum_scal. apply rsum_ext. intros a Ha. rewrite (HE i a Hi Ha). ring. }
      rewrite (form_sym n K y _ SK), (form_sym n M y _ SM), E1 in E2.
      assert (D : (l - lam i) * form n M (x i) y = 0) by lra. apply Rmult_integral in D. destruct D as [D|D]; [|exact D].
      exfalso. apply N. exists i. split; [exact Hi|lra]. }
    destruct Hy as (j & Hj & Hne). apply Hne. rewrite (modes_span lam x H y j Hj). apply rsum_zero. intros i Hi. rewrite (O i Hi). ring.
  Qed.
End Basis.
