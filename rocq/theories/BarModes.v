(** * Proofs: natural frequencies of a bar fixed at both ends *)
From Coq Require Import Reals List Arith Lia Lra Bool ZArith.
From Verif Require Import Num LinAlg Gauss Fem Uel Assem Post Main Script Spec LinR Base SpecAssem SpecModel SpecElem SpecModes SpecScript SpecVib
  AssemProofs AssemProofs2 AssemProofs3 AssemProofs4 ElemShape ElemCore BarProofs ModelProofs MeshProofs StaticProofs GridModel ScriptProofs ScriptProofs2.
Import ListNotations.
Local Open Scope R_scope.

(** ** three-term recurrences *)
Lemma growth t (w : nat -> R) n : 2 <= t -> w 0%nat = 0 -> (forall i, (0 < i < n)%nat -> w (S i) = t * w i - w (i - 1)%nat) ->
  w n = 0 -> (0 < n)%nat -> w 1%nat = 0.
Proof.
  intros Ht W0 HW Wn Hn. destruct (Req_dec (w 1%nat) 0) as [Z|Z]; [exact Z|exfalso].
  assert (G : forall i, (i < n)%nat -> 0 <= w 1%nat * w i /\ w 1%nat * w 1%nat <= w 1%nat * w (S i) - w 1%nat * w i).
  { induction i as [|i IH]; intros Hi; [rewrite W0; lra|]. destruct IH as [G0 G1]; [lia|].
    assert (P : 0 < w 1%nat * w 1%nat) by exact (Rsqr_pos_lt _ Z).
    split; [lra|]. rewrite (HW (S i)) by lia. replace (S i - 1)%nat with i by lia.
    replace (w 1%nat * (t * w (S i) - w i)) with (t * (w 1%nat * w (S i)) - w 1%nat * w i) by ring.
    assert (Q : 2 * (w 1%nat * w (S i)) <= t * (w 1%nat * w (S i))) by (apply Rmult_le_compat_r; lra). lra. }
  destruct n as [|n]; [lia|]. destruct (G n ltac:(lia)) as [G0 G1]. rewrite Wn in G1.
  assert (P : 0 < w 1%nat * w 1%nat) by exact (Rsqr_pos_lt _ Z). lra.
Qed.

Lemma recur_sin phi (w : nat -> R) n : sin phi <> 0 -> w 0%nat = 0 -> (forall i, (0 < i < n)%nat -> w (S i) = 2 * cos phi * w i - w (i - 1)%nat) ->
  forall i, (i <= n)%nat -> w i = w 1%nat / sin phi * sin (phi * INR i).
Proof.
  intros Hs W0 HW.
  assert (G : forall i, ((i <= n)%nat -> w i = w 1%nat / sin phi * sin (phi * INR i)) /\ ((S i <= n)%nat -> w (S i) = w 1%nat / sin phi * sin (phi * INR (S i)))).
  { induction i as [|i [IH1 IH2]].
    - split; [intros _; cbn [INR]; rewrite Rmult_0_r, sin_0, W0; ring|intros _]. cbn [INR]. rewrite Rmult_1_r. field. exact Hs.
    - split; [exact IH2|]. intros Hi. rewrite (HW (S i)) by lia. replace (S i - 1)%nat with i by lia. rewrite IH1, IH2 by lia.
      rewrite !S_INR. replace (phi * (INR i + 1 + 1)) with (phi * (INR i + 1) + phi) by ring. replace (phi * INR i) with (phi * (INR i + 1) - phi) by ring.
      rewrite sin_plus, sin_minus. field. exact Hs. }
  intros i Hi. apply G. exact Hi.
Qed.

(** ** sums by parts *)
Lemma by_parts n (k m : R) (u v : nat -> R) : (0 < n)%nat -> v 0%nat = 0 -> v n = 0 ->
  rsum n (fun i => k * ((v (S i) - v i) * (u (S i) - u i))) = rsum n (fun i => if (i =? 0)%nat then 0 else v i * (k * (2 * u i - u (i - 1)%nat - u (S i)))) /\
  rsum n (fun i => m * (2 * v i * u i + 2 * v (S i) * u (S i) + v i * u (S i) + v (S i) * u i)) = rsum n (fun i => if (i =? 0)%nat then 0 else v i * (m * (4 * u i + u (i - 1)%nat + u (S i)))).
Proof.
  intros Hn V0 Vn.
  assert (G : forall j, (0 < j)%nat ->
    rsum j (fun i => k * ((v (S i) - v i) * (u (S i) - u i))) = rsum j (fun i => if (i =? 0)%nat then 0 else v i * (k * (2 * u i - u (i - 1)%nat - u (S i)))) + v j * (k * (u j - u (j - 1)%nat)) /\
    rsum j (fun i => m * (2 * v i * u i + 2 * v (S i) * u (S i) + v i * u (S i) + v (S i) * u i)) = rsum j (fun i => if (i =? 0)%nat then 0 else v i * (m * (4 * u i + u (i - 1)%nat + u (S i)))) + v j * (m * (2 * u j + u (j - 1)%nat))).
  { induction j as [|j IH]; [lia|]. intros _. destruct (Nat.eq_dec j 0) as [->|Hj].
    - cbn [rsum Nat.eqb]. rewrite V0. split; cbn [Nat.sub]; ring.
    - destruct IH as [I1 I2]; [lia|]. cbn [rsum]. rewrite I1, I2. replace (j =? 0)%nat with false by (symmetry; apply Nat.eqb_neq; exact Hj).
      replace (S j - 1)%nat with j by lia. split; ring. }
  destruct (G n Hn) as [G1 G2]. rewrite G1, G2, Vn. split; ring.
Qed.

Section Bar.
  Variables (n : nat) (l E A rho : R).
  Hypothesis Hn : (0 < n)%nat.
  Hypothesis Hl : 0 < l.
  Hypothesis HE : 0 < E.
  Hypothesis HA : 0 < A.
  Hypothesis Hrho : 0 < rho.
  Let p := fixed_bar n l E A rho.
  Let h := l / INR n.
  Let k := A * E / h.
  Let m6 := A * h * rho / 6.

  Lemma INRn : 0 < INR n.
  Proof. apply lt_0_INR. exact Hn. Qed.
  Lemma h_pos : 0 < h.
  Proof. apply Rdiv_lt_0_compat; [exact Hl|exact INRn]. Qed.
  Lemma k_pos : 0 < k.
  Proof. apply Rdiv_lt_0_compat; [apply Rmult_lt_0_compat; assumption|exact h_pos]. Qed.
  Lemma m6_pos : 0 < m6.
  Proof. apply Rdiv_lt_0_compat; [|lra]. apply Rmult_lt_0_compat; [|exact Hrho]. apply Rmult_lt_0_compat; [exact HA|exact h_pos]. Qed.

  Lemma fb_len : length (p_nodes p) = S n.
  Proof. cbn [p fixed_bar p_nodes]. rewrite map_length, seq_length. reflexivity. Qed.
  Lemma fb_cons_len : length (p_cons p) = S n.
  Proof. cbn [p fixed_bar p_cons]. rewrite map_length, seq_length. reflexivity. Qed.
  Lemma fb_node i : (i <= n)%nat -> nth i (p_nodes p) [] = [INR i; l * INR i / INR n; 0].
  Proof.
    intros Hi. cbn [p fixed_bar p_nodes]. rewrite (nth_indep _ [] ((fun i => [INR i; l * INR i / INR n; 0]) 0%nat)) by (rewrite map_length, seq_length; lia).
    rewrite (map_nth (fun i => [INR i; l * INR i / INR n; 0])), seq_nth by lia. reflexivity.
  Qed.
  Lemma fb_cons i : (i <= n)%nat -> nth i (p_cons p) [] = [if ((i =? 0) || (i =? n))%nat then -1 else 0; -1].
  Proof.
    intros Hi. cbn [p fixed_bar p_cons]. rewrite (nth_indep _ [] ((fun i => [if ((i =? 0) || (i =? n))%nat then -1 else 0; -1]) 0%nat)) by (rewrite map_length, seq_length; lia).
    rewrite (map_nth (fun i => [if ((i =? 0) || (i =? n))%nat then -1 else 0; -1])), seq_nth by lia. reflexivity.
  Qed.
  Definition fb_elem (i : nat) : list Z := [Z.of_nat i; 6; 0; Z.of_nat i; Z.of_nat (S i)]%Z.
  Lemma fb_retrieved i : (i < n)%nat -> retriever (fb_elem i) (p_mats p) (p_nodes p) (p_uel p) =
    Ok (congr 2 4 (axial_Q 1 0) (mscale k axial_K), M2 (mscale m6 [[2; 0; 1; 0]; [0; 2; 0; 1]; [1; 0; 2; 0]; [0; 1; 0; 2]])).
  Proof.
    intros Hi. pose proof INRn as HI. pose proof h_pos as Hh. unfold retriever, fb_elem. change (np_get [Z.of_nat i; 6; 0; Z.of_nat i; Z.of_nat (S i)]%Z 1) with (Ok 6%Z).
    change (np_get [Z.of_nat i; 6; 0; Z.of_nat i; Z.of_nat (S i)]%Z 2) with (Ok 0%Z). cbn [bind].
    change (np_get (p_mats p) 0) with (Ok [E; A; rho]). cbn [bind skipn].
    rewrite (mapM_rows (p_nodes p) [Z.of_nat i; Z.of_nat (S i)]) by (repeat constructor; rewrite ?fb_len; lia). cbn [bind map].
    rewrite !Nat2Z.id, !fb_node by lia. change (p_uel p) with (@None (uel_fun R)). change (@ele_fun R Num_R 6) with (Ok (@truss2D R Num_R)). cbn [bind tl].
    assert (Hd : l * INR (S i) / INR n - l * INR i / INR n = h) by (unfold h; rewrite S_INR; field; lra).
    assert (Hbl : bar_len (l * INR i / INR n) 0 (l * INR (S i) / INR n) 0 = h).
    { unfold bar_len. rewrite Hd. replace (h * h + (0 - 0) * (0 - 0)) with (h * h) by ring. apply sqrt_square. lra. }
    assert (Hne : l * INR i / INR n <> l * INR (S i) / INR n \/ 0 <> 0) by (left; lra).
    rewrite (truss_unfold _ E A [rho] _ _ _ (axis_ok _ _ _ _ Hne)). rewrite Hbl, Hd.
    replace (h / h) with 1 by (field; lra). replace ((0 - 0) / h) with 0 by (field; lra). reflexivity.
  Qed.
  Lemma fb_stiff i : (i < n)%nat -> p_stiff p (fb_elem i) = congr 2 4 (axial_Q 1 0) (mscale k axial_K).
  Proof. intros Hi. unfold p_stiff. rewrite fb_retrieved by exact Hi. reflexivity. Qed.
  Lemma fb_mass i : (i < n)%nat -> p_mass p (fb_elem i) = mscale m6 [[2; 0; 1; 0]; [0; 2; 0; 1]; [1; 0; 2; 0]; [0; 1; 0; 2]].
  Proof. intros Hi. unfold p_mass. rewrite fb_retrieved by exact Hi. reflexivity. Qed.
  Lemma fb_in e : In e (p_elements p) <-> exists i, (i < n)%nat /\ e = fb_elem i.
  Proof.
    cbn [p fixed_bar p_elements]. rewrite in_map_iff. split.
    - intros (i & <- & Hi). apply in_seq in Hi. exists i. split; [lia|reflexivity].
    - intros (i & Hi & ->). exists i. split; [reflexivity|]. apply in_seq. lia.
  Qed.

  Lemma fb_wf : wf_problem p.
  Proof.
    unfold wf_problem. split; [cbn; lia|]. split; [|split; [rewrite fb_len, fb_cons_len; reflexivity|split; [|constructor]]].
    - unfold flags01. apply Forall_forall. intros r Hr. cbn [p fixed_bar p_cons] in Hr. apply in_map_iff in Hr. destruct Hr as (i & <- & _).
      split; [reflexivity|]. destruct ((i =? 0)%nat || (i =? n)%nat); (constructor; [auto|constructor; [auto|constructor]]).
    - apply Forall_forall. intros e He. apply fb_in in He. destruct He as (i & Hi & ->). split.
      + exists 6%Z. split; [reflexivity|]. split; [reflexivity|]. split; [cbn; lia|]. rewrite fb_cons_len. repeat constructor; lia.
      + do 2 eexists. split; [exact (fb_retrieved i Hi)|]. split; [apply congr_shape|]. apply shape_mscale. split; [reflexivity|repeat constructor].
  Qed.

  Lemma fb_disp U i : p_disp p U (fb_elem i) 0 = U i 0%nat /\ p_disp p U (fb_elem i) 1 = U i 1%nat /\
    p_disp p U (fb_elem i) 2 = U (S i) 0%nat /\ p_disp p U (fb_elem i) 3 = U (S i) 1%nat.
  Proof.
    unfold p_disp, e_node, fb_elem. change (p_dofs p) with 2%nat. cbn [Nat.add nth Nat.div Nat.modulo Nat.divmod fst snd Nat.sub].
    rewrite !Nat2Z.id. repeat split; reflexivity.
  Qed.
  Lemma fb_energy U V : p_energy p V U = rsum n (fun i => k * ((V (S i) 0%nat - V i 0%nat) * (U (S i) 0%nat - U i 0%nat))).
  Proof.
    unfold p_energy. change (p_elements p) with (map fb_elem (seq 0 n)). rewrite lsum_map, <- lsum_seq. apply lsum_ext. intros i Hi. apply in_seq in Hi.
    change (p_dofs p * e_n (fb_elem i))%nat with 4%nat. rewrite fb_stiff by lia. rewrite axial_form.
    destruct (fb_disp U i) as (-> & -> & -> & ->). destruct (fb_disp V i) as (-> & -> & -> & ->). ring.
  Qed.
  Lemma fb_admissible U : p_admissible p U -> U 0%nat 0%nat = 0 /\ U n 0%nat = 0 /\ forall i, (i <= n)%nat -> U i 1%nat = 0.
  Proof.
    intros HU. assert (G : forall i d, (i <= n)%nat -> (d < 2)%nat -> nth d [if ((i =? 0) || (i =? n))%nat then -1 else 0; -1] 0 = -1 -> U i d = 0).
    { intros i d Hi Hd C. apply HU; [split; [rewrite fb_len; lia|exact Hd]|]. unfold ent. rewrite fb_cons by exact Hi. exact C. }
    split; [apply G; [lia|lia|reflexivity]|]. split.
    - apply G; [lia|lia|]. rewrite Nat.eqb_refl, orb_true_r. reflexivity.
    - intros i Hi. apply G; [exact Hi|lia|reflexivity].
  Qed.
  Lemma fb_admissible_conv U : U 0%nat 0%nat = 0 -> U n 0%nat = 0 -> (forall i, (i <= n)%nat -> U i 1%nat = 0) -> p_admissible p U.
  Proof.
    intros U0 Un U1 i d [Hi Hd] C. rewrite fb_len in Hi. unfold ent in C. rewrite fb_cons in C by lia. change (p_dofs p) with 2%nat in Hd. destruct d as [|[|]]; [|apply U1; lia|lia].
    cbn [nth] in C. destruct (Nat.eqb_spec i 0) as [->|]; [exact U0|]. destruct (Nat.eqb_spec i n) as [->|]; [exact Un|]. cbn [orb] in C. lra.
  Qed.
  Lemma fb_kinetic U V : (forall i, (i <= n)%nat -> V i 1%nat = 0) ->
    p_kinetic p V U = rsum n (fun i => m6 * (2 * V i 0%nat * U i 0%nat + 2 * V (S i) 0%nat * U (S i) 0%nat + V i 0%nat * U (S i) 0%nat + V (S i) 0%nat * U i 0%nat)).
  Proof.
    intros HV. unfold p_kinetic. change (p_elements p) with (map fb_elem (seq 0 n)). rewrite lsum_map, <- lsum_seq. apply lsum_ext. intros i Hi. apply in_seq in Hi.
    change (p_dofs p * e_n (fb_elem i))%nat with 4%nat. rewrite fb_mass by lia. rewrite truss_mass_form.
    destruct (fb_disp U i) as (-> & -> & -> & ->). destruct (fb_disp V i) as (-> & -> & -> & ->). rewrite (HV i), (HV (S i)) by lia. ring.
  Qed.

  (** the weak form as a recurrence *)
  Lemma fb_mode lam U : p_mode p lam U <->
    U 0%nat 0%nat = 0 /\ U n 0%nat = 0 /\ (forall i, (i <= n)%nat -> U i 1%nat = 0) /\ (exists i, (i <= n)%nat /\ U i 0%nat <> 0) /\
    forall i, (0 < i < n)%nat -> k * (2 * U i 0%nat - U (i - 1)%nat 0%nat - U (S i) 0%nat) = lam * (m6 * (4 * U i 0%nat + U (i - 1)%nat 0%nat + U (S i) 0%nat)).
  Proof.
    split.
    - intros (Ha & (i & d & [Hi Hd] & Hne) & Hw). destruct (fb_admissible U Ha) as (U0 & Un & U1). split; [exact U0|]. split; [exact Un|]. split; [exact U1|].
      rewrite fb_len in Hi. split.
      { exists i. split; [lia|]. change (p_dofs p) with 2%nat in Hd. destruct d as [|[|]]; [exact Hne| |lia]. exfalso. apply Hne. apply U1. lia. }
      intros j Hj. set (V := fun a b : nat => if ((a =? j) && (b =? 0))%nat then 1 else 0).
      assert (HV : p_admissible p V).
      { apply fb_admissible_conv; [unfold V; replace (0 =? j)%nat with false by (symmetry; apply Nat.eqb_neq; lia); reflexivity| |].
        - unfold V. replace (n =? j)%nat with false by (symmetry; apply Nat.eqb_neq; lia). reflexivity.
        - intros a _. unfold V. rewrite andb_false_r. reflexivity. }
      specialize (Hw V HV). destruct (fb_admissible V HV) as (V0 & Vn & V1). rewrite fb_energy, (fb_kinetic U V V1) in Hw.
      destruct (by_parts n k m6 (fun i => U i 0%nat) (fun i => V i 0%nat) Hn V0 Vn) as [B1 B2]. rewrite B1, B2 in Hw.
      rewrite (rsum_single n j) in Hw; [rewrite (rsum_single n j) in Hw; [|lia|]|lia|].
      + unfold V in Hw. rewrite Nat.eqb_refl in Hw. cbn [andb Nat.eqb] in Hw. replace (j =? 0)%nat with false in Hw by (symmetry; apply Nat.eqb_neq; lia). lra.
      + intros i' _ Hi'. unfold V. replace (i' =? j)%nat with false by (symmetry; apply Nat.eqb_neq; exact Hi'). cbn [andb]. destruct (i' =? 0)%nat; ring.
      + intros i' _ Hi'. unfold V. replace (i' =? j)%nat with false by (symmetry; apply Nat.eqb_neq; exact Hi'). cbn [andb]. destruct (i' =? 0)%nat; ring.
    - intros (U0 & Un & U1 & (i & Hi & Hne) & Hr). split; [apply fb_admissible_conv; assumption|]. split.
      { exists i, 0%nat. split; [split; [rewrite fb_len; lia|cbn; lia]|exact Hne]. }
      intros V HV. destruct (fb_admissible V HV) as (V0 & Vn & V1). rewrite fb_energy, (fb_kinetic U V V1).
      destruct (by_parts n k m6 (fun i => U i 0%nat) (fun i => V i 0%nat) Hn V0 Vn) as [B1 B2]. rewrite B1, B2, <- rsum_scal. apply rsum_ext. intros j Hj.
      destruct (Nat.eqb_spec j 0) as [->|Hj0]; [ring|]. rewrite (Hr j) by lia. ring.
  Qed.

  Lemma theta_range m : (0 < m < n)%nat -> 0 < INR m * PI / INR n < PI.
  Proof.
    intros Hm. pose proof INRn. pose proof PI_RGT_0 as HP. assert (0 < INR m) by (apply lt_0_INR; lia). assert (INR m < INR n) by (apply lt_INR; lia). split.
    - apply Rdiv_lt_0_compat; [apply Rmult_lt_0_compat; assumption|assumption].
    - apply (Rmult_lt_reg_r (INR n)); [assumption|]. unfold Rdiv. rewrite Rmult_assoc, Rinv_l by lra. rewrite Rmult_1_r, (Rmult_comm PI). apply Rmult_lt_compat_r; assumption.
  Qed.

  Lemma mf_eq m : (0 < m < n)%nat -> let c := cos (INR m * PI / INR n) in
    k * (2 - 2 * c) = mesh_frequency2 n l E rho m * (m6 * (4 + 2 * c)) /\ -1 < c < 1.
  Proof.
    intros Hm. cbv zeta. destruct (theta_range m Hm) as [T0 T1]. pose proof PI_RGT_0 as HP.
    assert (C1 : cos (INR m * PI / INR n) < 1) by (rewrite <- cos_0; apply cos_decreasing_1; lra).
    assert (C2 : -1 < cos (INR m * PI / INR n)) by (rewrite <- cos_PI; apply cos_decreasing_1; lra).
    split; [|lra]. unfold mesh_frequency2, k, m6. fold h. set (c := cos _) in *. pose proof h_pos. pose proof HA. pose proof Hrho. field. repeat split; lra.
  Qed.

  (** ** all modes *)
  Lemma fb_modes lam U : p_mode p lam U <->
    exists m c, (0 < m < n)%nat /\ c <> 0 /\ lam = mesh_frequency2 n l E rho m /\
      forall i d, (i <= n)%nat -> (d < 2)%nat -> U i d = half_waves n m c i d.
  Proof.
    pose proof k_pos as Hk. pose proof m6_pos as Hm6. pose proof INRn as HI. split.
    - intros Hmd. assert (Hlam : 0 <= lam).
      { apply (p_mode_nonneg p lam U fb_wf); [| |exact Hmd].
        - intros e He. apply fb_in in He. destruct He as (i & Hi & ->). rewrite fb_stiff by exact Hi. split; [apply axial_sym|apply axial_psd; lra].
        - destruct Hmd as (_ & Hne & _). apply (p_kinetic_pos p fb_wf); [| |exact Hne].
          + intros e He u (j & Hj & Hu). apply fb_in in He. destruct He as (i & Hi & ->). rewrite fb_mass by exact Hi. change (p_dofs p * e_n (fb_elem i))%nat with 4%nat in *.
            rewrite truss_mass_form. apply Rmult_lt_0_compat; [exact Hm6|].
            pose proof (Rle_0_sqr (u 0%nat + u 2%nat)) as Q1. pose proof (Rle_0_sqr (u 1%nat + u 3%nat)) as Q2.
            pose proof (Rle_0_sqr (u 0%nat)) as P0. pose proof (Rle_0_sqr (u 1%nat)) as P1. pose proof (Rle_0_sqr (u 2%nat)) as P2. pose proof (Rle_0_sqr (u 3%nat)) as P3.
            pose proof (Rsqr_pos_lt _ Hu) as Pj. unfold Rsqr in *. lt4 j Hj; lra.
          + intros i Hi. rewrite fb_len in Hi. destruct (Nat.eq_dec i n) as [->|Hin].
            * exists (fb_elem (n - 1)), 1%nat. split; [apply fb_in; exists (n - 1)%nat; split; [lia|reflexivity]|]. split; [cbn; lia|].
              unfold e_node, fb_elem. cbn [Nat.add nth]. rewrite Nat2Z.id. lia.
            * exists (fb_elem i), 0%nat. split; [apply fb_in; exists i; split; [lia|reflexivity]|]. split; [cbn; lia|].
              unfold e_node, fb_elem. cbn [Nat.add nth]. apply Nat2Z.id. }
      apply fb_mode in Hmd. destruct Hmd as (U0 & Un & U1 & (i0 & Hi0 & Hne) & Hr).
      set (a := k + lam * m6). set (b := 2 * k - 4 * (lam * m6)).
      assert (Hmu : 0 <= lam * m6) by (apply Rmult_le_pos; lra). assert (Ha : 0 < a) by (unfold a; lra).
      set (x := b / (2 * a)).
      assert (HR : forall i, (0 < i < n)%nat -> U (S i) 0%nat = 2 * x * U i 0%nat - U (i - 1)%nat 0%nat).
      { intros i Hi. specialize (Hr i Hi). unfold x. apply (Rmult_eq_reg_l a); [|lra].
        replace (a * (2 * (b / (2 * a)) * U i 0%nat - U (i - 1)%nat 0%nat)) with (b * U i 0%nat - a * U (i - 1)%nat 0%nat) by (field; lra). unfold a, b. lra. }
      assert (Hn1 : U 1%nat 0%nat <> 0).
      { intros Z. apply Hne. assert (G : forall i, ((i <= n)%nat -> U i 0%nat = 0) /\ ((S i <= n)%nat -> U (S i) 0%nat = 0)).
        { induction i as [|i [I1 I2]]; [split; [intros _; exact U0|intros _; exact Z]|]. split; [exact I2|]. intros Hi. rewrite (HR (S i)) by lia.
          replace (S i - 1)%nat with i by lia. rewrite I1, I2 by lia. ring. }
        apply G. exact Hi0. }
      assert (X1 : x < 1).
      { destruct (Rlt_le_dec x 1) as [H|H]; [exact H|]. exfalso. apply Hn1. apply (growth (2 * x) (fun i => U i 0%nat) n); auto; lra. }
      assert (X2 : -1 < x).
      { destruct (Rlt_le_dec (-1) x) as [H|H]; [exact H|]. exfalso. apply Hn1.
        assert (Z : (fun i => (-1) ^ i * U i 0%nat) 1%nat = 0).
        { apply (growth (-2 * x) (fun i => (-1) ^ i * U i 0%nat) n); [lra|rewrite U0; ring| |rewrite Un; ring|exact Hn].
          intros i Hi. rewrite (HR i Hi). destruct i as [|i]; [lia|]. replace (S i - 1)%nat with i by lia. cbn [pow]. ring. }
        cbn [pow] in Z. lra. }
      set (phi := acos x). pose proof (acos_bound x) as HB. fold phi in HB.
      assert (Hc : cos phi = x) by (apply cos_acos; lra).
      assert (P0 : 0 < phi) by (destruct (Rle_lt_or_eq_dec 0 phi (proj1 HB)) as [H|H]; [exact H|exfalso; rewrite <- H, cos_0 in Hc; lra]).
      assert (P1 : phi < PI) by (destruct (Rle_lt_or_eq_dec phi PI (proj2 HB)) as [H|H]; [exact H|exfalso; rewrite H, cos_PI in Hc; lra]).
      pose proof (sin_gt_0 phi P0 P1) as Hs.
      assert (HU : forall i, (i <= n)%nat -> U i 0%nat = U 1%nat 0%nat / sin phi * sin (phi * INR i)).
      { apply (recur_sin phi (fun i => U i 0%nat) n); [lra|exact U0|]. intros i Hi. rewrite Hc. apply HR. exact Hi. }
      assert (Hz : sin (phi * INR n) = 0).
      { pose proof (HU n (le_n n)) as Z. rewrite Un in Z. symmetry in Z. apply Rmult_integral in Z. destruct Z as [Z|Z]; [|exact Z].
        unfold Rdiv in Z. apply Rmult_integral in Z. destruct Z as [Z|Z]; [contradiction|]. pose proof (Rinv_neq_0_compat (sin phi)). lra. }
      destruct (sin_eq_0_0 _ Hz) as [z Ez].
      assert (Zpos : (0 < z)%Z) by (apply lt_IZR; apply (Rmult_lt_reg_r PI); [exact PI_RGT_0|]; rewrite <- Ez, Rmult_0_l; apply Rmult_lt_0_compat; assumption).
      assert (Zlt : (z < Z.of_nat n)%Z).
      { apply lt_IZR. apply (Rmult_lt_reg_r PI); [exact PI_RGT_0|]. rewrite <- Ez, <- INR_IZR_INZ, (Rmult_comm (INR n)). apply Rmult_lt_compat_r; assumption. }
      set (m := Z.to_nat z). assert (Em : IZR z = INR m) by (rewrite INR_IZR_INZ; unfold m; rewrite Z2Nat.id by lia; reflexivity).
      assert (Hm : (0 < m < n)%nat) by (unfold m; lia).
      assert (Ephi : phi = INR m * PI / INR n) by (rewrite <- Em, <- Ez; field; lra).
      exists m, (U 1%nat 0%nat / sin phi). split; [exact Hm|]. split.
      { unfold Rdiv. apply Rmult_integral_contrapositive_currified; [exact Hn1|apply Rinv_neq_0_compat; lra]. }
      split.
      + destruct (mf_eq m Hm) as [F1 F2]. cbv zeta in F1, F2. rewrite <- Ephi, Hc in F1, F2.
        assert (G : k * (2 - 2 * x) = lam * (m6 * (4 + 2 * x))).
        { assert (Hb : b = 2 * x * a) by (unfold x; field; lra). unfold a, b in Hb. lra. }
        rewrite F1 in G. apply Rmult_eq_reg_r in G; [symmetry; exact G|]. apply Rmult_integral_contrapositive_currified; lra.
      + intros i d Hi Hd. destruct d as [|[|]]; [|apply U1; exact Hi|lia]. cbn [half_waves]. rewrite (HU i Hi), <- Ephi. reflexivity.
    - intros (m & c & Hm & Hc & -> & HU). apply fb_mode. pose proof (theta_range m Hm) as [T0 T1]. set (th := INR m * PI / INR n) in *.
      assert (E0 : U 0%nat 0%nat = 0) by (rewrite HU by lia; cbn [half_waves INR]; rewrite Rmult_0_r, sin_0; ring).
      assert (En : U n 0%nat = 0).
      { rewrite HU by lia. cbn [half_waves]. fold th. replace (th * INR n) with (IZR (Z.of_nat m) * PI) by (unfold th; rewrite <- INR_IZR_INZ; field; lra).
        rewrite (sin_eq_0_1 (IZR (Z.of_nat m) * PI)); [ring|]. exists (Z.of_nat m). reflexivity. }
      split; [exact E0|]. split; [exact En|]. split; [intros i Hi; rewrite HU by lia; reflexivity|]. split.
      + exists 1%nat. split; [lia|]. rewrite HU by lia. cbn [half_waves INR]. fold th. rewrite Rmult_1_r. apply Rmult_integral_contrapositive_currified; [exact Hc|].
        pose proof (sin_gt_0 th T0 T1). lra.
      + intros i Hi. rewrite !HU by lia. cbn [half_waves]. fold th. destruct (mf_eq m Hm) as [F _]. cbv zeta in F. fold th in F.
        destruct i as [|i]; [lia|]. replace (S i - 1)%nat with i by lia.
        assert (T : sin (th * INR i) + sin (th * INR (S (S i))) = 2 * cos th * sin (th * INR (S i))).
        { rewrite !S_INR. replace (th * (INR i + 1 + 1)) with (th * (INR i + 1) + th) by ring. replace (th * INR i) with (th * (INR i + 1) - th) by ring.
          rewrite sin_plus, sin_minus. ring. }
        replace (k * (2 * (c * sin (th * INR (S i))) - c * sin (th * INR i) - c * sin (th * INR (S (S i))))) with
          (c * (k * (2 * sin (th * INR (S i)) - (sin (th * INR i) + sin (th * INR (S (S i))))))) by ring.
        replace (m6 * (4 * (c * sin (th * INR (S i))) + c * sin (th * INR i) + c * sin (th * INR (S (S i))))) with
          (c * (m6 * (4 * sin (th * INR (S i)) + (sin (th * INR i) + sin (th * INR (S (S i))))))) by ring.
        rewrite T. replace (k * (2 * sin (th * INR (S i)) - 2 * cos th * sin (th * INR (S i)))) with (k * (2 - 2 * cos th) * sin (th * INR (S i))) by ring.
        rewrite F. ring.
  Qed.
End Bar.
