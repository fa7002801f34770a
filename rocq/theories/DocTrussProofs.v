(** * Lemmas: trusses analysed with a node table that has further columns *)
From Coq Require Import Reals List Arith Lia Lra Bool ZArith.
From Verif Require Import Num LinAlg Fem Uel Assem Post Main Script DocTruss Spec LinR Base SpecAssem SpecModel SpecElem SpecPost SpecStatic SpecTruss SpecScript
  SpecDocTruss ElemCore ElemShape AssemProofs AssemProofs2 AssemProofs3 AssemProofs4 ModelProofs ModelProofs2 BarProofs ElemFinal2 ElemFinal3 MeshProofs
  PostProofs PostMore StaticProofs StaticProofs2 StaticProofs3 DriverProofs TrussProofs ScriptProofs ScriptProofs2.
Import ListNotations.
Local Open Scope R_scope.

Lemma rsum_head n f : rsum (S n) f = f 0%nat + rsum n (fun k => f (S k)).
Proof. induction n as [|n IH]; [cbn; ring|]. cbn [rsum] in *. rewrite IH. ring. Qed.

Lemma sq_sum (f g : nat -> R) : forall (b a : list R), length a = length b ->
  (forall k, (k < length a)%nat -> nth k b 0 = f k /\ nth k a 0 = g k) ->
  fold_right Rplus 0 (map (fun x => x * x) (map (fun ba => fst ba - snd ba) (combine b a))) =
  rsum (length a) (fun k => (f k - g k) * (f k - g k)).
Proof.
  intros b a. revert b f g. induction a as [|x a IH]; intros [|y b] f g HL Hv; try discriminate; [reflexivity|].
  cbn [combine map fold_right fst snd length]. rewrite (IH b (fun k => f (S k)) (fun k => g (S k))).
  - rewrite rsum_head. destruct (Hv 0%nat ltac:(cbn; lia)) as [A B]. cbn [nth] in A, B. rewrite A, B. reflexivity.
  - now injection HL.
  - intros k Hk. destruct (Hv (S k) ltac:(cbn; lia)) as [A B]. cbn [nth] in A, B. split; assumption.
Qed.

Lemma ext_len md N c : extends md N c -> length N = length (md_nodes md).
Proof. intros (_ & _ & ->). now rewrite map_length. Qed.
Lemma ext_row md N c i : extends md N c -> (i < length (md_nodes md))%nat ->
  exists n r, nth i N [] = n :: ent (md_nodes md) i 1 :: ent (md_nodes md) i 2 :: r /\ (3 + length r = c)%nat /\ nth i (md_nodes md) [] = [n; ent (md_nodes md) i 1; ent (md_nodes md) i 2].
Proof.
  intros He Hi. pose proof (ext_len _ _ _ He) as HL. destruct He as (Hc & Hr & HN). rewrite <- HL in Hi. rewrite Forall_forall in Hr.
  pose proof (Hr _ (nth_In N [] Hi)) as L. unfold ent. rewrite HN. rewrite (map_nth_def _ _ _ []) by exact Hi.
  destruct (nth i N []) as [|n [|x [|y r]]]; cbn [length] in L; try lia. exists n, r. cbn [firstn nth]. repeat split. cbn. lia.
Qed.
Lemma reach_ge md N c e : extends md N c -> (e_node e 0 < length (md_nodes md))%nat -> (e_node e 1 < length (md_nodes md))%nat ->
  b_len (md_nodes md) e <= reach N c e.
Proof.
  intros He H0 H1. destruct (ext_row _ _ _ _ He H0) as (n0 & r0 & E0 & L0 & _). destruct (ext_row _ _ _ _ He H1) as (n1 & r1 & E1 & L1 & _).
  unfold b_len, bar_len, reach. replace (c - 1)%nat with (S (S (length r0))) by lia. rewrite !rsum_head.
  unfold ent at 9 10 11 12 13 14 15 16. rewrite E0, E1. cbn [nth].
  apply sqrt_le_1_alt. match goal with |- _ <= _ + (_ + ?z) => assert (0 <= z); [|lra] end.
  apply rsum_nonneg. intros k _. apply Rle_0_sqr.
Qed.

Lemma axis_wide xa ya ra xb yb rb : length ra = length rb -> (xa <> xb \/ ya <> yb) ->
  let L := sqrt (rsum (2 + length ra) (fun k => (nth k (xb :: yb :: rb) 0 - nth k (xa :: ya :: ra) 0) * (nth k (xb :: yb :: rb) 0 - nth k (xa :: ya :: ra) 0))) in
  0 < L /\ axis [xa :: ya :: ra; xb :: yb :: rb] = Ok ((xb - xa) / L, (yb - ya) / L, L).
Proof.
  intros HL Hne L. assert (P : 0 < L).
  { unfold L. apply sqrt_lt_R0. cbn [Nat.add]. rewrite !rsum_head. cbn [nth].
    match goal with |- 0 < _ + (_ + ?z) => assert (Z : 0 <= z) by (apply rsum_nonneg; intros k _; apply Rle_0_sqr) end.
    pose proof (Rle_0_sqr (xb - xa)). pose proof (Rle_0_sqr (yb - ya)). unfold Rsqr in *.
    destruct Hne as [X|X]; [assert (0 < (xb - xa) * (xb - xa))|assert (0 < (yb - ya) * (yb - ya))]; try lra;
      apply Rsqr_pos_lt; lra. }
  split; [exact P|]. unfold axis.
  change (np_get [xa :: ya :: ra; xb :: yb :: rb] 1) with (Ok (xb :: yb :: rb)). change (np_get [xa :: ya :: ra; xb :: yb :: rb] 0) with (Ok (xa :: ya :: ra)). cbn [bind].
  replace (length (xa :: ya :: ra) =? length (xb :: yb :: rb))%nat with true by (symmetry; apply Nat.eqb_eq; cbn; congruence). cbn [guard bind].
  cbv zeta. match goal with |- context [nsqrt ?x] => assert (E : nsqrt x = L) end.
  { numR. unfold L. f_equal. change (2 + length ra)%nat with (length (xa :: ya :: ra)).
    apply (sq_sum (fun k => nth k (xb :: yb :: rb) 0) (fun k => nth k (xa :: ya :: ra) 0)); [cbn; congruence|]. intros k Hk. split; reflexivity. }
  rewrite E. clear E. cbn [combine map fst snd].
  match goal with |- context [np_get (?x :: ?y :: ?z) 0] => pose proof (np_get_nth (x :: y :: z) 0 0 ltac:(cbn; lia)) as G0; pose proof (np_get_nth (x :: y :: z) 1 0 ltac:(cbn; lia)) as G1 end.
  cbn [Z.of_nat Pos.of_succ_nat nth] in G0, G1. rewrite G0, G1. cbn [bind].
  replace (nis0 L) with false by (symmetry; apply nis0_false; lra). cbn [negb guard bind]. numR. reflexivity.
Qed.

Definition wide_problem (md : model) (N : list (list R)) : problem :=
  mkProblem 2 18 None None N (md_cons md) (md_elements md) (md_mats md) (md_loads md).

Lemma wide_bar md N c e : wf_model md -> truss_model md -> extends md N c -> In e (md_elements md) ->
  0 < reach N c e /\ exists K M, retriever e (md_mats md) N None = Ok (K, M2 M) /\ shape 4 4 K /\ shape 4 4 M /\
  forall U k d, (k < 2)%nat -> (d < 2)%nat -> act 4 K (p_disp (wide_problem md N) U e) (2 * k + d) =
    b_young md e * b_area md e * b_len (md_nodes md) e ^ 2 / reach N c e ^ 3 * stretch (md_nodes md) U e *
    (if (k =? 0)%nat then - b_dir (md_nodes md) e d else b_dir (md_nodes md) e d).
Proof.
  intros Hwf Ht Hx He. destruct (bar_facts md e Hwf Ht He) as (En & N0 & N1 & HE & HA & HL & _).
  destruct (ext_row _ _ _ _ Hx N0) as (n0 & r0 & E0 & L0 & F0). destruct (ext_row _ _ _ _ Hx N1) as (n1 & r1 & E1 & L1 & F1).
  assert (Hreach : reach N c e = sqrt (rsum (2 + length r0) (fun k => (nth k (ent (md_nodes md) (e_node e 1) 1 :: ent (md_nodes md) (e_node e 1) 2 :: r1) 0 -
     nth k (ent (md_nodes md) (e_node e 0) 1 :: ent (md_nodes md) (e_node e 0) 2 :: r0) 0) * (nth k (ent (md_nodes md) (e_node e 1) 1 :: ent (md_nodes md) (e_node e 1) 2 :: r1) 0 -
     nth k (ent (md_nodes md) (e_node e 0) 1 :: ent (md_nodes md) (e_node e 0) 2 :: r0) 0)))).
  { unfold reach. replace (c - 1)%nat with (2 + length r0)%nat by lia. f_equal. apply rsum_ext. intros k _. unfold ent at 1 2 3 4. rewrite E0, E1. reflexivity. }
  destruct Ht as [Hrows Hbars]. rewrite Forall_forall in Hbars. pose proof (Hbars e He) as (id & im & a & b & E & A & rest & Ee & Hm & Him & _ & _ & Hne).
  assert (Ha : Z.to_nat a = e_node e 0) by (rewrite Ee; reflexivity). assert (Hb : Z.to_nat b = e_node e 1) by (rewrite Ee; reflexivity).
  rewrite Ha, Hb in Hne.
  destruct (axis_wide (ent (md_nodes md) (e_node e 0) 1) (ent (md_nodes md) (e_node e 0) 2) r0 (ent (md_nodes md) (e_node e 1) 1) (ent (md_nodes md) (e_node e 1) 2) r1 ltac:(lia) Hne) as [HP HX].
  cbv zeta in HP, HX. rewrite <- Hreach in HP, HX. split; [exact HP|].
  assert (HR : nth (Z.to_nat im) (md_mats md) [] = E :: A :: rest).
  { rewrite <- (Z2Nat.id im Him) in Hm. apply np_get_inv in Hm. apply nth_error_nth with (d := []) in Hm. exact Hm. }
  assert (YE : b_young md e = E) by (rewrite Ee; unfold b_young, ent; cbn [nth]; rewrite HR; reflexivity).
  assert (YA : b_area md e = A) by (rewrite Ee; unfold b_area, ent; cbn [nth]; rewrite HR; reflexivity).
  pose proof (truss_unfold _ E A rest _ _ _ HX) as HT.
  assert (HC : retriever e (md_mats md) N None = truss2D [ent (md_nodes md) (e_node e 0) 1 :: ent (md_nodes md) (e_node e 0) 2 :: r0;
     ent (md_nodes md) (e_node e 1) 1 :: ent (md_nodes md) (e_node e 1) 2 :: r1] (E :: A :: rest)).
  { rewrite Ee at 1. unfold retriever. change (np_get [id; 6%Z; im; a; b] 1) with (Ok 6%Z). change (np_get [id; 6%Z; im; a; b] 2) with (Ok im). cbn [bind].
    rewrite Hm. cbn [bind skipn]. pose proof Hwf as (_ & _ & Hel & _). rewrite Forall_forall in Hel. specialize (Hel _ He). rewrite Ee in Hel. cbn [skipn] in Hel.
    rewrite <- (ext_len _ _ _ Hx) in Hel.
    rewrite (mapM_rows _ _ Hel). cbn [bind map]. change (@ele_fun R Num_R 6) with (Ok (@truss2D R Num_R)). cbn [bind].
    rewrite Ha, Hb, E0, E1. cbn [tl]. reflexivity. }
  do 2 eexists. split; [rewrite HC; exact HT|]. split; [|split].
  - apply congr_shape.
  - apply shape_mscale. split; [reflexivity|repeat constructor].
  - intros U k d Hk Hd. rewrite axial_act by lia. rewrite YE, YA. unfold axial_q, stretch, b_dir.
    change (p_disp (wide_problem md N) U e 2) with (U (e_node e 1) 0%nat). change (p_disp (wide_problem md N) U e 0) with (U (e_node e 0) 0%nat).
    change (p_disp (wide_problem md N) U e 3) with (U (e_node e 1) 1%nat). change (p_disp (wide_problem md N) U e 1) with (U (e_node e 0) 1%nat).
    destruct k as [|[|]]; [| |lia]; (destruct d as [|[|]]; [| |lia]); cbn [Nat.mul Nat.add Nat.eqb]; field; lra.
Qed.

Lemma wide_wf md N c : wf_model md -> truss_model md -> extends md N c -> wf_problem (wide_problem md N).
Proof.
  intros Hwf Ht Hx. pose proof (ext_len _ _ _ Hx) as HLn. pose proof Hwf as (Hfl & HLc & Hel & Hld).
  split; [cbn; lia|]. split; [exact Hfl|]. split; [cbn; congruence|]. split.
  - apply Forall_forall. intros e He. destruct (bar_facts md e Hwf Ht He) as (En & _). cbn [wide_problem p_elements] in He.
    destruct (wide_bar md N c e Hwf Ht Hx He) as (_ & K & M & HR & SK & SM & _). split.
    + destruct Ht as [_ Hb]. rewrite Forall_forall in Hb. destruct (Hb e He) as (id & im & a & b & E & A & rest & -> & _).
      exists 6%Z. split; [reflexivity|]. split; [reflexivity|]. split; [cbn; lia|]. rewrite Forall_forall in Hel. cbn [wide_problem p_cons]. rewrite HLc. exact (Hel _ He).
    + exists K, M. rewrite En. split; [exact HR|]. split; assumption.
  - cbn [wide_problem p_dofs p_nodes p_loads]. rewrite HLn. exact Hld.
Qed.

Lemma wide_internal md N c U i d : wf_model md -> truss_model md -> extends md N c -> (d < 2)%nat ->
  p_internal (wide_problem md N) U i d = - joint md (fun m => axial md U m * soft md N c m) i d.
Proof.
  intros Hwf Ht Hx Hd. unfold p_internal, joint. cbn [wide_problem p_elements]. rewrite lsum_nth.
  replace (- rsum _ _) with (-1 * rsum (length (md_elements md)) (fun m => axial md U m * soft md N c m * pull (md_nodes md) (nth m (md_elements md) []) i d)) by ring.
  rewrite <- rsum_scal. apply rsum_ext. intros m Hm. pose proof (nth_In (md_elements md) [] Hm) as He.
  destruct (bar_facts md _ Hwf Ht He) as (En & _ & _ & _ & _ & HL & _). destruct (wide_bar md N c _ Hwf Ht Hx He) as (HP & K & M & HR & _ & _ & HF).
  rewrite En. cbn [rsum]. assert (HS : p_stiff (wide_problem md N) (nth m (md_elements md) []) = K) by (unfold p_stiff; cbn [wide_problem p_mats p_nodes p_uel]; rewrite HR; reflexivity).
  rewrite HS. change (p_dofs (wide_problem md N)) with 2%nat. change (2 * 2)%nat with 4%nat.
  rewrite !HF by lia. unfold axial, pull, soft. cbn [Nat.eqb].
  destruct (e_node (nth m (md_elements md) []) 0 =? i)%nat, (e_node (nth m (md_elements md) []) 1 =? i)%nat; field; lra.
Qed.

Lemma soft_pos md N c m : wf_model md -> truss_model md -> extends md N c -> (m < length (md_elements md))%nat -> 0 < soft md N c m <= 1.
Proof.
  intros Hwf Ht Hx Hm. pose proof (nth_In (md_elements md) [] Hm) as He. destruct (bar_facts md _ Hwf Ht He) as (_ & N0 & N1 & _ & _ & HL & _).
  pose proof (reach_ge md N c _ Hx N0 N1) as HG. unfold soft. cbv zeta. set (L := b_len _ _) in *. set (r := reach _ _ _) in *.
  assert (0 < L / r) by (apply Rdiv_lt_0_compat; lra). assert (L / r <= 1) by (apply (Rmult_le_reg_r r); [lra|]; unfold Rdiv; rewrite Rmult_assoc, Rinv_l; lra).
  split; [apply pow_lt; assumption|]. rewrite <- (pow1 3). apply pow_incr. lra.
Qed.
Lemma soft_one md N c m : wf_model md -> truss_model md -> extends md N c -> (m < length (md_elements md))%nat ->
  (soft md N c m = 1 <-> forall k, (3 <= k < c)%nat -> ent N (e_node (nth m (md_elements md) []) 0) k = ent N (e_node (nth m (md_elements md) []) 1) k).
Proof.
  intros Hwf Ht Hx Hm. pose proof (nth_In (md_elements md) [] Hm) as He. destruct (bar_facts md _ Hwf Ht He) as (_ & N0 & N1 & _ & _ & HL & _).
  pose proof (reach_ge md N c _ Hx N0 N1) as HG. set (e := nth m (md_elements md) []) in *.
  destruct (ext_row _ _ _ _ Hx N0) as (n0 & r0 & E0 & L0 & _). destruct (ext_row _ _ _ _ Hx N1) as (n1 & r1 & E1 & L1 & _).
  set (f := fun k => ent N (e_node e 1) k - ent N (e_node e 0) k).
  assert (HR : reach N c e = sqrt (b_len (md_nodes md) e * b_len (md_nodes md) e + rsum (c - 3) (fun k => f (3 + k)%nat * f (3 + k)%nat))).
  { unfold reach. f_equal. replace (c - 1)%nat with (S (S (c - 3))) by lia. rewrite !rsum_head. unfold b_len. rewrite bar_len_sqr. unfold f. cbn [Nat.add].
    rewrite <- Rplus_assoc. f_equal. unfold ent at 1 2 3 4 5 6 7 8. rewrite E0, E1. reflexivity. }
  assert (HS : soft md N c m = 1 <-> b_len (md_nodes md) e = reach N c e).
  { unfold soft. cbv zeta. fold e. set (L := b_len _ _) in *. set (r := reach _ _ _) in *. split; intros H1.
    - assert (Hq : 0 < L / r <= 1) by (split; [apply Rdiv_lt_0_compat; lra|]; apply (Rmult_le_reg_r r); [lra|]; unfold Rdiv; rewrite Rmult_assoc, Rinv_l; lra).
      assert (L / r = 1) by (destruct (Req_dec (L / r) 1) as [|X]; [assumption|]; exfalso; set (q := L / r) in *; assert (q < 1) by lra; assert (q * (q * (q * 1)) < 1) by nra; cbn [pow] in H1; lra).
      apply (Rmult_eq_reg_r (/ r)); [unfold Rdiv in *; rewrite Rinv_r; lra|apply Rinv_neq_0_compat; lra].
    - rewrite H1. unfold Rdiv. rewrite Rinv_r by lra. ring. }
  rewrite HS. assert (HN : 0 <= rsum (c - 3) (fun k => f (3 + k)%nat * f (3 + k)%nat)) by (apply rsum_nonneg; intros k _; apply Rle_0_sqr). split.
  - intros H1 k Hk. rewrite HR in H1. assert (HQ : b_len (md_nodes md) e * b_len (md_nodes md) e = b_len (md_nodes md) e * b_len (md_nodes md) e + rsum (c - 3) (fun k => f (3 + k)%nat * f (3 + k)%nat)).
    { rewrite <- sqrt_sqrt with (x := b_len (md_nodes md) e * b_len (md_nodes md) e + _) by nra. rewrite <- H1. reflexivity. }
    assert (HZ : rsum (c - 3) (fun k => f (3 + k)%nat * f (3 + k)%nat) = 0) by lra.
    pose proof (rsum_eq_zero_nonneg _ _ (fun k _ => Rle_0_sqr (f (3 + k)%nat)) HZ (k - 3)%nat ltac:(lia)) as H0. cbv beta in H0. replace (3 + (k - 3))%nat with k in H0 by lia.
    apply Rsqr_0_uniq in H0. unfold f in H0. lra.
  - intros Hk. rewrite HR, rsum_zero, Rplus_0_r; [symmetry; apply sqrt_square; lra|]. intros k Hk'. unfold f. rewrite (Hk (3 + k)%nat) by lia. ring.
Qed.

Lemma wide_stable md N c : wf_model md -> truss_model md -> extends md N c -> stable md -> p_stable (wide_problem md N).
Proof.
  intros Hwf Ht Hx Hst U HU. pose proof (ext_len _ _ _ Hx) as HLn. pose proof (proj1 (truss_stable md Hwf Ht) Hst) as HM.
  unfold p_dof in *. cbn [wide_problem p_nodes p_dofs p_cons] in *. rewrite HLn in *. intros i d [Hi Hd]. apply HM; [intros i' d' Hi' Hd'; exact (proj1 (HU i' d' (conj Hi' Hd')))| |exact Hi|exact Hd].
  assert (HJ : forall i d, free md i d -> joint md (fun m => axial md U m * soft md N c m) i d = 0).
  { intros i' d' (Hi' & Hd' & C). pose proof (proj2 (HU i' d' (conj Hi' Hd')) C) as H0. rewrite (wide_internal md N c) in H0 by assumption. lra. }
  pose proof (balanced_work md _ U (fun _ _ => 0) Hwf Ht (fun i d Hi Hd => proj1 (HU i d (conj Hi Hd))) HJ) as HW.
  rewrite (rsum_zero (length (md_nodes md))) in HW by (intros k _; cbn [rsum]; ring).
  assert (HZ : forall m, (m < length (md_elements md))%nat -> axial md U m * soft md N c m * stretch (md_nodes md) U (nth m (md_elements md) []) = 0).
  { apply rsum_eq_zero_nonneg; [|lra]. intros m Hm. unfold axial. pose proof (axial_coef md m Hwf Ht Hm). pose proof (soft_pos md N c m Hwf Ht Hx Hm).
    cbv zeta. set (s := stretch _ _ _). set (k := _ / _) in *. set (q := soft _ _ _ _) in *. replace (k * s * q * s) with (k * q * (s * s)) by ring.
    apply Rmult_le_pos; [apply Rmult_le_pos; lra|apply Rle_0_sqr]. }
  intros e He. destruct (In_nth _ _ [] He) as (m & Hm & <-). specialize (HZ m Hm). unfold axial in HZ. pose proof (axial_coef md m Hwf Ht Hm). pose proof (soft_pos md N c m Hwf Ht Hx Hm).
  cbv zeta in HZ. set (s := stretch _ _ _) in *. apply Rmult_integral in HZ as [HZ|HZ]; [|exact HZ]. apply Rmult_integral in HZ as [HZ|HZ]; [|lra]. apply Rmult_integral in HZ as [HZ|HZ]; [lra|exact HZ].
Qed.

(** ** runs *)
Lemma wide_run sv md N c U : wf_model md -> truss_model md -> extends md N c -> solvers_ok sv -> truss_script sv md N = Ok U ->
  shape (length (md_nodes md)) 2 U /\ admissible md (ent U) /\ balanced md (fun m => axial md (ent U) m * soft md N c m).
Proof.
  intros Hwf Ht Hx Hs HU. pose proof (ext_len _ _ _ Hx) as HLn. pose proof (wide_wf md N c Hwf Ht Hx) as HW.
  destruct (p_equilibrium_run sv (wide_problem md N) true U HW Hs HU) as [SU EU]. cbn [wide_problem p_nodes p_dofs] in SU. rewrite HLn in SU.
  unfold p_equilibrium, p_dof in EU. cbn [wide_problem p_nodes p_dofs p_cons p_loads] in EU. rewrite HLn in EU. split; [exact SU|]. split.
  - intros i d Hi Hd C. exact (proj1 (EU i d (conj Hi Hd)) C).
  - intros i d (Hi & Hd & C). pose proof (proj2 (EU i d (conj Hi Hd)) C) as H0. rewrite (wide_internal md N c) in H0 by assumption. lra.
Qed.
Lemma wide_answers sv md N c : wf_model md -> truss_model md -> extends md N c -> solvers_ok sv -> solvers_total sv -> stable md -> exists U, truss_script sv md N = Ok U.
Proof. intros Hwf Ht Hx Hs Htt Hst. exact (p_runs sv (wide_problem md N) true (wide_wf md N c Hwf Ht Hx) Hs Htt (wide_stable md N c Hwf Ht Hx Hst)). Qed.

Lemma wide_rows md N c U : wf_model md -> truss_model md -> extends md N c -> shape (length (md_nodes md)) 2 U ->
  stress_truss N (md_elements md) (md_mats md) U = Ok (map (bar_stress (md_nodes md) (md_mats md) U) (md_elements md)).
Proof.
  intros Hwf Ht Hx SU. pose proof (ext_len _ _ _ Hx) as HLn. pose proof (truss_rows md U Hwf Ht SU) as HR.
  assert (HE : forall e k j, In e (md_elements md) -> (k < 2)%nat -> (j < 3)%nat -> ent N (e_node e k) j = ent (md_nodes md) (e_node e k) j).
  { intros e k j He Hk Hj. destruct (bar_facts md e Hwf Ht He) as (_ & N0 & N1 & _).
    assert (HN : (e_node e k < length (md_nodes md))%nat) by (destruct k as [|[|]]; [exact N0|exact N1|lia]).
    destruct (ext_row _ _ _ _ Hx HN) as (n & r & E0 & _ & F0). unfold ent at 1. rewrite E0. destruct j as [|[|[|]]]; [|reflexivity|reflexivity|lia]. unfold ent. rewrite F0. reflexivity. }
  rewrite truss_hooke.
  - f_equal. apply map_ext_in. intros e He. unfold bar_stress. cbv zeta. rewrite !HE by (assumption || lia). reflexivity.
  - rewrite Forall_forall in *. intros e He. destruct (HR e He) as (A & B & C & D & E & F & G). split; [exact A|]. split.
    + intros k Hk. destruct (B k Hk) as (B1 & B2 & B3 & B4 & B5). split; [exact B1|]. split; [rewrite HLn; exact B2|]. split; [exact B3|]. split; [|exact B5].
      destruct (ext_row _ _ _ _ Hx B2) as (n & r & E0 & _). rewrite E0. cbn. lia.
    + split; [exact C|]. split; [exact D|]. split; [exact E|]. split; [exact F|]. rewrite !HE by (assumption || lia). exact G.
Qed.

Lemma wide_joints sv md N c U : wf_model md -> truss_model md -> extends md N c -> solvers_ok sv -> truss_script sv md N = Ok U ->
  exists S, stress_truss N (md_elements md) (md_mats md) U = Ok S /\ length S = length (md_elements md) /\
    balanced md (fun m => nth m S 0 * b_area md (nth m (md_elements md) []) * soft md N c m).
Proof.
  intros Hwf Ht Hx Hs HU. destruct (wide_run sv md N c U Hwf Ht Hx Hs HU) as (SU & _ & HB). eexists. split; [exact (wide_rows md N c U Hwf Ht Hx SU)|].
  split; [apply map_length|]. intros i d Hf. rewrite <- (HB i d Hf). f_equal. apply (joint_ext md). intros m Hm. rewrite (map_nth_def _ _ _ []) by exact Hm.
  rewrite (stress_axial md U m Hwf Ht Hm). reflexivity.
Qed.

Lemma wide_determinate sv md N c U S F : wf_model md -> truss_model md -> extends md N c -> solvers_ok sv -> truss_script sv md N = Ok U ->
  stress_truss N (md_elements md) (md_mats md) U = Ok S -> determinate md -> balanced md F ->
  forall m, (m < length (md_elements md))%nat -> nth m S 0 = F m / b_area md (nth m (md_elements md) []) * (reach N c (nth m (md_elements md) []) / b_len (md_nodes md) (nth m (md_elements md) [])) ^ 3.
Proof.
  intros Hwf Ht Hx Hs HU HS HD HF m Hm. destruct (wide_joints sv md N c U Hwf Ht Hx Hs HU) as (S' & HS' & _ & HB). rewrite HS in HS'. apply Ok_inj in HS'. subst S'.
  pose proof (nth_In (md_elements md) [] Hm) as He. destruct (bar_facts md _ Hwf Ht He) as (_ & N0 & N1 & _ & HA & HL & _). pose proof (reach_ge md N c _ Hx N0 N1) as HG.
  assert (HZ : F m - nth m S 0 * b_area md (nth m (md_elements md) []) * soft md N c m = 0).
  { apply (HD (fun m => F m - nth m S 0 * b_area md (nth m (md_elements md) []) * soft md N c m)); [|exact Hm]. intros i d Hf.
    pose proof (HF i d Hf) as A. pose proof (HB i d Hf) as B. unfold joint in *.
    rewrite (rsum_ext _ _ (fun m => F m * pull (md_nodes md) (nth m (md_elements md) []) i d - nth m S 0 * b_area md (nth m (md_elements md) []) * soft md N c m * pull (md_nodes md) (nth m (md_elements md) []) i d)) by (intros k _; ring).
    rewrite rsum_minus. lra. }
  assert (HX : F m = nth m S 0 * b_area md (nth m (md_elements md) []) * soft md N c m) by lra. rewrite HX. unfold soft. cbv zeta. field. split; [|split]; lra.
Qed.
