(** * Lemmas: statics of trusses *)
From Coq Require Import Reals List Arith Lia Lra Bool ZArith.
From Verif Require Import Num LinAlg Fem Uel Assem Post Main Spec LinR Base SpecAssem SpecModel SpecElem SpecPost SpecStatic SpecTruss
  ElemCore ElemShape AssemProofs AssemProofs2 AssemProofs3 AssemProofs4 ModelProofs ModelProofs2 BarProofs ElemFinal2 ElemFinal3 MeshProofs
  PostProofs PostMore StaticProofs StaticProofs2 StaticProofs3 DriverProofs.
Import ListNotations.
Local Open Scope R_scope.

Lemma bar_facts md e : wf_model md -> truss_model md -> In e (md_elements md) ->
  e_n e = 2%nat /\ (e_node e 0 < length (md_nodes md))%nat /\ (e_node e 1 < length (md_nodes md))%nat /\
  0 < b_young md e /\ 0 < b_area md e /\ 0 < b_len (md_nodes md) e /\
  exists M, retriever e (md_mats md) (md_nodes md) None = Ok (e_stiff (md_mats md) (md_nodes md) e, M2 M) /\
  forall U k d, (k < 2)%nat -> (d < 2)%nat -> e_force (md_mats md) (md_nodes md) U e (2 * k + d) =
    b_young md e * b_area md e / b_len (md_nodes md) e * stretch (md_nodes md) U e * (if (k =? 0)%nat then - b_dir (md_nodes md) e d else b_dir (md_nodes md) e d).
Proof.
  intros Hwf [Hrows Hbars] He. rewrite Forall_forall in Hbars. pose proof (Hbars e He) as (id & im & a & b & E & A & rest & -> & Hm & Him & HE & HA & Hne).
  pose proof (e_node_lt md _ 0 Hwf He ltac:(cbn; lia)) as N0. pose proof (e_node_lt md _ 1 Hwf He ltac:(cbn; lia)) as N1.
  split; [reflexivity|]. split; [exact N0|]. split; [exact N1|].
  assert (HR : nth (Z.to_nat im) (md_mats md) [] = E :: A :: rest).
  { rewrite <- (Z2Nat.id im Him) in Hm. apply np_get_inv in Hm. apply nth_error_nth with (d := []) in Hm. exact Hm. }
  assert (YE : b_young md [id; 6%Z; im; a; b] = E) by (unfold b_young, ent; cbn [nth]; rewrite HR; reflexivity).
  assert (YA : b_area md [id; 6%Z; im; a; b] = A) by (unfold b_area, ent; cbn [nth]; rewrite HR; reflexivity).
  rewrite YE, YA. split; [exact HE|]. split; [exact HA|].
  pose proof (bar_len_pos _ _ _ _ Hne) as HL. split; [exact HL|].
  change (Z.to_nat a) with (e_node [id; 6; im; a; b]%Z 0) in Hne. change (Z.to_nat b) with (e_node [id; 6; im; a; b]%Z 1) in Hne.
  destruct (bars_closed_form _ _ _ _ Hne) as [HT _]. destruct (HT E A rest) as (K & M & HK & HF).
  assert (HC : retriever [id; 6%Z; im; a; b] (md_mats md) (md_nodes md) None = Ok (K, M2 M)).
  { unfold retriever. change (np_get [id; 6%Z; im; a; b] 1) with (Ok 6%Z). change (np_get [id; 6%Z; im; a; b] 2) with (Ok im). cbn [bind].
    rewrite Hm. cbn [bind skipn]. pose proof Hwf as (_ & _ & Hel & _). rewrite Forall_forall in Hel. specialize (Hel _ He). cbn [skipn] in Hel.
    rewrite (mapM_rows _ _ Hel). cbn [bind map]. change (@ele_fun R Num_R 6) with (Ok (@truss2D R Num_R)). cbn [bind].
    change (Z.to_nat a) with (e_node [id; 6; im; a; b]%Z 0). change (Z.to_nat b) with (e_node [id; 6; im; a; b]%Z 1).
    rewrite Forall_forall in Hrows.
    pose proof (Hrows _ (nth_In (md_nodes md) [] N0)) as L0. pose proof (Hrows _ (nth_In (md_nodes md) [] N1)) as L1.
    unfold ent in HK. destruct (nth (e_node [id; 6; im; a; b]%Z 0) (md_nodes md) []) as [|? [|? [|? [|]]]]; try discriminate.
    destruct (nth (e_node [id; 6; im; a; b]%Z 1) (md_nodes md) []) as [|? [|? [|? [|]]]]; try discriminate. cbn [tl]. cbn [nth] in HK. exact HK. }
  assert (HS : e_stiff (md_mats md) (md_nodes md) [id; 6%Z; im; a; b] = K) by (unfold e_stiff; rewrite HC; reflexivity).
  exists M. split; [rewrite HS; exact HC|]. intros U k d Hk Hd. unfold e_force. rewrite HS. change (2 * e_n [id; 6%Z; im; a; b])%nat with 4%nat.
  rewrite HF by lia. unfold bar_force. fold (b_len (md_nodes md) [id; 6%Z; im; a; b]).
  assert (HB : bar_elong (ent (md_nodes md) (e_node [id; 6%Z; im; a; b] 0) 1) (ent (md_nodes md) (e_node [id; 6%Z; im; a; b] 0) 2)
     (ent (md_nodes md) (e_node [id; 6%Z; im; a; b] 1) 1) (ent (md_nodes md) (e_node [id; 6%Z; im; a; b] 1) 2) (e_disp U [id; 6%Z; im; a; b]) =
     stretch (md_nodes md) U [id; 6%Z; im; a; b]).
  { unfold bar_elong, stretch, b_dir. fold (b_len (md_nodes md) [id; 6%Z; im; a; b]).
    change (e_disp U [id; 6%Z; im; a; b] 2) with (U (e_node [id; 6%Z; im; a; b] 1) 0%nat). change (e_disp U [id; 6%Z; im; a; b] 0) with (U (e_node [id; 6%Z; im; a; b] 0) 0%nat).
    change (e_disp U [id; 6%Z; im; a; b] 3) with (U (e_node [id; 6%Z; im; a; b] 1) 1%nat). change (e_disp U [id; 6%Z; im; a; b] 1) with (U (e_node [id; 6%Z; im; a; b] 0) 1%nat).
    field. unfold b_len, e_node. cbn [nth Nat.add]. lra. }
  rewrite HB. f_equal. destruct k as [|[|]]; [| |lia]; (destruct d as [|[|]]; [| |lia]); reflexivity.
Qed.

Lemma lsum_nth (f : list Z -> R) l : lsum f l = rsum (length l) (fun m => f (nth m l [])).
Proof.
  assert (HA : forall p q, lsum f (p ++ q) = lsum f p + lsum f q).
  { intros p q. induction p as [|x p IHp]; [unfold lsum; cbn; ring|]. change (f x + lsum f (p ++ q) = f x + lsum f p + lsum f q). rewrite IHp. ring. }
  induction l as [|x l IH] using rev_ind; [reflexivity|]. rewrite HA, app_length. cbn [length]. rewrite Nat.add_1_r. cbn [rsum].
  rewrite IH. unfold lsum at 1. cbn [fold_right]. rewrite app_nth2, Nat.sub_diag by lia. cbn [nth].
  rewrite (rsum_ext _ (fun m => f (nth m (l ++ [x]) [])) (fun m => f (nth m l []))) by (intros m Hm; rewrite app_nth1 by exact Hm; reflexivity). ring.
Qed.

(** internal forces are those of the axial forces of the bars *)
Definition axial (md : model) (U : nat -> nat -> R) (m : nat) : R :=
  let e := nth m (md_elements md) [] in b_young md e * b_area md e / b_len (md_nodes md) e * stretch (md_nodes md) U e.

Lemma truss_internal md U i d : wf_model md -> truss_model md -> (d < 2)%nat ->
  internal_force (md_mats md) (md_nodes md) (md_elements md) U i d = - joint md (axial md U) i d.
Proof.
  intros Hwf Ht Hd. unfold internal_force, joint. rewrite lsum_nth. replace (- rsum _ _) with (-1 * rsum (length (md_elements md)) (fun m => axial md U m * pull (md_nodes md) (nth m (md_elements md) []) i d)) by ring.
  rewrite <- rsum_scal. apply rsum_ext. intros m Hm. pose proof (nth_In (md_elements md) [] Hm) as He.
  destruct (bar_facts md _ Hwf Ht He) as (En & _ & _ & _ & _ & _ & M & _ & HF). rewrite En. cbn [rsum].
  rewrite !HF by lia. unfold axial, pull. cbn [Nat.eqb].
  destruct (e_node (nth m (md_elements md) []) 0 =? i)%nat, (e_node (nth m (md_elements md) []) 1 =? i)%nat; ring.
Qed.

(** virtual work for any axial forces *)
Lemma joint_work md N V : wf_model md -> truss_model md ->
  rsum (length (md_nodes md)) (fun i => rsum 2 (fun d => joint md N i d * V i d)) =
  - rsum (length (md_elements md)) (fun m => N m * stretch (md_nodes md) V (nth m (md_elements md) [])).
Proof.
  intros Hwf Ht. set (n := length (md_nodes md)). set (me := length (md_elements md)).
  rewrite (rsum_ext n _ (fun i => rsum me (fun m => N m * (pull (md_nodes md) (nth m (md_elements md) []) i 0 * V i 0%nat + pull (md_nodes md) (nth m (md_elements md) []) i 1 * V i 1%nat)))).
  2:{ intros i _. cbn [rsum]. unfold joint. fold me. rewrite Rplus_0_l, <- !rsum_scal_r, <- rsum_plus. apply rsum_ext. intros m _. ring. }
  rewrite rsum_swap. replace (- rsum me _) with (-1 * rsum me (fun m => N m * stretch (md_nodes md) V (nth m (md_elements md) []))) by ring. rewrite <- rsum_scal.
  apply rsum_ext. intros m Hm. pose proof (nth_In (md_elements md) [] Hm) as He. destruct (bar_facts md _ Hwf Ht He) as (_ & N0 & N1 & _).
  set (e := nth m (md_elements md) []) in *. rewrite rsum_scal.
  rewrite (rsum_ext n _ (fun i => (if (i =? e_node e 0)%nat then b_dir (md_nodes md) e 0 * V i 0%nat + b_dir (md_nodes md) e 1 * V i 1%nat else 0)
     - (if (i =? e_node e 1)%nat then b_dir (md_nodes md) e 0 * V i 0%nat + b_dir (md_nodes md) e 1 * V i 1%nat else 0))).
  2:{ intros i _. unfold pull. rewrite (Nat.eqb_sym i), (Nat.eqb_sym i). destruct (e_node e 0 =? i)%nat, (e_node e 1 =? i)%nat; ring. }
  rewrite rsum_minus, (rsum_single n (e_node e 0)), (rsum_single n (e_node e 1)), !Nat.eqb_refl; try assumption.
  - unfold stretch. ring.
  - intros i Hi Hne. apply Nat.eqb_neq in Hne. rewrite Hne. reflexivity.
  - intros i Hi Hne. apply Nat.eqb_neq in Hne. rewrite Hne. reflexivity.
Qed.

(** forces balanced at the free dofs do no work on admissible fields *)
Lemma balanced_work md N V f : wf_model md -> truss_model md -> admissible md V -> (forall i d, free md i d -> joint md N i d = f i d) ->
  rsum (length (md_elements md)) (fun m => N m * stretch (md_nodes md) V (nth m (md_elements md) [])) =
  - rsum (length (md_nodes md)) (fun i => rsum 2 (fun d => f i d * V i d)).
Proof.
  intros Hwf Ht HV HN. pose proof (joint_work md N V Hwf Ht) as HW.
  rewrite (rsum_ext (length (md_nodes md)) _ (fun i => rsum 2 (fun d => f i d * V i d))) in HW; [lra|].
  intros i Hi. apply rsum_ext. intros d Hd. destruct (proj2 (cons_row md i Hwf Hi) d Hd) as [C|C].
  - rewrite (HN i d); [reflexivity|split; [exact Hi|split; assumption]].
  - rewrite (HV i d Hi Hd C). ring.
Qed.

(** ** stability *)
Lemma axial_coef md m : wf_model md -> truss_model md -> (m < length (md_elements md))%nat ->
  0 < b_young md (nth m (md_elements md) []) * b_area md (nth m (md_elements md) []) / b_len (md_nodes md) (nth m (md_elements md) []).
Proof.
  intros Hwf Ht Hm. destruct (bar_facts md _ Hwf Ht (nth_In _ [] Hm)) as (_ & _ & _ & HE & HA & HL & _).
  apply Rdiv_lt_0_compat; [apply Rmult_lt_0_compat; assumption|assumption].
Qed.

Theorem truss_stable md : wf_model md -> truss_model md -> (stable md <-> no_mechanism md).
Proof.
  intros Hwf Ht. split.
  - intros Hst U HU HS. apply Hst. intros i d Hi Hd. split; [exact (HU i d Hi Hd)|]. intros _. rewrite truss_internal by assumption.
    unfold joint. rewrite rsum_zero; [ring|]. intros m Hm. unfold axial. rewrite (HS _ (nth_In _ [] Hm)). ring.
  - intros HM U HU. apply HM; [intros i d Hi Hd; exact (proj1 (HU i d Hi Hd))|].
    assert (HJ : forall i d, free md i d -> joint md (axial md U) i d = 0).
    { intros i d (Hi & Hd & C). pose proof (proj2 (HU i d Hi Hd) C) as H0. rewrite truss_internal in H0 by assumption. lra. }
    pose proof (balanced_work md (axial md U) U (fun _ _ => 0) Hwf Ht (fun i d Hi Hd => proj1 (HU i d Hi Hd)) HJ) as HW.
    rewrite (rsum_zero (length (md_nodes md))) in HW by (intros i _; cbn [rsum]; ring).
    assert (HZ : forall m, (m < length (md_elements md))%nat -> axial md U m * stretch (md_nodes md) U (nth m (md_elements md) []) = 0).
    { apply rsum_eq_zero_nonneg; [|lra]. intros m Hm. unfold axial. pose proof (axial_coef md m Hwf Ht Hm).
      pose proof (Rle_0_sqr (stretch (md_nodes md) U (nth m (md_elements md) []))). unfold Rsqr in *. nra. }
    intros e He. destruct (In_nth _ _ [] He) as (m & Hm & <-). specialize (HZ m Hm). unfold axial in HZ. pose proof (axial_coef md m Hwf Ht Hm).
    set (s := stretch _ _ _) in *. apply Rmult_integral in HZ as [HZ|HZ]; [|exact HZ]. apply Rmult_integral in HZ as [HZ|HZ]; [lra|exact HZ].
Qed.

Lemma held_zero md U seen i p q : wf_model md -> truss_model md -> admissible md U -> (i < length (md_nodes md))%nat ->
  (forall e, In e (md_elements md) -> stretch (md_nodes md) U e = 0) ->
  (forall j d, In j seen -> (d < 2)%nat -> U j d = 0) -> held md seen i p q -> p * U i 0%nat + q * U i 1%nat = 0.
Proof.
  intros Hwf Ht HU Hi HS H0 [(C & -> & ->)|[(C & -> & ->)|(e & j & He & Hj & Hends & -> & ->)]].
  - rewrite (HU i 0%nat Hi ltac:(lia) C). ring.
  - rewrite (HU i 1%nat Hi ltac:(lia) C). ring.
  - pose proof (HS e He) as Hst. destruct (bar_facts md e Hwf Ht He) as (_ & _ & _ & _ & _ & HL & _).
    unfold stretch, b_dir in Hst. destruct Hends as [[E0 E1]|[E0 E1]]; rewrite E0, E1 in Hst;
      rewrite (H0 j 0%nat Hj ltac:(lia)), (H0 j 1%nat Hj ltac:(lia)) in Hst; set (L := b_len _ _) in *;
      apply (Rmult_eq_reg_r (/ L)); try (apply Rinv_neq_0_compat; lra); unfold Rdiv in Hst; lra.
Qed.

Theorem simple_stable md l : wf_model md -> truss_model md -> simple_truss md l -> (forall i, (i < length (md_nodes md))%nat -> In i l) -> stable md.
Proof.
  intros Hwf Ht Hs Hall. apply (truss_stable md Hwf Ht). intros U HU HS.
  assert (HZ : forall j d, In j l -> (d < 2)%nat -> U j d = 0).
  { clear Hall. induction Hs as [|seen i p q p' q' Hs IH Hi H1 H2 Hd]; [intros j d []|].
    pose proof (held_zero md U seen i p q Hwf Ht HU Hi HS IH H1) as Z1. pose proof (held_zero md U seen i p' q' Hwf Ht HU Hi HS IH H2) as Z2.
    intros j d [<-|Hj] Hdd; [|exact (IH j d Hj Hdd)].
    assert (A0 : (p * q' - p' * q) * U i 0%nat = 0) by (replace ((p * q' - p' * q) * U i 0%nat) with (q' * (p * U i 0%nat + q * U i 1%nat) - q * (p' * U i 0%nat + q' * U i 1%nat)) by ring; rewrite Z1, Z2; ring).
    assert (A1 : (p * q' - p' * q) * U i 1%nat = 0) by (replace ((p * q' - p' * q) * U i 1%nat) with (p * (p' * U i 0%nat + q' * U i 1%nat) - p' * (p * U i 0%nat + q * U i 1%nat)) by ring; rewrite Z1, Z2; ring).
    apply Rmult_integral in A0 as [A0|A0]; [contradiction|]. apply Rmult_integral in A1 as [A1|A1]; [contradiction|].
    destruct d as [|[|]]; [exact A0|exact A1|lia]. }
  intros i d Hi Hd. apply HZ; [apply Hall; exact Hi|exact Hd].
Qed.

Lemma truss_accepted md : wf_model md -> truss_model md -> accepted md.
Proof.
  intros Hwf Ht. apply Forall_forall. intros e He. pose proof (bar_facts md e Hwf Ht He) as (_ & _ & _ & _ & _ & _ & M & HR & _). split; [|eauto].
  destruct Ht as [_ Hb]. rewrite Forall_forall in Hb. destruct (Hb e He) as (id & im & a & b & E & A & rest & -> & _).
  exists 6%Z. split; [reflexivity|]. split; [reflexivity|]. split; [cbn; lia|]. destruct Hwf as (_ & HLc & Hel & _). rewrite Forall_forall in Hel. rewrite HLc. exact (Hel _ He).
Qed.

(** ** stresses *)
Lemma truss_rows md disp : wf_model md -> truss_model md -> shape (length (md_nodes md)) 2 disp ->
  Forall (bar_row (md_nodes md) (md_mats md) disp) (md_elements md).
Proof.
  intros Hwf Ht [LD SD]. apply Forall_forall. intros e He. pose proof (bar_facts md e Hwf Ht He) as (_ & N0 & N1 & HE & HA & HL & _).
  destruct Ht as [Hrows Hb]. rewrite Forall_forall in Hb, Hrows, SD. destruct (Hb e He) as (id & im & a & b & E & A & rest & -> & Hm & Him & _ & HA' & Hne).
  assert (HR : nth_error (md_mats md) (Z.to_nat im) = Some (E :: A :: rest)) by (rewrite <- (Z2Nat.id im Him) in Hm; exact (np_get_inv _ _ _ Hm)).
  split; [cbn; lia|]. split.
  - intros k Hk. destruct Hwf as (_ & _ & Hel & _). rewrite Forall_forall in Hel. specialize (Hel _ He). cbn [skipn] in Hel. rewrite Forall_forall in Hel.
    destruct k as [|[|]]; [| |lia].
    + split; [apply (Hel a); cbn; tauto|]. split; [exact N0|]. split; [rewrite LD; exact N0|].
      split; [rewrite (Hrows _ (nth_In _ [] N0)); lia|]. apply SD. apply nth_In. rewrite LD. exact N0.
    + split; [apply (Hel b); cbn; tauto|]. split; [exact N1|]. split; [rewrite LD; exact N1|].
      split; [rewrite (Hrows _ (nth_In _ [] N1)); lia|]. apply SD. apply nth_In. rewrite LD. exact N1.
  - cbn [nth]. split; [exact Him|]. split; [apply nth_error_Some; congruence|]. rewrite (nth_error_nth _ _ [] HR). split; [cbn; lia|].
    split; [unfold ent; rewrite (nth_error_nth _ _ [] HR); cbn [nth]; lra|exact Hne].
Qed.

Lemma stress_axial md disp m : wf_model md -> truss_model md -> (m < length (md_elements md))%nat ->
  bar_stress (md_nodes md) (md_mats md) disp (nth m (md_elements md) []) * b_area md (nth m (md_elements md) []) = axial md (ent disp) m.
Proof.
  intros Hwf Ht Hm. pose proof (nth_In _ [] Hm) as He. destruct (bar_facts md _ Hwf Ht He) as (_ & _ & _ & _ & _ & HL & _).
  unfold axial, bar_stress. cbv zeta. set (e := nth m (md_elements md) []) in *. fold (b_len (md_nodes md) e). fold (b_young md e).
  change (e_young (md_mats md) e) with (b_young md e).
  assert (HB : bar_elong (ent (md_nodes md) (e_node e 0) 1) (ent (md_nodes md) (e_node e 0) 2)
     (ent (md_nodes md) (e_node e 1) 1) (ent (md_nodes md) (e_node e 1) 2) (bar_disp disp e) = stretch (md_nodes md) (ent disp) e).
  { unfold bar_elong, stretch, b_dir. fold (b_len (md_nodes md) e).
    change (bar_disp disp e 2) with (ent disp (e_node e 1) 0%nat). change (bar_disp disp e 0) with (ent disp (e_node e 0) 0%nat).
    change (bar_disp disp e 3) with (ent disp (e_node e 1) 1%nat). change (bar_disp disp e 1) with (ent disp (e_node e 0) 1%nat).
    field. lra. }
  rewrite HB. field. lra.
Qed.

Section Run.
  Variables (sv : solvers R) (md : model) (plot strains : bool) (out : outcome R).
  Hypotheses (Hwf : wf_model md) (Ht : truss_model md) (Hsv : solver_ok sv) (Hrun : auto sv md plot strains = Ok out).
  Let S := map (bar_stress (md_nodes md) (md_mats md) (out_disp out)) (md_elements md).
  Let force (m : nat) : R := nth m S 0 * b_area md (nth m (md_elements md) []).

  Lemma truss_stress : stress_truss (md_nodes md) (md_elements md) (md_mats md) (out_disp out) = Ok S.
  Proof. apply truss_hooke. apply truss_rows; [exact Hwf|exact Ht|]. exact (disp_shape _ _ _ _ _ Hrun). Qed.
  Lemma force_axial m : (m < length (md_elements md))%nat -> force m = axial md (table out) m.
  Proof. intros Hm. unfold force, S. rewrite (map_nth_def _ _ _ []) by exact Hm. exact (stress_axial md (out_disp out) m Hwf Ht Hm). Qed.
  Lemma joint_ext N N' i d : (forall m, (m < length (md_elements md))%nat -> N m = N' m) -> joint md N i d = joint md N' i d.
  Proof. intros HN. unfold joint. apply rsum_ext. intros m Hm. rewrite (HN m Hm). reflexivity. Qed.
  Lemma truss_balanced : balanced md force.
  Proof.
    intros i d (Hi & Hd & C). rewrite (joint_ext force (axial md (table out)) i d force_axial).
    pose proof (proj2 (run_equilibrium _ _ _ _ _ Hwf Hsv Hrun i d Hi Hd) C) as HI. rewrite truss_internal in HI by assumption. lra.
  Qed.
  Lemma truss_energy : strain_energy md (table out) = complementary md force.
  Proof.
    unfold strain_energy, complementary. rewrite lsum_nth, <- rsum_scal. apply rsum_ext. intros m Hm. cbv zeta. rewrite (force_axial m Hm).
    pose proof (nth_In _ [] Hm) as He. destruct (bar_facts md _ Hwf Ht He) as (En & _ & _ & HE & HA & HL & M & _ & HF).
    set (e := nth m (md_elements md) []) in *. unfold form. rewrite En, rsum_pairs.
    rewrite (rsum_ext 2 _ (fun k => e_disp (table out) e (2 * k) * e_force (md_mats md) (md_nodes md) (table out) e (2 * k + 0)
       + e_disp (table out) e (2 * k + 1) * e_force (md_mats md) (md_nodes md) (table out) e (2 * k + 1))).
    2:{ intros k _. unfold e_force. rewrite En, Nat.add_0_r. reflexivity. }
    cbn [rsum]. rewrite !HF by lia. rewrite !e_disp_even, !e_disp_odd. cbn [Nat.eqb]. unfold axial. fold e. unfold stretch.
    field. lra.
  Qed.
  Lemma truss_table_admissible : admissible md (table out).
  Proof. apply equilibrium_admissible. exact (run_equilibrium _ _ _ _ _ Hwf Hsv Hrun). Qed.
  (** the difference of two balanced systems does no work on the displacements *)
  Lemma truss_orthogonal N : balanced md N ->
    rsum (length (md_elements md)) (fun m => (N m - force m) * stretch (md_nodes md) (table out) (nth m (md_elements md) [])) = 0.
  Proof.
    intros HN. rewrite (balanced_work md (fun m => N m - force m) (table out) (fun _ _ => 0) Hwf Ht truss_table_admissible).
    - rewrite rsum_zero by (intros i _; cbn [rsum]; ring). ring.
    - intros i d Hf. pose proof (HN i d Hf) as A. pose proof (truss_balanced i d Hf) as B. unfold joint in *.
      rewrite (rsum_ext _ _ (fun m => N m * pull (md_nodes md) (nth m (md_elements md) []) i d - force m * pull (md_nodes md) (nth m (md_elements md) []) i d)) by (intros m _; ring).
      rewrite rsum_minus. lra.
  Qed.
  Lemma truss_gap N : balanced md N ->
    complementary md N = complementary md force + complementary md (fun m => N m - force m).
  Proof.
    intros HN. pose proof (truss_orthogonal N HN) as HO. unfold complementary. rewrite <- rsum_plus.
    assert (HX : rsum (length (md_elements md)) (fun m => N m * N m * b_len (md_nodes md) (nth m (md_elements md) []) / (2 * b_young md (nth m (md_elements md) []) * b_area md (nth m (md_elements md) []))
      - (N m - force m) * stretch (md_nodes md) (table out) (nth m (md_elements md) [])) =
      rsum (length (md_elements md)) (fun m => force m * force m * b_len (md_nodes md) (nth m (md_elements md) []) / (2 * b_young md (nth m (md_elements md) []) * b_area md (nth m (md_elements md) []))
      + (N m - force m) * (N m - force m) * b_len (md_nodes md) (nth m (md_elements md) []) / (2 * b_young md (nth m (md_elements md) []) * b_area md (nth m (md_elements md) [])))).
    { apply rsum_ext. intros m Hm. rewrite (force_axial m Hm). unfold axial. destruct (bar_facts md _ Hwf Ht (nth_In _ [] Hm)) as (_ & _ & _ & HE & HA & HL & _). field. lra. }
    rewrite rsum_minus, HO, Rminus_0_r in HX. exact HX.
  Qed.
  Lemma complementary_nonneg N : 0 <= complementary md N.
  Proof.
    unfold complementary. apply rsum_nonneg. intros m Hm. cbv zeta. destruct (bar_facts md _ Hwf Ht (nth_In _ [] Hm)) as (_ & _ & _ & HE & HA & HL & _).
    apply Rmult_le_pos; [apply Rmult_le_pos; [apply Rle_0_sqr|lra]|]. left. apply Rinv_0_lt_compat. nra.
  Qed.
  Lemma complementary_zero N : complementary md N = 0 -> forall m, (m < length (md_elements md))%nat -> N m = 0.
  Proof.
    unfold complementary. intros H0. pose proof (fun Hp => rsum_eq_zero_nonneg _ _ Hp H0) as HZ. cbv zeta in HZ.
    intros m Hm. destruct (bar_facts md _ Hwf Ht (nth_In _ [] Hm)) as (_ & _ & _ & HE & HA & HL & _).
    assert (HQ : N m * N m * b_len (md_nodes md) (nth m (md_elements md) []) / (2 * b_young md (nth m (md_elements md) []) * b_area md (nth m (md_elements md) [])) = 0).
    { apply HZ; [|exact Hm]. intros k Hk. destruct (bar_facts md _ Hwf Ht (nth_In _ [] Hk)) as (_ & _ & _ & HE' & HA' & HL' & _).
      apply Rmult_le_pos; [apply Rmult_le_pos; [apply Rle_0_sqr|lra]|]. left. apply Rinv_0_lt_compat. nra. }
    assert (HI : / (2 * b_young md (nth m (md_elements md) []) * b_area md (nth m (md_elements md) [])) <> 0) by (apply Rinv_neq_0_compat; nra).
    apply Rmult_integral in HQ as [HQ|HQ]; [|contradiction]. apply Rmult_integral in HQ as [HQ|HQ]; [|lra]. apply Rmult_integral in HQ as [HQ|HQ]; exact HQ.
  Qed.
End Run.

(** ** as stated *)
Theorem truss_joints sv md plot strains out : wf_model md -> truss_model md -> solver_ok sv -> auto sv md plot strains = Ok out ->
  exists S, stress_truss (md_nodes md) (md_elements md) (md_mats md) (out_disp out) = Ok S /\ length S = length (md_elements md) /\
    balanced md (fun m => nth m S 0 * b_area md (nth m (md_elements md) [])).
Proof.
  intros Hwf Ht Hsv Hrun. eexists. split; [exact (truss_stress sv md plot strains out Hwf Ht Hrun)|]. split; [apply map_length|].
  exact (truss_balanced sv md plot strains out Hwf Ht Hsv Hrun).
Qed.
Theorem truss_castigliano sv md plot strains out S : wf_model md -> truss_model md -> solver_ok sv -> auto sv md plot strains = Ok out ->
  stress_truss (md_nodes md) (md_elements md) (md_mats md) (out_disp out) = Ok S ->
  let F := fun m => nth m S 0 * b_area md (nth m (md_elements md) []) in
  strain_energy md (table out) = complementary md F /\
  forall N, balanced md N -> complementary md F <= complementary md N /\
    (complementary md N = complementary md F -> forall m, (m < length (md_elements md))%nat -> N m = F m).
Proof.
  intros Hwf Ht Hsv Hrun HS. rewrite (truss_stress sv md plot strains out Hwf Ht Hrun) in HS. apply Ok_inj in HS. subst S. cbv zeta. split.
  - exact (truss_energy md out Hwf Ht).
  - intros N HN. pose proof (truss_gap sv md plot strains out Hwf Ht Hsv Hrun N HN) as HG.
    pose proof (complementary_nonneg md Hwf Ht (fun m => N m - nth m (map (bar_stress (md_nodes md) (md_mats md) (out_disp out)) (md_elements md)) 0 * b_area md (nth m (md_elements md) []))) as HP.
    split; [lra|]. intros HE m Hm. assert (HZ := complementary_zero md Hwf Ht _ ltac:(apply (Rplus_eq_reg_l (complementary md (fun m => nth m (map (bar_stress (md_nodes md) (md_mats md) (out_disp out)) (md_elements md)) 0 * b_area md (nth m (md_elements md) [])))); rewrite <- HG, HE; ring) m Hm).
    cbv beta in HZ. lra.
Qed.
Theorem truss_determinate sv md plot strains out S N : wf_model md -> truss_model md -> solver_ok sv -> auto sv md plot strains = Ok out ->
  stress_truss (md_nodes md) (md_elements md) (md_mats md) (out_disp out) = Ok S -> determinate md -> balanced md N ->
  forall m, (m < length (md_elements md))%nat -> nth m S 0 = N m / b_area md (nth m (md_elements md) []).
Proof.
  intros Hwf Ht Hsv Hrun HS HD HN m Hm. destruct (truss_joints sv md plot strains out Hwf Ht Hsv Hrun) as (S' & HS' & _ & HB).
  rewrite HS in HS'. apply Ok_inj in HS'. subst S'.
  destruct (bar_facts md _ Hwf Ht (nth_In _ [] Hm)) as (_ & _ & _ & _ & HA & _).
  assert (HZ : N m - nth m S 0 * b_area md (nth m (md_elements md) []) = 0).
  { apply (HD (fun m => N m - nth m S 0 * b_area md (nth m (md_elements md) []))); [|exact Hm]. intros i d Hf.
    pose proof (HN i d Hf) as A. pose proof (HB i d Hf) as B. unfold joint in *.
    rewrite (rsum_ext _ _ (fun m => N m * pull (md_nodes md) (nth m (md_elements md) []) i d - nth m S 0 * b_area md (nth m (md_elements md) []) * pull (md_nodes md) (nth m (md_elements md) []) i d)) by (intros k _; ring).
    rewrite rsum_minus. lra. }
  apply (Rmult_eq_reg_r (b_area md (nth m (md_elements md) []))); [|lra]. field_simplify; lra.
Qed.
