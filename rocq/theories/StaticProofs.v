(** * Lemmas: virtual work, reciprocity, minimum of the potential, stability *)
From Coq Require Import Reals List Arith Lia Lra Bool ZArith Relations.
From Verif Require Import Num LinAlg Fem Uel Assem Post Main Spec LinR Base SpecAssem SpecModel SpecElem SpecStatic
  ElemShape AssemProofs AssemProofs2 AssemProofs3 AssemProofs4 ModelProofs ModelProofs2 BarProofs ElemFinal2 ElemFinal3 MeshProofs.
Import ListNotations.
Local Open Scope R_scope.

Lemma e_node_lt md e k : wf_model md -> In e (md_elements md) -> (k < e_n e)%nat -> (e_node e k < length (md_nodes md))%nat.
Proof.
  intros (_ & _ & Hel & _) He Hk. rewrite Forall_forall in Hel. specialize (Hel e He). rewrite Forall_forall in Hel.
  unfold e_node. rewrite <- (nth_skipn e 3 k 0%Z).
  assert (Hin : In (nth k (skipn 3 e) 0%Z) (skipn 3 e)) by (apply nth_In; rewrite skipn_length; exact Hk).
  apply Hel in Hin. lia.
Qed.

Lemma e_disp_even U e k : e_disp U e (2 * k) = U (e_node e k) 0%nat.
Proof. unfold e_disp. rewrite Nat.mul_comm, Nat.div_mul, Nat.mod_mul by lia. reflexivity. Qed.
Lemma e_disp_odd U e k : e_disp U e (2 * k + 1) = U (e_node e k) 1%nat.
Proof.
  unfold e_disp. rewrite (Nat.mul_comm 2 k), Nat.div_add_l by lia. rewrite (Nat.add_comm (k * 2)), Nat.mod_add by lia.
  replace (k + 1 / 2)%nat with k by (cbn; lia). reflexivity.
Qed.

(** work of the element forces of U on V *)
Lemma virtual_work md V U : wf_model md ->
  rsum (length (md_nodes md)) (fun i => rsum 2 (fun d =>
    V i d * internal_force (md_mats md) (md_nodes md) (md_elements md) U i d)) =
  lsum (fun e => form (2 * e_n e) (e_stiff (md_mats md) (md_nodes md) e) (e_disp V e) (e_disp U e)) (md_elements md).
Proof.
  intros Hwf. set (N := length (md_nodes md)). set (ef := e_force (md_mats md) (md_nodes md) U).
  transitivity (rsum N (fun i => lsum (fun e =>
    rsum (e_n e) (fun k => if (e_node e k =? i)%nat then V i 0%nat * ef e (2 * k + 0)%nat else 0)
    + rsum (e_n e) (fun k => if (e_node e k =? i)%nat then V i 1%nat * ef e (2 * k + 1)%nat else 0)) (md_elements md))).
  - apply rsum_ext. intros i _. cbn [rsum]. unfold internal_force. rewrite Rplus_0_l, <- !lsum_scal, <- lsum_plus.
    apply lsum_ext. intros e _. rewrite <- !rsum_scal. f_equal; apply rsum_ext; intros k _; destruct (e_node e k =? i)%nat; unfold ef; ring.
  - rewrite lsum_rsum_swap. apply lsum_ext. intros e He.
    assert (Hn : forall k, (k < e_n e)%nat -> (e_node e k < N)%nat) by (intros k Hk; exact (e_node_lt md e k Hwf He Hk)).
    rewrite rsum_plus.
    rewrite (rsum_node_sum N (e_n e) (e_node e) (fun k i => V i 0%nat * ef e (2 * k + 0)%nat) Hn).
    rewrite (rsum_node_sum N (e_n e) (e_node e) (fun k i => V i 1%nat * ef e (2 * k + 1)%nat) Hn).
    rewrite <- rsum_plus. unfold form. rewrite rsum_pairs. apply rsum_ext. intros k _.
    rewrite e_disp_even, e_disp_odd, Nat.add_0_r. reflexivity.
Qed.

(** what a successful run knows of its elements *)
Lemma run_elem_sym_psd sv md plot strains out : wf_model md -> solver_ok sv -> materials_ok md ->
  auto sv md plot strains = Ok out ->
  forall e, In e (md_elements md) ->
    symmetric (2 * e_n e) (e_stiff (md_mats md) (md_nodes md) e) /\ psd (2 * e_n e) (e_stiff (md_mats md) (md_nodes md) e).
Proof.
  intros Hwf Hsv Hm Hrun e He. destruct (run_inv sv md plot strains out Hwf Hsv Hrun) as (bc & neq & op & K & u & F).
  pose proof (rf_stiff _ _ _ _ _ _ _ F) as HS. rewrite Forall_forall in HS. destruct (HS e He) as (m & Hr & Sk & _).
  pose proof Hr as Hr0. apply retriever_builtin in Hr. destruct Hr as (t & im & pr & rs & f & Ht & Hi & Hp & _ & Hf & Hk).
  assert (G : forall (z : Z) (k : nat), np_get e (Z.of_nat k) = Ok z -> nth_error e k = Some z).
  { intros z k Hz. destruct (nth_error e k) eqn:E; [rewrite (np_get_error _ _ _ E) in Hz; congruence|].
    apply nth_error_None in E. rewrite np_get_overflow in Hz by lia. discriminate. }
  pose proof (G t 1%nat Ht) as Ht'. pose proof (G im 2%nat Hi) as Hi'.
  pose proof (Hm e t im pr He Ht' Hi' Hp) as Hmat.
  assert (HM : exists M, m = M2 M).
  { destruct m as [M|v]; [eauto|]. exfalso.
    assert (Hty : (t = 5)%Z \/ t <> 5%Z) by lia. destruct Hty as [->|Hne]; [exact Hmat|].
    assert (Hrg : (1 <= t <= 8)%Z).
    { destruct (types_table t) as [_ B]. destruct (Z_le_dec 1 t) as [A1|A1]; [destruct (Z_le_dec t 8) as [A2|A2]; [lia|]|];
        (destruct B as [_ [w B]]; [lia|congruence]). }
    destruct (proj1 (types_table t) Hrg) as (nd & nn & ng & f' & Het & _).
    destruct (ele_fun_shape t f nd nn ng _ _ _ _ Hf Het Hk) as [_ [[E _]|[_ [M [E _]]]]]; [contradiction|discriminate]. }
  destruct HM as [M ->]. destruct (builtin_sym_psd t f _ _ _ M Hf Hk Hmat) as (A & _ & B & _).
  rewrite (proj1 Sk) in A, B. split; assumption.
Qed.

Definition eform (md : model) (V U : nat -> nat -> R) (e : list Z) : R :=
  form (2 * e_n e) (e_stiff (md_mats md) (md_nodes md) e) (e_disp V e) (e_disp U e).

Lemma form_add_l n K a b u v w : form n K (fun i => a * u i + b * v i) w = a * form n K u w + b * form n K v w.
Proof. unfold form. rewrite <- !rsum_scal, <- rsum_plus. apply rsum_ext. intros i _. ring. Qed.
Lemma form_add_r n K a b u v w : form n K w (fun i => a * u i + b * v i) = a * form n K w u + b * form n K w v.
Proof.
  unfold form, act. rewrite <- !rsum_scal, <- rsum_plus. apply rsum_ext. intros i _.
  transitivity (w i * (a * rsum n (fun j => ent K i j * u j) + b * rsum n (fun j => ent K i j * v j))); [|ring].
  f_equal. rewrite <- !rsum_scal, <- rsum_plus. apply rsum_ext. intros j _. ring.
Qed.

Lemma psd_kernel n K u v : symmetric n K -> psd n K -> form n K u u = 0 -> form n K v u = 0.
Proof.
  intros HS HP H0. set (b := form n K v u). set (c := form n K v v).
  assert (Hc : 0 <= c) by apply HP.
  assert (HQ : forall t, 0 <= 2 * t * b + t * t * c).
  { intros t. pose proof (HP (fun i => 1 * u i + t * v i)) as H.
    rewrite form_add_l, !form_add_r, H0, (form_sym n K u v HS) in H. fold b c in H. lra. }
  specialize (HQ (- b / (c + 1))).
  replace (2 * (- b / (c + 1)) * b + - b / (c + 1) * (- b / (c + 1)) * c) with (- (b * b) * ((c + 2) / ((c + 1) * (c + 1)))) in HQ by (field; lra).
  assert (Hp : 0 < (c + 2) / ((c + 1) * (c + 1))) by (apply Rdiv_lt_0_compat; [lra|apply Rmult_lt_0_compat; lra]).
  apply Rsqr_0_uniq. unfold Rsqr. nra.
Qed.

Lemma lsum_nonneg0 {A} (f : A -> R) l : (forall a, In a l -> 0 <= f a) -> 0 <= lsum f l /\ (lsum f l = 0 -> forall a, In a l -> f a = 0).
Proof.
  induction l as [|x l IH]; intros Hf; [split; [apply Rle_refl|intros _ a []]|].
  destruct IH as [I1 I2]; [intros a Ha; apply Hf; right; exact Ha|].
  assert (Hx : 0 <= f x) by (apply Hf; left; reflexivity).
  change (lsum f (x :: l)) with (f x + lsum f l). split; [lra|]. intros H0 a [<-|Ha]; [lra|]. apply I2; [lra|exact Ha].
Qed.

(** work of the internal forces of U on an admissible V equals the work of the loads *)
Lemma equilibrium_work md U V : wf_model md -> in_equilibrium md U -> admissible md V ->
  lsum (eform md V U) (md_elements md) = load_work md (md_loads md) V.
Proof.
  intros Hwf HU HV. unfold eform. rewrite <- virtual_work by exact Hwf. unfold load_work.
  apply rsum_ext. intros i Hi. apply rsum_ext. intros d Hd.
  destruct (proj2 (cons_row md i Hwf Hi) d Hd) as [C|C].
  - rewrite (proj2 (HU i d Hi Hd) C). ring.
  - rewrite (HV i d Hi Hd C). ring.
Qed.

Lemma equilibrium_admissible md U : in_equilibrium md U -> admissible md U.
Proof. intros HU i d Hi Hd C. exact (proj1 (HU i d Hi Hd) C). Qed.

Lemma reciprocity sv1 sv2 md l1 l2 p1 s1 p2 s2 o1 o2 :
  solver_ok sv1 -> solver_ok sv2 -> materials_ok md ->
  wf_model (with_loads md l1) -> wf_model (with_loads md l2) ->
  auto sv1 (with_loads md l1) p1 s1 = Ok o1 -> auto sv2 (with_loads md l2) p2 s2 = Ok o2 ->
  load_work md l1 (table o2) = load_work md l2 (table o1).
Proof.
  intros S1 S2 Hm W1 W2 R1 R2.
  pose proof (run_equilibrium _ _ _ _ _ W1 S1 R1) as E1. pose proof (run_equilibrium _ _ _ _ _ W2 S2 R2) as E2.
  change (load_work md l1 (table o2)) with (load_work (with_loads md l1) (md_loads (with_loads md l1)) (table o2)).
  change (load_work md l2 (table o1)) with (load_work (with_loads md l2) (md_loads (with_loads md l2)) (table o1)).
  rewrite <- (equilibrium_work _ (table o1) (table o2) W1 E1) by exact (equilibrium_admissible _ _ E2).
  rewrite <- (equilibrium_work _ (table o2) (table o1) W2 E2) by exact (equilibrium_admissible _ _ E1).
  apply lsum_ext. intros e He. unfold eform. apply form_sym.
  apply (run_elem_sym_psd sv1 (with_loads md l1) p1 s1 o1 W1 S1 Hm R1 e He).
Qed.

Lemma e_disp_lin a b U V e j : e_disp (fun i d => a * U i d + b * V i d) e j = a * e_disp U e j + b * e_disp V e j.
Proof. reflexivity. Qed.

Lemma energy_gap sv md p s out V : solver_ok sv -> wf_model md -> materials_ok md -> auto sv md p s = Ok out -> admissible md V ->
  potential md V = potential md (table out) + strain_energy md (fun i d => 1 * V i d + (-1) * table out i d).
Proof.
  intros Hs Hwf Hm Hr HV. pose proof (run_equilibrium _ _ _ _ _ Hwf Hs Hr) as HE. set (U := table out) in *.
  pose proof (equilibrium_work md U V Hwf HE HV) as W1.
  pose proof (equilibrium_work md U U Hwf HE (equilibrium_admissible _ _ HE)) as W2.
  unfold potential, strain_energy. fold (eform md V V) (eform md U U).
  assert (G : lsum (eform md (fun i d => 1 * V i d + -1 * U i d) (fun i d => 1 * V i d + -1 * U i d)) (md_elements md) =
    lsum (eform md V V) (md_elements md) - 2 * lsum (eform md V U) (md_elements md) + lsum (eform md U U) (md_elements md)).
  { transitivity (lsum (fun e => (eform md V V e + (-2) * eform md V U e) + eform md U U e) (md_elements md)).
    - apply lsum_ext. intros e He. pose proof (proj1 (run_elem_sym_psd sv md p s out Hwf Hs Hm Hr e He)) as HS.
      unfold eform. rewrite (form_ext _ _ _ (fun j => 1 * e_disp V e j + -1 * e_disp U e j) _ (fun j => 1 * e_disp V e j + -1 * e_disp U e j)) by reflexivity.
      rewrite form_add_l, !form_add_r, (form_sym _ _ (e_disp U e) (e_disp V e) HS). ring.
    - rewrite !lsum_plus, lsum_scal. ring. }
  change (fun e => form (2 * e_n e) (e_stiff (md_mats md) (md_nodes md) e) (e_disp V e) (e_disp V e)) with (eform md V V).
  change (fun e => form (2 * e_n e) (e_stiff (md_mats md) (md_nodes md) e) (e_disp U e) (e_disp U e)) with (eform md U U).
  change (fun e => form (2 * e_n e) (e_stiff (md_mats md) (md_nodes md) e) (e_disp (fun i d => 1 * V i d + -1 * U i d) e) (e_disp (fun i d => 1 * V i d + -1 * U i d) e))
    with (eform md (fun i d => 1 * V i d + -1 * U i d) (fun i d => 1 * V i d + -1 * U i d)).
  rewrite G, <- W1, <- W2. lra.
Qed.

Lemma strain_energy_nonneg sv md p s out V : solver_ok sv -> wf_model md -> materials_ok md -> auto sv md p s = Ok out ->
  0 <= strain_energy md V /\
  (strain_energy md V = 0 -> forall e W, In e (md_elements md) -> eform md W V e = 0).
Proof.
  intros Hs Hwf Hm Hr.
  destruct (lsum_nonneg0 (eform md V V) (md_elements md)) as [A B].
  { intros e He. apply (run_elem_sym_psd sv md p s out Hwf Hs Hm Hr e He). }
  split; [unfold strain_energy; fold (eform md V V); change (0 <= 1 / 2 * lsum (eform md V V) (md_elements md)); lra|].
  intros H0 e W He. change (1 / 2 * lsum (eform md V V) (md_elements md) = 0) in H0.
  destruct (run_elem_sym_psd sv md p s out Hwf Hs Hm Hr e He) as [S1 S2].
  apply psd_kernel; [exact S1|exact S2|]. apply B; [lra|exact He].
Qed.

Lemma minimum sv md p s out : solver_ok sv -> wf_model md -> materials_ok md -> auto sv md p s = Ok out ->
  admissible md (table out) /\ (forall V, admissible md V -> potential md (table out) <= potential md V) /\
  (stable md -> forall V, admissible md V -> potential md V <= potential md (table out) ->
     forall i d, (i < length (md_nodes md))%nat -> (d < 2)%nat -> V i d = table out i d).
Proof.
  intros Hs Hwf Hm Hr. pose proof (run_equilibrium _ _ _ _ _ Hwf Hs Hr) as HE.
  split; [exact (equilibrium_admissible _ _ HE)|]. split.
  - intros V HV. rewrite (energy_gap sv md p s out V Hs Hwf Hm Hr HV).
    pose proof (proj1 (strain_energy_nonneg sv md p s out (fun i d => 1 * V i d + (-1) * table out i d) Hs Hwf Hm Hr)). lra.
  - intros Hst V HV Hle i d Hi Hd. rewrite (energy_gap sv md p s out V Hs Hwf Hm Hr HV) in Hle.
    set (W := fun i d => 1 * V i d + (-1) * table out i d) in *.
    destruct (strain_energy_nonneg sv md p s out W Hs Hwf Hm Hr) as [P Z].
    assert (Z0 : strain_energy md W = 0) by lra. specialize (Z Z0).
    enough (W i d = 0) by (unfold W in *; lra).
    apply (Hst W); [|exact Hi|exact Hd]. intros a b Ha Hb. split.
    + intros C. unfold W. rewrite (HV a b Ha Hb C), (proj1 (HE a b Ha Hb) C). ring.
    + intros C.
      pose proof (virtual_work md (fun i' d' => if (i' =? a)%nat then if (d' =? b)%nat then 1 else 0 else 0) W Hwf) as VW.
      rewrite lsum_all0 in VW by (intros e He; apply (Z e _ He)).
      rewrite (rsum_single _ a) in VW; [|exact Ha|].
      * rewrite Nat.eqb_refl, (rsum_single _ b) in VW; [|exact Hb|].
        -- rewrite Nat.eqb_refl in VW. lra.
        -- intros d' _ Hne. replace (d' =? b)%nat with false by (symmetry; apply Nat.eqb_neq; exact Hne). ring.
      * intros i' _ Hne. apply rsum_zero. intros d' _. replace (i' =? a)%nat with false by (symmetry; apply Nat.eqb_neq; exact Hne). ring.
Qed.

Lemma clapeyron sv md p s out : solver_ok sv -> wf_model md -> materials_ok md -> auto sv md p s = Ok out ->
  2 * strain_energy md (table out) = load_work md (md_loads md) (table out) /\ 0 <= load_work md (md_loads md) (table out).
Proof.
  intros Hs Hwf Hm Hr. pose proof (run_equilibrium _ _ _ _ _ Hwf Hs Hr) as HE.
  pose proof (equilibrium_work md _ _ Hwf HE (equilibrium_admissible _ _ HE)) as W.
  assert (E : 2 * strain_energy md (table out) = load_work md (md_loads md) (table out)).
  { rewrite <- W. unfold strain_energy, eform. lra. }
  split; [exact E|]. rewrite <- E. pose proof (proj1 (strain_energy_nonneg sv md p s out (table out) Hs Hwf Hm Hr)). lra.
Qed.
