(** * Proofs: existence, uniqueness, virtual work and natural frequencies for any number of dofs per node *)
From Coq Require Import Reals List Arith Lia Lra Bool ZArith.
From Verif Require Import Num LinAlg Gauss Fem Uel Assem Post Main Script Spec LinR Base SpecAssem SpecModel SpecElem SpecModes SpecScript
  AssemProofs AssemProofs2 AssemProofs3 AssemProofs4 ElemShape ElemCore ModelProofs MeshProofs StaticProofs ScriptProofs.
Import ListNotations.
Local Open Scope R_scope.

Lemma p_equilibrium_run sv p sparse U : wf_problem p -> solvers_ok sv -> p_script sv p sparse = Ok U ->
  shape (length (p_nodes p)) (p_dofs p) U /\ p_equilibrium p (ent U).
Proof. intros Hwf Hs H. destruct (p_system p Hwf) as (op & bc & K & M & F). destruct (p_solved sv p sparse op bc K M U Hwf Hs F H). split; assumption. Qed.

Lemma p_runs sv p sparse : wf_problem p -> solvers_ok sv -> solvers_total sv -> p_stable p -> exists U, p_script sv p sparse = Ok U.
Proof.
  intros Hwf [S1 S2] Ht Hst. destruct (p_system p Hwf) as (op & bc & K & M & F).
  destruct (p_run sv p sparse op bc K M Hwf F) as (rhs & Lr & _ & E).
  pose proof (proj1 (stable_regular p op bc K M Hwf F) Hst) as Hreg.
  destruct (Ht _ K rhs (pf_K _ _ _ _ _ F) Lr Hreg) as [[x X] [y Y]].
  pose proof (pf_bc _ _ _ _ _ F) as Hbc.
  assert (G : forall u, length u = count_free (p_cons p) -> exists U, complete_disp bc (p_nodes p) u (p_dofs p) = Ok U).
  { intros u Hu. destruct (complete_disp_ok bc (p_nodes p) u (p_dofs p) (count_free (p_cons p))) as (U & EU & _); auto; try apply Hbc.
    - exact (pf_len _ _ _ _ _ F).
    - exists U. exact EU. }
  rewrite E. destruct sparse; [rewrite X|rewrite Y]; cbn [bind]; apply G; rewrite <- Lr; [exact (proj1 (S1 _ _ _ X))|exact (proj1 (S2 _ _ _ Y))].
Qed.

Lemma p_disp_lin p a b U V e j : p_disp p (fun i d => a * U i d + b * V i d) e j = a * p_disp p U e j + b * p_disp p V e j.
Proof. reflexivity. Qed.
Lemma p_internal_lin p a b U V i d : p_internal p (fun i d => a * U i d + b * V i d) i d = a * p_internal p U i d + b * p_internal p V i d.
Proof.
  unfold p_internal. rewrite <- !lsum_scal, <- lsum_plus. apply lsum_ext. intros e _. rewrite <- !rsum_scal, <- rsum_plus. apply rsum_ext. intros k _.
  destruct (e_node e k =? i)%nat; [|ring]. unfold act. rewrite <- !rsum_scal, <- rsum_plus. apply rsum_ext. intros j _. rewrite p_disp_lin. ring.
Qed.

Lemma p_unique p U V : p_stable p -> p_equilibrium p U -> p_equilibrium p V -> forall i d, p_dof p i d -> U i d = V i d.
Proof.
  intros Hst HU HV i d Hdof. assert (Z : 1 * U i d + (-1) * V i d = 0); [|lra].
  apply (Hst (fun i d => 1 * U i d + (-1) * V i d)); [|exact Hdof]. intros i' d' H'. split; intros C.
  - rewrite (proj1 (HU i' d' H') C), (proj1 (HV i' d' H') C). ring.
  - rewrite p_internal_lin, (proj2 (HU i' d' H') C), (proj2 (HV i' d' H') C). ring.
Qed.

Lemma p_same sv sv' p sparse sparse' U V : wf_problem p -> solvers_ok sv -> solvers_ok sv' -> p_stable p ->
  p_script sv p sparse = Ok U -> p_script sv' p sparse' = Ok V -> U = V.
Proof.
  intros Hwf S S' Hst HU HV. destruct (p_equilibrium_run sv p sparse U Hwf S HU) as [SU EU]. destruct (p_equilibrium_run sv' p sparse' V Hwf S' HV) as [SV EV].
  apply (mat_ext (length (p_nodes p)) (p_dofs p)); auto. intros i j Hi Hj. exact (p_unique p (ent U) (ent V) Hst EU EV i j (conj Hi Hj)).
Qed.

(** ** virtual work *)
Lemma p_node_lt p e k : wf_problem p -> In e (p_elements p) -> (k < e_n e)%nat -> (e_node e k < length (p_nodes p))%nat.
Proof.
  intros (_ & _ & HL & Hel & _) He Hk. rewrite Forall_forall in Hel. destruct (Hel e He) as [(t & _ & _ & _ & Hn) _].
  unfold e_node. rewrite <- (nth_skipn e 3 k 0%Z). rewrite Forall_forall in Hn.
  assert (Hin : In (nth k (skipn 3 e) 0%Z) (skipn 3 e)) by (apply nth_In; rewrite skipn_length; exact Hk).
  apply Hn in Hin. lia.
Qed.
Lemma p_disp_split p U e k a : (0 < p_dofs p)%nat -> (a < p_dofs p)%nat -> p_disp p U e (p_dofs p * k + a) = U (e_node e k) a.
Proof.
  intros Hd Ha. unfold p_disp. replace ((p_dofs p * k + a) / p_dofs p)%nat with k; [replace ((p_dofs p * k + a) mod p_dofs p)%nat with a; [reflexivity|]|].
  - symmetry. rewrite Nat.mul_comm, Nat.add_comm, Nat.mod_add by lia. apply Nat.mod_small. exact Ha.
  - symmetry. rewrite Nat.mul_comm, Nat.div_add_l, Nat.div_small by lia. lia.
Qed.
Lemma p_virtual_work p U V : wf_problem p ->
  rsum (length (p_nodes p)) (fun i => rsum (p_dofs p) (fun d => V i d * p_internal p U i d)) = p_energy p V U.
Proof.
  intros Hwf. pose proof (proj1 Hwf) as Hd. set (N := length (p_nodes p)). set (D := p_dofs p) in *.
  set (ef := fun e j => act (D * e_n e) (p_stiff p e) (p_disp p U e) j).
  transitivity (rsum N (fun i => lsum (fun e => rsum (e_n e) (fun k => if (e_node e k =? i)%nat then rsum D (fun d => V i d * ef e (D * k + d)%nat) else 0)) (p_elements p))).
  - apply rsum_ext. intros i _. rewrite (rsum_ext D _ (fun d => lsum (fun e => rsum (e_n e) (fun k => if (e_node e k =? i)%nat then V i d * ef e (D * k + d)%nat else 0)) (p_elements p))).
    + rewrite lsum_rsum_swap. apply lsum_ext. intros e _. rewrite rsum_swap. apply rsum_ext. intros k _.
      destruct (e_node e k =? i)%nat; [reflexivity|]. apply rsum_zero. intros; reflexivity.
    + intros d _. unfold p_internal. rewrite <- lsum_scal. apply lsum_ext. intros e _. rewrite <- rsum_scal. apply rsum_ext. intros k _.
      destruct (e_node e k =? i)%nat; unfold ef, D; ring.
  - rewrite lsum_rsum_swap. unfold p_energy. apply lsum_ext. intros e He.
    rewrite (rsum_node_sum N (e_n e) (e_node e) (fun k i => rsum D (fun d => V i d * ef e (D * k + d)%nat))) by (intros k Hk; exact (p_node_lt p e k Hwf He Hk)).
    unfold form. fold D. rewrite rsum_split_mul. apply rsum_ext. intros k _. apply rsum_ext. intros a Ha.
    pose proof (p_disp_split p V e k a Hd Ha) as E. fold D in E. rewrite E. reflexivity.
Qed.
Lemma p_work p U V : wf_problem p -> p_equilibrium p U -> p_admissible p V ->
  p_energy p V U = rsum (length (p_nodes p)) (fun i => rsum (p_dofs p) (fun d => V i d * applied (p_loads p) i d)).
Proof.
  intros Hwf HU HV. rewrite <- p_virtual_work by exact Hwf. apply rsum_ext. intros i Hi. apply rsum_ext. intros d Hd.
  destruct (p_flag p i d Hwf (conj Hi Hd)) as [[C|C] _].
  - rewrite (proj2 (HU i d (conj Hi Hd)) C). reflexivity.
  - rewrite (HV i d (conj Hi Hd) C). ring.
Qed.

(** elements with energy: a problem is stable if, and only if, no admissible motion is free of energy in every element *)
Lemma p_stable_energy p : wf_problem p -> p_psd p ->
  (p_stable p <-> forall U, p_admissible p U -> (forall e, In e (p_elements p) -> form (p_dofs p * e_n e) (p_stiff p e) (p_disp p U e) (p_disp p U e) = 0) ->
     forall i d, p_dof p i d -> U i d = 0).
Proof.
  intros Hwf Hp. split.
  - intros Hst U HU HE. apply Hst. intros i d Hdof. split; [exact (HU i d Hdof)|]. intros _.
    unfold p_internal. apply lsum_all0. intros e He. apply rsum_zero. intros k Hk. destruct (e_node e k =? i)%nat; [|reflexivity].
    destruct (Hp e He) as [Hsy Hps]. destruct Hdof as [_ Hd]. rewrite act_of_form by nia. exact (psd_kernel _ _ _ _ Hsy Hps (HE e He)).
  - intros H U HU i d Hdof. apply H; [intros i' d' H' C; exact (proj1 (HU i' d' H') C)| |exact Hdof].
    assert (Z : p_energy p U U = 0).
    { rewrite <- p_virtual_work by exact Hwf. apply rsum_zero. intros i' Hi'. apply rsum_zero. intros d' Hd'.
      destruct (p_flag p i' d' Hwf (conj Hi' Hd')) as [[C|C] _].
      - rewrite (proj2 (HU i' d' (conj Hi' Hd')) C). ring.
      - rewrite (proj1 (HU i' d' (conj Hi' Hd')) C). ring. }
    refine (proj2 (lsum_nonneg0 _ _ _) Z). intros e He. apply (Hp e He).
Qed.

(** ** natural frequencies *)
Lemma p_matrices_eq p op bc K M sparse : p_facts p op bc K M -> p_matrices p sparse = Ok (if sparse then (Csr K, Csr M) else (Dense K, Dense M)).
Proof. intros F. unfold p_matrices, matrices. rewrite (pf_dme _ _ _ _ _ F). cbn [bind]. rewrite Nat2Z.id. exact (pf_asm _ _ _ _ _ F sparse). Qed.

Lemma spread_admissible p op bc K M u U : wf_problem p -> p_facts p op bc K M -> spread bc (p_dofs p) u U -> p_admissible p U.
Proof.
  intros Hwf F HU i d Hdof C. destruct (p_entry p op bc K M i d Hwf F Hdof) as [Hm _].
  destruct Hdof as [Hi Hd]. rewrite <- (pf_len _ _ _ _ _ F) in Hi. rewrite (HU i d Hi Hd), (Hm C). reflexivity.
Qed.

(** a vector solves K x = lam M x exactly when the table it fills satisfies the weak form *)
Lemma p_eigen p op bc K M lam u U : wf_problem p -> p_facts p op bc K M -> spread bc (p_dofs p) u U ->
  ((exists q, (q < count_free (p_cons p))%nat /\ u q <> 0) /\
   (forall q, (q < count_free (p_cons p))%nat -> act (count_free (p_cons p)) K u q = lam * act (count_free (p_cons p)) M u q)
   <-> p_mode p lam U).
Proof.
  intros Hwf F HU. set (n := count_free (p_cons p)). pose proof (pf_bc _ _ _ _ _ F) as (_ & Hrg & Hinj & Hsur). pose proof (pf_len _ _ _ _ _ F) as Hlen.
  assert (Hne : (exists q, (q < n)%nat /\ u q <> 0) <-> exists i d, p_dof p i d /\ U i d <> 0).
  { split.
    - intros (q & Hq & H). destruct (Hsur q Hq) as (i & b & Hi & Hb & E). exists i, b. split; [split; [lia|exact Hb]|].
      rewrite (HU i b Hi Hb), E. replace (Z.of_nat q =? -1)%Z with false by (symmetry; apply Z.eqb_neq; lia). rewrite Nat2Z.id. exact H.
    - intros (i & b & [Hi Hb] & H). rewrite <- Hlen in Hi. rewrite (HU i b Hi Hb) in H.
      destruct (Z.eqb_spec (zent bc i b) (-1)) as [E|E]; [contradiction|]. exists (Z.to_nat (zent bc i b)). split; [|exact H].
      destruct (Hrg i b Hi Hb); lia. }
  assert (Hact : forall A v, form n A v u = rsum n (fun q => v q * act n A u q)) by reflexivity.
  unfold p_mode. split.
  - intros [H1 H2]. split; [exact (spread_admissible p op bc K M u U Hwf F HU)|]. split; [apply Hne; exact H1|].
    intros V HV. destruct (admissible_spread p op bc K M V Hwf F HV) as [v Hv].
    destruct (pf_energy _ _ _ _ _ F v V u U Hv HU) as [<- <-]. fold n. rewrite !Hact, <- rsum_scal. apply rsum_ext. intros q Hq. rewrite (H2 q Hq). ring.
  - intros (_ & H1 & H2). split; [apply Hne; exact H1|]. intros q Hq.
    pose proof (spread_of_ok bc (p_dofs p) (unitv q)) as Hv. specialize (H2 _ (spread_admissible p op bc K M _ _ Hwf F Hv)).
    destruct (pf_energy _ _ _ _ _ F _ _ u U Hv HU) as [E1 E2]. rewrite <- E1, <- E2 in H2. fold n in H2.
    rewrite !(act_of_form n _ u q Hq). exact H2.
Qed.

Lemma p_kinetic_pos p : wf_problem p ->
  (forall e, In e (p_elements p) -> forall u, (exists j, (j < p_dofs p * e_n e)%nat /\ u j <> 0) -> 0 < form (p_dofs p * e_n e) (p_mass p e) u u) ->
  (forall i, (i < length (p_nodes p))%nat -> exists e k, In e (p_elements p) /\ (k < e_n e)%nat /\ e_node e k = i) ->
  forall U, (exists i d, p_dof p i d /\ U i d <> 0) -> 0 < p_kinetic p U U.
Proof.
  intros Hwf HM Hc U (i & d & [Hi Hd] & Hne). destruct (Hc i Hi) as (e & k & He & Hk & E).
  assert (G : forall e', In e' (p_elements p) -> 0 <= form (p_dofs p * e_n e') (p_mass p e') (p_disp p U e') (p_disp p U e')).
  { intros e' He'. set (n := (p_dofs p * e_n e')%nat). set (w := p_disp p U e').
    assert (D : (forall j, (j < n)%nat -> w j = 0) \/ exists j, (j < n)%nat /\ w j <> 0).
    { clear. induction n as [|n IH]; [left; intros; lia|]. destruct IH as [IH|(j & Hj & Hw)]; [|right; exists j; split; [lia|exact Hw]].
      destruct (Req_dec (w n) 0) as [Z|Z]; [left; intros j Hj; destruct (Nat.eq_dec j n) as [->|]; [exact Z|apply IH; lia]|right; exists n; split; [lia|exact Z]]. }
    destruct D as [D|D]; [|apply Rlt_le, (HM e' He' w D)].
    unfold form. rewrite rsum_zero; [lra|]. intros j Hj. rewrite (D j Hj). ring. }
  unfold p_kinetic. destruct (lsum_nonneg0 _ _ G) as [G0 G1]. destruct G0 as [G0|G0]; [exact G0|]. exfalso.
  specialize (G1 (eq_sym G0) e He). assert (0 < form (p_dofs p * e_n e) (p_mass p e) (p_disp p U e) (p_disp p U e)); [|lra].
  apply (HM e He). exists (p_dofs p * k + d)%nat. split; [nia|]. rewrite (p_disp_split p U e k d (proj1 Hwf) Hd), E. exact Hne.
Qed.

Lemma p_mode_nonneg p lam U : wf_problem p -> p_psd p -> 0 < p_kinetic p U U -> p_mode p lam U ->
  0 <= lam /\ lam = p_energy p U U / p_kinetic p U U /\ (p_stable p -> 0 < lam).
Proof.
  intros Hwf Hp Hk (Ha & Hne & Hw). specialize (Hw U Ha).
  assert (He : 0 <= p_energy p U U) by (apply lsum_nonneg0; intros e He; apply (Hp e He)).
  assert (El : lam = p_energy p U U / p_kinetic p U U) by (rewrite Hw; field; lra).
  assert (H0 : 0 <= lam) by (rewrite El; apply Rmult_le_pos; [exact He|apply Rlt_le, Rinv_0_lt_compat; exact Hk]).
  split; [exact H0|]. split; [exact El|]. intros Hst. destruct H0 as [H0|H0]; [exact H0|]. exfalso.
  assert (Z : p_energy p U U = 0) by (rewrite Hw, <- H0; ring).
  destruct Hne as (i & d & Hdof & Hne). apply Hne. apply (proj1 (p_stable_energy p Hwf Hp) Hst U Ha); [|exact Hdof].
  refine (proj2 (lsum_nonneg0 _ _ _) Z). intros e He'. apply (Hp e He').
Qed.

Lemma p_energy_sym p U V : p_psd p -> p_energy p U V = p_energy p V U.
Proof. intros Hp. apply lsum_ext. intros e He. apply form_sym. apply (Hp e He). Qed.
Lemma p_modes_orthogonal p lam mu U V : p_psd p -> (forall e, In e (p_elements p) -> symmetric (p_dofs p * e_n e) (p_mass p e)) ->
  p_mode p lam U -> p_mode p mu V -> lam <> mu -> p_kinetic p U V = 0 /\ p_energy p U V = 0.
Proof.
  intros Hp Hm (Ua & _ & HU) (Va & _ & HV) Hne. specialize (HU V Va). specialize (HV U Ua).
  assert (Ek : p_kinetic p U V = p_kinetic p V U) by (apply lsum_ext; intros e He; apply form_sym; apply (Hm e He)).
  rewrite (p_energy_sym p V U Hp), HV, <- Ek in HU. assert (Z : p_kinetic p U V = 0); [|rewrite HV, Z; split; ring || reflexivity].
  assert (P : (mu - lam) * p_kinetic p U V = 0) by lra. apply Rmult_integral in P. destruct P as [P|P]; [exfalso; apply Hne; lra|exact P].
Qed.
