(** * Lemmas: stiffer structures *)
From Coq Require Import Reals List Arith Lia Lra Bool ZArith.
From Verif Require Import Num LinAlg Gauss Fem Uel Assem Main Script Spec LinR Base SpecAssem SpecModel SpecElem SpecStatic SpecModes SpecScript SpecSolid SpecMass SpecStiff
  ElemCore ElemShape Sampled Elem2 Elem2Props Elem2Mass Elem3 Elem3Props ElemAxi MatProofs BarProofs BeamFrame StaticProofs ModelProofs MeshProofs ElemFinal2 ElemFinal3 ScriptProofs ScriptProofs2 ScriptFinal MassPos2 Spectral SpectralMesh.
Import ListNotations.
Local Open Scope R_scope.

Lemma p_energy_nonneg p U : p_psd p -> 0 <= p_energy p U U.
Proof. intros Hp. apply lsum_nonneg0. intros e He. apply (Hp e He). Qed.

(** ** deflections *)
Lemma stiffer_admissible p q U : stiffer p q -> p_admissible q U -> p_admissible p U.
Proof.
  intros S HU i d [Hi Hd] C. apply HU.
  - split; [rewrite (st_nodes _ _ S); exact Hi|rewrite (st_dofs _ _ S); exact Hd].
  - exact (st_cons _ _ S i d (conj Hi Hd) C).
Qed.
Lemma stiffer_stable p q : wf_problem p -> wf_problem q -> p_psd p -> p_psd q -> stiffer p q -> p_stable p -> p_stable q.
Proof.
  intros Wp Wq Pp Pq S Hs. apply (proj2 (p_stable_energy q Wq Pq)). intros U HU HE i d [Hi Hd].
  rewrite (st_nodes _ _ S) in Hi. rewrite (st_dofs _ _ S) in Hd.
  apply (proj1 (p_stable_energy p Wp Pp) Hs U (stiffer_admissible p q U S HU)); [|exact (conj Hi Hd)].
  assert (Z : p_energy q U U = 0) by (apply lsum_all0; exact HE).
  pose proof (st_energy _ _ S U HU) as L. pose proof (p_energy_nonneg p U Pp) as N.
  refine (proj2 (lsum_nonneg0 _ _ _) _); [|unfold p_energy in *; lra]. intros e He. apply (Pp e He).
Qed.
Lemma p_energy_lin_r p a b U V W : p_energy p W (fun i d => a * U i d + b * V i d) = a * p_energy p W U + b * p_energy p W V.
Proof.
  unfold p_energy. rewrite <- !lsum_scal. rewrite <- lsum_plus. apply lsum_ext. intros e _. rewrite <- form_add_r.
  apply form_ext; [reflexivity|intros; apply p_disp_lin].
Qed.
Lemma p_energy_lin_l p a b U V W : p_energy p (fun i d => a * U i d + b * V i d) W = a * p_energy p U W + b * p_energy p V W.
Proof.
  unfold p_energy. rewrite <- !lsum_scal. rewrite <- lsum_plus. apply lsum_ext. intros e _. rewrite <- form_add_l.
  apply form_ext; [intros; apply p_disp_lin|reflexivity].
Qed.
Lemma p_work' p U V : wf_problem p -> p_equilibrium p U -> p_admissible p V -> p_energy p V U = p_load_work p V.
Proof. intros H1 H2 H3. rewrite (p_work p U V H1 H2 H3). apply rsum_ext. intros i _. apply rsum_ext. intros d _. ring. Qed.
Lemma equilibrium_admissible p U : p_equilibrium p U -> p_admissible p U.
Proof. intros H i d Hd. exact (proj1 (H i d Hd)). Qed.
Lemma stiffer_work p q U V : wf_problem p -> wf_problem q -> p_psd p -> stiffer p q ->
  (forall i d, p_dof p i d -> applied (p_loads q) i d = applied (p_loads p) i d) -> p_equilibrium p U -> p_equilibrium q V ->
  p_load_work q V + p_energy p (fun i d => U i d - V i d) (fun i d => U i d - V i d) <= p_load_work p U.
Proof.
  intros Wp Wq Pp S HL HU HV. pose proof (equilibrium_admissible q V HV) as AV. pose proof (stiffer_admissible p q V S AV) as AV'.
  pose proof (p_work' p U U Wp HU (equilibrium_admissible p U HU)) as E1. pose proof (p_work' p U V Wp HU AV') as E2. pose proof (p_work' q V V Wq HV AV) as E3.
  assert (EL : p_load_work q V = p_load_work p V).
  { unfold p_load_work. rewrite (st_nodes _ _ S), (st_dofs _ _ S). apply rsum_ext. intros i Hi. apply rsum_ext. intros d Hd. rewrite (HL i d (conj Hi Hd)). reflexivity. }
  pose proof (st_energy _ _ S V AV) as L.
  assert (D : p_energy p (fun i d => U i d - V i d) (fun i d => U i d - V i d) = p_energy p U U - 2 * p_energy p V U + p_energy p V V).
  { assert (X : forall W W', p_energy p (fun i d => U i d - V i d) W = p_energy p (fun i d => 1 * U i d + (-1) * V i d) W /\
       p_energy p W' (fun i d => U i d - V i d) = p_energy p W' (fun i d => 1 * U i d + (-1) * V i d)).
    { intros W W'. split; apply lsum_ext; intros e _; apply form_ext; intros j _; unfold p_disp; ring. }
    rewrite (proj1 (X _ U)), p_energy_lin_l, !(proj2 (X U _)), !p_energy_lin_r. rewrite (p_energy_sym p U V Pp). ring. }
  rewrite D. lra.
Qed.

(** ** frequencies *)
Lemma p_kinetic_sum_r p m (x : nat -> R) (W : nat -> nat -> nat -> R) U :
  p_kinetic p U (fun i d => rsum m (fun k => x k * W k i d)) = rsum m (fun k => x k * p_kinetic p U (W k)).
Proof.
  unfold p_kinetic. rewrite (rsum_ext m _ (fun k => lsum (fun e => x k * form (p_dofs p * e_n e) (p_mass p e) (p_disp p U e) (p_disp p (W k) e)) (p_elements p))) by (intros; rewrite lsum_scal; reflexivity).
  rewrite lsum_rsum_swap. apply lsum_ext. intros e _. induction m as [|m IH].
  - cbn [rsum]. unfold form, act. apply rsum_zero. intros i _. rewrite rsum_zero; [ring|]. intros j _. unfold p_disp. ring.
  - cbn [rsum]. rewrite <- IH. rewrite <- (Rmult_1_l (form _ _ _ (p_disp p (fun i d => rsum m (fun k => x k * W k i d)) e))), <- form_add_r.
    apply form_ext; [reflexivity|]. intros j _. unfold p_disp. ring.
Qed.
Lemma p_kinetic_sum_l p m (x : nat -> R) (W : nat -> nat -> nat -> R) U :
  p_kinetic p (fun i d => rsum m (fun k => x k * W k i d)) U = rsum m (fun k => x k * p_kinetic p (W k) U).
Proof.
  unfold p_kinetic. rewrite (rsum_ext m _ (fun k => lsum (fun e => x k * form (p_dofs p * e_n e) (p_mass p e) (p_disp p (W k) e) (p_disp p U e)) (p_elements p))) by (intros; rewrite lsum_scal; reflexivity).
  rewrite lsum_rsum_swap. apply lsum_ext. intros e _. induction m as [|m IH].
  - cbn [rsum]. unfold form, act. apply rsum_zero. intros i _. unfold p_disp. ring.
  - cbn [rsum]. rewrite <- IH. rewrite <- (Rmult_1_l (form _ _ (p_disp p (fun i d => rsum m (fun k => x k * W k i d)) e) _)), <- form_add_l.
    apply form_ext; [|reflexivity]. intros j _. unfold p_disp. ring.
Qed.
Lemma p_kinetic_ext_l p U V W : wf_problem p -> (forall i d, p_dof p i d -> U i d = V i d) -> p_kinetic p U W = p_kinetic p V W.
Proof.
  intros Hwf H. apply lsum_ext. intros e He. apply form_ext; [|reflexivity]. intros j Hj. unfold p_disp. apply H.
  pose proof (proj1 Hwf) as Hd. split; [apply (p_node_lt p e _ Hwf He); apply Nat.div_lt_upper_bound; lia|apply Nat.mod_upper_bound; lia].
Qed.

Section Modes.
  Variables p : problem.
  Variable lam : nat -> R.
  Variable W : nat -> nat -> nat -> R.
  Hypothesis Hwf : wf_problem p.
  Hypothesis HB : modal_basis p lam W.
  Let n := count_free (p_cons p).
  Lemma basis_kinetic V : p_admissible p V -> p_kinetic p V V = rsum n (fun k => p_kinetic p (W k) V * p_kinetic p (W k) V).
  Proof.
    intros HV. destruct HB as (_ & _ & H3 & _). destruct (H3 V HV) as [H _]. fold n in H.
    rewrite (p_kinetic_ext_l p V _ V Hwf H). rewrite p_kinetic_sum_l. reflexivity.
  Qed.
  (** a combination of some of the motions *)
  Definition comb (L : list nat) (x : nat -> R) (i d : nat) : R := rsum (length L) (fun j => x j * W (nth j L 0%nat) i d).
  Lemma comb_admissible L x : (forall k, In k L -> (k < n)%nat) -> p_admissible p (comb L x).
  Proof.
    intros HL i d Hdof C. unfold comb. apply rsum_zero. intros j Hj. rewrite (proj1 (proj1 HB (nth j L 0%nat) (HL _ (nth_In _ _ Hj))) i d Hdof C). ring.
  Qed.
  Lemma comb_coord L x k : (forall k, In k L -> (k < n)%nat) -> NoDup L -> (k < n)%nat ->
    p_kinetic p (W k) (comb L x) = rsum (length L) (fun j => if (nth j L 0 =? k)%nat then x j else 0).
  Proof.
    intros HL HN Hk. unfold comb. rewrite (p_kinetic_sum_r p (length L) x (fun j => W (nth j L 0%nat))). apply rsum_ext. intros j Hj.
    rewrite (proj1 (proj2 HB) k (nth j L 0%nat) Hk (HL _ (nth_In _ _ Hj))). rewrite Nat.eqb_sym. destruct (Nat.eqb _ _); ring.
  Qed.
  Lemma comb_squares L x (g : nat -> R) : (forall k, In k L -> (k < n)%nat) -> NoDup L ->
    rsum n (fun k => g k * (p_kinetic p (W k) (comb L x) * p_kinetic p (W k) (comb L x))) = rsum (length L) (fun j => g (nth j L 0%nat) * (x j * x j)).
  Proof.
    intros HL HN.
    transitivity (rsum n (fun k => rsum (length L) (fun j => if (nth j L 0 =? k)%nat then g (nth j L 0%nat) * (x j * x j) else 0))).
    - apply rsum_ext. intros k Hk. rewrite (comb_coord L x k HL HN Hk).
      destruct (in_dec Nat.eq_dec k L) as [Hin|Hin].
      + apply (In_nth _ _ 0%nat) in Hin. destruct Hin as (j0 & Hj0 & E).
        assert (X : forall h : nat -> R, rsum (length L) (fun j => if (nth j L 0 =? k)%nat then h j else 0) = h j0).
        { intros h. rewrite (rsum_single _ j0); [rewrite E, Nat.eqb_refl; reflexivity|exact Hj0|].
          intros j Hj Hne. destruct (Nat.eqb_spec (nth j L 0%nat) k) as [E'|]; [|reflexivity]. exfalso. apply Hne.
          apply (proj1 (NoDup_nth L 0%nat) HN); [exact Hj|exact Hj0|congruence]. }
        rewrite !X. rewrite E. ring.
      + rewrite !rsum_zero; [ring| |].
        * intros j Hj. destruct (Nat.eqb_spec (nth j L 0%nat) k) as [E'|]; [|reflexivity]. exfalso. apply Hin. rewrite <- E'. apply nth_In. exact Hj.
        * intros j Hj. destruct (Nat.eqb_spec (nth j L 0%nat) k) as [E'|]; [|reflexivity]. exfalso. apply Hin. rewrite <- E'. apply nth_In. exact Hj.
    - rewrite rsum_swap. apply rsum_ext. intros j Hj. rewrite (rsum_single n (nth j L 0%nat)); [rewrite Nat.eqb_refl; reflexivity|apply HL, nth_In; exact Hj|].
      intros k Hk Hne. destruct (Nat.eqb_spec (nth j L 0%nat) k); [subst; contradiction|reflexivity].
  Qed.
End Modes.

Lemma rsum_lt m (f g : nat -> R) : (forall j, (j < m)%nat -> f j <= g j) -> (exists j, (j < m)%nat /\ f j < g j) -> rsum m f < rsum m g.
Proof.
  induction m as [|m IH]; intros H (j & Hj & Hlt); [lia|]. cbn [rsum]. destruct (Nat.eq_dec j m) as [->|Hne].
  - assert (rsum m f <= rsum m g); [|lra]. clear - H. induction m as [|m IH]; [cbn; lra|]. cbn [rsum]. pose proof (H m ltac:(lia)).
    assert (rsum m f <= rsum m g) by (apply IH; intros j Hj; apply H; lia). lra.
  - assert (rsum m f < rsum m g) by (apply IH; [intros; apply H; lia|exists j; split; [lia|exact Hlt]]). pose proof (H m ltac:(lia)). lra.
Qed.
Lemma rsum_le m (f g : nat -> R) : (forall j, (j < m)%nat -> f j <= g j) -> rsum m f <= rsum m g.
Proof. induction m as [|m IH]; intros H; [cbn; lra|]. cbn [rsum]. pose proof (H m ltac:(lia)). assert (rsum m f <= rsum m g) by (apply IH; intros; apply H; lia). lra. Qed.

Lemma stiffer_below p q mu Y lam W : wf_problem p -> wf_problem q -> p_psd p -> stiffer p q ->
  (forall U, p_admissible q U -> p_kinetic q U U <= p_kinetic p U U) -> modal_basis p mu Y -> modal_basis q lam W ->
  forall t, (below lam (count_free (p_cons q)) t <= below mu (count_free (p_cons p)) t)%nat.
Proof.
  intros Wp Wq Pp S HM Bp Bq t. set (np := count_free (p_cons p)). set (nq := count_free (p_cons q)).
  unfold below. set (lo := fun (l : nat -> R) k => if Rlt_dec (l k) t then true else false).
  set (Lp := filter (lo mu) (seq 0 np)). set (Lq := filter (lo lam) (seq 0 nq)).
  destruct (le_lt_dec (length Lq) (length Lp)) as [H|H]; [exact H|]. exfalso.
  assert (HLq : forall k, In k Lq -> (k < nq)%nat /\ lam k < t).
  { intros k Hk. apply filter_In in Hk. destruct Hk as [Hk Hl]. apply in_seq in Hk. unfold lo in Hl. destruct (Rlt_dec (lam k) t); [split; [lia|assumption]|discriminate]. }
  assert (NLq : NoDup Lq) by (apply NoDup_filter, seq_NoDup).
  destruct (under_determined (length Lq) (map (fun l j => p_kinetic p (Y l) (W (nth j Lq 0%nat))) Lp)) as (x & Hx & Hdot); [rewrite map_length; exact H|].
  set (V := comb W Lq x).
  assert (AV : p_admissible q V) by (apply (comb_admissible q lam W Bq); intros k Hk; exact (proj1 (HLq k Hk))).
  pose proof (stiffer_admissible p q V S AV) as AVp.
  assert (Z : forall l, In l Lp -> p_kinetic p (Y l) V = 0).
  { intros l Hl. unfold V, comb. rewrite (p_kinetic_sum_r p (length Lq) x (fun j => W (nth j Lq 0%nat))). rewrite <- (Hdot _ (in_map _ _ _ Hl)). unfold dot. apply rsum_ext. intros j _. ring. }
  (* below t in q *)
  assert (E1 : p_energy q V V = rsum (length Lq) (fun j => lam (nth j Lq 0%nat) * (x j * x j))).
  { rewrite (proj2 (proj1 (proj2 (proj2 Bq)) V AV)). apply (comb_squares q lam W Bq Lq x lam); [intros k Hk; exact (proj1 (HLq k Hk))|exact NLq]. }
  assert (K1 : p_kinetic q V V = rsum (length Lq) (fun j => x j * x j)).
  { rewrite (basis_kinetic q lam W Wq Bq V AV). rewrite (rsum_ext (length Lq) _ (fun j => 1 * (x j * x j))) by (intros; ring).
    rewrite <- (comb_squares q lam W Bq Lq x (fun _ => 1)); [|intros k Hk; exact (proj1 (HLq k Hk))|exact NLq]. apply rsum_ext. intros. fold V. ring. }
  assert (L1 : p_energy q V V < t * p_kinetic q V V).
  { rewrite E1, K1, <- rsum_scal. apply rsum_lt.
    - intros j Hj. pose proof (proj2 (HLq _ (nth_In _ 0%nat Hj))). pose proof (Rle_0_sqr (x j)) as Q. unfold Rsqr in Q. nra.
    - destruct Hx as (j & Hj & Hne). exists j. split; [exact Hj|]. pose proof (proj2 (HLq _ (nth_In _ 0%nat Hj))). pose proof (Rsqr_pos_lt _ Hne) as Q. unfold Rsqr in Q. nra. }
  (* not below t in p *)
  assert (L2 : t * p_kinetic p V V <= p_energy p V V).
  { rewrite (basis_kinetic p mu Y Wp Bp V AVp), (proj2 (proj1 (proj2 (proj2 Bp)) V AVp)). fold np. rewrite <- rsum_scal. apply rsum_le. intros k Hk.
    destruct (Rlt_dec (mu k) t) as [Hl|Hl].
    - rewrite (Z k); [lra|]. unfold Lp. apply filter_In. split; [apply in_seq; lia|]. unfold lo. destruct (Rlt_dec (mu k) t); [reflexivity|contradiction].
    - set (c := p_kinetic p (Y k) V). assert (0 <= c * c) by apply Rle_0_sqr. nra. }
  pose proof (st_energy _ _ S V AV) as L3. pose proof (HM V AV) as L4. pose proof (p_energy_nonneg p V Pp) as L5.
  assert (0 <= p_kinetic q V V) by (rewrite K1; rewrite <- (rsum_zero (length Lq) (fun _ => 0)) by reflexivity; apply rsum_le; intros; apply Rle_0_sqr).
  assert (0 < t) by nra. nra.
Qed.
(** sorted frequencies *)
Lemma filter_all {A} (f : A -> bool) l : (forall a, In a l -> f a = true) -> filter f l = l.
Proof. induction l as [|a l IH]; intros H; [reflexivity|]. cbn [filter]. rewrite (H a (or_introl eq_refl)), IH; [reflexivity|]. intros b Hb. apply H. right. exact Hb. Qed.
Lemma filter_short {A} (f : A -> bool) l : (length (filter f l) <= length l)%nat.
Proof. induction l as [|a l IH]; [reflexivity|]. cbn [filter]. destruct (f a); cbn [length]; lia. Qed.
Lemma filter_seq_low (l : nat -> R) n k t : (k < n)%nat -> (forall i, (i <= k)%nat -> l i < t) -> (S k <= below l n t)%nat.
Proof.
  intros Hk Hl. unfold below. replace n with (S k + (n - S k))%nat by lia. rewrite seq_app, filter_app, app_length.
  assert (E : filter (fun k => if Rlt_dec (l k) t then true else false) (seq 0 (S k)) = seq 0 (S k)).
  { apply filter_all. intros i Hi. apply in_seq in Hi. destruct (Rlt_dec (l i) t) as [|N]; [reflexivity|]. exfalso. apply N, Hl. lia. }
  rewrite E, seq_length. lia.
Qed.
Lemma filter_seq_high (l : nat -> R) n k t : (forall i, (k <= i < n)%nat -> t <= l i) -> (below l n t <= k)%nat.
Proof.
  intros Hl. unfold below. destruct (le_lt_dec n k) as [H|H].
  - etransitivity; [apply filter_short|]. rewrite seq_length. exact H.
  - replace n with (k + (n - k))%nat by lia. rewrite seq_app, filter_app, app_length.
    assert (E : filter (fun k => if Rlt_dec (l k) t then true else false) (seq (0 + k) (n - k)) = []).
    { destruct (filter _ _) as [|i r] eqn:F; [reflexivity|]. exfalso. assert (Hi : In i (i :: r)) by (left; reflexivity). rewrite <- F in Hi. apply filter_In in Hi.
      destruct Hi as [Hi Hb]. apply in_seq in Hi. destruct (Rlt_dec (l i) t) as [Hlt|]; [|discriminate]. specialize (Hl i ltac:(lia)). lra. }
    rewrite E. cbn [length]. rewrite Nat.add_0_r. etransitivity; [apply filter_short|]. rewrite seq_length. lia.
Qed.
Lemma stiffer_sorted p q mu Y lam W : wf_problem p -> wf_problem q -> p_psd p -> stiffer p q ->
  (forall U, p_admissible q U -> p_kinetic q U U <= p_kinetic p U U) -> modal_basis p mu Y -> modal_basis q lam W ->
  (forall i j, (i <= j < count_free (p_cons p))%nat -> mu i <= mu j) -> (forall i j, (i <= j < count_free (p_cons q))%nat -> lam i <= lam j) ->
  (count_free (p_cons q) <= count_free (p_cons p))%nat /\ forall k, (k < count_free (p_cons q))%nat -> mu k <= lam k.
Proof.
  intros Wp Wq Pp S HM Bp Bq Sp Sq. pose proof (stiffer_below p q mu Y lam W Wp Wq Pp S HM Bp Bq) as HC. split.
  - destruct (Nat.eq_dec (count_free (p_cons q)) 0) as [->|Hn]; [lia|]. set (n := count_free (p_cons q)) in *.
    specialize (HC (lam (n - 1)%nat + 1)). pose proof (filter_seq_low lam n (n - 1) (lam (n - 1)%nat + 1) ltac:(lia)) as L.
    assert (Hb : (below mu (count_free (p_cons p)) (lam (n - 1)%nat + 1) <= count_free (p_cons p))%nat)
      by (unfold below; etransitivity; [apply filter_short|rewrite seq_length; lia]).
    assert (forall i, (i <= n - 1)%nat -> lam i < lam (n - 1)%nat + 1) by (intros i Hi; pose proof (Sq i (n - 1)%nat ltac:(lia)); lra). specialize (L H). lia.
  - intros k Hk. apply Rnot_lt_le. intros Hlt. specialize (HC (mu k)).
    assert (A : (below mu (count_free (p_cons p)) (mu k) <= k)%nat) by (apply filter_seq_high; intros i Hi; apply Sp; lia).
    assert (B : (Datatypes.S k <= below lam (count_free (p_cons q)) (mu k))%nat).
    { apply filter_seq_low; [exact Hk|]. intros i Hi. apply Rle_lt_trans with (lam k); [apply Sq; lia|exact Hlt]. }
    lia.
Qed.

(** ** reinforcement *)
Lemma mscale_map c K : @mscale R Num_R c K = map (map (Rmult c)) K.
Proof. reflexivity. Qed.
Lemma congr_mscale p q Qm a c A : congr p q Qm (mscale (c * a) A) = map (map (Rmult c)) (congr p q Qm (mscale a A)).
Proof.
  rewrite <- mscale_map. apply (form_matrix_unique q); [apply congr_shape|apply shape_mscale, congr_shape|].
  intros u v. rewrite form_mscale, !form_congr, !form_mscale. ring.
Qed.
Lemma plane_proportional p : In p planes -> proportional (pl_f p).
Proof.
  intros Hp coord E rest K M c H.
  destruct (plane_summary p coord _ K _ Hp H) as (E1 & nu & rho & M1 & Hp1 & Hnu & Ha & Hm & HS). injection Hm as <-.
  assert (Hpar : pl_par p (c * E :: rest) = Some (c * E, nu, rho) /\ E1 = E).
  { repeat (destruct Hp as [<-|Hp]; [cbn [pl_par pl_quad4 pl_tri6 pl_tri3 pl_quad9 pl_quad8 par_opt par3] in *|]); try destruct Hp.
    1,2,3,4: (destruct rest as [|nu0 rest]; [discriminate|]; unfold par_opt, opt_dens in *; destruct rest; injection Hp1 as <- <- <-; split; reflexivity).
    unfold par3 in *. destruct rest as [|nu0 [|rho0 [|? ?]]]; try discriminate. injection Hp1 as <- <- <-. split; reflexivity. }
  destruct Hpar as [Hpar ->].
  destruct (plane_runs p coord (c * E :: rest) (c * E) nu rho Hp Hpar Hnu Ha) as (K' & M' & Hrun).
  destruct (plane_summary p coord _ K' _ Hp Hrun) as (E2 & nu2 & rho2 & M2' & Hp2 & _ & _ & Hm2 & HS2). rewrite Hpar in Hp2. injection Hp2 as <- <- <-. injection Hm2 as <-.
  rewrite Hrun, <- mscale_map. repeat f_equal.
  - apply (form_matrix_unique (2 * pl_n p)); [apply HS2|apply shape_mscale; apply HS|].
    intros. rewrite form_mscale, (sa_K _ _ _ _ _ _ _ _ HS), (sa_K _ _ _ _ _ _ _ _ HS2).
    rewrite <- lsum_scal. apply lsum_ext. intros g _. unfold vK. rewrite umat_scale. ring.
  - apply (form_matrix_unique (2 * pl_n p)); [apply HS2|apply HS|].
    intros. rewrite (sa_M _ _ _ _ _ _ _ _ HS), (sa_M _ _ _ _ _ _ _ _ HS2). reflexivity.
Qed.
