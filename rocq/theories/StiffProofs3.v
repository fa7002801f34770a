(** * Lemmas: sorted natural motions; runs of two structures *)
From Coq Require Import Reals List Arith Lia Lra Bool ZArith Permutation Sorted.
From Verif Require Import Num LinAlg Gauss Fem Uel Assem Main Script Spec LinR Base SpecAssem SpecModel SpecElem SpecStatic SpecModes SpecScript SpecSolid SpecMass SpecStiff
  AssemProofs2 ScriptProofs ScriptProofs2 StiffProofs StiffProofs2.
Import ListNotations.
Local Open Scope R_scope.

Section Sort.
  Variable lam : nat -> R.
  Fixpoint ins (k : nat) (l : list nat) : list nat :=
    match l with [] => [k] | a :: t => if Rle_dec (lam k) (lam a) then k :: l else a :: ins k t end.
  Fixpoint isort (l : list nat) : list nat := match l with [] => [] | a :: t => ins a (isort t) end.
  Lemma ins_perm k l : Permutation (k :: l) (ins k l).
  Proof.
    induction l as [|a t IH]; cbn; [apply Permutation_refl|]. destruct (Rle_dec _ _); [apply Permutation_refl|].
    eapply perm_trans; [apply perm_swap|]. apply perm_skip. exact IH.
  Qed.
  Lemma isort_perm l : Permutation l (isort l).
  Proof. induction l as [|a t IH]; cbn; [constructor|]. eapply perm_trans; [apply perm_skip; exact IH|apply ins_perm]. Qed.
  Lemma ins_sorted k l : StronglySorted (fun i j => lam i <= lam j) l -> StronglySorted (fun i j => lam i <= lam j) (ins k l).
  Proof.
    induction l as [|a t IH]; intros Hs; cbn; [constructor; constructor|]. apply StronglySorted_inv in Hs. destruct Hs as [Hs Hf].
    destruct (Rle_dec (lam k) (lam a)) as [H|H].
    - constructor; [constructor; assumption|]. constructor; [exact H|]. eapply Forall_impl; [|exact Hf]. cbn. intros. lra.
    - constructor; [exact (IH Hs)|]. apply (Permutation_Forall (ins_perm k t)). constructor; [lra|exact Hf].
  Qed.
  Lemma isort_sorted l : StronglySorted (fun i j => lam i <= lam j) (isort l).
  Proof. induction l; cbn; [constructor|apply ins_sorted; assumption]. Qed.
End Sort.
Lemma sorted_nth (P : nat -> nat -> Prop) l : StronglySorted P l -> forall i j, (i < j < length l)%nat -> P (nth i l 0%nat) (nth j l 0%nat).
Proof.
  induction 1 as [|a t Hs IH Hf]; intros i j Hij; cbn [length] in Hij; [lia|]. destruct j as [|j]; [lia|]. destruct i as [|i]; cbn [nth].
  - rewrite Forall_forall in Hf. apply Hf. apply nth_In. lia.
  - apply IH. lia.
Qed.
Lemma lsum_nth (f : nat -> R) l : lsum f l = rsum (length l) (fun k => f (nth k l 0%nat)).
Proof.
  rewrite <- lsum_seq. induction l as [|a t IH]; [reflexivity|]. cbn [length seq]. change (lsum f (a :: t)) with (f a + lsum f t). rewrite IH, <- seq_shift. change (f a + lsum (fun k => f (nth k t 0%nat)) (seq 0 (length t)) = f a + lsum (fun k => f (nth k (a :: t) 0%nat)) (map S (seq 0 (length t)))).
  rewrite lsum_map. reflexivity.
Qed.
Lemma filter_perm {A} (f : A -> bool) l l' : Permutation l l' -> length (filter f l) = length (filter f l').
Proof. induction 1; cbn [filter]; repeat (destruct (f _)); cbn [length]; congruence. Qed.
Lemma filter_map {A B} (h : A -> B) (f : B -> bool) l : length (filter f (map h l)) = length (filter (fun a => f (h a)) l).
Proof. induction l as [|a t IH]; [reflexivity|]. cbn [map filter]. destruct (f (h a)); cbn [length]; congruence. Qed.
Lemma filter_nth (g : nat -> bool) l : length (filter (fun k => g (nth k l 0%nat)) (seq 0 (length l))) = length (filter g l).
Proof.
  induction l as [|a t IH]; [reflexivity|]. cbn [length seq filter]. rewrite <- seq_shift. change (nth 0 (a :: t) 0%nat) with a.
  pose proof (filter_map S (fun k => g (nth k (a :: t) 0%nat)) (seq 0 (length t))) as E. cbv beta in E.
  change (fun k => g (nth (S k) (a :: t) 0%nat)) with (fun k => g (nth k t 0%nat)) in E. rewrite IH in E.
  destruct (g a); cbn [length]; congruence.
Qed.

Lemma sorted_basis p lam U : modal_basis p lam U -> exists lam' U', modal_basis p lam' U' /\
  (forall i j, (i <= j < count_free (p_cons p))%nat -> lam' i <= lam' j) /\ forall t, below lam' (count_free (p_cons p)) t = below lam (count_free (p_cons p)) t.
Proof.
  unfold modal_basis. set (n := count_free (p_cons p)). intros (H1 & H2 & H3 & H4).
  set (s := isort lam (seq 0 n)). pose proof (isort_perm lam (seq 0 n)) as P. fold s in P. pose proof (isort_sorted lam (seq 0 n)) as Hs. fold s in Hs.
  assert (Ln : length s = n) by (rewrite <- (Permutation_length P); apply seq_length).
  assert (Hin : forall k, (k < n)%nat -> (nth k s 0 < n)%nat).
  { intros k Hk. assert (I : In (nth k s 0%nat) (seq 0 n)) by (apply (Permutation_in _ (Permutation_sym P)), nth_In; lia). apply in_seq in I. lia. }
  assert (Hnd : NoDup s) by (apply (Permutation_NoDup P), seq_NoDup).
  assert (HR : forall f, rsum n (fun k => f (nth k s 0%nat)) = rsum n f).
  { intros f. rewrite <- (lsum_seq n f), (lsum_Permutation f _ _ P), lsum_nth, Ln. reflexivity. }
  exists (fun k => lam (nth k s 0%nat)), (fun k => U (nth k s 0%nat)). split; [|split].
  - split; [|split; [|split]].
    + intros k Hk. apply H1, Hin, Hk.
    + intros k l Hk Hl. rewrite (H2 _ _ (Hin k Hk) (Hin l Hl)).
      destruct (Nat.eqb_spec k l) as [->|N]; [rewrite Nat.eqb_refl; reflexivity|].
      destruct (Nat.eqb_spec (nth k s 0%nat) (nth l s 0%nat)) as [E|_]; [|reflexivity].
      exfalso. apply N. apply (proj1 (NoDup_nth s 0%nat) Hnd); [lia|lia|exact E].
    + intros V HV. destruct (H3 V HV) as (A & B). split.
      * intros i d Hd. rewrite (A i d Hd). symmetry. exact (HR (fun k => p_kinetic p (U k) V * U k i d)).
      * rewrite B. symmetry. exact (HR (fun k => lam k * (p_kinetic p (U k) V * p_kinetic p (U k) V))).
    + intros l V HV. destruct (H4 l V HV) as (k & Hk & ->).
      assert (I : In k s) by (apply (Permutation_in _ P), in_seq; lia). destruct (In_nth s k 0%nat I) as (j & Hj & Ej). exists j. split; [lia|]. rewrite Ej. reflexivity.
  - intros i j Hij. destruct (Nat.eq_dec i j) as [->|N]; [lra|]. apply (sorted_nth (fun i j => lam i <= lam j) s Hs). lia.
  - intros t. unfold below. pose proof (filter_nth (fun k => if Rlt_dec (lam k) t then true else false) s) as E. rewrite Ln in E. etransitivity; [exact E|]. symmetry. exact (filter_perm _ _ _ P).
Qed.

(** ** two runs *)
Lemma stiffer_runs p q : wf_problem p -> wf_problem q -> p_psd p -> stiffer p q ->
  (forall i d, p_dof p i d -> applied (p_loads q) i d = applied (p_loads p) i d) ->
  forall sv sv' sparse sparse' U V, solvers_ok sv -> solvers_ok sv' -> p_script sv p sparse = Ok U -> p_script sv' q sparse' = Ok V ->
  p_load_work q (ent V) <= p_load_work p (ent U).
Proof.
  intros Wp Wq Pp S HL sv sv' sparse sparse' U V S1 S2 HU HV.
  destruct (p_equilibrium_run sv p sparse U Wp S1 HU) as [_ EU]. destruct (p_equilibrium_run sv' q sparse' V Wq S2 HV) as [_ EV].
  pose proof (stiffer_work p q _ _ Wp Wq Pp S HL EU EV) as G. pose proof (p_energy_nonneg p (fun i d => ent U i d - ent V i d) Pp). lra.
Qed.
(** one loaded dof *)
Lemma p_load_work_point p U i0 d0 : p_dof p i0 d0 -> (forall i d, p_dof p i d -> (i, d) <> (i0, d0) -> applied (p_loads p) i d = 0) ->
  p_load_work p U = applied (p_loads p) i0 d0 * U i0 d0.
Proof.
  intros [Hi Hd] H0. unfold p_load_work. 
  rewrite (rsum_single _ i0 _ Hi); [rewrite (rsum_single _ d0 _ Hd); [reflexivity|]|].
  - intros d Hdd N. rewrite H0; [ring|split; assumption|congruence].
  - intros i Hii N. apply rsum_zero. intros d Hdd. rewrite H0; [ring|split; assumption|congruence].
Qed.
