(** * Lemmas: counting bars and free dofs *)
From Coq Require Import Reals List Arith Lia Lra Bool ZArith.
From Verif Require Import Num LinAlg Assem Main Spec LinR Base SpecAssem SpecModel SpecElem SpecStatic SpecTruss ModelProofs StaticProofs ExSolver TrussProofs.
Import ListNotations.
Local Open Scope R_scope.

Lemma free_dofs_in md i d : In (i, d) (free_dofs md) <-> free md i d.
Proof.
  unfold free_dofs. rewrite filter_In, in_prod_iff, in_seq. cbn [fst snd In]. unfold free.
  destruct (Req_EM_T (ent (md_cons md) i d) 0) as [E|E]; split; intros H.
  - destruct H as [[H1 H2] _]. split; [lia|]. split; [lia|exact E].
  - split; [|reflexivity]. lia.
  - destruct H as [_ H]; discriminate.
  - destruct H as (_ & _ & H). contradiction.
Qed.
Lemma nodup_app {A} (l m : list A) : NoDup l -> NoDup m -> (forall x, In x l -> ~ In x m) -> NoDup (l ++ m).
Proof.
  intros Hl Hm Hd. induction Hl as [|a l Ha Hl IH]; [exact Hm|]. cbn [app]. constructor.
  - rewrite in_app_iff. intros [H|H]; [contradiction|]. exact (Hd a (or_introl eq_refl) H).
  - apply IH. intros x Hx. apply Hd. right. exact Hx.
Qed.
Lemma nodup_prod {A B} (l : list A) (m : list B) : NoDup l -> NoDup m -> NoDup (list_prod l m).
Proof.
  intros Hl Hm. induction Hl as [|a l Ha Hl IH]; [constructor|]. cbn [list_prod]. apply nodup_app; [|exact IH|].
  - clear -Hm. induction Hm as [|b m Hb Hm IH]; [constructor|]. cbn [map]. constructor; [|exact IH]. intros H. apply in_map_iff in H as (y & E & Hy). congruence.
  - intros [x y] Hp Hq. apply in_map_iff in Hp as (z & Ez & _). injection Ez as <- <-. apply in_prod_iff in Hq as [Hq _]. contradiction.
Qed.
Lemma free_dofs_nodup md : NoDup (free_dofs md).
Proof.
  apply NoDup_filter. apply nodup_prod; [apply seq_NoDup|]. repeat constructor; cbn; intros H; intuition discriminate.
Qed.

(** the field with the values [x] at the free dofs *)
Definition same (p : nat * nat) (i d : nat) : bool := ((fst p =? i) && (snd p =? d))%nat.
Definition free_field (md : model) (x : nat -> R) (i d : nat) : R :=
  rsum (length (free_dofs md)) (fun q => if same (nth q (free_dofs md) (0, 0)%nat) i d then x q else 0).

Lemma same_spec p i d : same p i d = true <-> p = (i, d).
Proof. unfold same. destruct p as [a b]. cbn [fst snd]. rewrite andb_true_iff, !Nat.eqb_eq. split; [intros [-> ->]; reflexivity|intros H; injection H; auto]. Qed.
Lemma free_field_at md x q i d : (q < length (free_dofs md))%nat -> nth q (free_dofs md) (0, 0)%nat = (i, d) -> free_field md x i d = x q.
Proof.
  intros Hq E. unfold free_field. rewrite (rsum_single _ q _ Hq).
  - rewrite (proj2 (same_spec _ i d) E). reflexivity.
  - intros k Hk Hne. destruct (same (nth k (free_dofs md) (0, 0)%nat) i d) eqn:S; [|reflexivity]. exfalso. apply same_spec in S.
    apply Hne. apply (proj1 (NoDup_nth (free_dofs md) (0, 0)%nat) (free_dofs_nodup md) k q Hk Hq). congruence.
Qed.
Lemma free_field_admissible md x : admissible md (free_field md x).
Proof.
  intros i d Hi Hd C. unfold free_field. apply rsum_zero. intros q Hq. destruct (same (nth q (free_dofs md) (0, 0)%nat) i d) eqn:S; [|reflexivity]. exfalso.
  apply same_spec in S. pose proof (nth_In _ (0, 0)%nat Hq) as HI. rewrite S in HI. apply free_dofs_in in HI as (_ & _ & C'). lra.
Qed.
Lemma stretch_field md x e : stretch (md_nodes md) (free_field md x) e =
  rsum (length (free_dofs md)) (fun q => stretch (md_nodes md) (fun i d => if same (nth q (free_dofs md) (0, 0)%nat) i d then 1 else 0) e * x q).
Proof.
  unfold stretch, free_field. rewrite <- !rsum_minus, <- !rsum_scal, <- rsum_plus. apply rsum_ext. intros q _. cbv beta.
  repeat match goal with |- context [same ?p ?i ?d] => destruct (same p i d) end; ring.
Qed.

Definition bmat (md : model) (m q : nat) : R :=
  if (m <? length (md_elements md))%nat
  then stretch (md_nodes md) (fun i d => if same (nth q (free_dofs md) (0, 0)%nat) i d then 1 else 0) (nth m (md_elements md) []) else 0.
Lemma bmat_row md x m : (m < length (md_elements md))%nat ->
  rsum (length (free_dofs md)) (fun q => bmat md m q * x q) = stretch (md_nodes md) (free_field md x) (nth m (md_elements md) []).
Proof. intros Hm. rewrite stretch_field. apply rsum_ext. intros q _. unfold bmat. rewrite (proj2 (Nat.ltb_lt _ _) Hm). reflexivity. Qed.
Lemma bmat_injective md n : no_mechanism md -> length (free_dofs md) = n -> (length (md_elements md) <= n)%nat ->
  forall u, (forall i, (i < n)%nat -> rsum n (fun j => bmat md i j * u j) = 0) -> forall i, (i < n)%nat -> u i = 0.
Proof.
  intros HM Hn Hle u Hu q Hq. destruct (nth q (free_dofs md) (0, 0)%nat) as [i d] eqn:E. rewrite <- (free_field_at md u q i d ltac:(lia) E).
  assert (HI : In (i, d) (free_dofs md)) by (rewrite <- E; apply nth_In; lia). apply free_dofs_in in HI as (Hi & Hd & _).
  apply HM; [apply free_field_admissible| |exact Hi|exact Hd]. intros e He. destruct (In_nth _ _ [] He) as (m & Hm & <-).
  rewrite <- bmat_row by exact Hm. rewrite Hn. apply Hu. lia.
Qed.

(** Maxwell's rule *)
Theorem maxwell md : wf_model md -> truss_model md -> stable md -> (length (free_dofs md) <= length (md_elements md))%nat.
Proof.
  intros Hwf Ht Hst. apply (truss_stable md Hwf Ht) in Hst. destruct (Nat.le_gt_cases (length (free_dofs md)) (length (md_elements md))) as [H|H]; [exact H|exfalso].
  set (n := length (free_dofs md)) in *.
  destruct (gsolve_total n (bmat md) (fun i => if (i =? length (md_elements md))%nat then 1 else 0) (bmat_injective md n Hst eq_refl ltac:(lia))) as [x Hx].
  pose proof (gsolve_sound _ _ _ _ Hx (length (md_elements md)) H) as HS. cbv beta in HS. rewrite Nat.eqb_refl, rsum_zero in HS; [lra|].
  intros j _. unfold bmat. rewrite Nat.ltb_irrefl. ring.
Qed.
Theorem count_determinate md : wf_model md -> truss_model md -> stable md -> length (md_elements md) = length (free_dofs md) -> determinate md.
Proof.
  intros Hwf Ht Hst Hlen N HN. apply (truss_stable md Hwf Ht) in Hst. set (n := length (free_dofs md)) in *.
  destruct (gsolve_total n (bmat md) N (bmat_injective md n Hst eq_refl ltac:(lia))) as [x Hx].
  pose proof (balanced_work md N (free_field md x) (fun _ _ => 0) Hwf Ht (free_field_admissible md x) HN) as HW.
  rewrite (rsum_zero (length (md_nodes md))) in HW by (intros i _; cbn [rsum]; ring). rewrite Ropp_0 in HW.
  assert (HZ : forall m, (m < length (md_elements md))%nat -> N m * stretch (md_nodes md) (free_field md x) (nth m (md_elements md) []) = N m * N m).
  { intros m Hm. f_equal. rewrite <- bmat_row by exact Hm. apply (gsolve_sound _ _ _ _ Hx). lia. }
  intros m Hm. assert (HQ : N m * N m = 0); [|apply Rmult_integral in HQ as [HQ|HQ]; exact HQ]. rewrite <- (HZ m Hm).
  apply (rsum_eq_zero_nonneg (length (md_elements md)) (fun m => N m * stretch (md_nodes md) (free_field md x) (nth m (md_elements md) []))); [|exact HW|exact Hm].
  intros k Hk. cbv beta. rewrite (HZ k Hk). apply Rle_0_sqr.
Qed.
