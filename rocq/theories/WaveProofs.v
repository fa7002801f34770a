(** * Lemmas: waves in periodic media *)
From Coq Require Import String QArith Reals List ZArith Arith Bool Lra Lia Permutation.
From Verif Require Import Num LinAlg Bloch Spec SpecBloch SpecWave LinR Base PostProofs AssemProofs2 BlochProofs StiffProofs3.
Import ListNotations.
Local Open Scope R_scope.

Section Wave.
  Variables (k : list R) (coords : list (list R)) (n : nat) (nref nima dref dima : list Z) (rd id : list (Z * list Z)) (new : list Z) (T : list (list (R * R))).
  Hypothesis HL : lattice (length k) coords n nref nima dref dima rd id.
  Hypothesis Hnew : reassign_dof_bloch n dima dref = Ok new.
  Hypothesis HT : bloch_transform_mat cis k coords n nref nima dref dima rd id new = Ok T.
  Let m := (n - length dref)%nat.
  Let pairs := pairing nref nima rd id.

  Lemma wave_act q : (forall i, (i < n)%nat -> ~ In (Z.of_nat i) dima -> cact m T q i = q (Z.to_nat (nth i new 0%Z))) /\
    (forall p, In p pairs -> cact m T q (Z.to_nat (b_ima p)) = cmul (cis (shift k coords p)) (q (Z.to_nat (nth (Z.to_nat (b_ref p)) new 0%Z)))).
  Proof.
    destruct HL as [H1 H2 H3 H4 H5 H6 H7 H8 H9 H10 H11 H12].
    destruct (bloch_periodic k coords n nref nima dref dima rd id new T HT) with (q := q) as (A & B & _).
    - eapply Forall_impl; [|exact H4]. cbn. intros; lia.
    - eapply Forall_impl; [|exact H5]. cbn. intros; lia.
    - exact H9.
    - exact H11.
    - intros p Hp. apply H12. apply in_map, Hp.
    - split; [exact A|]. intros p Hp. apply B; [exact Hp|].
      assert (I : In (b_ima p) dima) by (apply H12, in_map, Hp). rewrite Forall_forall in H2. exact (H2 _ I).
  Qed.
  Lemma wave_count : length (independent dima n) = m.
  Proof.
    pose proof (indep_count dima n) as C. rewrite (imgs_total dima n (la_nodup _ _ _ _ _ _ _ _ _ HL) (la_range _ _ _ _ _ _ _ _ _ HL)) in C.
    unfold m. rewrite (la_length _ _ _ _ _ _ _ _ _ HL). lia.
  Qed.
  Lemma indep_in i : In i (independent dima n) <-> (i < n)%nat /\ ~ In (Z.of_nat i) dima.
  Proof.
    unfold independent. rewrite filter_In, in_seq. fold (img dima i). pose proof (img_spec dima i) as S. destruct (img dima i); cbn [negb]; split; intros [A B].
    - discriminate.
    - exfalso. apply B, S. reflexivity.
    - split; [lia|]. intros K. apply S in K. discriminate.
    - split; [lia|reflexivity].
  Qed.
  (** the independent dof with new number [j] *)
  Definition indep j := nth j (independent dima n) 0%nat.
  Lemma indep_new j : (j < m)%nat -> (indep j < n)%nat /\ ~ In (Z.of_nat (indep j)) dima /\ nth (indep j) new 0%Z = Z.of_nat j.
  Proof.
    intros Hj. pose proof wave_count as C. assert (I : In (indep j) (independent dima n)) by (apply nth_In; lia).
    apply indep_in in I as [I1 I2]. split; [exact I1|]. split; [exact I2|].
    pose proof (reassign_consecutive _ _ _ _ Hnew) as E. apply (f_equal (fun l => nth j l 0%Z)) in E.
    rewrite (nth_indep _ 0%Z (nth 0 new 0%Z)) in E by (rewrite map_length; lia). rewrite (map_nth (fun k => nth k new 0%Z)) in E.
    unfold indep. rewrite E. rewrite (nth_indep _ 0%Z (Z.of_nat 0)) by (rewrite map_length, seq_length; lia). rewrite map_nth, seq_nth by lia. reflexivity.
  Qed.
  Lemma new_range i : (i < n)%nat -> ~ In (Z.of_nat i) dima -> exists j, (j < m)%nat /\ nth i new 0%Z = Z.of_nat j /\ indep j = i.
  Proof.
    intros Hi Hn. assert (I : In i (independent dima n)) by (apply indep_in; split; assumption).
    destruct (In_nth _ _ 0%nat I) as (j & Hj & E). rewrite wave_count in Hj. exists j. split; [exact Hj|]. fold (indep j) in E. split; [|exact E].
    rewrite <- E. apply indep_new, Hj.
  Qed.
  Lemma wave_unique q q' : (forall i, (i < n)%nat -> cact m T q i = cact m T q' i) -> forall j, (j < m)%nat -> q j = q' j.
  Proof.
    intros E j Hj. destruct (indep_new j Hj) as (A & B & C). specialize (E _ A). rewrite (proj1 (wave_act q)), (proj1 (wave_act q')) in E by assumption.
    rewrite C, Nat2Z.id in E. exact E.
  Qed.
  Lemma wave_solutions u : bloch_wave k coords pairs u <-> exists q, forall i, (i < n)%nat -> cact m T q i = u i.
  Proof.
    destruct HL as [H1 H2 H3 H4 H5 H6 H7 H8 H9 H10 H11 H12]. split.
    - intros Hw. exists (fun j => u (indep j)). intros i Hi.
      destruct (wave_act (fun j => u (indep j))) as [A B]. destruct (in_dec Z.eq_dec (Z.of_nat i) dima) as [I|N].
      + apply H12, in_map_iff in I as (p & Ep & Hp). pose proof (B p Hp) as E. rewrite Ep, Nat2Z.id in E. rewrite E.
        pose proof (Hw p Hp) as W. rewrite Ep, Nat2Z.id in W. rewrite W. f_equal. f_equal.
        destruct (H10 p Hp) as [R1 R2]. destruct (new_range (Z.to_nat (b_ref p))) as (j & Hj & Ej & Dj); [lia|rewrite Z2Nat.id by lia; exact R2|].
        rewrite Ej, Nat2Z.id. exact Dj.
      + rewrite (A i Hi N). f_equal. destruct (new_range i Hi N) as (j & Hj & Ej & Dj). rewrite Ej, Nat2Z.id. exact Dj.
    - intros [q Hq] p Hp. destruct (wave_act q) as [A B]. destruct (H10 p Hp) as [R1 R2].
      assert (I : In (b_ima p) dima) by (apply H12, in_map, Hp). rewrite Forall_forall in H2. pose proof (H2 _ I).
      rewrite <- (Hq (Z.to_nat (b_ima p))) by lia. rewrite <- (Hq (Z.to_nat (b_ref p))) by lia. rewrite (B p Hp). f_equal. symmetry. apply A; [lia|]. rewrite Z2Nat.id by lia. exact R2.
  Qed.

  Lemma lsum_filter_split {A} (f : A -> R) (b : A -> bool) l : lsum f l = lsum f (filter b l) + lsum f (filter (fun a => negb (b a)) l).
  Proof.
    induction l as [|a l IH]; [unfold lsum; cbn; ring|]. change (lsum f (a :: l)) with (f a + lsum f l). cbn [filter]. destruct (b a); cbn [negb].
    - change (lsum f (a :: filter b l)) with (f a + lsum f (filter b l)). lra.
    - change (lsum f (a :: filter (fun x => negb (b x)) l)) with (f a + lsum f (filter (fun x => negb (b x)) l)). lra.
  Qed.
  Lemma lsum_count (g : nat -> R) (h : bpair -> nat) l : (forall p, In p l -> (h p < m)%nat) ->
    lsum (fun p => g (h p)) l = rsum m (fun j => INR (length (filter (fun p => h p =? j)%nat l)) * g j).
  Proof.
    induction l as [|p l IH]; intros Hh.
    - unfold lsum. cbn. symmetry. apply rsum_zero. intros. ring.
    - change (lsum (fun p => g (h p)) (p :: l)) with (g (h p) + lsum (fun p => g (h p)) l). rewrite IH by (intros; apply Hh; now right).
      replace (g (h p)) with (rsum m (fun j => if (h p =? j)%nat then g j else 0)).
      + rewrite <- rsum_plus. apply rsum_ext. intros j Hj. cbn [filter]. destruct (Nat.eqb_spec (h p) j); cbn [length]; [rewrite S_INR|]; ring.
      + rewrite (rsum_single m (h p)); [rewrite Nat.eqb_refl; reflexivity|apply Hh; now left|]. intros j _ N. destruct (Nat.eqb_spec (h p) j); [congruence|reflexivity].
  Qed.
  Lemma image_dofs : Permutation (filter (img dima) (seq 0 n)) (map (fun p => Z.to_nat (b_ima p)) pairs).
  Proof.
    destruct HL as [H1 H2 H3 H4 H5 H6 H7 H8 H9 H10 H11 H12]. rewrite Forall_forall in H2. apply NoDup_Permutation.
    - apply NoDup_filter, seq_NoDup.
    - rewrite <- (map_map b_ima Z.to_nat). assert (P : forall z, In z (map b_ima pairs) -> (0 <= z)%Z) by (intros z Hz; apply H12, H2 in Hz; lia).
      fold pairs in H11. clear - H11 P. induction (map b_ima pairs) as [|z l IH]; [constructor|]. inversion H11; subst. cbn [map]. constructor.
      + intros I. apply in_map_iff in I as (y & E & Hy). assert (y = z) by (apply Z2Nat.inj; [apply P; now right|apply P; now left|exact E]). congruence.
      + apply IH; [assumption|]. intros; apply P; now right.
    - intros i. rewrite filter_In, in_seq, img_spec, in_map_iff. split.
      + intros [_ I]. apply H12, in_map_iff in I as (p & E & Hp). exists p. split; [lia|exact Hp].
      + intros (p & E & Hp). assert (I : In (b_ima p) dima) by (apply H12, in_map, Hp). pose proof (H2 _ I). split; [lia|]. rewrite <- E, Z2Nat.id by lia. exact I.
  Qed.
  Lemma wave_norm q : rsum n (fun i => cnorm2 (cact m T q i)) = rsum m (fun j => (1 + INR (images_of new pairs j)) * cnorm2 (q j)).
  Proof.
    destruct (wave_act q) as [A B]. rewrite <- lsum_seq, (lsum_filter_split _ (img dima)), (lsum_Permutation _ _ _ image_dofs), lsum_map.
    rewrite (lsum_ext (fun p => cnorm2 (cact m T q (Z.to_nat (b_ima p)))) (fun p => (fun j => cnorm2 (q j)) (Z.to_nat (nth (Z.to_nat (b_ref p)) new 0%Z)))).
    2:{ intros p Hp. rewrite (B p Hp). apply phase_product. }
    assert (R : forall p, In p pairs -> exists j, (j < m)%nat /\ nth (Z.to_nat (b_ref p)) new 0%Z = Z.of_nat j).
    { intros p Hp. destruct (la_pairs _ _ _ _ _ _ _ _ _ HL p Hp) as [R1 R2].
      destruct (new_range (Z.to_nat (b_ref p))) as (j & Hj & Ej & _); [lia|rewrite Z2Nat.id by lia; exact R2|]. exists j. split; assumption. }
    rewrite (lsum_count (fun j => cnorm2 (q j)) (fun p => Z.to_nat (nth (Z.to_nat (b_ref p)) new 0%Z))).
    2:{ intros p Hp. destruct (R p Hp) as (j & Hj & ->). rewrite Nat2Z.id. exact Hj. }
    change (filter (fun a => negb (img dima a)) (seq 0 n)) with (independent dima n). rewrite lsum_nth, wave_count, <- rsum_plus. apply rsum_ext. intros j Hj.
    destruct (indep_new j Hj) as (I1 & I2 & I3). fold (indep j). rewrite (A _ I1 I2), I3, Nat2Z.id. unfold images_of.
    replace (length (filter (fun p => (Z.to_nat (nth (Z.to_nat (b_ref p)) new 0%Z) =? j)%nat) pairs)) with
      (length (filter (fun p => (nth (Z.to_nat (b_ref p)) new 0 =? Z.of_nat j)%Z) pairs)); [ring|].
    f_equal. apply filter_ext_in. intros p Hp. destruct (R p Hp) as (l & _ & ->). rewrite Nat2Z.id. destruct (Z.eqb_spec (Z.of_nat l) (Z.of_nat j)), (Nat.eqb_spec l j); lia || reflexivity.
  Qed.
End Wave.

(** ** other wave vectors and positions *)
Lemma cis_turns x z : cis (x + 2 * IZR z * PI) = cis x.
Proof.
  assert (N : forall y j, cis (y + 2 * INR j * PI) = cis y) by (intros; unfold cis; rewrite cos_period, sin_period; reflexivity).
  destruct (Z_le_gt_dec 0 z) as [H|H].
  - rewrite <- (Z2Nat.id z H), <- INR_IZR_INZ. apply N.
  - rewrite <- (N (x + 2 * IZR z * PI) (Z.to_nat (- z))). f_equal. rewrite INR_IZR_INZ, Z2Nat.id by lia. rewrite opp_IZR. ring.
Qed.
Lemma mapM_ext {A B} (f g : A -> res B) l : (forall a, In a l -> f a = g a) -> mapM f l = mapM g l.
Proof. induction l as [|a l IH]; intros E; cbn; [reflexivity|]. rewrite (E a) by now left. rewrite IH by (intros; apply E; now right). reflexivity. Qed.

(** equal phases, equal matrices *)
Lemma same_phases k k' coords coords' n nref nima dref dima rd id new : length k' = length k -> length coords' = length coords ->
  (forall i, length (nth i coords' []) = length (nth i coords [])) -> Forall (fun z => (0 <= z)%Z) nima -> Forall (fun z => (0 <= z)%Z) nref ->
  (forall a b, In (a, b) (combine nima nref) -> exists z, node_shift k' coords' a b = node_shift k coords a b + 2 * IZR z * PI) ->
  bloch_transform_mat cis k' coords' n nref nima dref dima rd id new = bloch_transform_mat cis k coords n nref nima dref dima rd id new.
Proof.
  intros Lk Lc Lr Hi Hf Hp. unfold bloch_transform_mat. destruct (mapM _ (seq 0 n)) as [inner|e]; [|reflexivity]. cbn [bind].
  rewrite (mapM_ext (bloch_pair cis k' coords' rd id new) (bloch_pair cis k coords rd id new)); [reflexivity|].
  intros [a b] Hab. pose proof (in_combine_l _ _ _ _ Hab) as Ia. pose proof (in_combine_r _ _ _ _ Hab) as Ib. rewrite Forall_forall in Hi, Hf.
  specialize (Hi a Ia). specialize (Hf b Ib). unfold bloch_pair.
  assert (G : forall z, (0 <= z)%Z -> (exists e, np_get coords z = Err e /\ np_get coords' z = Err e) \/ np_get coords z = Ok (nth (Z.to_nat z) coords []) /\ np_get coords' z = Ok (nth (Z.to_nat z) coords' [])).
  { intros z Hz. destruct (Nat.lt_ge_cases (Z.to_nat z) (length coords)) as [H|H].
    - right. pose proof (np_get_nth coords (Z.to_nat z) [] H) as G1. pose proof (np_get_nth coords' (Z.to_nat z) [] ltac:(lia)) as G2. rewrite Z2Nat.id in G1, G2 by lia. split; assumption.
    - left. exists IndexError. unfold np_get, np_index. rewrite Lc. rewrite (proj2 (Z.leb_le 0 z) Hz). replace (z <? Z.of_nat (length coords))%Z with false by (symmetry; apply Z.ltb_ge; lia).
      replace (z <? 0)%Z with false by (symmetry; apply Z.ltb_ge; lia). rewrite !andb_false_r. split; reflexivity. }
  destruct (G a Hi) as [(e & -> & ->)|[-> ->]]; [reflexivity|]. cbn [bind]. destruct (G b Hf) as [(e & -> & ->)|[-> ->]]; [reflexivity|]. cbn [bind].
  unfold phase_arg. rewrite !Lr, Lk. unfold guard.
  destruct (length (nth (Z.to_nat a) coords []) =? length (nth (Z.to_nat b) coords []))%nat; [|reflexivity]. cbn [bind].
  destruct (length k =? length (nth (Z.to_nat a) coords []))%nat; [|reflexivity]. cbn [bind].
  assert (E : cis (sumn (length k) (fun c => vget k' c * (vget (nth (Z.to_nat a) coords' []) c - vget (nth (Z.to_nat b) coords' []) c)))%num =
              cis (sumn (length k) (fun c => vget k c * (vget (nth (Z.to_nat a) coords []) c - vget (nth (Z.to_nat b) coords []) c)))%num).
  { destruct (Hp a b Hab) as [z Hz]. unfold node_shift in Hz. rewrite Lk in Hz. rewrite !sumn_rsum.
    change (cis (rsum (length k) (fun c => nth c k' 0 * (ent coords' (Z.to_nat a) c - ent coords' (Z.to_nat b) c))) = cis (rsum (length k) (fun c => nth c k 0 * (ent coords (Z.to_nat a) c - ent coords (Z.to_nat b) c)))).
    rewrite Hz. apply cis_turns. }
  rewrite E. reflexivity.
Qed.
Lemma wave_reciprocal k g coords n nref nima dref dima rd id new : length g = length k ->
  Forall (fun z => (0 <= z)%Z) nima -> Forall (fun z => (0 <= z)%Z) nref ->
  (forall a b, In (a, b) (combine nima nref) -> exists z, node_shift g coords a b = 2 * IZR z * PI) ->
  bloch_transform_mat cis (map (fun xy => fst xy + snd xy) (combine k g)) coords n nref nima dref dima rd id new =
  bloch_transform_mat cis k coords n nref nima dref dima rd id new.
Proof.
  intros Lg Hi Hf Hp. assert (Lk : length (map (fun xy => fst xy + snd xy) (combine k g)) = length k) by (rewrite map_length, combine_length; lia).
  apply same_phases; [exact Lk|reflexivity|reflexivity|exact Hi|exact Hf|]. intros a b Hab. destruct (Hp a b Hab) as [z Hz]. exists z. rewrite <- Hz. unfold node_shift. rewrite Lk, Lg, <- rsum_plus.
  apply rsum_ext. intros c Hc. rewrite (nth_indep _ 0 (fst (0, 0) + snd (0, 0))) by lia. rewrite (map_nth (fun xy => fst xy + snd xy)), combine_nth by lia. cbn [fst snd]. ring.
Qed.
Lemma wave_moved k t coords coords' n nref nima dref dima rd id new : length coords' = length coords ->
  (forall i, length (nth i coords' []) = length (nth i coords [])) -> Forall (fun z => (0 <= z < Z.of_nat (length coords))%Z) nima -> Forall (fun z => (0 <= z < Z.of_nat (length coords))%Z) nref ->
  (forall i c, (i < length coords)%nat -> (c < length k)%nat -> ent coords' i c = ent coords i c + t c) ->
  bloch_transform_mat cis k coords' n nref nima dref dima rd id new = bloch_transform_mat cis k coords n nref nima dref dima rd id new.
Proof.
  intros Lc Lr Hi Hf Ht. apply same_phases; [reflexivity|exact Lc|exact Lr| | |].
  - eapply Forall_impl; [|exact Hi]. cbn. intros; lia.
  - eapply Forall_impl; [|exact Hf]. cbn. intros; lia.
  - intros a b Hab. exists 0%Z. rewrite Rmult_0_r, Rmult_0_l, Rplus_0_r. unfold node_shift. apply rsum_ext. intros c Hc.
    pose proof (in_combine_l _ _ _ _ Hab) as Ia. pose proof (in_combine_r _ _ _ _ Hab) as Ib. rewrite Forall_forall in Hi, Hf. specialize (Hi a Ia). specialize (Hf b Ib).
    rewrite !Ht by lia. ring.
Qed.

(** ** the opposite wave *)
Section Opposite.
  Variables (k : list R) (coords : list (list R)) (n : nat) (nref nima dref dima : list Z) (rd id : list (Z * list Z)) (new : list Z) (T T' : list (list (R * R))).
  Hypothesis HL : lattice (length k) coords n nref nima dref dima rd id.
  Hypothesis Hnew : reassign_dof_bloch n dima dref = Ok new.
  Hypothesis HT : bloch_transform_mat cis k coords n nref nima dref dima rd id new = Ok T.
  Hypothesis HT' : bloch_transform_mat cis (map Ropp k) coords n nref nima dref dima rd id new = Ok T'.
  Let m := (n - length dref)%nat.
  Lemma shift_opp p : shift (map Ropp k) coords p = - shift k coords p.
  Proof.
    unfold shift. rewrite map_length. replace (- rsum _ _) with (-1 * rsum (length k) (fun a => nth a k 0 * (ent coords (Z.to_nat (b_nima p)) a - ent coords (Z.to_nat (b_nref p)) a))) by ring.
    rewrite <- rsum_scal. apply rsum_ext. intros a Ha. rewrite (nth_indep _ 0 (- 0)) by (rewrite map_length; exact Ha). rewrite map_nth. ring.
  Qed.
  Lemma wave_opposite q i : (i < n)%nat -> cact m T' (fun j => cconj (q j)) i = cconj (cact m T q i).
  Proof.
    intros Hi. assert (HL' : lattice (length (map Ropp k)) coords n nref nima dref dima rd id) by (rewrite map_length; exact HL).
    destruct (wave_act _ _ _ _ _ _ _ _ _ _ _ HL HT q) as [A B]. destruct (wave_act _ _ _ _ _ _ _ _ _ _ _ HL' HT' (fun j => cconj (q j))) as [A' B']. fold m in A, B, A', B'.
    destruct (in_dec Z.eq_dec (Z.of_nat i) dima) as [I|N].
    - apply (la_images _ _ _ _ _ _ _ _ _ HL), in_map_iff in I as (p & Ep & Hp). pose proof (B p Hp) as E. pose proof (B' p Hp) as E'. rewrite Ep, Nat2Z.id in E, E'. rewrite E, E', shift_opp.
      unfold cis, cconj, cmul. cbn [fst snd]. rewrite cos_neg, sin_neg. f_equal; ring.
    - rewrite (A i Hi N), (A' i Hi N). reflexivity.
  Qed.
End Opposite.

(** ** the 3 x 3 lattice of the documentation (blochutil.py:140-150) *)
Lemma cell_lattice : lattice 2 cell_nodes 9 [0; 0; 0; 1; 3]%Z [2; 6; 8; 7; 5]%Z [0; 0; 0; 1; 3]%Z [2; 6; 8; 7; 5]%Z
    [(0, [0]); (1, [1]); (3, [3])]%Z [(2, [2]); (6, [6]); (8, [8]); (7, [7]); (5, [5])]%Z.
Proof.
  constructor.
  - repeat constructor; cbn; lia.
  - repeat constructor; lia.
  - reflexivity.
  - repeat constructor; cbn; lia.
  - repeat constructor; cbn; lia.
  - repeat constructor.
  - cbn. tauto.
  - cbn. tauto.
  - intros m [<-|[<-|[<-|[<-|[<-|[]]]]]]; repeat constructor; cbn; lia.
  - cbn. intros p Hp. repeat (destruct Hp as [<-|Hp]; [cbn; lia|]). destruct Hp.
  - cbn. repeat constructor; cbn; lia.
  - intros z. cbn. tauto.
Qed.
Lemma cell_reciprocal a b : In (a, b) (combine [2; 6; 8; 7; 5] [0; 0; 0; 1; 3])%Z -> exists z, node_shift [PI; 3 * PI] cell_nodes a b = 2 * IZR z * PI.
Proof.
  cbn. intros H. unfold node_shift, ent, cell_nodes.
  destruct H as [H|[H|[H|[H|[H|[]]]]]]; injection H as <- <-; cbn [length rsum].
  - exists 1%Z. cbv -[Rplus Rminus Rmult IZR PI]. ring.
  - exists 3%Z. cbv -[Rplus Rminus Rmult IZR PI]. ring.
  - exists 4%Z. cbv -[Rplus Rminus Rmult IZR PI]. ring.
  - exists 3%Z. cbv -[Rplus Rminus Rmult IZR PI]. ring.
  - exists 1%Z. cbv -[Rplus Rminus Rmult IZR PI]. ring.
Qed.
Lemma wave_runs k coords n nref nima dref dima rd id : lattice (length k) coords n nref nima dref dima rd id ->
  exists new T, reassign_dof_bloch n dima dref = Ok new /\ bloch_transform_mat cis k coords n nref nima dref dima rd id new = Ok T.
Proof.
  intros [H1 H2 H3 H4 H5 H6 H7 H8 H9 H10 H11 H12]. destruct (bloch_runs k coords n nref nima dref dima rd id) as (new & T & A & B & _); try assumption.
  - intros p Hp. destruct (H10 p Hp) as [R1 R2]. split; [|split; assumption]. rewrite Forall_forall in H2. apply H2, H12, in_map, Hp.
  - exists new, T. split; assumption.
Qed.
