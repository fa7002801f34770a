(** * Lemmas: the same structure in another frame or in other units *)
From Coq Require Import Reals List Arith Lia Lra Bool ZArith.
From Verif Require Import Num LinAlg Fem Uel Assem Post Main Spec LinR Base SpecAssem SpecModel SpecElem SpecPost SpecStatic SpecFrame
  ElemCore ElemShape Sampled Elem2 Elem2Props Elem2Mass AssemProofs AssemProofs2 AssemProofs3 AssemProofs4 ModelProofs ModelProofs2 BarProofs ElemFinal ElemFinal2 ElemFinal3 MeshProofs
  PostProofs PostMore StaticProofs StaticProofs2 StaticProofs3 DriverProofs.
Import ListNotations.
Local Open Scope R_scope.

Lemma turned_dot c s U V i : c * c + s * s = 1 ->
  turned c s U i 0 * turned c s V i 0 + turned c s U i 1 * turned c s V i 1 = U i 0%nat * V i 0%nat + U i 1%nat * V i 1%nat.
Proof.
  intros H. cbn [turned]. transitivity ((c * c + s * s) * (U i 0%nat * V i 0%nat + U i 1%nat * V i 1%nat)); [ring|rewrite H; ring].
Qed.
Lemma turned_back c s U i d : c * c + s * s = 1 -> (d < 2)%nat -> turned c s (turned c (- s) U) i d = U i d.
Proof.
  intros H Hd. destruct d as [|[|]]; [| |lia]; cbn [turned].
  - transitivity ((c * c + s * s) * U i 0%nat); [ring|rewrite H; ring].
  - transitivity ((c * c + s * s) * U i 1%nat); [ring|rewrite H; ring].
Qed.
Lemma mod2 k b : (b < 2)%nat -> ((2 * k + b) / 2 = k /\ (2 * k + b) mod 2 = b)%nat.
Proof.
  intros Hb. rewrite Nat.mul_comm. split; [rewrite Nat.div_add_l by lia; rewrite Nat.div_small by lia; lia|].
  rewrite Nat.add_comm, Nat.mod_add by lia. apply Nat.mod_small. exact Hb.
Qed.
Lemma e_disp_turned c s U e j : e_disp (turned c s U) e j = turn2 c s (e_disp U e) j.
Proof.
  pose proof (Nat.div_mod j 2 ltac:(lia)) as HJ. pose proof (Nat.mod_upper_bound j 2 ltac:(lia)) as HB.
  set (k := (j / 2)%nat) in *. set (b := (j mod 2)%nat) in *. rewrite HJ. unfold turn2, e_disp.
  destruct (mod2 k b HB) as [-> ->]. assert (HD : (b = 0 \/ b = 1)%nat) by lia. clearbody b k. destruct HD as [->| ->].
  - rewrite Nat.add_0_r, field2_even. destruct (mod2 k 0 ltac:(lia)) as [E0 E0']. rewrite Nat.add_0_r in E0, E0'. rewrite E0, E0'.
    destruct (mod2 k 1 ltac:(lia)) as [E1 E1']. rewrite E1, E1'. reflexivity.
  - rewrite field2_odd. destruct (mod2 k 0 ltac:(lia)) as [E0 E0']. rewrite Nat.add_0_r in E0, E0'. rewrite E0, E0'.
    destruct (mod2 k 1 ltac:(lia)) as [E1 E1']. rewrite E1, E1'. reflexivity.
Qed.

Definition spike (i d a b : nat) : R := if ((a =? i) && (b =? d))%nat then 1 else 0.

Lemma spike_sum n i d (f : nat -> nat -> R) : (i < n)%nat -> (d < 2)%nat ->
  rsum n (fun a => rsum 2 (fun b => spike i d a b * f a b)) = f i d.
Proof.
  intros Hi Hd. rewrite (rsum_single n i) by
    (try exact Hi; intros a Ha Hne; apply rsum_zero; intros b Hb; unfold spike; replace (a =? i)%nat with false by (symmetry; apply Nat.eqb_neq; exact Hne); cbn [andb]; ring).
  rewrite (rsum_single 2 d) by
    (try exact Hd; intros b Hb Hne; unfold spike; replace (b =? d)%nat with false by (symmetry; apply Nat.eqb_neq; exact Hne); rewrite andb_false_r; ring).
  unfold spike. rewrite !Nat.eqb_refl. cbn [andb]. ring.
Qed.

(** equilibrium seen from the second model holds in the first *)
Lemma transfer md md' c s k U (f f' : nat -> nat -> R) : wf_model md -> wf_model md' ->
  length (md_nodes md') = length (md_nodes md) -> md_elements md' = md_elements md -> c * c + s * s = 1 ->
  (forall e, In e (md_elements md) -> forall V W, eform md' (turned c s V) (turned c s W) e = k * eform md V W e) ->
  (forall V, admissible md V -> admissible md' (turned c s V)) ->
  (forall i d, (i < length (md_nodes md'))%nat -> (d < 2)%nat -> ent (md_cons md') i d = 0 ->
     internal_force (md_mats md') (md_nodes md') (md_elements md') (turned c s U) i d = f' i d) ->
  (forall i d, (i < length (md_nodes md))%nat -> (d < 2)%nat -> f' i d = turned c s f i d) ->
  forall i d, (i < length (md_nodes md))%nat -> (d < 2)%nat -> ent (md_cons md) i d = 0 ->
    k * internal_force (md_mats md) (md_nodes md) (md_elements md) U i d = f i d.
Proof.
  intros Hwf Hwf' Hn He Hcs Hform Hadm Heq Hf i d Hi Hd Hc.
  assert (HV : admissible md (spike i d)).
  { intros a b Ha Hb C. unfold spike. destruct (a =? i)%nat eqn:E1; [|reflexivity]. destruct (b =? d)%nat eqn:E2; [|reflexivity].
    apply Nat.eqb_eq in E1, E2. subst. lra. }
  pose proof (virtual_work md (spike i d) U Hwf) as W. rewrite spike_sum in W by assumption. rewrite W. rewrite <- lsum_scal.
  transitivity (lsum (eform md' (turned c s (spike i d)) (turned c s U)) (md_elements md)).
  { apply lsum_ext. intros e Hin. symmetry. apply Hform. exact Hin. }
  rewrite <- He. unfold eform. rewrite <- virtual_work by exact Hwf'.
  transitivity (rsum (length (md_nodes md')) (fun a => rsum 2 (fun b => turned c s (spike i d) a b * f' a b))).
  { apply rsum_ext. intros a Ha. apply rsum_ext. intros b Hb. destruct (proj2 (cons_row md' a Hwf' Ha) b Hb) as [C|C].
    - rewrite Heq by assumption. reflexivity.
    - rewrite (Hadm _ HV a b Ha Hb C). ring. }
  rewrite Hn. transitivity (rsum (length (md_nodes md)) (fun a => rsum 2 (fun b => spike i d a b * f a b))).
  - apply rsum_ext. intros a Ha. cbn [rsum]. rewrite !Hf by (try exact Ha; lia).
    pose proof (turned_dot c s (spike i d) f a Hcs). lra.
  - apply spike_sum; assumption.
Qed.

Lemma admissible_ext md U V : (forall i d, (i < length (md_nodes md))%nat -> (d < 2)%nat -> U i d = V i d) -> admissible md U -> admissible md V.
Proof. intros H HU i d Hi Hd C. rewrite <- H by assumption. apply HU; assumption. Qed.

Lemma internal_ext md U V i d : wf_model md -> (forall i d, (i < length (md_nodes md))%nat -> (d < 2)%nat -> U i d = V i d) ->
  internal_force (md_mats md) (md_nodes md) (md_elements md) U i d = internal_force (md_mats md) (md_nodes md) (md_elements md) V i d.
Proof.
  intros Hwf H. unfold internal_force. apply lsum_ext. intros e He. apply rsum_ext. intros k Hk. destruct (e_node e k =? i)%nat; [|reflexivity].
  unfold e_force. apply act_ext. intros j Hj. unfold e_disp. apply H.
  - apply (e_node_lt md e _ Hwf He). apply Nat.div_lt_upper_bound; lia.
  - apply Nat.mod_upper_bound. lia.
Qed.

Lemma applied_map (g : list R -> list R) (h : R -> R -> R) d loads i :
  (forall r, nth 0 (g r) 0 = nth 0 r 0) -> (forall r, nth (d + 1) (g r) 0 = h (nth 1 r 0) (nth 2 r 0)) -> h 0 0 = 0 ->
  applied (map g loads) i d = h (applied loads i 0) (applied loads i 1).
Proof.
  intros H0 H1 Hh. unfold applied.
  assert (G : forall x y z, x = h y z ->
    fold_left (fun v row => if Req_EM_T (nth 0 row 0) (INR i) then nth (d + 1) row 0 else v) (map g loads) x =
    h (fold_left (fun v row => if Req_EM_T (nth 0 row 0) (INR i) then nth (0 + 1) row 0 else v) loads y)
      (fold_left (fun v row => if Req_EM_T (nth 0 row 0) (INR i) then nth (1 + 1) row 0 else v) loads z)).
  { induction loads as [|r loads IH]; intros x y z E; [exact E|]. cbn [map fold_left]. rewrite H0. apply IH.
    destruct (Req_EM_T (nth 0 r 0) (INR i)); [apply H1|exact E]. }
  apply G. symmetry. exact Hh.
Qed.

(** ** the element routines *)
Lemma retrieve_with md e t im pr f nodes' mats' : wf_model md -> In e (md_elements md) -> length nodes' = length (md_nodes md) ->
  nth_error e 1 = Some t -> nth_error e 2 = Some im -> np_get mats' im = Ok pr -> @ele_fun R Num_R t = Ok f ->
  retriever e mats' nodes' None = f (e_coord nodes' e) pr.
Proof.
  intros (_ & _ & Hel & _) He Hn Ht Hi Hp Hf. rewrite Forall_forall in Hel. specialize (Hel e He). rewrite <- Hn in Hel.
  unfold retriever. change 1%Z with (Z.of_nat 1) at 1. rewrite (np_get_error _ _ _ Ht). cbn [bind].
  change 2%Z with (Z.of_nat 2). rewrite (np_get_error _ _ _ Hi). cbn [bind]. rewrite Hp. cbn [bind].
  rewrite (mapM_rows _ _ Hel). cbn [bind]. rewrite Hf. cbn [bind]. reflexivity.
Qed.

Lemma typed f t n : type_nodes t = Some n -> @ele_fun R Num_R t = Ok f -> (t <> 6%Z /\ In (f, n) plane_list) \/ (t = 6%Z /\ n = 2%nat /\ f = truss2D).
Proof.
  unfold type_nodes. destruct t as [|p|p]; try discriminate.
  do 4 (try (destruct p as [p|p|]; try discriminate)); intros Hn Hf; injection Hn as <-; cbn [ele_fun] in Hf; apply Ok_inj in Hf; subst f;
    try (left; split; [discriminate|]; unfold plane_list; cbn [In]; tauto); right; auto.
Qed.

Lemma e_coord_map nodes e (g : list R -> list R) (h : list R -> list R) : (forall k, (k < e_n e)%nat -> (e_node e k < length nodes)%nat) ->
  (forall r, In r nodes -> tl (g r) = h (tl r)) -> e_coord (map g nodes) e = map h (e_coord nodes e).
Proof.
  intros Hn Hg. apply nth_ext with (d := []) (d' := []).
  - rewrite e_coord_length, map_length, e_coord_length. reflexivity.
  - intros k Hk. rewrite e_coord_length in Hk. rewrite e_coord_row by exact Hk.
    rewrite (map_nth_def g nodes (e_node e k) [] []) by (apply Hn; exact Hk).
    rewrite (map_nth_def h (e_coord nodes e) k [] []) by (rewrite e_coord_length; exact Hk). rewrite e_coord_row by exact Hk.
    apply Hg. apply nth_In. apply Hn. exact Hk.
Qed.

Lemma e_coord_pair nodes e : Forall (fun r => length r = 3%nat) nodes -> e_n e = 2%nat -> (forall k, (k < e_n e)%nat -> (e_node e k < length nodes)%nat) ->
  exists xa ya xb yb, e_coord nodes e = [[xa; ya]; [xb; yb]].
Proof.
  intros Hr H2 Hn. rewrite Forall_forall in Hr.
  assert (HC : e_coord nodes e = [tl (nth (e_node e 0) nodes []); tl (nth (e_node e 1) nodes [])]).
  { apply nth_ext with (d := []) (d' := []); [rewrite e_coord_length, H2; reflexivity|].
    intros k Hk. rewrite e_coord_length in Hk. rewrite e_coord_row by exact Hk. rewrite H2 in Hk. destruct k as [|[|]]; [reflexivity|reflexivity|lia]. }
  pose proof (Hr _ (nth_In nodes [] (Hn 0%nat ltac:(lia)))) as L0. pose proof (Hr _ (nth_In nodes [] (Hn 1%nat ltac:(lia)))) as L1.
  rewrite HC. destruct (nth (e_node e 0) nodes []) as [|? [|? [|? [|]]]]; try discriminate.
  destruct (nth (e_node e 1) nodes []) as [|? [|? [|? [|]]]]; try discriminate. cbn [tl]. eauto.
Qed.

Definition move_row (c s tx ty : R) (r : list R) : list R := [nth 0 r 0; c * nth 1 r 0 - s * nth 2 r 0 + tx; s * nth 1 r 0 + c * nth 2 r 0 + ty].

Lemma moved_elem md c s tx ty e k m : wf_model md -> node_rows_ok md -> continuum_or_truss md -> c * c + s * s = 1 -> In e (md_elements md) ->
  retriever e (md_mats md) (md_nodes md) None = Ok (k, m) ->
  exists k' m', retriever e (md_mats md) (map (move_row c s tx ty) (md_nodes md)) None = Ok (k', M2 m') /\
    forall u v, form (2 * e_n e) k' (turn2 c s u) (turn2 c s v) = form (2 * e_n e) k u v.
Proof.
  intros Hwf Hrows Hty Hcs He Hr. unfold node_rows_ok in Hrows.
  unfold continuum_or_truss in Hty. rewrite Forall_forall in Hty. destruct (Hty e He) as (t & Ht & Hn).
  destruct (retrieved md e k m Hwf He Hr) as (t' & im & pr & f & Ht' & Hi & Hp & Hf & Hk & _). rewrite Ht in Ht'. injection Ht' as <-.
  rewrite (retrieve_with md e t im pr f _ (md_mats md) Hwf He (map_length _ _) Ht Hi Hp Hf).
  assert (HN : forall j, (j < e_n e)%nat -> (e_node e j < length (md_nodes md))%nat) by (intros j Hj; exact (e_node_lt md e j Hwf He Hj)).
  assert (HC : e_coord (map (move_row c s tx ty) (md_nodes md)) e = move2 c s tx ty (e_coord (md_nodes md) e)).
  { unfold move2. apply e_coord_map; [exact HN|]. intros r Hin. rewrite Forall_forall in Hrows. specialize (Hrows r Hin).
    destruct r as [|? [|? [|? [|]]]]; try discriminate. reflexivity. }
  rewrite HC. destruct (typed f t _ Hn Hf) as [[_ Hin]|(_ & H2 & ->)].
  - destruct (plane_frame_indiff f _ Hin _ _ _ _ Hk c s tx ty Hcs) as (M & K' & M' & _ & HR & HF). exists K', M'. split; [exact HR|]. intros u v. apply HF.
  - destruct (e_coord_pair _ e Hrows H2 HN) as (xa & ya & xb & yb & EC). rewrite EC in *.
    destruct (truss_frame _ _ _ _ _ _ _ Hk c s tx ty Hcs) as (M & K' & M' & _ & HR & HF). exists K', M'. split; [exact HR|].
    intros u v. rewrite H2. apply HF.
Qed.

Lemma moved_wf c s tx ty cons' md : wf_model md -> flags01 2 cons' -> length cons' = length (md_nodes md) -> wf_model (moved c s tx ty cons' md).
Proof.
  intros (H1 & H2 & H3 & H4) Hf Hl. split; [exact Hf|]. cbn [moved md_nodes md_cons md_elements md_loads]. rewrite map_length.
  split; [exact Hl|]. split; [exact H3|]. apply Forall_forall. intros r Hr. apply in_map_iff in Hr. destruct Hr as (r0 & <- & Hr0).
  rewrite Forall_forall in H4. destruct (H4 r0 Hr0) as (_ & n & Hn & E). split; [cbn; lia|]. exists n. split; [exact Hn|exact E].
Qed.

Lemma moved_forms c s tx ty cons' md : wf_model md -> node_rows_ok md -> continuum_or_truss md -> c * c + s * s = 1 ->
  (forall e, In e (md_elements md) -> exists k m, retriever e (md_mats md) (md_nodes md) None = Ok (k, m)) ->
  forall e, In e (md_elements md) -> forall V W, eform (moved c s tx ty cons' md) (turned c s V) (turned c s W) e = 1 * eform md V W e.
Proof.
  intros Hwf Hrows Hty Hcs Hok e He V W. destruct (Hok e He) as (k & m & Hk).
  destruct (moved_elem md c s tx ty e k m Hwf Hrows Hty Hcs He Hk) as (k' & m' & Hk' & HF).
  unfold eform, e_stiff. cbn [moved md_mats md_nodes]. unfold move_row in Hk'. rewrite Hk', Hk, Rmult_1_l. rewrite <- HF.
  apply form_ext; intros j Hj; apply e_disp_turned.
Qed.

Lemma moved_loads c s tx ty cons' md i d : (d < 2)%nat ->
  applied (md_loads (moved c s tx ty cons' md)) i d = turned c s (applied (md_loads md)) i d.
Proof.
  intros Hd. cbn [moved md_loads]. destruct d as [|[|]]; [| |lia]; cbn [turned].
  - rewrite (applied_map _ (fun x y => c * x - s * y) 0); [reflexivity|reflexivity|reflexivity|ring].
  - rewrite (applied_map _ (fun x y => s * x + c * y) 1); [reflexivity|reflexivity|reflexivity|ring].
Qed.

Lemma run_retrieved sv md plot strains out : wf_model md -> solver_ok sv -> auto sv md plot strains = Ok out ->
  forall e, In e (md_elements md) -> exists k m, retriever e (md_mats md) (md_nodes md) None = Ok (k, m).
Proof.
  intros Hwf Hsv Hrun e He. destruct (run_inv sv md plot strains out Hwf Hsv Hrun) as (bc & neq & op & K & u & F).
  pose proof (rf_stiff _ _ _ _ _ _ _ F) as HS. rewrite Forall_forall in HS. destruct (HS e He) as (m & Hm & _). eauto.
Qed.

Lemma moved_back c s md md' U : wf_model md -> c * c + s * s = 1 -> length (md_nodes md') = length (md_nodes md) ->
  supports_follow c s md md' -> admissible md' U -> admissible md (turned c (- s) U).
Proof.
  intros Hwf Hcs Hn HS HU. apply HS. apply (admissible_ext md' U); [|exact HU]. intros i d Hi Hd. symmetry. apply turned_back; assumption.
Qed.

(** ** C82 *)
Lemma moved_run sv sv' md c s tx ty cons' plot strains plot' strains' out out' :
  wf_model md -> node_rows_ok md -> continuum_or_truss md -> flags01 2 cons' -> length cons' = length (md_nodes md) -> c * c + s * s = 1 ->
  supports_follow c s md (moved c s tx ty cons' md) -> solver_ok sv -> solver_ok sv' -> stable md ->
  auto sv md plot strains = Ok out -> auto sv' (moved c s tx ty cons' md) plot' strains' = Ok out' ->
  forall i d, (i < length (md_nodes md))%nat -> (d < 2)%nat -> table out' i d = turned c s (table out) i d.
Proof.
  intros Hwf Hrows Hty Hf Hl Hcs HS Hsv Hsv' Hst Hrun Hrun' i d Hi Hd.
  pose proof (moved_wf c s tx ty cons' md Hwf Hf Hl) as Hwf'.
  pose proof (run_equilibrium _ _ _ _ _ Hwf Hsv Hrun) as Heq. pose proof (run_equilibrium _ _ _ _ _ Hwf' Hsv' Hrun') as Heq'.
  pose proof (run_retrieved _ _ _ _ _ Hwf Hsv Hrun) as Hok.
  assert (HL : length (md_nodes (moved c s tx ty cons' md)) = length (md_nodes md)) by apply map_length.
  assert (Hadm : admissible (moved c s tx ty cons' md) (table out')) by exact (equilibrium_admissible _ _ Heq').
  assert (HB : in_equilibrium md (turned c (- s) (table out'))).
  { intros a b Ha Hb. split.
    - exact (moved_back c s md _ _ Hwf Hcs HL HS Hadm a b Ha Hb).
    - intros C. rewrite <- (Rmult_1_l (internal_force _ _ _ _ _ _)).
      apply (transfer md (moved c s tx ty cons' md) c s 1 _ (applied (md_loads md)) (applied (md_loads (moved c s tx ty cons' md)))); auto.
      + apply moved_forms; assumption.
      + intros V HV. apply HS. exact HV.
      + intros p q Hp Hq C'. rewrite <- (proj2 (Heq' p q Hp Hq) C'). apply internal_ext; [exact Hwf'|].
        intros x y Hx Hy. apply turned_back; assumption.
      + intros p q Hp Hq. apply moved_loads. exact Hq. }
  pose proof (stable_unique md _ _ Hst Hwf Heq HB) as HU.
  transitivity (turned c s (turned c (- s) (table out')) i d); [symmetry; apply turned_back; assumption|].
  destruct d as [|[|]]; [| |lia]; cbn [turned]; rewrite !(HU i) by (try exact Hi; lia); reflexivity.
Qed.

Lemma moved_stable md c s tx ty cons' :
  wf_model md -> node_rows_ok md -> continuum_or_truss md -> flags01 2 cons' -> length cons' = length (md_nodes md) -> c * c + s * s = 1 ->
  supports_follow c s md (moved c s tx ty cons' md) -> accepted md -> stable md ->
  accepted (moved c s tx ty cons' md) /\ stable (moved c s tx ty cons' md).
Proof.
  intros Hwf Hrows Hty Hf Hl Hcs HS Hacc Hst. pose proof (moved_wf c s tx ty cons' md Hwf Hf Hl) as Hwf'.
  assert (Hok : forall e, In e (md_elements md) -> exists k m, retriever e (md_mats md) (md_nodes md) None = Ok (k, m)).
  { intros e He. unfold accepted in Hacc. rewrite Forall_forall in Hacc. destruct (Hacc e He) as (_ & k & m & Hk). eauto. }
  assert (HL : length (md_nodes (moved c s tx ty cons' md)) = length (md_nodes md)) by apply map_length.
  split.
  - unfold accepted in *. rewrite Forall_forall in *. intros e He. cbn [moved md_elements] in He. destruct (Hacc e He) as ((t & H1 & H2 & H3 & H4) & k & m & Hk). split.
    + exists t. repeat split; auto. cbn [moved md_cons]. pose proof Hwf as (_ & HLc & _). rewrite Hl, <- HLc. exact H4.
    + destruct (moved_elem md c s tx ty e k _ Hwf Hrows Hty Hcs He Hk) as (k' & m' & Hk' & _). exists k', m'. exact Hk'.
  - intros U' HU' i d Hi Hd.
    assert (H0 : forall i d, (i < length (md_nodes md))%nat -> (d < 2)%nat -> turned c (- s) U' i d = 0).
    { apply Hst. intros a b Ha Hb. split.
      - assert (A : admissible (moved c s tx ty cons' md) U') by (intros p q Hp Hq C; exact (proj1 (HU' p q Hp Hq) C)).
        exact (moved_back c s md _ _ Hwf Hcs HL HS A a b Ha Hb).
      - intros C. rewrite <- (Rmult_1_l (internal_force _ _ _ _ _ _)).
        apply (transfer md (moved c s tx ty cons' md) c s 1 _ (fun _ _ => 0) (fun _ _ => 0)); auto.
        + apply moved_forms; assumption.
        + intros V HV. apply HS. exact HV.
        + intros p q Hp Hq C'. rewrite <- (proj2 (HU' p q Hp Hq) C'). apply internal_ext; [exact Hwf'|].
          intros x y Hx Hy. apply turned_back; assumption.
        + intros p q Hp Hq. destruct q; cbn [turned]; ring. }
    rewrite HL in Hi. rewrite <- (turned_back c s U' i d Hcs Hd).
    destruct d as [|[|]]; [| |lia]; cbn [turned] in *; rewrite <- (Rmult_0_r 1);
      pose proof (H0 i 0%nat Hi ltac:(lia)) as E0; pose proof (H0 i 1%nat Hi ltac:(lia)) as E1; cbn [turned] in E0, E1; rewrite E0, E1; ring.
Qed.
