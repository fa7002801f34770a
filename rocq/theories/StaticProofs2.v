(** * Lemmas: stability of connected and supported plane meshes *)
From Coq Require Import Reals List Arith Lia Lra Bool ZArith Relations.
From Verif Require Import Num LinAlg Fem Uel Assem Post Main Spec LinR Base SpecAssem SpecModel SpecElem SpecPost SpecModes SpecStatic
  ElemShape AssemProofs AssemProofs2 AssemProofs3 AssemProofs4 ModelProofs ModelProofs2 BarProofs Elem2Modes Elem2Modes2 ElemFinal ElemFinal2 ElemFinal3 MeshProofs StaticProofs.
From Verif Require PostFinal.
Import ListNotations.
Local Open Scope R_scope.

(** the coordinates given to the element routine *)
Definition e_coord (nodes : list (list R)) (e : list Z) : list (list R) :=
  map (@tl R) (map (fun z => nth (Z.to_nat z) nodes []) (skipn 3 e)).

Lemma e_coord_length nodes e : length (e_coord nodes e) = e_n e.
Proof. unfold e_coord, e_n. rewrite !map_length, skipn_length. reflexivity. Qed.
Lemma e_coord_row nodes e k : (k < e_n e)%nat -> nth k (e_coord nodes e) [] = tl (nth (e_node e k) nodes []).
Proof.
  intros Hk. unfold e_coord. rewrite map_map. rewrite (nth_indep _ [] ((fun z => tl (nth (Z.to_nat z) nodes [])) 0%Z)).
  - rewrite (map_nth (fun z => tl (nth (Z.to_nat z) nodes []))). rewrite nth_skipn. reflexivity.
  - rewrite map_length, skipn_length. exact Hk.
Qed.
Lemma e_coord_ent nodes e k j : (k < e_n e)%nat -> ent (e_coord nodes e) k j = ent nodes (e_node e k) (S j).
Proof. intros Hk. unfold ent. rewrite e_coord_row by exact Hk. destruct (nth (e_node e k) nodes []); [destruct j; reflexivity|reflexivity]. Qed.

Lemma np_get_inv {A} (e : list A) z k : np_get e (Z.of_nat k) = Ok z -> nth_error e k = Some z.
Proof.
  intros Hz. destruct (nth_error e k) eqn:E; [rewrite (np_get_error _ _ _ E) in Hz; congruence|].
  apply nth_error_None in E. rewrite np_get_overflow in Hz by lia. discriminate.
Qed.

Lemma retrieved md e k m : wf_model md -> In e (md_elements md) -> retriever e (md_mats md) (md_nodes md) None = Ok (k, m) ->
  exists t im pr f, nth_error e 1 = Some t /\ nth_error e 2 = Some im /\ np_get (md_mats md) im = Ok pr /\
    @ele_fun R Num_R t = Ok f /\ f (e_coord (md_nodes md) e) pr = Ok (k, m) /\ e_stiff (md_mats md) (md_nodes md) e = k.
Proof.
  intros (_ & _ & Hel & _) He Hr. rewrite Forall_forall in Hel. specialize (Hel e He).
  assert (HS : e_stiff (md_mats md) (md_nodes md) e = k) by (unfold e_stiff; rewrite Hr; reflexivity).
  apply retriever_builtin in Hr. destruct Hr as (t & im & pr & rs & f & Ht & Hi & Hp & Hrs & Hf & Hk).
  rewrite (mapM_rows _ _ Hel) in Hrs. apply Ok_inj in Hrs. subst rs.
  exists t, im, pr, f. split; [exact (np_get_inv e t 1 Ht)|]. split; [exact (np_get_inv e im 2 Hi)|]. split; [exact Hp|].
  split; [exact Hf|]. split; [exact Hk|exact HS].
Qed.

Lemma rigid2_even coord a b w k : rigid2 coord a b w (2 * k) = a - w * ent coord k 1.
Proof.
  unfold rigid2, affine2, field2. rewrite Nat.even_mul. cbn [Nat.even orb]. rewrite Nat.div2_double. unfold node_x, node_y. ring.
Qed.
Lemma rigid2_odd coord a b w k : rigid2 coord a b w (2 * k + 1) = b + w * ent coord k 0.
Proof.
  unfold rigid2, affine2, field2. rewrite Nat.add_1_r, Nat.even_succ, <- Nat.negb_even, Nat.even_mul. cbn [Nat.even orb negb].
  rewrite Nat.div2_succ_double. unfold node_x, node_y. ring.
Qed.

Lemma straight_same nodes e : e_n e = 9%nat -> straight9 (e_coords nodes e) -> straight9 (e_coord nodes e).
Proof.
  intros Hn. unfold straight9, straight8, halfway, node_x, node_y. rewrite !PostFinal.ent_e_coords by lia. rewrite !e_coord_ent by lia. exact (fun H => H).
Qed.

Lemma sound_plane_spec md e : wf_model md -> In e (md_elements md) -> sound_plane md e ->
  symmetric (2 * e_n e) (e_stiff (md_mats md) (md_nodes md) e) /\ psd (2 * e_n e) (e_stiff (md_mats md) (md_nodes md) e) /\
  forall U, eform md U U e = 0 -> exists a b w, forall k d, (k < e_n e)%nat -> (d < 2)%nat ->
    U (e_node e k) d = node_rigid (md_nodes md) a b w (e_node e k) d.
Proof.
  intros Hwf He ((t & Ht & Hty) & (im & E & nu & rest & Him & Hp & HE & Hnu) & k & m & Hr).
  destruct (retrieved md e k m Hwf He Hr) as (t' & im' & pr & f & Ht' & Him' & Hp' & Hf & Hk & HS).
  assert (t' = t) by congruence. assert (im' = im) by congruence. subst t' im'.
  assert (pr = E :: nu :: rest) by congruence. subst pr.
  assert (G : exists n, e_n e = n /\ In (f, n) plane_list /\
     forall u, form (2 * n) k u u = 0 -> exists a b w, forall j, (j < 2 * n)%nat -> u j = rigid2 (e_coord (md_nodes md) e) a b w j).
  { destruct Hty as [[-> Hn]|[[-> Hn]|[[-> Hn]|[-> [Hn Hst]]]]]; cbn in Hf; apply Ok_inj in Hf; subst f.
    - exists 4%nat. split; [exact Hn|]. split; [cbn; tauto|]. intros u. exact (quad4_modes _ _ k m E nu _ u Hk eq_refl HE Hnu).
    - exists 3%nat. split; [exact Hn|]. split; [cbn; tauto|]. intros u. exact (tri3_modes _ _ k m E nu _ u Hk eq_refl HE Hnu).
    - exists 6%nat. split; [exact Hn|]. split; [cbn; tauto|]. intros u. exact (tri6_modes _ _ k m E nu _ u Hk eq_refl HE Hnu).
    - exists 9%nat. split; [exact Hn|]. split; [cbn; tauto|]. intros u. exact (quad9_modes _ _ k m E nu _ u Hk eq_refl HE Hnu (straight_same _ _ Hn Hst)). }
  destruct G as (n & Hn & Hin & Hmodes).
  destruct (plane_sym_psd f n Hin _ E nu rest k m Hk) as [S1 S2].
  rewrite HS. rewrite Hn. split; [exact S1|]. split; [apply S2; lra|].
  intros U H0. unfold eform in H0. rewrite HS, Hn in H0. destruct (Hmodes _ H0) as (a & b & w & Hj). exists a, b, w.
  intros k' d Hk' Hd. unfold node_rigid. assert (Ed : (d = 0 \/ d = 1)%nat) by lia. destruct Ed as [-> | ->]; cbn [Nat.eqb].
  - rewrite <- e_disp_even, Hj by lia. rewrite rigid2_even, e_coord_ent by lia. reflexivity.
  - rewrite <- e_disp_odd, Hj by lia. rewrite rigid2_odd, e_coord_ent by lia. reflexivity.
Qed.

(** two rigid motions that agree at two different points are equal *)
Lemma rigid_two nodes a b w a' b' w' i j :
  (forall d, (d < 2)%nat -> node_rigid nodes a b w i d = node_rigid nodes a' b' w' i d) ->
  (forall d, (d < 2)%nat -> node_rigid nodes a b w j d = node_rigid nodes a' b' w' j d) ->
  ent nodes i 1 <> ent nodes j 1 \/ ent nodes i 2 <> ent nodes j 2 -> a = a' /\ b = b' /\ w = w'.
Proof.
  intros Hi Hj Hd. pose proof (Hi 0%nat ltac:(lia)) as I0. pose proof (Hi 1%nat ltac:(lia)) as I1.
  pose proof (Hj 0%nat ltac:(lia)) as J0. pose proof (Hj 1%nat ltac:(lia)) as J1.
  unfold node_rigid in *. cbn [Nat.eqb] in *.
  assert (W : w = w').
  { destruct Hd as [Hd|Hd].
    - assert (H0 : (w - w') * (ent nodes i 1 - ent nodes j 1) = 0) by lra.
      apply Rmult_integral in H0. destruct H0; [lra|]. exfalso. apply Hd. lra.
    - assert (H0 : (w - w') * (ent nodes i 2 - ent nodes j 2) = 0) by lra.
      apply Rmult_integral in H0. destruct H0; [lra|]. exfalso. apply Hd. lra. }
  subst w'. repeat split; lra.
Qed.

Definition moves_as (md : model) (U : nat -> nat -> R) a b w (e : list Z) : Prop :=
  forall k d, (k < e_n e)%nat -> (d < 2)%nat -> U (e_node e k) d = node_rigid (md_nodes md) a b w (e_node e k) d.

Lemma supported_stable md : wf_model md -> Forall (sound_plane md) (md_elements md) -> connected md -> supported md -> stable md.
Proof.
  intros Hwf Hs [Hc Hu] Hsup U HU. rewrite Forall_forall in Hs.
  (* strain energy of U vanishes in every element *)
  assert (Z : forall e, In e (md_elements md) -> eform md U U e = 0).
  { apply lsum_nonneg0; [intros e He; apply (sound_plane_spec md e Hwf He (Hs e He))|].
    unfold eform. rewrite <- virtual_work by exact Hwf. apply rsum_zero. intros i Hi. apply rsum_zero. intros d Hd.
    destruct (proj2 (cons_row md i Hwf Hi) d Hd) as [C|C]; [rewrite (proj2 (HU i d Hi Hd) C); ring|rewrite (proj1 (HU i d Hi Hd) C); ring]. }
  assert (M : forall e, In e (md_elements md) -> exists a b w, moves_as md U a b w e).
  { intros e He. apply (sound_plane_spec md e Hwf He (Hs e He)). apply Z. exact He. }
  intros i d Hi Hd. destruct (Hu i Hi) as (e0 & k0 & He0 & Hk0 & Hn0).
  destruct (M e0 He0) as (a & b & w & Ha).
  assert (All : forall e, In e (md_elements md) -> moves_as md U a b w e).
  { intros e He. pose proof (Hc e0 e He0 He) as Hp. clear Hc He. apply clos_rt_rt1n in Hp.
    clear Hk0 Hn0 k0. induction Hp as [x|x y z [Hy Hl] Hp IH]; [exact Ha|]. apply IH; [exact Hy|].
    destruct (M y Hy) as (a' & b' & w' & Hb). destruct Hl as (k1 & k2 & k1' & k2' & H1 & H2 & H1' & H2' & N1 & N2 & Hne).
    assert (Heq : a = a' /\ b = b' /\ w = w').
    { apply (rigid_two (md_nodes md) a b w a' b' w' (e_node x k1) (e_node x k2)); [| |exact Hne].
      - intros d' Hd'. rewrite <- (Ha k1 d' H1 Hd'), N1. apply Hb; assumption.
      - intros d' Hd'. rewrite <- (Ha k2 d' H2 Hd'), N2. apply Hb; assumption. }
    destruct Heq as (-> & -> & ->). exact Hb. }
  assert (Node : forall i d, (i < length (md_nodes md))%nat -> (d < 2)%nat -> U i d = node_rigid (md_nodes md) a b w i d).
  { intros i' d' Hi' Hd'. destruct (Hu i' Hi') as (e & k & He & Hk & <-). apply All; assumption. }
  destruct (Hsup a b w) as (-> & -> & ->).
  { intros i' d' Hi' Hd' C. rewrite <- Node by assumption. exact (proj1 (HU i' d' Hi' Hd') C). }
  rewrite Node by assumption. unfold node_rigid. destruct (d =? 0)%nat; ring.
Qed.
