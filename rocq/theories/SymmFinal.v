(** * Lemmas: symmetric structures *)
From Coq Require Import String Reals List Arith Lia Lra Bool ZArith Permutation.
From Verif Require PostProofs AssemProofs3.
From Verif Require Import Num LinAlg Gauss Fem Uel Spec LinR Base ElemShape BarProofs SpecElem SpecShape ShapeProofs ElemCore Sampled Elem2 Elem2Props Elem2Mass
  MatProofs ElemFinal2 Assem Main SpecAssem SpecModel SpecStatic SpecOrder OrderProofs OrderProofs2 ModelProofs ModelProofs2 StaticProofs StaticProofs2 StaticProofs3 FrameProofs
  SpecSymm SymmProofs.
Import ListNotations.
Local Open Scope R_scope.

Lemma e_n_skipn e : length (skipn 3 e) = e_n e.
Proof. apply skipn_length. Qed.

Section Symm.
  Variables (sx sy tx ty : R) (s : nat -> nat) (md : model).
  Hypothesis HY : symmetry sx sy tx ty s md.
  Hypothesis Hwf : wf_model md.
  Hypothesis Hrows : node_rows_ok md.
  Hypothesis Hty : continuum_or_truss md.
  Let N := length (md_nodes md).

  Lemma image_nodes e e' t o : In e (md_elements md) -> nth_error e 1 = Some t -> suited (sx * sy) t o ->
    skipn 3 e' = map (fun z => Z.of_nat (s (Z.to_nat z))) (pick 0%Z o (skipn 3 e)) ->
    order (e_n e) o /\ e_n e' = e_n e /\ forall k, (k < e_n e)%nat -> e_node e' k = s (e_node e (nth k o 0%nat)).
  Proof.
    intros He Ht Ho HS. unfold continuum_or_truss in Hty. rewrite Forall_forall in Hty. destruct (Hty e He) as (t' & Ht' & Hn).
    assert (t' = t) by congruence. subst t'. pose proof (suited_order _ _ _ _ Hn Ho) as HO. split; [exact HO|].
    assert (HL : length o = e_n e) by apply HO. split.
    - rewrite <- !e_n_skipn, HS, map_length, pick_length, e_n_skipn. exact HL.
    - intros k Hk. unfold e_node. rewrite <- !(AssemProofs3.nth_skipn _ 3). rewrite HS.
      rewrite (PostProofs.map_nth_def _ _ k 0%Z 0%Z) by (rewrite pick_length; lia). rewrite pick_nth by lia. rewrite Nat2Z.id. reflexivity.
  Qed.

  Hypothesis Hok : forall e, In e (md_elements md) -> exists k m, retriever e (md_mats md) (md_nodes md) None = Ok (k, m).

  Lemma image_form e e' : In e (md_elements md) -> In e' (md_elements md) -> image sx sy s e e' ->
    exists o, e_n e' = e_n e /\ (forall k, (k < e_n e)%nat -> (nth k o 0 < e_n e)%nat /\ e_node e' k = s (e_node e (nth k o 0%nat))) /\
      forall u v, form (2 * e_n e') (e_stiff (md_mats md) (md_nodes md) e') (img sx sy o u) (img sx sy o v) =
                  form (2 * e_n e) (e_stiff (md_mats md) (md_nodes md) e) u v.
  Proof.
    intros He He' (t & o & Ht & Ht' & Hm & Ho & HS). change (suited (sx * sy) t o) in Ho.
    destruct (image_nodes e e' t o He Ht Ho HS) as (HO & Hn & HN). exists o. split; [exact Hn|].
    assert (HR : forall k, (k < e_n e)%nat -> (nth k o 0 < e_n e)%nat) by apply HO.
    split; [intros k Hk; split; [apply HR; exact Hk|apply HN; exact Hk]|].
    destruct (Hok e He) as (k & m & Hk). destruct (Hok e' He') as (k' & m' & Hk').
    destruct (retrieved md e k m Hwf He Hk) as (t1 & im & pr & f & Et & Ei & Ep & Ef & Efk & ->).
    destruct (retrieved md e' k' m' Hwf He' Hk') as (t2 & im' & pr' & f' & Et' & Ei' & Ep' & Ef' & Efk' & ->).
    rewrite Ht in Et. injection Et as <-. rewrite Ht' in Et'. injection Et' as <-. rewrite Hm, Ei in Ei'. injection Ei' as <-.
    rewrite Ep in Ep'. apply Ok_inj in Ep'. subst pr'. rewrite Ef in Ef'. apply Ok_inj in Ef'. subst f'.
    assert (HT : type_nodes t = Some (e_n e)).
    { unfold continuum_or_truss in Hty. rewrite Forall_forall in Hty. destruct (Hty e He) as (t' & E' & Hn'). congruence. }
    pose proof (sy_signs _ _ _ _ _ _ HY) as HG.
    assert (Hin : forall x j, In x (md_elements md) -> (j < e_n x)%nat -> (e_node x j < length (md_nodes md))%nat) by (intros x j Hx Hj; exact (e_node_lt md x j Hwf Hx Hj)).
    assert (HE : forall x j b, (j < e_n x)%nat -> ent (e_coord (md_nodes md) x) j b = ent (md_nodes md) (e_node x j) (S b)).
    { intros x j b Hj. unfold ent. rewrite e_coord_row by exact Hj. destruct (nth (e_node x j) (md_nodes md) []); destruct b; reflexivity. }
    assert (HC : forall j, (j < e_n e)%nat ->
      ent (e_coord (md_nodes md) e') j 0 = sx * ent (e_coord (md_nodes md) e) (nth j o 0%nat) 0 + tx /\
      ent (e_coord (md_nodes md) e') j 1 = sy * ent (e_coord (md_nodes md) e) (nth j o 0%nat) 1 + ty).
    { intros j Hj. rewrite !HE by (rewrite ?Hn; auto). rewrite HN by exact Hj. apply (sy_at _ _ _ _ _ _ HY). apply Hin; auto. }
    rewrite Hn. intros u v.
    assert (GP : forall p, In p planes -> pl_f p = f -> pl_n p = e_n e -> fits p o (sx * sy) ->
      form (2 * e_n e) k' (img sx sy o u) (img sx sy o v) = form (2 * e_n e) k u v).
    { intros p Hp Hpf Hpn (rot & a00 & a01 & a10 & a11 & HF & HI). rewrite <- Hpf in Efk, Efk'. rewrite <- Hpn in HC |- *.
      exact (flip_plane p o rot a00 a01 a10 a11 sx sy tx ty _ _ pr k k' m m' Hp HG HF HI HC Efk Efk' u v). }
    assert (G6 : t = 6%Z -> form (2 * e_n e) k' (img sx sy o u) (img sx sy o v) = form (2 * e_n e) k u v).
    { intros ->. cbn in HT. injection HT as H2. symmetry in H2. cbn in Ef. apply Ok_inj in Ef. subst f.
      destruct (e_coord_pair _ e Hrows H2 (fun j => Hin e j He)) as (xa & ya & xb & yb & EC).
      destruct (e_coord_pair _ e' Hrows ltac:(lia) (fun j => Hin e' j He')) as (xa' & ya' & xb' & yb' & EC').
      rewrite EC in *. rewrite EC' in *. rewrite H2 in HC |- *.
      apply (flip_truss xa ya xb yb xa' ya' xb' yb' pr k k' m m' o sx sy tx ty HG); auto. destruct Ho as [[_ Ho]|[_ Ho]]; exact Ho. }
    clear HE Hin. unfold type_nodes in HT. destruct t as [|q|q]; try discriminate.
    do 4 (try (destruct q as [q|q|]; try discriminate)); injection HT as HT; try (apply G6; reflexivity); cbn in Ef; apply Ok_inj in Ef; subst f.
    - apply (GP pl_tri3); [cbn; tauto|reflexivity|exact HT|]. destruct Ho as [[-> Ho]|[-> Ho]]; [apply tri3_flips|apply tri3_spins]; exact Ho.
    - apply (GP pl_quad9); [cbn; tauto|reflexivity|exact HT|]. destruct Ho as [[-> Ho]|[-> Ho]]; [apply quad9_flips|apply quad9_spins]; exact Ho.
    - apply (GP pl_tri6); [cbn; tauto|reflexivity|exact HT|]. destruct Ho as [[-> Ho]|[-> Ho]]; [apply tri6_flips|apply tri6_spins]; exact Ho.
    - apply (GP pl_quad4); [cbn; tauto|reflexivity|exact HT|]. destruct Ho as [[-> Ho]|[-> Ho]]; [apply quad4_flips|apply quad4_spins]; exact Ho.
  Qed.

  Lemma sgn_sq d : sgn sx sy d * sgn sx sy d = 1.
  Proof. destruct (sy_signs _ _ _ _ _ _ HY) as [[-> | ->] [-> | ->]]; destruct d; cbn; ring. Qed.

  Lemma lsum_pairs (f g : list Z -> R) l l' : Forall2 (fun e e' => f e = g e') l l' -> lsum f l = lsum g l'.
  Proof. induction 1 as [|? ? ? ? E _ IH]; [reflexivity|]. unfold lsum in *. cbn [fold_right]. rewrite E, IH. reflexivity. Qed.
  Lemma lsum_permuted (f : list Z -> R) l l' : Permutation l l' -> lsum f l = lsum f l'.
  Proof. intros H. unfold lsum. induction H; cbn [fold_right]; lra. Qed.
  Lemma form_scal_r n K c u v : form n K u (fun j => c * v j) = c * form n K u v.
  Proof. rewrite (form_ext n K u u _ (fun j => c * v j + 0 * v j)) by (intros; ring || reflexivity). rewrite form_add_r. ring. Qed.
  Lemma form_scal_l n K c u v : form n K (fun j => c * u j) v = c * form n K u v.
  Proof. rewrite (form_ext n K _ (fun j => c * u j + 0 * u j) v v) by (intros; ring || reflexivity). rewrite form_add_l. ring. Qed.

  (** nodal forces of the image of a field *)
  Lemma image_force c U i d : (i < N)%nat -> (d < 2)%nat ->
    internal_force (md_mats md) (md_nodes md) (md_elements md) (fun a b => c * sgn sx sy b * U (s a) b) i d =
    c * sgn sx sy d * internal_force (md_mats md) (md_nodes md) (md_elements md) U (s i) d.
  Proof.
    intros Hi Hd. set (W := fun a b => c * sgn sx sy b * U (s a) b).
    pose proof (sy_node _ _ _ _ _ _ HY) as HN. fold N in HN. destruct (HN i Hi) as [Hsi Hss].
    pose proof (virtual_work md (spike i d) W Hwf) as VW. rewrite spike_sum in VW by assumption. rewrite VW. clear VW.
    pose proof (virtual_work md (spike (s i) d) U Hwf) as VU. rewrite spike_sum in VU by assumption. rewrite VU. clear VU.
    destruct (sy_elements _ _ _ _ _ _ HY) as (els & HP & HF). rewrite <- lsum_scal. symmetry.
    etransitivity; [|apply (lsum_permuted _ _ _ HP)]. apply lsum_pairs.
    assert (HF' : Forall2 (fun e e' => In e (md_elements md) /\ In e' (md_elements md) /\ image sx sy s e e') (md_elements md) els).
    { assert (G : forall l l', (forall x, In x l -> In x (md_elements md)) -> (forall x, In x l' -> In x (md_elements md)) -> Forall2 (image sx sy s) l l' ->
        Forall2 (fun e e' => In e (md_elements md) /\ In e' (md_elements md) /\ image sx sy s e e') l l').
      { clear. intros l l' H1 H2 H. induction H as [|x y l l' Hxy H IH]; [apply Forall2_nil|]. apply Forall2_cons.
        - split; [apply H1; left; reflexivity|]. split; [apply H2; left; reflexivity|exact Hxy].
        - apply IH; intros z Hz; [apply H1|apply H2]; right; exact Hz. }
      apply G; [auto| |exact HF]. intros x Hx. apply (Permutation_in x HP Hx). }
    clear HF HP. induction HF' as [|e e' l l' (He & He' & HI) _ IH]; [apply Forall2_nil|]. apply Forall2_cons; [|exact IH]. clear IH.
    destruct (image_form e e' He He' HI) as (o & Hn & Hnode & HF).
    rewrite (Rmult_comm c), Rmult_assoc. rewrite <- form_scal_r, <- form_scal_l, <- HF, Hn.
    assert (Hx : forall k, (k < e_n e)%nat -> (e_node e k < N)%nat) by (intros k Hk; exact (e_node_lt md e k Hwf He Hk)).
    assert (GJ : forall j, (j < 2 * e_n e)%nat -> exists k b, (k < e_n e)%nat /\ (b < 2)%nat /\ j = (2 * k + b)%nat).
    { intros j Hj. exists (j / 2)%nat, (j mod 2)%nat. split; [apply Nat.div_lt_upper_bound; lia|]. split; [apply Nat.mod_upper_bound; lia|apply Nat.div_mod; lia]. }
    apply form_ext; intros j Hj; destruct (GJ j Hj) as (k & b & Hk & Hb & ->); unfold img; rewrite pf_at by exact Hb; unfold e_disp;
      destruct (mod2 k b Hb) as [-> ->]; destruct (mod2 (nth k o 0%nat) b Hb) as [-> ->]; destruct (Hnode k Hk) as [Ho ->];
      set (x := e_node e (nth k o 0%nat)) in *; assert (HX : (x < N)%nat) by (apply Hx; exact Ho); destruct (HN x HX) as [Hsx Hxx].
    - unfold spike. destruct (Nat.eqb_spec b d) as [->|Hne]; [|rewrite !andb_false_r; ring]. rewrite !andb_true_r.
      replace (s x =? i)%nat with (x =? s i)%nat; [destruct (x =? s i)%nat; [rewrite <- Rmult_assoc, sgn_sq; ring|ring]|].
      destruct (Nat.eqb_spec x (s i)) as [E|E]; symmetry; [apply Nat.eqb_eq; rewrite E; exact Hss|apply Nat.eqb_neq; intros F; apply E; rewrite <- F, Hxx; reflexivity].
    - unfold W. rewrite Hxx. ring.
  Qed.
End Symm.

Lemma symmetric_run sx sy tx ty s c md sv plot strains out : wf_model md -> node_rows_ok md -> continuum_or_truss md -> stable md -> solver_ok sv ->
  symmetry sx sy tx ty s md -> c = 1 \/ c = -1 -> follows sx sy c s (length (md_nodes md)) (applied (md_loads md)) ->
  auto sv md plot strains = Ok out ->
  follows sx sy c s (length (md_nodes md)) (table out) /\ follows sx sy c s (length (md_nodes md)) (reaction md (table out)).
Proof.
  intros Hwf Hrows Hty Hst Hsv HY Hc HL Hrun. pose proof (run_retrieved _ _ _ _ _ Hwf Hsv Hrun) as Hok.
  pose proof (run_equilibrium _ _ _ _ _ Hwf Hsv Hrun) as Heq. set (U := table out) in *.
  assert (Hcc : c * c = 1) by (destruct Hc as [-> | ->]; ring).
  assert (HQ : forall d, sgn sx sy d * sgn sx sy d = 1) by (intros d; exact (sgn_sq sx sy tx ty s md HY d)).
  pose proof (image_force sx sy tx ty s md HY Hwf Hrows Hty Hok c U) as HF.
  pose proof (sy_node _ _ _ _ _ _ HY) as HN. pose proof (sy_held _ _ _ _ _ _ HY) as HH.
  assert (HW : in_equilibrium md (fun a b => c * sgn sx sy b * U (s a) b)).
  { intros i d Hi Hd. destruct (HN i Hi) as [Hsi Hss]. destruct (Heq (s i) d Hsi Hd) as [E1 E2]. rewrite HH in E1, E2 by assumption. split; intros C.
    - rewrite E1 by exact C. ring.
    - rewrite HF by assumption. rewrite E2 by exact C. rewrite HL by assumption.
      transitivity ((c * c) * (sgn sx sy d * sgn sx sy d) * applied (md_loads md) i d); [ring|rewrite Hcc, HQ; ring]. }
  pose proof (stable_unique md _ _ Hst Hwf Heq HW) as HU.
  assert (HT : follows sx sy c s (length (md_nodes md)) U).
  { intros i d Hi Hd. destruct (HN i Hi) as [Hsi Hss]. rewrite (HU (s i) d Hsi Hd), Hss. reflexivity. }
  split; [exact HT|]. intros i d Hi Hd. destruct (HN i Hi) as [Hsi Hss]. unfold reaction. rewrite HH by assumption.
  destruct (Req_EM_T (ent (md_cons md) i d) (-1)); [|ring]. rewrite HL by assumption.
  rewrite (internal_ext md U _ (s i) d Hwf HU). rewrite HF by assumption. rewrite Hss. ring.
Qed.

Lemma axis_run sx sy tx ty s c md sv plot strains out : wf_model md -> node_rows_ok md -> continuum_or_truss md -> stable md -> solver_ok sv ->
  symmetry sx sy tx ty s md -> c = 1 \/ c = -1 -> follows sx sy c s (length (md_nodes md)) (applied (md_loads md)) ->
  auto sv md plot strains = Ok out ->
  forall i d, (i < length (md_nodes md))%nat -> (d < 2)%nat -> s i = i -> c * sgn sx sy d = -1 -> table out i d = 0.
Proof.
  intros Hwf Hrows Hty Hst Hsv HY Hc HL Hrun i d Hi Hd Hs HG.
  destruct (symmetric_run _ _ _ _ _ _ _ _ _ _ _ Hwf Hrows Hty Hst Hsv HY Hc HL Hrun) as [HT _]. specialize (HT i d Hi Hd). rewrite Hs, HG in HT. lra.
Qed.
