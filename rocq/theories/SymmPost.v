(** * Lemmas: recovered strains of symmetric structures *)
From Coq Require Import Reals List Arith Lia Lra Bool ZArith QArith Qreals Permutation.
From Verif Require PostProofs AssemProofs3.
From Verif Require Import Num LinAlg Gauss Fem Uel Assem Post Main Spec LinR Base SpecAssem SpecModel SpecElem SpecPost SpecStatic SpecFrame SpecOrder
  ElemCore ElemShape ShapeProofs Sampled Elem2 Elem2Props Elem2Mass ElemFinal2 PostMore PostFinal OrderProofs OrderProofs2 FrameProofs StrainFrame SpecSymm SymmProofs SymmFinal.
Import ListNotations.
Local Open Scope R_scope.

Definition follow_points (n : nat) (o : list nat) (rot : R -> R -> R * R) (pts : list (list R)) : Prop :=
  forall k, (k < n)%nat ->
    ((k < length pts)%nat /\ (nth k o 0 < length pts)%nat /\
      nth 0 (nth (nth k o 0%nat) pts []) 0 = fst (rot (nth 0 (nth k pts []) 0) (nth 1 (nth k pts []) 0)) /\
      nth 1 (nth (nth k o 0%nat) pts []) 0 = snd (rot (nth 0 (nth k pts []) 0) (nth 1 (nth k pts []) 0))) \/
    ((length pts <= k)%nat /\ (length pts <= nth k o 0)%nat).

Lemma same_points n pts : follow_points n (seq 0 n) (@pair R R) pts.
Proof.
  intros k Hk. rewrite seq_nth by exact Hk. cbn [Nat.add fst snd]. destruct (Nat.lt_ge_cases k (length pts)); [left|right]; auto.
Qed.

Definition fits_points (p : plane) (o : list nat) (m : R) (pts : list (list R)) : Prop :=
  exists rot a00 a01 a10 a11, flipped_shape (pl_n p) (pl_sh p) o rot a00 a01 a10 a11 m /\ follow_points (pl_n p) o rot pts.

Ltac one_point := intros k Hk; cbn in Hk; destruct k as [|[|[|]]]; [left; cbn; repeat split; lia || reflexivity|right; cbn; lia|right; cbn; lia|lia].
Lemma aligned_fit t n sh rule pts wts o m : In (t, n, sh, rule) post_cases -> rule = Ok (pts, wts) -> suited m t o -> aligned t o ->
  exists p, In p planes /\ pl_sh p = sh /\ pl_n p = n /\ fits_points p o m pts.
Proof.
  intros [H|[H|[H|[]]]] Hr Ho Ha; repeat (apply pair_equal_spec in H; destruct H as [H <-]); subst t; cbn in Ha.
  - exists pl_quad4. split; [cbn; tauto|]. split; [reflexivity|]. split; [reflexivity|]. subst o.
    destruct Ho as [[-> Ho]|[-> Ho]]; [exfalso; cbn in Ho; repeat (destruct Ho as [Ho|Ho]; [discriminate Ho|]); destruct Ho|].
    exists (@pair R R), 1, 0, 0, 1. split; [flipped_tac|apply (same_points 4)].
  - exists pl_tri6. split; [cbn; tauto|]. split; [reflexivity|]. split; [reflexivity|].
    destruct Ho as [[-> [<-|[]]]|[-> [<-|[]]]].
    + exists swapped, 0, 1, 1, 0. split; [flipped_tac|]. apply Ok_inj in Hr. apply pair_equal_spec in Hr. destruct Hr as [<- _].
      intros k Hk. cbn in Hk. do 6 (destruct k as [|k]; [left; cbn; repeat split; lia || reflexivity|]). lia.
    + exists (@pair R R), 1, 0, 0, 1. split; [flipped_tac|apply (same_points 6)].
  - exists pl_tri3. split; [cbn; tauto|]. split; [reflexivity|]. split; [reflexivity|]. apply Ok_inj in Hr. apply pair_equal_spec in Hr. destruct Hr as [<- _].
    destruct Ho as [[-> [<-|[<-|[<-|[]]]]]|[-> [<-|[<-|[<-|[]]]]]]; try discriminate Ha.
    + exists (@pair R R), 0, 1, 1, 0. split; [flipped_tac|one_point].
    + exists (@pair R R), 1, 0, 0, 1. split; [flipped_tac|one_point].
Qed.

Lemma e_coords_ent nodes e k : (k < e_n e)%nat ->
  ent (e_coords nodes e) k 0 = ent nodes (e_node e k) 1 /\ ent (e_coords nodes e) k 1 = ent nodes (e_node e k) 2.
Proof.
  intros Hk. unfold ent at 1 3, e_coords, e_node. rewrite <- !(AssemProofs3.nth_skipn _ 3).
  rewrite (PostProofs.map_nth_def _ _ k 0%Z []) by (rewrite skipn_length; exact Hk). split; reflexivity.
Qed.
Lemma strain2_scal n D coord c u a : strain2 n D coord (fun j => c * u j) a = c * strain2 n D coord u a.
Proof. unfold strain2. destruct a as [|[|]]; rewrite <- rsum_scal; apply rsum_ext; intros; ring. Qed.
Lemma strain2_ext n D coord u v a : (forall j, (j < 2 * n)%nat -> u j = v j) -> strain2 n D coord u a = strain2 n D coord v a.
Proof. intros H. unfold strain2. destruct a as [|[|]]; apply rsum_ext; intros k Hk; rewrite ?H by lia; reflexivity. Qed.

Definition comp (sx sy : R) (a : nat) : R := match a with 2%nat => sx * sy | _ => 1 end.

Section Rows.
  Variables (sx sy tx ty c : R) (s : nat -> nat) (md : model).
  Hypothesis HY : symmetry sx sy tx ty s md.
  Variables (t : Z) (n : nat) (sol : list (list R)).
  Let N := length (md_nodes md).
  Let els := md_elements md.
  Hypothesis Htn : In (t, n) [(1%Z, 4%nat); (2%Z, 6%nat); (3%Z, 3%nat)].
  Hypothesis Hm : mesh_of t n N els.
  Hypothesis HL : listed_alike sx sy s md.
  Hypothesis Hlen : length sol = N.
  Hypothesis HF : follows sx sy c s N (ent sol).

  (** what is gathered at the image *)
  Lemma gathered_image i (g : list Z -> nat -> R) (l : R) : (i < N)%nat ->
    (forall e e' o, In e els -> In e' els -> kept_image sx sy s e e' -> suited (sx * sy) t o -> aligned t o ->
       e_n e = n -> e_n e' = n -> nth_error e' 2 = nth_error e 2 -> (forall k, (k < n)%nat -> e_node e' k = s (e_node e (nth k o 0%nat))) ->
       forall k, (k < n)%nat -> g e' k = l * g e (nth k o 0%nat)) ->
    gathered els (s i) g = l * gathered els i g.
  Proof.
    intros Hi Hg. pose proof (sy_node _ _ _ _ _ _ HY) as HN. fold N in HN. destruct HL as (els' & HP & HI). fold els in HP, HI.
    unfold gathered. rewrite <- lsum_scal. rewrite <- (lsum_permuted _ _ _ HP). symmetry. apply lsum_pairs.
    assert (HI' : Forall2 (fun e e' => In e els /\ In e' els /\ kept_image sx sy s e e') els els').
    { assert (G : forall l l', (forall x, In x l -> In x els) -> (forall x, In x l' -> In x els) -> Forall2 (kept_image sx sy s) l l' ->
        Forall2 (fun e e' => In e els /\ In e' els /\ kept_image sx sy s e e') l l').
      { clear. intros l l' H1 H2 H. induction H as [|x y l l' Hxy H IH]; [apply Forall2_nil|]. apply Forall2_cons.
        - split; [apply H1; left; reflexivity|]. split; [apply H2; left; reflexivity|exact Hxy].
        - apply IH; intros z Hz; [apply H1|apply H2]; right; exact Hz. }
      apply G; [auto| |exact HI]. intros x Hx. apply (Permutation_in x HP Hx). }
    clear HI HP. induction HI' as [|e e' l1 l2 (He & He' & HK) _ IH]; [apply Forall2_nil|]. apply Forall2_cons; [|exact IH]. clear IH.
    pose proof HK as (t' & o & Ht & Ht' & Hmat & Ho & Ha & HS).
    pose proof Hm as Hm'. unfold mesh_of in Hm'. rewrite Forall_forall in Hm'. destruct (Hm' e He) as (L & T & _ & F). destruct (Hm' e' He') as (L' & _).
    assert (t' = t) by (pose proof (nth_error_nth _ _ 0%Z Ht) as X; congruence). subst t'.
    assert (En : e_n e = n) by (unfold e_n; lia). assert (En' : e_n e' = n) by (unfold e_n; lia).
    assert (HO : order n o).
    { apply (suited_order (sx * sy) t); [|exact Ho]. clear - Htn. destruct Htn as [H|[H|[H|[]]]]; apply pair_equal_spec in H; destruct H as [<- <-]; reflexivity. }
    assert (Hno : forall k, (k < n)%nat -> e_node e' k = s (e_node e (nth k o 0%nat))).
    { intros k Hk. assert (HLo : length o = n) by apply HO. unfold e_node. rewrite <- !(AssemProofs3.nth_skipn _ 3). rewrite HS.
      rewrite (PostProofs.map_nth_def _ _ k 0%Z 0%Z) by (rewrite pick_length; lia). rewrite pick_nth by lia. rewrite Nat2Z.id. reflexivity. }
    rewrite En, En'. rewrite <- (rsum_order n o (fun k => if (e_node e k =? i)%nat then g e k else 0) HO), <- rsum_scal. apply rsum_ext. intros k Hk.
    rewrite (Hg e e' o He He' HK Ho Ha En En' Hmat Hno k Hk). rewrite Hno by exact Hk.
    assert (HX : (e_node e (nth k o 0%nat) < N)%nat) by (apply (mesh_nodes t n N els); [exact Hm|exact He|rewrite En; apply HO; exact Hk]).
    set (x := e_node e (nth k o 0%nat)) in *. destruct (HN x HX) as [_ Hxx]. destruct (HN i Hi) as [_ Hii].
    replace (s x =? s i)%nat with (x =? i)%nat; [destruct (x =? i)%nat; ring|].
    destruct (Nat.eqb_spec x i) as [->|D]; symmetry; [apply Nat.eqb_refl|apply Nat.eqb_neq; intros Q; apply D; rewrite <- Hxx, <- Hii, Q; reflexivity].
  Qed.

  Lemma rows_image E S : strain_rows (md_nodes md) els (md_mats md) sol = Ok (E, S) -> rows_mirrored sx sy c s N E /\ rows_mirrored sx sy c s N S.
  Proof.
    intros HR. destruct (case_of t n Htn) as (sh & rule & pts & wts & Hc & Hru).
    destruct (nodal_average t n sh rule pts wts N (md_nodes md) els (md_mats md) sol E S Hc Hru Hm eq_refl Hlen HR) as (eps & E1 & E2 & E3).
    pose proof (sy_node _ _ _ _ _ _ HY) as HN. fold N in HN.
    assert (HE : forall e e' o, In e els -> In e' els -> suited (sx * sy) t o -> aligned t o -> e_n e = n -> e_n e' = n ->
       (forall k, (k < n)%nat -> e_node e' k = s (e_node e (nth k o 0%nat))) ->
       forall k a, (k < n)%nat -> (a < 3)%nat -> eps e' k a = c * comp sx sy a * eps e (nth k o 0%nat) a).
    { intros e e' o He He' Ho Ha En En' Hno k a Hk Hal.
      destruct (aligned_fit t n sh rule pts wts o (sx * sy) Hc Hru Ho Ha) as (p & Hp & Hsh & Hn & rot & a00 & a01 & a10 & a11 & (HO & HA & HD) & HPt).
      rewrite Hn in *. destruct (HPt k Hk) as [(K1 & K2 & K3 & K4)|(K1 & K2)]; [|rewrite !E2 by assumption; ring].
      pose proof (E1 e' k He' K1) as A'. pose proof (E1 e _ He K2) as A. rewrite <- Hsh in A, A'.
      apply strain_at_strain2 in A; [|exact Hp]. apply strain_at_strain2 in A'; [|exact Hp]. destruct A as [_ A]. destruct A' as [_ A'].
      rewrite A, A' by exact Hal. rewrite K3, K4, Hn. set (r0 := nth 0 (nth k pts []) 0). set (t0 := nth 1 (nth k pts []) 0).
      assert (HNd : forall j, (j < n)%nat -> (e_node e j < N)%nat) by (intros j Hj; apply (mesh_nodes t n N els); [exact Hm|exact He|rewrite En; exact Hj]).
      assert (HCo : forall j, (j < n)%nat -> ent (e_coords (md_nodes md) e') j 0 = sx * ent (e_coords (md_nodes md) e) (nth j o 0%nat) 0 + tx /\
                       ent (e_coords (md_nodes md) e') j 1 = sy * ent (e_coords (md_nodes md) e) (nth j o 0%nat) 1 + ty).
      { intros j Hj. assert (Hoj : (nth j o 0 < n)%nat) by (apply HO; exact Hj).
        destruct (e_coords_ent (md_nodes md) e' j ltac:(lia)) as [-> ->]. destruct (e_coords_ent (md_nodes md) e (nth j o 0%nat) ltac:(lia)) as [-> ->].
        rewrite Hno by exact Hj. apply (sy_at _ _ _ _ _ _ HY). apply HNd. exact Hoj. }
      assert (HU : forall r t a, (a < 2)%nat -> rsum n (fun k => ent (snd (pl_sh p r t)) a k) = 0) by (intros; rewrite <- Hn; apply planes_unity; assumption).
      rewrite (strain2_ext n _ _ (e_field sol e') (fun j => c * img sx sy o (e_field sol e) j)).
      - rewrite strain2_scal.
        rewrite (flip_strain n (pl_sh p) o rot a00 a01 a10 a11 sx sy tx ty HO (sy_signs _ _ _ _ _ _ HY) HA HD HU _ _ HCo) by exact Hal.
        unfold comp. ring.
      - intros j Hj.
        assert (GJ : exists q b, (q < n)%nat /\ (b < 2)%nat /\ j = (2 * q + b)%nat).
        { exists (j / 2)%nat, (j mod 2)%nat. split; [apply Nat.div_lt_upper_bound; lia|]. split; [apply Nat.mod_upper_bound; lia|apply Nat.div_mod; lia]. }
        destruct GJ as (q & b & Hq & Hb & ->). assert (Hoq : (nth q o 0 < n)%nat) by (apply HO; exact Hq).
        destruct b as [|[|]]; [| |lia].
        + rewrite Nat.add_0_r, img_even. unfold e_field. rewrite !field2_even. rewrite Hno by exact Hq. rewrite HF by (auto; lia). cbn [sgn]. ring.
        + rewrite img_odd. unfold e_field. rewrite !field2_odd. rewrite Hno by exact Hq. rewrite HF by (auto; lia). cbn [sgn]. ring. }
    assert (HS : forall e e' o, In e els -> In e' els -> suited (sx * sy) t o -> aligned t o -> e_n e = n -> e_n e' = n -> nth_error e' 2 = nth_error e 2 ->
       (forall k, (k < n)%nat -> e_node e' k = s (e_node e (nth k o 0%nat))) ->
       forall k a, (k < n)%nat -> (a < 3)%nat -> hooke2 (e_young (md_mats md) e') (e_nu (md_mats md) e') (eps e' k) a =
         c * comp sx sy a * hooke2 (e_young (md_mats md) e) (e_nu (md_mats md) e) (eps e (nth k o 0%nat)) a).
    { intros e e' o He He' Ho Ha En En' Hmat Hno k a Hk Hal. pose proof (HE e e' o He He' Ho Ha En En' Hno k) as G.
      assert (M : nth 2 e' 0%Z = nth 2 e 0%Z).
      { pose proof Hm as Hm'. unfold mesh_of in Hm'. rewrite Forall_forall in Hm'. destruct (Hm' e He) as (L & _). destruct (Hm' e' He') as (L' & _).
        rewrite (nth_error_nth' e 0%Z) in Hmat by lia. rewrite (nth_error_nth' e' 0%Z) in Hmat by lia. congruence. }
      unfold e_young, e_nu. rewrite M. destruct a as [|[|[|]]]; [| | |lia]; cbn [hooke2]; rewrite ?(G 0%nat), ?(G 1%nat), ?(G 2%nat) by (auto; lia); cbn [comp]; ring. }
    assert (HOc : forall i, (i < N)%nat -> occurs els (s i) = occurs els i).
    { intros i Hi. unfold occurs. rewrite (gathered_image i _ 1 Hi); [ring|]. intros. ring. }
    assert (HG : forall i a, (i < N)%nat -> (a < 3)%nat -> gathered els (s i) (fun e k => eps e k a) = c * comp sx sy a * gathered els i (fun e k => eps e k a)).
    { intros i a Hi Hal. apply gathered_image; [exact Hi|]. intros e e' o He He' _ Ho Ha En En' _ Hno k Hk. exact (HE e e' o He He' Ho Ha En En' Hno k a Hk Hal). }
    assert (HGs : forall i a, (i < N)%nat -> (a < 3)%nat -> gathered els (s i) (fun e k => hooke2 (e_young (md_mats md) e) (e_nu (md_mats md) e) (eps e k) a) =
      c * comp sx sy a * gathered els i (fun e k => hooke2 (e_young (md_mats md) e) (e_nu (md_mats md) e) (eps e k) a)).
    { intros i a Hi Hal. apply gathered_image; [exact Hi|]. intros e e' o He He' _ Ho Ha En En' Hmat Hno k Hk. exact (HS e e' o He He' Ho Ha En En' Hmat Hno k a Hk Hal). }
    split; intros i Hi; destruct (HN i Hi) as [Hsi _]; destruct (E3 i Hi) as [X0 X1]; destruct (E3 (s i) Hsi) as [Y0 Y1]; rewrite HOc in Y0, Y1 by exact Hi;
      destruct (Req_EM_T (occurs els i) 0) as [Z|Z]; try (left; split; [apply (X0 Z)|apply (Y0 Z)]);
      destruct (X1 Z) as (er & sr & P1 & P2 & P3 & P4 & P5); destruct (Y1 Z) as (er' & sr' & Q1 & Q2 & Q3 & Q4 & Q5); right.
    - exists er, er'. split; [exact P1|]. split; [exact Q1|].
      assert (G : forall a, (a < 3)%nat -> nth a er' 0 = c * comp sx sy a * nth a er 0).
      { intros a Hal. apply Rmult_eq_reg_r with (occurs els i); [|exact Z]. rewrite (proj1 (Q5 a Hal)), HG by assumption. rewrite <- (proj1 (P5 a Hal)). ring. }
      rewrite !G by lia. cbn [comp]. split; [ring|]. split; ring.
    - exists sr, sr'. split; [exact P2|]. split; [exact Q2|].
      assert (G : forall a, (a < 3)%nat -> nth a sr' 0 = c * comp sx sy a * nth a sr 0).
      { intros a Hal. apply Rmult_eq_reg_r with (occurs els i); [|exact Z]. rewrite (proj2 (Q5 a Hal)), HGs by assumption. rewrite <- (proj2 (P5 a Hal)). ring. }
      rewrite !G by lia. cbn [comp]. split; [ring|]. split; ring.
  Qed.
End Rows.

Lemma tri6_alike sx sy tx ty s md : symmetry sx sy tx ty s md -> mesh_of 2 6 (length (md_nodes md)) (md_elements md) -> listed_alike sx sy s md.
Proof.
  intros HY Hm. destruct (sy_elements _ _ _ _ _ _ HY) as (els & HP & HF). exists els. split; [exact HP|]. clear HP.
  unfold mesh_of in Hm. induction HF as [|e e' l l' H _ IH]; [apply Forall2_nil|]. apply Forall_cons_iff in Hm. destruct Hm as [(L & T & _) Hm].
  apply Forall2_cons; [|exact (IH Hm)]. destruct H as (t & o & H1 & H2 & H3 & H4 & H5). exists t, o. repeat (split; [assumption|]). split; [|exact H5].
  pose proof (nth_error_nth _ _ 0%Z H1) as X. assert (E : t = 2%Z) by congruence. clear X. rewrite E. exact I.
Qed.
