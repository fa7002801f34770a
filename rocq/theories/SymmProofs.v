(** * Lemmas: mirror images of elements *)
From Coq Require Import String Reals List Arith Lia Lra Bool ZArith QArith Qreals Permutation.
From Verif Require Import Num LinAlg Gauss Fem Uel Spec LinR Base ElemShape BarProofs SpecElem SpecShape ShapeProofs ElemCore Sampled Elem2 Elem2Props Elem2Mass
  MatProofs ElemFinal2 Assem Main SpecAssem SpecModel SpecOrder OrderProofs OrderProofs2 SpecSymm.
Import ListNotations.
Local Open Scope R_scope.

Definition flipped_shape (n : nat) (sh : shape2) (o : list nat) (rot : R -> R -> R * R) (a00 a01 a10 a11 m : R) : Prop :=
  order n o /\ a00 * a11 - a01 * a10 = m /\
  forall r t k, (k < n)%nat -> let D' := snd (sh (fst (rot r t)) (snd (rot r t))) in
    ent (snd (sh r t)) 0 k = a00 * ent D' 0 (nth k o 0%nat) + a10 * ent D' 1 (nth k o 0%nat) /\
    ent (snd (sh r t)) 1 k = a01 * ent D' 0 (nth k o 0%nat) + a11 * ent D' 1 (nth k o 0%nat).
(** dofs of the image *)
Definition img (sx sy : R) (o : list nat) (u : nat -> R) (j : nat) : R := sgn sx sy (j mod 2) * pf 2 o u j.

Lemma img_even sx sy o u k : img sx sy o u (2 * k) = sx * u (2 * nth k o 0)%nat.
Proof.
  unfold img. replace ((2 * k) mod 2)%nat with 0%nat by (rewrite Nat.mul_comm, Nat.mod_mul by lia; reflexivity). cbn [sgn].
  rewrite <- (Nat.add_0_r (2 * k)), pf_at by lia. rewrite Nat.add_0_r. reflexivity.
Qed.
Lemma img_odd sx sy o u k : img sx sy o u (2 * k + 1) = sy * u (2 * nth k o 0 + 1)%nat.
Proof.
  unfold img. replace ((2 * k + 1) mod 2)%nat with 1%nat by (rewrite Nat.add_comm, Nat.mul_comm, Nat.mod_add by lia; reflexivity). cbn [sgn].
  rewrite pf_at by lia. reflexivity.
Qed.

Section Flip.
  Variables (n : nat) (sh : shape2) (o : list nat) (rot : R -> R -> R * R) (a00 a01 a10 a11 sx sy tx ty : R).
  Hypothesis HO : order n o.
  Hypothesis HS : signs sx sy.
  Hypothesis HA : a00 * a11 - a01 * a10 = sx * sy.
  Hypothesis HD : forall r t k, (k < n)%nat -> let D' := snd (sh (fst (rot r t)) (snd (rot r t))) in
    ent (snd (sh r t)) 0 k = a00 * ent D' 0 (nth k o 0%nat) + a10 * ent D' 1 (nth k o 0%nat) /\
    ent (snd (sh r t)) 1 k = a01 * ent D' 0 (nth k o 0%nat) + a11 * ent D' 1 (nth k o 0%nat).
  Hypothesis HU : forall r t a, (a < 2)%nat -> rsum n (fun k => ent (snd (sh r t)) a k) = 0.
  Variables (coord coord' : list (list R)).
  Hypothesis HC : forall k, (k < n)%nat -> ent coord' k 0 = sx * ent coord (nth k o 0%nat) 0 + tx /\ ent coord' k 1 = sy * ent coord (nth k o 0%nat) 1 + ty.

  Lemma sg_sq : sx * sx = 1 /\ sy * sy = 1.
  Proof. destruct HS as [[-> | ->] [-> | ->]]; split; ring. Qed.
  Lemma flip_jac r t b : (b < 2)%nat -> let J := Jac n (snd (sh (fst (rot r t)) (snd (rot r t)))) coord in
    let J' := Jac n (snd (sh r t)) coord' in
    J' 0%nat b = sgn sx sy b * (a00 * J 0%nat b + a10 * J 1%nat b) /\ J' 1%nat b = sgn sx sy b * (a01 * J 0%nat b + a11 * J 1%nat b).
  Proof.
    intros Hb. cbv zeta. set (D := snd (sh (fst (rot r t)) (snd (rot r t)))).
    set (T := match b with O => tx | _ => ty end).
    assert (HC' : forall k, (k < n)%nat -> ent coord' k b = sgn sx sy b * ent coord (nth k o 0%nat) b + T).
    { intros k Hk. destruct (HC k Hk) as [E0 E1]. unfold T. destruct b as [|[|]]; [exact E0|exact E1|lia]. }
    assert (G : forall a, (a < 2)%nat -> Jac n (snd (sh r t)) coord' a b = rsum n (fun k => ent (snd (sh r t)) a k * (sgn sx sy b * ent coord (nth k o 0%nat) b))).
    { intros a Ha. unfold Jac. transitivity (rsum n (fun k => ent (snd (sh r t)) a k * (sgn sx sy b * ent coord (nth k o 0%nat) b)) + T * rsum n (fun k => ent (snd (sh r t)) a k)).
      - rewrite <- rsum_scal, <- rsum_plus. apply rsum_ext. intros k Hk. rewrite HC' by exact Hk. ring.
      - rewrite HU by exact Ha. ring. }
    rewrite !G by lia. unfold Jac.
    rewrite <- (rsum_order n o (fun k => ent D 0 k * ent coord k b) HO), <- (rsum_order n o (fun k => ent D 1 k * ent coord k b) HO).
    rewrite <- !rsum_scal, <- !rsum_plus, <- !rsum_scal. split; apply rsum_ext; intros k Hk;
      destruct (HD r t k Hk) as [E0 E1]; fold D in E0, E1; rewrite ?E0, ?E1; ring.
  Qed.
  Lemma flip_det r t : det_at n sh coord' r t = det_at n sh coord (fst (rot r t)) (snd (rot r t)).
  Proof.
    unfold det_at, J2det. destruct (flip_jac r t 0 ltac:(lia)) as [-> ->]. destruct (flip_jac r t 1 ltac:(lia)) as [-> ->]. cbn [sgn]. destruct sg_sq as [Qx Qy].
    set (J := Jac n _ coord). transitivity ((sx * sy) * (a00 * a11 - a01 * a10) * (J 0%nat 0%nat * J 1%nat 1%nat - J 0%nat 1%nat * J 1%nat 0%nat)); [ring|].
    rewrite HA. transitivity ((sx * sx) * (sy * sy) * (J 0%nat 0%nat * J 1%nat 1%nat - J 0%nat 1%nat * J 1%nat 0%nat)); [ring|rewrite Qx, Qy; ring].
  Qed.
  Lemma flip_grad r t a k : (k < n)%nat -> (a < 2)%nat ->
    grad2 n (snd (sh r t)) coord' a k = sgn sx sy a * grad2 n (snd (sh (fst (rot r t)) (snd (rot r t)))) coord a (nth k o 0%nat).
  Proof.
    intros Hk Ha. unfold grad2. pose proof (flip_det r t) as E. unfold det_at in E. cbv zeta. rewrite E. clear E. destruct sg_sq as [Qx Qy].
    destruct (flip_jac r t 0 ltac:(lia)) as [-> ->]. destruct (flip_jac r t 1 ltac:(lia)) as [-> ->]. destruct (HD r t k Hk) as [-> ->]. cbn [sgn].
    set (J := Jac n _ coord). set (D := snd _). set (q := nth k o 0%nat). unfold Rdiv. destruct a as [|[|]]; [| |lia]; cbn [sgn]; rewrite <- Rmult_assoc; f_equal.
    - transitivity (sy * (a00 * a11 - a01 * a10) * (J 1%nat 1%nat * ent D 0 q - J 0%nat 1%nat * ent D 1 q)); [ring|].
      rewrite HA. transitivity ((sy * sy) * (sx * (J 1%nat 1%nat * ent D 0 q - J 0%nat 1%nat * ent D 1 q))); [ring|rewrite Qy; ring].
    - transitivity (sx * (a00 * a11 - a01 * a10) * (J 0%nat 0%nat * ent D 1 q - J 1%nat 0%nat * ent D 0 q)); [ring|].
      rewrite HA. transitivity ((sx * sx) * (sy * (J 0%nat 0%nat * ent D 1 q - J 1%nat 0%nat * ent D 0 q))); [ring|rewrite Qx; ring].
  Qed.
  Lemma flip_strain r t u a : (a < 3)%nat ->
    strain2 n (snd (sh r t)) coord' (img sx sy o u) a =
    (match a with 2%nat => sx * sy | _ => 1 end) * strain2 n (snd (sh (fst (rot r t)) (snd (rot r t)))) coord u a.
  Proof.
    intros Ha. set (G := grad2 n (snd (sh (fst (rot r t)) (snd (rot r t)))) coord). destruct sg_sq as [Qx Qy].
    unfold strain2. fold G. destruct a as [|[|[|]]]; [| | |lia].
    - rewrite <- (rsum_order n o (fun k => G 0%nat k * u (2 * k)%nat) HO), <- rsum_scal. apply rsum_ext. intros k Hk.
      rewrite flip_grad, img_even by (try exact Hk; lia). fold G. cbn [sgn]. transitivity ((sx * sx) * (G 0%nat (nth k o 0%nat) * u (2 * nth k o 0)%nat)); [ring|rewrite Qx; ring].
    - rewrite <- (rsum_order n o (fun k => G 1%nat k * u (2 * k + 1)%nat) HO), <- rsum_scal. apply rsum_ext. intros k Hk.
      rewrite flip_grad, img_odd by (try exact Hk; lia). fold G. cbn [sgn]. transitivity ((sy * sy) * (G 1%nat (nth k o 0%nat) * u (2 * nth k o 0 + 1)%nat)); [ring|rewrite Qy; ring].
    - rewrite <- (rsum_order n o (fun k => G 1%nat k * u (2 * k)%nat + G 0%nat k * u (2 * k + 1)%nat) HO), <- rsum_scal. apply rsum_ext. intros k Hk.
      rewrite !flip_grad, img_even, img_odd by (try exact Hk; lia). fold G. cbn [sgn]. ring.
  Qed.
End Flip.

Lemma planes_unity p r t a : In p planes -> (a < 2)%nat -> rsum (pl_n p) (fun k => ent (snd (pl_sh p r t)) a k) = 0.
Proof.
  intros Hp Ha. repeat (destruct Hp as [<-|Hp]; [cbn [pl_n pl_sh pl_quad4 pl_tri6 pl_tri3 pl_quad9 pl_quad8];
    destruct a as [|[|]]; [| |lia]; shp; unfold ent; cbn [rsum nth]; field|]). destruct Hp.
Qed.

Lemma flip_plane p o rot a00 a01 a10 a11 sx sy tx ty coord coord' params K K' m m' : In p planes -> signs sx sy ->
  flipped_shape (pl_n p) (pl_sh p) o rot a00 a01 a10 a11 (sx * sy) -> invariant rot (pl_gq p) ->
  (forall k, (k < pl_n p)%nat -> ent coord' k 0 = sx * ent coord (nth k o 0%nat) 0 + tx /\ ent coord' k 1 = sy * ent coord (nth k o 0%nat) 1 + ty) ->
  pl_f p coord params = Ok (K, m) -> pl_f p coord' params = Ok (K', m') ->
  forall u v, form (2 * pl_n p) K' (img sx sy o u) (img sx sy o v) = form (2 * pl_n p) K u v.
Proof.
  intros Hp HS (HO & HA & HD) HI HC Hf Hf' u v.
  destruct (plane_summary p coord params K _ Hp Hf) as (E & nu & rho & M & Hpar & _ & _ & _ & HK).
  destruct (plane_summary p coord' params K' _ Hp Hf') as (E' & nu' & rho' & M' & Hpar' & _ & _ & _ & HK').
  rewrite Hpar in Hpar'. injection Hpar' as <- <- <-.
  rewrite (sa_K _ _ _ _ _ _ _ _ HK'), (sa_K _ _ _ _ _ _ _ _ HK). unfold gs_of. rewrite !lsum_map.
  rewrite <- (proj2 HI (fun q => vK 3 (umat_R E nu) u v (gdat2 (pl_n p) (pl_sh p) coord (pl_c p) q))). apply lsum_ext. intros [[r t] w] _.
  assert (HU : forall r t a, (a < 2)%nat -> rsum (pl_n p) (fun k => ent (snd (pl_sh p r t)) a k) = 0) by (intros; apply planes_unity; assumption).
  unfold vK, gdat2, rot3. cbn [g_w g_eps]. rewrite (flip_det _ _ o rot _ _ _ _ sx sy tx ty HO HS HA HD HU coord coord' HC). f_equal.
  rewrite !umat_form. rewrite !(flip_strain _ _ o rot _ _ _ _ sx sy tx ty HO HS HA HD HU coord coord' HC) by lia.
  destruct HS as [[-> | ->] [-> | ->]]; ring.
Qed.

(** ** the orders *)
Definition opposite (r t : R) : R * R := (- r, - t).
Definition back (r t : R) : R * R := (t, - r).
Definition swapped (r t : R) : R * R := (t, r).
Definition over_r (r t : R) : R * R := (- r, t).
Definition over_t (r t : R) : R * R := (r, - t).
Definition cross (r t : R) : R * R := (- t, - r).
Ltac inv_two := destruct gq_two as (b & ->); split;
  [intros q Hq; repeat (destruct Hq as [<-|Hq]; [cbn; rewrite ?Ropp_involutive; tauto|]); destruct Hq|intros f; cbn; rewrite ?Ropp_involutive; ring].
Ltac inv_three := destruct gq_three as (b & v & w & ->); split;
  [intros q Hq; repeat (destruct Hq as [<-|Hq]; [cbn; rewrite ?Ropp_involutive, ?Ropp_0, ?(Rmult_comm w v); tauto|]); destruct Hq
  |intros f; cbn; rewrite ?Ropp_involutive, ?Ropp_0, ?(Rmult_comm w v); ring].
Ltac flipped_tac := cbn [pl_n pl_sh pl_quad4 pl_tri6 pl_tri3 pl_quad9]; split; [is_order|split; [lra|]]; intros r t k Hk; cbv zeta;
  do 9 (try (destruct k as [|k]; [first [exfalso; lia|clear Hk]|])); try (exfalso; lia);
  unfold quarter, opposite, back, swapped, over_r, over_t, cross; cbn [fst snd nth]; shp; unfold ent; cbn [nth]; split; field.

Lemma gq_seven : exists a b c d e w0 w1 w2, pl_gq pl_tri6 = [(a, a, w1); (b, a, w1); (a, b, w1); (c, d, w2); (c, c, w2); (d, c, w2); (e, e, w0)].
Proof.
  exists (Q2R 0.1012865073235), (Q2R 0.7974269853531), (Q2R 0.4701420641051), (Q2R 0.0597158717898), (Q2R 0.3333333333333).
  do 3 eexists. unfold pl_tri6. cbn [pl_gq]. unfold triples, gauss_tri. cbn [GaussTab.gauss_tri_tab].
  unfold GaussTab.gauss_tri_3_4_5_pts, GaussTab.gauss_tri_3_4_5_wts. cbn [map combine fst snd nth]. numR. reflexivity.
Qed.

Definition fits (p : plane) (o : list nat) (m : R) : Prop :=
  exists rot a00 a01 a10 a11, flipped_shape (pl_n p) (pl_sh p) o rot a00 a01 a10 a11 m /\ invariant rot (pl_gq p).
Ltac fit rot a b c d inv := exists rot, a, b, c, d; split; [flipped_tac|inv].
Lemma quad4_flips o : In o (flips 1) -> fits pl_quad4 o (-1).
Proof.
  intros [<-|[<-|[<-|[<-|[]]]]]; [fit swapped 0 1 1 0 inv_two|fit over_r (-1) 0 0 1 inv_two|fit cross 0 (-1) (-1) 0 inv_two|fit over_t 1 0 0 (-1) inv_two].
Qed.
Lemma quad4_spins o : In o (spins 1) -> fits pl_quad4 o 1.
Proof.
  intros [<-|[<-|[<-|[<-|[]]]]]; [fit (@pair R R) 1 0 0 1 ltac:(apply still)|fit quarter 0 (-1) 1 0 ltac:(apply quarter_two)|fit opposite (-1) 0 0 (-1) inv_two|fit back 0 1 (-1) 0 inv_two].
Qed.
Lemma quad9_flips o : In o (flips 4) -> fits pl_quad9 o (-1).
Proof.
  intros [<-|[<-|[<-|[<-|[]]]]]; [fit swapped 0 1 1 0 inv_three|fit over_r (-1) 0 0 1 inv_three|fit cross 0 (-1) (-1) 0 inv_three|fit over_t 1 0 0 (-1) inv_three].
Qed.
Lemma quad9_spins o : In o (spins 4) -> fits pl_quad9 o 1.
Proof.
  intros [<-|[<-|[<-|[<-|[]]]]]; [fit (@pair R R) 1 0 0 1 ltac:(apply still)|fit quarter 0 (-1) 1 0 ltac:(apply quarter_three)|fit opposite (-1) 0 0 (-1) inv_three|fit back 0 1 (-1) 0 inv_three].
Qed.
Lemma tri3_flips o : In o (flips 3) -> fits pl_tri3 o (-1).
Proof.
  intros [<-|[<-|[<-|[]]]]; [fit (@pair R R) 0 1 1 0 ltac:(apply still)|fit (@pair R R) (-1) (-1) 0 1 ltac:(apply still)|fit (@pair R R) 1 0 (-1) (-1) ltac:(apply still)].
Qed.
Lemma tri3_spins o : In o (spins 3) -> fits pl_tri3 o 1.
Proof.
  intros [<-|[<-|[<-|[]]]]; [fit (@pair R R) 1 0 0 1 ltac:(apply still)|fit (@pair R R) (-1) (-1) 1 0 ltac:(apply still)|fit (@pair R R) 0 1 (-1) (-1) ltac:(apply still)].
Qed.
Lemma tri6_flips o : In o (flips 2) -> fits pl_tri6 o (-1).
Proof.
  intros [<-|[]]. exists swapped, 0, 1, 1, 0. split; [flipped_tac|].
  destruct gq_seven as (a & b & c & d & e & w0 & w1 & w2 & ->). split;
  [intros q Hq; repeat (destruct Hq as [<-|Hq]; [cbn; tauto|]); destruct Hq|intros f; cbn; ring].
Qed.
Lemma tri6_spins o : In o (spins 2) -> fits pl_tri6 o 1.
Proof. intros [<-|[]]. fit (@pair R R) 1 0 0 1 ltac:(apply still). Qed.

(** ** one element *)
Definition suited (m : R) (t : Z) (o : list nat) : Prop := (m = -1 /\ In o (flips t)) \/ (m = 1 /\ In o (spins t)).
Lemma suited_order m t o n : type_nodes t = Some n -> suited m t o -> order n o.
Proof.
  intros Ht H. unfold type_nodes in Ht. destruct t as [|q|q]; try discriminate.
  do 4 (try (destruct q as [q|q|]; try discriminate)); injection Ht as <-; destruct H as [[_ H]|[_ H]]; cbn in H;
    repeat (destruct H as [<-|H]; [is_order|]); destruct H.
Qed.

Lemma flip_truss xa ya xb yb xa' ya' xb' yb' params K K' m m' o sx sy tx ty : signs sx sy -> In o [[0; 1]; [1; 0]]%nat ->
  (forall k, (k < 2)%nat -> ent [[xa'; ya']; [xb'; yb']] k 0 = sx * ent [[xa; ya]; [xb; yb]] (nth k o 0%nat) 0 + tx /\
     ent [[xa'; ya']; [xb'; yb']] k 1 = sy * ent [[xa; ya]; [xb; yb]] (nth k o 0%nat) 1 + ty) ->
  truss2D [[xa; ya]; [xb; yb]] params = Ok (K, m) -> truss2D [[xa'; ya']; [xb'; yb']] params = Ok (K', m') ->
  forall u v, form 4 K' (img sx sy o u) (img sx sy o v) = form 4 K u v.
Proof.
  intros HS Ho HC Hf Hf' u v. destruct (HC 0%nat ltac:(lia)) as [X0 Y0]. destruct (HC 1%nat ltac:(lia)) as [X1 Y1]. unfold ent in X0, Y0, X1, Y1. cbn [nth] in X0, Y0, X1, Y1.
  apply truss_inv in Hf. destruct Hf as (nx & ny & L & y & a & r & Ha & Hp & -> & ->).
  apply truss_inv in Hf'. destruct Hf' as (nx' & ny' & L' & y' & a' & r' & Ha' & Hp' & -> & ->). subst params. injection Hp' as <- <- <-.
  pose proof (axis_point _ _ _ _ _ _ _ Ha) as (HL & EL & Enx & Eny). pose proof (axis_point _ _ _ _ _ _ _ Ha') as (HL' & EL' & Enx' & Eny').
  rewrite !axial_form.
  pose proof (img_even sx sy o u 0) as U0. pose proof (img_odd sx sy o u 0) as U1. pose proof (img_even sx sy o u 1) as U2. pose proof (img_odd sx sy o u 1) as U3.
  pose proof (img_even sx sy o v 0) as V0. pose proof (img_odd sx sy o v 0) as V1. pose proof (img_even sx sy o v 1) as V2. pose proof (img_odd sx sy o v 1) as V3.
  cbn [Nat.mul Nat.add] in U0, U1, U2, U3, V0, V1, V2, V3. rewrite U0, U1, U2, U3, V0, V1, V2, V3.
  assert (G : L' = L).
  { rewrite EL, EL'. unfold bar_len. f_equal. destruct Ho as [<-|[<-|[]]]; cbn [nth] in *; rewrite X0, Y0, X1, Y1; destruct HS as [[-> | ->] [-> | ->]]; ring. }
  clear EL EL'. subst L'.
  destruct Ho as [<-|[<-|[]]]; cbn [nth Nat.mul Nat.add] in *; rewrite Enx, Eny, Enx', Eny', X0, Y0, X1, Y1; destruct HS as [[-> | ->] [-> | ->]]; field; lra.
Qed.
