(** * Proofs: solid elements (tet4, hex8) as sampled matrices *)
From Coq Require Import String Reals List Arith Lia Lra Bool ZArith QArith Qreals.
From Verif Require Import Num LinAlg Gauss Fem Uel Spec LinR Base ElemShape BarProofs SpecElem SpecShape ShapeProofs ElemCore Sampled Elem2 MatProofs.
Import ListNotations.
Local Open Scope R_scope.

(** ** gradients in space *)
Definition grad3g (n : nat) (D coord : list (list R)) (a k : nat) : R :=
  rsum 3 (fun b => cof3 (Jac n D coord) a b / J3det (Jac n D coord) * ent D b k).

Lemma cof3_left J a b : (a < 3)%nat -> (b < 3)%nat -> J3det J <> 0 ->
  rsum 3 (fun i => cof3 J a i / J3det J * J i b) = if (a =? b)%nat then 1 else 0.
Proof.
  intros Ha Hb Hd. cbn [rsum]. unfold cof3, J3det in *.
  do 3 (destruct a as [|a]; [do 3 (destruct b as [|b]; [cbn [Nat.eqb]; field; exact Hd|]); lia|]). lia.
Qed.
Lemma cof3_right J a b : (a < 3)%nat -> (b < 3)%nat -> J3det J <> 0 ->
  rsum 3 (fun i => J a i * (cof3 J i b / J3det J)) = if (a =? b)%nat then 1 else 0.
Proof.
  intros Ha Hb Hd. cbn [rsum]. unfold cof3, J3det in *.
  do 3 (destruct a as [|a]; [do 3 (destruct b as [|b]; [cbn [Nat.eqb]; field; exact Hd|]); lia|]). lia.
Qed.

Lemma grad3_lin n D coord a z :
  rsum n (fun k => grad3g n D coord a k * z k) =
  rsum 3 (fun b => cof3 (Jac n D coord) a b / J3det (Jac n D coord) * rsum n (fun k => ent D b k * z k)).
Proof.
  unfold grad3g.
  transitivity (rsum n (fun k => rsum 3 (fun b => cof3 (Jac n D coord) a b / J3det (Jac n D coord) * (ent D b k * z k)))).
  { apply rsum_ext; intros k _. rewrite <- rsum_scal_r. apply rsum_ext; intros b _. ring. }
  rewrite rsum_swap. apply rsum_ext; intros b _. rewrite rsum_scal. reflexivity.
Qed.

Lemma grad3_coord n D coord a b : (a < 3)%nat -> (b < 3)%nat -> J3det (Jac n D coord) <> 0 ->
  rsum n (fun k => grad3g n D coord a k * ent coord k b) = if (a =? b)%nat then 1 else 0.
Proof.
  intros Ha Hb Hd. rewrite grad3_lin. rewrite <- (cof3_left (Jac n D coord) a b) by assumption. reflexivity.
Qed.

Lemma grad3_one n D coord a : (forall b, (b < 3)%nat -> rsum n (ent D b) = 0) -> rsum n (grad3g n D coord a) = 0.
Proof.
  intros H0. transitivity (rsum n (fun k => grad3g n D coord a k * 1)); [apply rsum_ext; intros; ring|].
  rewrite grad3_lin. apply rsum_zero. intros b Hb. rewrite rsum_scal_r, H0 by exact Hb. ring.
Qed.

(** ** H and B *)
Definition G3 (n : nat) (D coord : list (list R)) (u : nat -> R) (a b : nat) : R :=
  rsum n (fun k => grad3g n D coord a k * u (3 * k + b)%nat).
Definition strain_of (G : nat -> nat -> R) (a : nat) : R :=
  match a with
  | 0%nat => G 0%nat 0%nat
  | 1%nat => G 1%nat 1%nat
  | 2%nat => G 2%nat 2%nat
  | 3%nat => G 2%nat 1%nat + G 1%nat 2%nat
  | 4%nat => G 2%nat 0%nat + G 0%nat 2%nat
  | _ => G 1%nat 0%nat + G 0%nat 1%nat
  end.
Definition strain3 (n : nat) (D coord : list (list R)) (u : nat -> R) : nat -> R := strain_of (G3 n D coord u).
Definition value3 (n : nat) (N : list R) (u : nat -> R) (a : nat) : R :=
  rsum n (fun k => nth k N 0 * u (3 * k + a)%nat).

Definition good3 (n : nat) (sh : R -> R -> R -> list R * list (list R)) : Prop :=
  forall r s t, length (fst (sh r s t)) = n /\ shape 3 n (snd (sh r s t)).

Lemma dNdx3 n D coord a k : (a < 3)%nat -> (k < n)%nat ->
  nth k (nth a (mmul 3 3 n (minv 3 (J3det (Jac n D coord)) (mmul 3 n 3 D coord)) D) []) 0 = grad3g n D coord a k.
Proof.
  intros Ha Hk. rewrite nth_row_mmul by assumption. unfold grad3g. apply rsum_ext; intros b Hb.
  rewrite minv3_ent by assumption. reflexivity.
Qed.

Lemma diff3_inv n sh coord r s t Hm B det :
  good3 n sh -> elast_diff_3d r s t coord sh = Ok (Hm, B, det) ->
  let N := fst (sh r s t) in let D := snd (sh r s t) in
  length coord = n /\ ncols coord = 3%nat /\ det = J3det (Jac n D coord) /\ 1 / 100000000 < det /\
  (forall u a, (a < 6)%nat -> act (3 * n) B u a = strain3 n D coord u a) /\
  (forall u a, (a < 3)%nat -> act (3 * n) Hm u a = value3 n N u a).
Proof.
  intros Hg Hd. cbv zeta. unfold elast_diff_3d in Hd. destruct (Hg r s t) as [HN HD].
  destruct (sh r s t) as [N D]. cbn [fst snd] in *.
  inv_ok Hd. destruct r0 as [det' Ji]. apply (jacoper_inv 3 n) in Hr; auto.
  destruct Hr as [H1 [H2 [H3 [H4 H5]]]]. rewrite HN in Hd.
  apply Ok_pair_inj in Hd. destruct Hd as [Hd <-]. apply pair_equal_spec in Hd. destruct Hd as [<- <-].
  cbn [Jdet] in H3. subst Ji det'.
  repeat (split; [assumption || reflexivity|]).
  split.
  - intros u a Ha. unfold act. rewrite rsum_three. unfold strain3, strain_of, G3.
    do 6 (destruct a as [|a];
      [rewrite <- ?rsum_plus; apply rsum_ext; intros k Hk;
       repeat (rewrite (ent_strided _ n 3 _ _ _ _ _ (3 * k) k 0) by lia);
       repeat (rewrite (ent_strided _ n 3 _ _ _ _ _ (3 * k + 1) k 1) by lia);
       repeat (rewrite (ent_strided _ n 3 _ _ _ _ _ (3 * k + 2) k 2) by lia);
       cbn [Nat.eqb andb]; rewrite ?dNdx3 by lia; rewrite ?ent_zeros; rewrite ?Nat.add_0_r; ring|]). lia.
  - intros u a Ha. unfold act. rewrite rsum_three. unfold value3.
    do 3 (destruct a as [|a];
      [apply rsum_ext; intros k Hk;
       repeat (rewrite (ent_strided _ n 3 _ _ _ _ _ (3 * k) k 0) by lia);
       repeat (rewrite (ent_strided _ n 3 _ _ _ _ _ (3 * k + 1) k 1) by lia);
       repeat (rewrite (ent_strided _ n 3 _ _ _ _ _ (3 * k + 2) k 2) by lia);
       cbn [Nat.eqb andb]; rewrite ?ent_zeros; rewrite ?Nat.add_0_r; ring|]). lia.
Qed.

Lemma diff3_total n sh coord r s t :
  good3 n sh -> length coord = n -> ncols coord = 3%nat ->
  1 / 100000000 < J3det (Jac n (snd (sh r s t)) coord) ->
  exists Hm B, elast_diff_3d r s t coord sh = Ok (Hm, B, J3det (Jac n (snd (sh r s t)) coord)).
Proof.
  intros Hg Hl Hc Hdet. unfold elast_diff_3d. destruct (Hg r s t) as [HN HD].
  destruct (sh r s t) as [N D]. cbn [fst snd] in *.
  rewrite (jacoper_spec 3 n) by auto. rewrite Hl, Hc, !Nat.eqb_refl. cbv zeta. cbn [Jdet].
  destruct (Rle_dec _ _) as [H|H]; [rewrite Rabs_pos_eq in H; lra|].
  destruct (Rlt_dec _ _) as [H'|H']; [lra|]. cbn [bind]. do 2 eexists. reflexivity.
Qed.

(** ** the quadrature loop *)
Definition shape3 := R -> R -> R -> list R * list (list R).
Definition det_at3 (n : nat) (sh : shape3) (coord : list (list R)) (r s t : R) : R :=
  J3det (Jac n (snd (sh r s t)) coord).
Definition gdat3 (n : nat) (sh : shape3) (coord : list (list R)) (c : R) (q : R * R * R * R) : gdat :=
  let '(r, s, t, w) := q in
  mkG (c * (det_at3 n sh coord r s t * w)) (strain3 n (snd (sh r s t)) coord) (value3 n (fst (sh r s t))).
Definition pts3 (gq : list (R * R * R * R)) : list (list R * R) :=
  map (fun q => let '(r, s, t, w) := q in ([r; s; t], w)) gq.

Definition accepted3 (n : nat) (sh : shape3) (gq : list (R * R * R * R)) (coord : list (list R)) : Prop :=
  length coord = n /\ ncols coord = 3%nat /\
  forall r s t w, In (r, s, t, w) gq -> 1 / 100000000 < det_at3 n sh coord r s t.

Lemma solid_inv n sh gq coord C c sK sM dens K M :
  good3 n sh -> gq <> [] ->
  (forall det w, sK det w = c * (det * w)) -> (forall det w, sM det w = dens * (c * (det * w))) ->
  integrate 6 3 (3 * n) (diff3 coord sh) C sK sM (pts3 gq) = Ok (K, M) ->
  accepted3 n sh gq coord /\ sampled 6 3 (3 * n) C dens (map (gdat3 n sh coord c) gq) K M.
Proof.
  intros Hg Hne HsK HsM Hi. pose proof (integrate_shape _ _ _ _ _ _ _ _ _ _ Hi) as [SK SM].
  apply integrate_inv in Hi. destruct Hi as [data [HF [HK HM]]].
  assert (Hrel : Forall2 (fun q d => let '(r, s, t, w) := q in let '(Hm, B, det, w') := (d : gpt) in
      w' = w /\ elast_diff_3d r s t coord sh = Ok (Hm, B, det)) gq data).
  { clear -HF. unfold pts3 in HF. revert data HF. induction gq as [|[[[r s] t] w] gq IH]; intros data HF; inversion HF; subst; constructor.
    - destruct y as [[[Hm B] det] w']. cbn in H1. destruct H1 as [H1 H2]. split; [symmetry; exact H2|exact H1].
    - apply IH. assumption. }
  clear HF. split.
  - assert (Hall : forall r s t w, In (r, s, t, w) gq -> exists Hm B det, elast_diff_3d r s t coord sh = Ok (Hm, B, det)).
    { intros r s t w Hin. clear -Hrel Hin. induction Hrel as [|q d gq data H HF IH]; [destruct Hin|].
      destruct Hin as [->|Hin]; [|apply IH; exact Hin]. destruct d as [[[Hm B] det] w']. destruct H as [_ H].
      exists Hm, B, det. exact H. }
    destruct gq as [|[[[r0 s0] t0] w0] gq']; [congruence|].
    split; [|split].
    + destruct (Hall r0 s0 t0 w0) as [Hm [B [det H]]]; [left; reflexivity|].
      apply (diff3_inv n) in H; [|exact Hg]. apply H.
    + destruct (Hall r0 s0 t0 w0) as [Hm [B [det H]]]; [left; reflexivity|].
      apply (diff3_inv n) in H; [|exact Hg]. apply H.
    + intros r s t w Hin. destruct (Hall r s t w Hin) as [Hm [B [det H]]].
      apply (diff3_inv n) in H; [|exact Hg]. cbv zeta in H. destruct H as [_ [_ [E [H _]]]].
      unfold det_at3. rewrite <- E. exact H.
  - constructor; try assumption; intros u v.
    + rewrite HK. rewrite lsum_map. clear -Hrel HsK Hg.
      induction Hrel as [|[[[r s] t] w] [[[Hm B] det] w'] gq data [Hw H] HF IH]; [reflexivity|].
      cbn [lsum fold_right]. f_equal; [|exact IH]. subst w'. unfold gK, vK, gdat3. cbn [g_w g_eps].
      apply (diff3_inv n) in H; [|exact Hg]. cbv zeta in H.
      destruct H as [_ [_ [E [_ [H0 _]]]]]. rewrite HsK. unfold det_at3. rewrite <- E. f_equal.
      apply form_ext; intros j Hj; apply H0; exact Hj.
    + rewrite HM. rewrite lsum_map. rewrite <- lsum_scal. clear -Hrel HsM Hg.
      induction Hrel as [|[[[r s] t] w] [[[Hm B] det] w'] gq data [Hw H] HF IH]; [reflexivity|].
      cbn [lsum fold_right]. f_equal; [|exact IH]. subst w'. unfold gM, vM, gdat3. cbn [g_w g_val].
      apply (diff3_inv n) in H; [|exact Hg]. cbv zeta in H.
      destruct H as [_ [_ [E [_ [_ H0]]]]]. rewrite HsM. unfold det_at3. rewrite <- E. rewrite <- !Rmult_assoc. f_equal.
      apply rsum_ext; intros a Ha. rewrite !H0 by exact Ha. reflexivity.
Qed.

Lemma solid_total n sh gq coord C sK sM :
  good3 n sh -> accepted3 n sh gq coord ->
  exists KM, integrate 6 3 (3 * n) (diff3 coord sh) C sK sM (pts3 gq) = Ok KM.
Proof.
  intros Hg [H1 [H2 H3]]. apply integrate_total. intros pw Hin. apply in_map_iff in Hin.
  destruct Hin as [[[[r s] t] w] [<- Hin]]. cbn [fst]. unfold diff3. cbn [unpack3 bind].
  destruct (diff3_total n sh coord r s t Hg H1 H2 (H3 r s t w Hin)) as [Hm [B H]]. eexists. exact H.
Qed.

(** ** the two solid elements *)
Record solid := mkSolid {
  so_f : uel_fun R;
  so_n : nat;
  so_sh : shape3;
  so_gq : list (R * R * R * R);
  so_c : R
}.

Definition quads (g : res (list (list R) * list R)) : list (R * R * R * R) :=
  match g with
  | Ok (p, w) => map (fun pw => (nth 0 (fst pw) 0, nth 1 (fst pw) 0, nth 2 (fst pw) 0, snd pw)) (combine p w)
  | Err _ => []
  end.

Definition so_tet4 := mkSolid elast_tet4 4 shape_tet4 (quads (gauss_tet 3)) (1/6).
Definition so_hex8 := mkSolid elast_hex8 8 shape_hex8 (quads (gauss_nd 2 3)) 1.
Definition solids : list solid := [so_tet4; so_hex8].

Lemma good3_all p : In p solids -> good3 (so_n p) (so_sh p).
Proof.
  intros Hin r s t. repeat (destruct Hin as [<-|Hin]; [split; [reflexivity|split; [reflexivity|repeat constructor]]|]).
  destruct Hin.
Qed.

Lemma solid_eq p coord params K m : In p solids -> so_f p coord params = Ok (K, m) ->
  exists E nu rho C sK sM M, params = [E; nu; rho] /\ elast_mat [E; nu] = Ok C /\
    (forall det w, sK det w = so_c p * (det * w)) /\
    (forall det w, sM det w = rho * (so_c p * (det * w))) /\
    integrate 6 3 (3 * so_n p) (diff3 coord (so_sh p)) C sK sM (pts3 (so_gq p)) = Ok (K, M) /\ m = M2 M.
Proof.
  intros Hin. repeat (destruct Hin as [<-|Hin]).
  - cbn [so_f so_tet4 so_c so_n so_sh so_gq]. unfold elast_tet4. intros Hf.
    destruct params as [|E [|nu [|rho [|? ?]]]]; try discriminate. cbn [params3 bind] in Hf.
    inv_ok Hf. inv_ok Hf. destruct r0 as [gp gw].
    apply wrap_integrate in Hf. destruct Hf as [M [Hi ->]].
    exists E, nu, rho, r. eexists _, _, M.
    split; [reflexivity|]. split; [exact Hr|].
    split; [|split; [|split; [rewrite <- Hi; cbn in Hr0; apply Ok_pair_inj in Hr0; destruct Hr0 as [<- <-]; reflexivity|reflexivity]]];
      intros; cbv beta; numR; field.
  - cbn [so_f so_hex8 so_c so_n so_sh so_gq]. unfold elast_hex8. intros Hf.
    destruct params as [|E [|nu [|rho [|? ?]]]]; try discriminate. cbn [params3 bind] in Hf.
    inv_ok Hf. inv_ok Hf. destruct r0 as [gp gw].
    apply wrap_integrate in Hf. destruct Hf as [M [Hi ->]].
    exists E, nu, rho, r. eexists _, _, M.
    split; [reflexivity|]. split; [exact Hr|].
    split; [|split; [|split; [rewrite <- Hi; cbn in Hr0; apply Ok_pair_inj in Hr0; destruct Hr0 as [<- <-]; reflexivity|reflexivity]]];
      intros; cbv beta; numR; ring.
  - destruct Hin.
Qed.
