(** * Proofs: quadrature loop, Jacobian, H and B matrices *)
From Coq Require Import String Reals List Arith Lia Lra Bool ZArith QArith Qreals.
From Verif Require Import Num LinAlg Gauss Fem Uel Spec LinR Base ElemShape BarProofs SpecElem SpecShape ShapeProofs.
Import ListNotations.
Local Open Scope R_scope.

(** ** linearity of form *)
Lemma form_madd n A B u v : form n (madd n n A B) u v = form n A u v + form n B u v.
Proof.
  rewrite !form_double, <- rsum_plus. apply rsum_ext; intros i Hi. rewrite <- rsum_plus.
  apply rsum_ext; intros j Hj. rewrite ent_madd by assumption. ring.
Qed.
Lemma form_mscale n c A u v : form n (mscale c A) u v = c * form n A u v.
Proof.
  rewrite !form_double, <- rsum_scal. apply rsum_ext; intros i Hi. rewrite <- rsum_scal.
  apply rsum_ext; intros j Hj. rewrite ent_mscale. ring.
Qed.
Lemma form_zeros n u v : form n (zeros n n) u v = 0.
Proof. rewrite form_double. apply rsum_zero; intros i Hi. apply rsum_zero; intros j Hj. rewrite ent_zeros. ring. Qed.
Lemma form_gram nd n Hm u v :
  form n (mmul n nd n (mtr nd n Hm) Hm) u v = rsum nd (fun a => act n Hm u a * act n Hm v a).
Proof.
  rewrite form_double.
  transitivity (rsum n (fun i => rsum n (fun j => rsum nd (fun a => (ent Hm a i * u i) * (ent Hm a j * v j))))).
  { apply rsum_ext; intros i Hi. apply rsum_ext; intros j Hj. rewrite ent_mmul by assumption.
    rewrite <- rsum_scal_r, <- rsum_scal. apply rsum_ext; intros a Ha. rewrite ent_mtr by assumption. ring. }
  transitivity (rsum n (fun i => rsum nd (fun a => (ent Hm a i * u i) * act n Hm v a))).
  { apply rsum_ext; intros i Hi. rewrite rsum_swap. apply rsum_ext; intros a Ha. unfold act. rewrite <- rsum_scal. reflexivity. }
  rewrite rsum_swap. apply rsum_ext; intros a Ha. unfold act at 2. rewrite <- rsum_scal_r. reflexivity.
Qed.

(** ** the quadrature loop *)
Definition gpt : Type := (list (list R) * list (list R) * R * R)%type.
Definition gK nst ndof C (sK : R -> R -> R) (u v : nat -> R) (d : gpt) : R :=
  let '(Hm, B, det, w) := d in sK det w * form nst C (act ndof B u) (act ndof B v).
Definition gM nd ndof (sM : R -> R -> R) (u v : nat -> R) (d : gpt) : R :=
  let '(Hm, B, det, w) := d in sM det w * rsum nd (fun a => act ndof Hm u a * act ndof Hm v a).
Definition gOk (diff : list R -> res (list (list R) * list (list R) * R)) (pw : list R * R) (d : gpt) : Prop :=
  let '(Hm, B, det, w) := d in diff (fst pw) = Ok (Hm, B, det) /\ snd pw = w.

Lemma integrate_inv nst nd ndof diff C sK sM (gps : list (list R * R)) K M :
  integrate nst nd ndof diff C sK sM gps = Ok (K, M) ->
  exists data, Forall2 (gOk diff) gps data /\
    (forall u v, form ndof K u v = lsum (gK nst ndof C sK u v) data) /\
    (forall u v, form ndof M u v = lsum (gM nd ndof sM u v) data).
Proof.
  unfold integrate.
  enough (Hgen : forall gps K0 M0 K M,
    foldM
      (fun KM pw =>
         let (K, M) := (KM : list (list R) * list (list R)) in
         let (p, w) := (pw : list R * R) in
         '(Hm, B, det) <- diff p ;;
         let K' := madd ndof ndof K
                     (mscale (sK det w)
                        (mmul ndof nst ndof (mmul ndof nst nst (mtr nst ndof B) C) B)) in
         let M' := madd ndof ndof M
                     (mscale (sM det w) (mmul ndof nd ndof (mtr nd ndof Hm) Hm)) in
         Ok (K', M')) gps (K0, M0) = Ok (K, M) ->
    exists data, Forall2 (gOk diff) gps data /\
      (forall u v, form ndof K u v = form ndof K0 u v + lsum (gK nst ndof C sK u v) data) /\
      (forall u v, form ndof M u v = form ndof M0 u v + lsum (gM nd ndof sM u v) data)).
  { intros Hf. apply Hgen in Hf. destruct Hf as [data [H1 [H2 H3]]]. exists data. split; [exact H1|].
    split; intros u v; [rewrite H2|rewrite H3]; rewrite form_zeros; ring. }
  clear gps K M. induction gps as [|[p w] gps IH]; intros K0 M0 K M Hf; cbn [foldM] in Hf.
  - injection Hf as <- <-. exists []. split; [constructor|]. cbn. split; intros; ring.
  - destruct (diff p) as [[[Hm B] det]|e] eqn:Hd; [|discriminate]. cbn [bind] in Hf.
    apply IH in Hf. destruct Hf as [data [H1 [H2 H3]]].
    exists ((Hm, B, det, w) :: data). split; [constructor; [split; [exact Hd|reflexivity]|exact H1]|].
    split; intros u v; [rewrite H2|rewrite H3]; rewrite form_madd, form_mscale; cbn [lsum fold_right];
      change (fold_right (fun a s => gK nst ndof C sK u v a + s) 0 data) with (lsum (gK nst ndof C sK u v) data);
      change (fold_right (fun a s => gM nd ndof sM u v a + s) 0 data) with (lsum (gM nd ndof sM u v) data);
      cbn [gK gM].
    + change (mmul ndof nst ndof (mmul ndof nst nst (mtr nst ndof B) C) B) with (congr nst ndof B C).
      rewrite form_congr. ring.
    + rewrite form_gram. ring.
Qed.

Lemma integrate_total nst nd ndof diff C sK sM (gps : list (list R * R)) :
  (forall pw, In pw gps -> exists d, diff (fst pw) = Ok d) ->
  exists KM, integrate nst nd ndof diff C sK sM gps = Ok KM.
Proof.
  unfold integrate. generalize (@zeros R Num_R ndof ndof) at 1 as K0. generalize (@zeros R Num_R ndof ndof) as M0.
  induction gps as [|[p w] gps IH]; intros M0 K0 Hd; cbn [foldM]; [eexists; reflexivity|].
  destruct (Hd (p, w)) as [[[Hm B] det] Hp]; [left; reflexivity|]. cbn [fst] in Hp. rewrite Hp. cbn [bind].
  apply IH. intros pw Hin. apply Hd. right. exact Hin.
Qed.

(** matrix from form *)
Lemma act_of_form n K v i : (i < n)%nat -> act n K v i = form n K (unitv i) v.
Proof. intros Hi. symmetry. apply form_unit. exact Hi. Qed.

(** ** strided assignment *)
Lemma ent_strided p n step M i start v a x k c :
  x = (step * k + c)%nat -> (a < p)%nat -> (k < n)%nat -> (c < step)%nat -> (start < step)%nat ->
  ent (set_strided p (step * n) M i start step v) a x =
  (if (a =? i)%nat && (c =? start)%nat then nth k v 0 else ent M a x).
Proof.
  intros -> Ha Hk Hc Hs. unfold set_strided.
  rewrite ent_mk_mat; [|exact Ha|].
  2:{ apply Nat.lt_le_trans with (step * k + step)%nat; [lia|].
      replace (step * k + step)%nat with (step * (k + 1))%nat by ring. apply Nat.mul_le_mono_l. lia. }
  destruct (a =? i)%nat; cbn [andb]; [|apply mget_ent].
  destruct (c =? start)%nat eqn:E.
  - apply Nat.eqb_eq in E. subst c. replace (start <=? step * k + start)%nat with true by (symmetry; apply Nat.leb_le; lia).
    replace (step * k + start - start)%nat with (k * step)%nat by lia.
    rewrite Nat.mod_mul by lia. rewrite Nat.div_mul by lia. reflexivity.
  - apply Nat.eqb_neq in E. destruct (start <=? step * k + c)%nat eqn:E2; cbn [andb]; [|apply mget_ent].
    apply Nat.leb_le in E2.
    destruct ((step * k + c - start) mod step =? 0)%nat eqn:E3; [|apply mget_ent].
    exfalso. apply Nat.eqb_eq in E3. apply E.
    apply Nat.mod_divides in E3; [|lia]. destruct E3 as [q Hq].
    assert (H1 : (step * k + c = step * q + start)%nat) by lia.
    assert (H3 : ((step * k + c) mod step = c)%nat).
    { symmetry. apply (Nat.mod_unique _ step k c); lia. }
    rewrite H1 in H3. assert (H4 : ((step * q + start) mod step = start)%nat).
    { symmetry. apply (Nat.mod_unique _ step q start); lia. }
    congruence.
Qed.

(** ** the Jacobian *)
Lemma nofQ_tol : @nofQ R Num_R 1e-8 = 1 / 100000000.
Proof.
  cbn [nofQ Num_R]. unfold Q2R. change (Qnum 1e-8) with 1%Z. change (Qden 1e-8) with 100000000%positive. lra.
Qed.

Lemma isclose0_spec (x : R) : isclose0 (nabs x) = false <-> 1 / 100000000 < Rabs x.
Proof.
  unfold isclose0. replace (nabs (nabs x)) with (Rabs x).
  2:{ unfold nabs. cbn [nleb n0 nopp Num_R]. destruct (Rle_dec 0 x).
      - destruct (Rle_dec 0 x); [|lra]. apply Rabs_pos_eq. assumption.
      - destruct (Rle_dec 0 (- x)); [|lra]. apply Rabs_left. lra. }
  rewrite nofQ_tol. cbn [nleb Num_R]. destruct (Rle_dec (Rabs x) _); split; intros; try discriminate; try reflexivity; lra.
Qed.

Lemma nltb_spec (x y : R) : nltb x y = true <-> x < y.
Proof. unfold nltb. cbn [nleb Num_R]. destruct (Rle_dec y x); cbn; split; intros; try discriminate; try reflexivity; lra. Qed.
Lemma nltb_false (x y : R) : nltb x y = false <-> y <= x.
Proof. unfold nltb. cbn [nleb Num_R]. destruct (Rle_dec y x); cbn; split; intros; try discriminate; try reflexivity; lra. Qed.

Lemma jac_ent d n D coord a b : (a < d)%nat -> (b < d)%nat -> ent (mmul d n d D coord) a b = Jac n D coord a b.
Proof. intros. rewrite ent_mmul by assumption. reflexivity. Qed.

Lemma ncols_shape p q (D : list (list R)) : (0 < p)%nat -> shape p q D -> ncols D = q.
Proof. intros Hp [H1 H2]. unfold ncols. destruct D as [|r D]; [cbn in H1; lia|]. inversion H2; subst. reflexivity. Qed.

Lemma mdet2 n D coord : mdet 2 (mmul 2 n 2 D coord) = J2det (Jac n D coord).
Proof.
  unfold mdet, det2, J2det. numR. change (@mget R Num_R) with ent. rewrite !jac_ent by lia. reflexivity.
Qed.
Lemma mdet3 n D coord : mdet 3 (mmul 3 n 3 D coord) = J3det (Jac n D coord).
Proof.
  unfold mdet, det3, J3det. numR. change (@mget R Num_R) with ent. rewrite !jac_ent by lia. reflexivity.
Qed.

Lemma jacoper_spec d n D coord : (d = 2 \/ d = 3)%nat -> shape d n D ->
  jacoper D coord =
  if (length coord =? n)%nat then
    if (ncols coord =? d)%nat then
      let det := Jdet d (Jac n D coord) in
      if Rle_dec (Rabs det) (1 / 100000000)
      then Err (ValueError "Jacobian close to zero. Check the shape of your elements!")
      else if Rlt_dec det 0 then Err (ValueError "Jacobian is negative. Check your elements orientation!")
      else Ok (det, minv d det (mmul d n d D coord))
    else Err LinAlgError
  else Err (ValueError "matmul: mismatch in core dimension").
Proof.
  intros Hd HD. unfold jacoper.
  rewrite (ncols_shape d n D) by (auto; lia). destruct HD as [HD1 HD2]. rewrite HD1.
  destruct (length coord =? n)%nat; cbn [guard bind]; [|reflexivity].
  destruct (ncols coord =? d)%nat; cbn [guard bind]; [|reflexivity].
  assert (E : mdet d (mmul d n d D coord) = Jdet d (Jac n D coord)).
  { destruct Hd as [-> | ->]; [apply mdet2|apply mdet3]. }
  rewrite E. cbv zeta. set (det := Jdet d (Jac n D coord)).
  destruct (isclose0 (nabs det)) eqn:E1.
  - destruct (Rle_dec (Rabs det) (1 / 100000000)); [reflexivity|].
    assert (H : 1 / 100000000 < Rabs det) by lra. apply isclose0_spec in H. congruence.
  - apply isclose0_spec in E1. destruct (Rle_dec (Rabs det) (1 / 100000000)) as [Hle|Hle]; [lra|].
    destruct (nltb det n0) eqn:E2; [apply nltb_spec in E2|apply nltb_false in E2]; cbn [n0 Num_R] in E2;
      destruct (Rlt_dec det 0); try reflexivity; lra.
Qed.

Lemma jacoper_inv d n D coord det Ji : (d = 2 \/ d = 3)%nat -> shape d n D ->
  jacoper D coord = Ok (det, Ji) ->
  length coord = n /\ ncols coord = d /\ det = Jdet d (Jac n D coord) /\ 1 / 100000000 < det /\
  Ji = minv d det (mmul d n d D coord).
Proof.
  intros Hd HD. rewrite (jacoper_spec d n) by assumption.
  destruct (length coord =? n)%nat eqn:E1; [|discriminate]. apply Nat.eqb_eq in E1.
  destruct (ncols coord =? d)%nat eqn:E2; [|discriminate]. apply Nat.eqb_eq in E2.
  cbv zeta. destruct (Rle_dec _ _) as [H|H]; [discriminate|].
  destruct (Rlt_dec _ _) as [H'|H']; [discriminate|].
  intros HH. apply Ok_pair_inj in HH. destruct HH as [<- <-]. repeat split; auto.
  rewrite Rabs_pos_eq in H by lra. lra.
Qed.

Lemma minv2_ent det n D coord a b : (a < 2)%nat -> (b < 2)%nat ->
  ent (minv 2 det (mmul 2 n 2 D coord)) a b =
  (match a, b with
   | 0, 0 => Jac n D coord 1 1
   | 0, _ => - Jac n D coord 0 1
   | _, 0 => - Jac n D coord 1 0
   | _, _ => Jac n D coord 0 0
   end)%nat / det.
Proof.
  intros Ha Hb. unfold minv, inv2. change (@mget R Num_R) with ent. rewrite !jac_ent by lia.
  destruct a as [|[|]]; try lia; destruct b as [|[|]]; try lia; unfold ent; cbn [nth]; numR; reflexivity.
Qed.

Definition cof3 (J : nat -> nat -> R) (a b : nat) : R :=
  let m i j k l := J i j * J k l - J i l * J k j in
  match a, b with
  | 0, 0 => m 1 1 2 2 | 0, 1 => - m 0 1 2 2 | 0, _ => m 0 1 1 2
  | 1, 0 => - m 1 0 2 2 | 1, 1 => m 0 0 2 2 | 1, _ => - m 0 0 1 2
  | _, 0 => m 1 0 2 1 | _, 1 => - m 0 0 2 1 | _, _ => m 0 0 1 1
  end%nat.

Lemma minv3_ent det n D coord a b : (a < 3)%nat -> (b < 3)%nat ->
  ent (minv 3 det (mmul 3 n 3 D coord)) a b = cof3 (Jac n D coord) a b / det.
Proof.
  intros Ha Hb. unfold minv, inv3, minor2. change (@mget R Num_R) with ent. rewrite !jac_ent by lia.
  destruct a as [|[|[|]]]; try lia; destruct b as [|[|[|]]]; try lia; unfold ent, cof3; cbn [nth]; numR; reflexivity.
Qed.

(** ** plane H and B *)
(** gradients of the shape functions in the physical plane *)
Definition grad2 (n : nat) (D coord : list (list R)) (a k : nat) : R :=
  let J := Jac n D coord in
  match a with
  | O => (J 1%nat 1%nat * ent D 0 k - J 0%nat 1%nat * ent D 1 k) / J2det J
  | _ => (J 0%nat 0%nat * ent D 1 k - J 1%nat 0%nat * ent D 0 k) / J2det J
  end.

Definition good2 (n : nat) (sh : R -> R -> list R * list (list R)) : Prop :=
  forall r s, length (fst (sh r s)) = n /\ shape 2 n (snd (sh r s)).

Lemma nth_row_mmul p q n A B a k : (a < p)%nat -> (k < n)%nat ->
  nth k (nth a (mmul p q n A B) []) 0 = rsum q (fun i => ent A a i * ent B i k).
Proof. intros Ha Hk. rewrite <- ent_mmul with (p := p) (r := n) by assumption. reflexivity. Qed.

Lemma dNdx2 n D coord a k : (a < 2)%nat -> (k < n)%nat ->
  nth k (nth a (mmul 2 2 n (minv 2 (J2det (Jac n D coord)) (mmul 2 n 2 D coord)) D) []) 0 = grad2 n D coord a k.
Proof.
  intros Ha Hk. rewrite nth_row_mmul by assumption. cbn [rsum]. rewrite !minv2_ent by lia.
  unfold grad2. destruct a as [|[|]]; [| |lia]; cbv zeta; unfold Rdiv; ring.
Qed.

Lemma diff2_inv n sh coord r s Hm B det :
  good2 n sh -> elast_diff_2d r s coord sh = Ok (Hm, B, det) ->
  let N := fst (sh r s) in let D := snd (sh r s) in
  let G := grad2 n D coord in
  length coord = n /\ ncols coord = 2%nat /\ det = J2det (Jac n D coord) /\ 1 / 100000000 < det /\
  (forall u, act (2 * n) B u 0 = rsum n (fun k => G 0%nat k * u (2 * k)%nat)) /\
  (forall u, act (2 * n) B u 1 = rsum n (fun k => G 1%nat k * u (2 * k + 1)%nat)) /\
  (forall u, act (2 * n) B u 2 = rsum n (fun k => G 1%nat k * u (2 * k)%nat + G 0%nat k * u (2 * k + 1)%nat)) /\
  (forall u, act (2 * n) Hm u 0 = rsum n (fun k => nth k N 0 * u (2 * k)%nat)) /\
  (forall u, act (2 * n) Hm u 1 = rsum n (fun k => nth k N 0 * u (2 * k + 1)%nat)).
Proof.
  intros Hg Hd. cbv zeta. unfold elast_diff_2d in Hd. destruct (Hg r s) as [HN HD].
  destruct (sh r s) as [N D]. cbn [fst snd] in *.
  inv_ok Hd. destruct r0 as [det' Ji]. apply (jacoper_inv 2 n) in Hr; auto.
  destruct Hr as [H1 [H2 [H3 [H4 H5]]]]. rewrite HN in Hd.
  apply Ok_pair_inj in Hd. destruct Hd as [Hd <-]. apply pair_equal_spec in Hd. destruct Hd as [<- <-].
  cbn [Jdet] in H3. subst Ji det'.
  repeat (split; [assumption || reflexivity|]).
  repeat split; intros u; unfold act; rewrite rsum_even_odd; apply rsum_ext; intros k Hk;
    repeat (rewrite (ent_strided _ n 2 _ _ _ _ _ (2 * k) k 0) by lia);
    repeat (rewrite (ent_strided _ n 2 _ _ _ _ _ (2 * k + 1) k 1) by lia);
    cbn [Nat.eqb andb]; rewrite ?dNdx2 by lia; rewrite ?ent_zeros; ring.
Qed.

Lemma diff2_total n sh coord r s :
  good2 n sh -> length coord = n -> ncols coord = 2%nat ->
  1 / 100000000 < J2det (Jac n (snd (sh r s)) coord) ->
  exists Hm B, elast_diff_2d r s coord sh = Ok (Hm, B, J2det (Jac n (snd (sh r s)) coord)).
Proof.
  intros Hg Hl Hc Hdet. unfold elast_diff_2d. destruct (Hg r s) as [HN HD].
  destruct (sh r s) as [N D]. cbn [fst snd] in *.
  rewrite (jacoper_spec 2 n) by auto. rewrite Hl, Hc, !Nat.eqb_refl. cbv zeta. cbn [Jdet].
  destruct (Rle_dec _ _) as [H|H]; [rewrite Rabs_pos_eq in H; lra|].
  destruct (Rlt_dec _ _) as [H'|H']; [lra|]. cbn [bind]. do 2 eexists. reflexivity.
Qed.

(** consistency of the gradients *)
Lemma rsum_lin2 n a b c x y z :
  rsum n (fun k => (a * x k - b * y k) / c * z k) =
  (a * rsum n (fun k => x k * z k) - b * rsum n (fun k => y k * z k)) / c.
Proof.
  rewrite <- !rsum_scal, <- rsum_minus. unfold Rdiv. rewrite <- rsum_scal_r.
  apply rsum_ext; intros k _. ring.
Qed.

Lemma grad2_coord n D coord a b : (a < 2)%nat -> (b < 2)%nat -> J2det (Jac n D coord) <> 0 ->
  rsum n (fun k => grad2 n D coord a k * ent coord k b) = if (a =? b)%nat then 1 else 0.
Proof.
  intros Ha Hb Hdet. unfold grad2.
  destruct a as [|[|]]; [| |lia]; cbv zeta; rewrite rsum_lin2;
    change (rsum n (fun k => ent D 0 k * ent coord k b)) with (Jac n D coord 0 b);
    change (rsum n (fun k => ent D 1 k * ent coord k b)) with (Jac n D coord 1 b);
    (destruct b as [|[|]]; [| |lia]); cbn [Nat.eqb]; unfold J2det in *; field; exact Hdet.
Qed.

Lemma grad2_one n D coord a : (a < 2)%nat ->
  rsum n (ent D 0) = 0 -> rsum n (ent D 1) = 0 ->
  rsum n (grad2 n D coord a) = 0.
Proof.
  intros Ha H0 H1. unfold grad2. set (J := Jac n D coord).
  destruct a as [|[|]]; [| |lia]; cbv zeta;
    (erewrite rsum_ext; [|intros k _; rewrite <- (Rmult_1_r (_ / _)); reflexivity]);
    rewrite rsum_lin2; rewrite !rsum_scal_r, H0, H1; unfold Rdiv; ring.
Qed.
