(** * Proofs: weighted Jacobians against areas and volumes *)
From Coq Require Import String Reals List Arith Lia Lra Bool ZArith QArith Qreals Qabs.
From Verif Require Import Num LinAlg Gauss Fem Uel Spec LinR Base ElemShape BarProofs SpecElem SpecShape ShapeProofs ElemCore Sampled Elem2 MatProofs Elem2Props Elem2Mass Elem2Modes.
Import ListNotations.
Local Open Scope R_scope.

(** ** transfer from Q *)
Lemma Q2R_red q : Q2R (Qred q) = Q2R q.
Proof. apply Qeq_eqR, Qred_correct. Qed.
Lemma Q2R_Z z : Q2R (inject_Z z) = IZR z.
Proof. unfold Q2R, inject_Z. cbn. field. Qed.
Lemma Q2R_0 : Q2R 0 = 0. Proof. unfold Q2R; cbn; lra. Qed.
Lemma Q2R_1 : Q2R 1 = 1. Proof. unfold Q2R; cbn; lra. Qed.
Lemma Q2R_abs q : Q2R (Qabs q) = Rabs (Q2R q).
Proof.
  destruct (Qlt_le_dec q 0) as [Hq|Hq].
  - rewrite (Qeq_eqR _ _ (Qabs_neg q (Qlt_le_weak _ _ Hq))), Q2R_opp, Rabs_left; [reflexivity|].
    apply Qlt_Rlt in Hq. rewrite Q2R_0 in Hq. exact Hq.
  - rewrite (Qeq_eqR _ _ (Qabs_pos q Hq)), Rabs_right; [reflexivity|].
    apply Qle_Rle in Hq. rewrite Q2R_0 in Hq. lra.
Qed.

Ltac hom := cbn [n0 n1 nadd nsub nmul ndiv nopp nz nofQ Num_Q Num_R];
  repeat first [rewrite Q2R_red | rewrite Q2R_plus | rewrite Q2R_minus | rewrite Q2R_mult | rewrite Q2R_opp
               | rewrite Q2R_Z | rewrite Q2R_0 | rewrite Q2R_1]; reflexivity.
Ltac homs := unfold shape_tri3, shape_tri6, shape_quad4, shape_quad8, shape_quad9, shape_tet4, shape_hex8,
  vscale, mscale, npow; cbn [fst snd map]; repeat (apply (f_equal2 (@cons _))); try reflexivity; hom.

Definition qsh : Type := Q -> Q -> list Q * list (list Q).
Definition hom2 (q : qsh) (f : R -> R -> list R * list (list R)) : Prop :=
  forall r s, map (map Q2R) (snd (q r s)) = snd (f (Q2R r) (Q2R s)).
Lemma hom_tri6 : hom2 shape_tri6 shape_tri6. Proof. intros r s. homs. Qed.
Lemma hom_quad8 : hom2 shape_quad8 shape_quad8. Proof. intros r s. homs. Qed.
Lemma hom_quad9 : hom2 shape_quad9 shape_quad9. Proof. intros r s. homs. Qed.

Definition qent (D : list (list Q)) (a k : nat) : Q := nth k (nth a D []) 0%Q.
Lemma ent_qent D a k : ent (map (map Q2R) D) a k = Q2R (qent D a k).
Proof.
  unfold ent, qent. change (@nil R) with (map Q2R []). rewrite map_nth.
  rewrite <- Q2R_0 at 1. rewrite map_nth. reflexivity.
Qed.

(** ** finite sums in Q *)
Fixpoint qsum (n : nat) (f : nat -> Q) : Q :=
  match n with O => 0%Q | S m => Qred (qsum m f + f m) end.
Lemma Q2R_qsum n f : Q2R (qsum n f) = rsum n (fun k => Q2R (f k)).
Proof. induction n; cbn [qsum rsum]; [apply Q2R_0|]. rewrite Q2R_red, Q2R_plus, IHn. reflexivity. Qed.
Fixpoint qlsum {A} (f : A -> Q) (l : list A) : Q :=
  match l with [] => 0%Q | a :: l' => Qred (f a + qlsum f l') end.
Lemma Q2R_qlsum {A} (f : A -> Q) l : Q2R (qlsum f l) = lsum (fun a => Q2R (f a)) l.
Proof. induction l; cbn [qlsum]; [apply Q2R_0|]. rewrite Q2R_red, Q2R_plus, IHl. reflexivity. Qed.

(** coefficient of x_k y_l in the weighted Jacobian *)
Definition coefQ (c : Q) (ds : list (list (list Q) * Q)) (k l : nat) : Q :=
  Qred (c * qlsum (fun dw => let '(D, w) := dw in Qred (w * (qent D 0 k * qent D 1 l - qent D 1 k * qent D 0 l))) ds).
Definition defect (n : nat) (A B : nat -> nat -> Q) : Q := qsum n (fun k => qsum n (fun l => Qabs (A k l - B k l))).

Definition bil (n : nat) (A : nat -> nat -> R) (coord : list (list R)) : R :=
  rsum n (fun k => rsum n (fun l => A k l * (node_x coord k * node_y coord l))).

Lemma rsum_abs n f : Rabs (rsum n f) <= rsum n (fun k => Rabs (f k)).
Proof.
  induction n; cbn [rsum]; [rewrite Rabs_R0; lra|].
  eapply Rle_trans; [apply Rabs_triang|]. lra.
Qed.
Lemma rsum_le n f g : (forall k, (k < n)%nat -> f k <= g k) -> rsum n f <= rsum n g.
Proof.
  induction n; cbn [rsum]; intros Hf; [lra|].
  assert (rsum n f <= rsum n g) by (apply IHn; intros; apply Hf; lia).
  assert (f n <= g n) by (apply Hf; lia). lra.
Qed.

Lemma bil_bound n A B coord r : 0 <= r -> within2 n coord 0 0 r ->
  Rabs (bil n (fun k l => Q2R (A k l)) coord - bil n (fun k l => Q2R (B k l)) coord) <= Q2R (defect n A B) * (r * r).
Proof.
  intros Hr Hw. unfold bil, defect.
  replace (rsum n _ - rsum n _) with
    (rsum n (fun k => rsum n (fun l => (Q2R (A k l) - Q2R (B k l)) * (node_x coord k * node_y coord l)))).
  2:{ unfold Rminus at 2. rewrite <- Ropp_mult_distr_l_reverse || idtac.
      replace (- rsum n (fun k => rsum n (fun l => Q2R (B k l) * (node_x coord k * node_y coord l))))
        with (-1 * rsum n (fun k => rsum n (fun l => Q2R (B k l) * (node_x coord k * node_y coord l)))) by ring.
      rewrite <- rsum_scal, <- rsum_plus. apply rsum_ext; intros k _.
      rewrite <- rsum_scal, <- rsum_plus. apply rsum_ext; intros l _. ring. }
  rewrite Q2R_qsum, Rmult_comm, <- rsum_scal.
  eapply Rle_trans; [apply rsum_abs|]. apply rsum_le; intros k Hk.
  rewrite Q2R_qsum, <- rsum_scal.
  eapply Rle_trans; [apply rsum_abs|]. apply rsum_le; intros l Hl.
  rewrite Q2R_abs, Q2R_minus, !Rabs_mult, Rmult_comm.
  apply Rmult_le_compat_r; [apply Rabs_pos|].
  destruct (Hw k Hk) as [Hx _], (Hw l Hl) as [_ Hy]. rewrite Rminus_0_r in Hx, Hy.
  apply Rmult_le_compat; auto using Rabs_pos.
Qed.

(** ** points in Q *)
Definition triplesQ (g : res (list (list Q) * list Q)) : list (Q * Q * Q) :=
  match g with
  | Ok (p, w) => map (fun pw => (nth 0 (fst pw) 0%Q, nth 1 (fst pw) 0%Q, snd pw)) (combine p w)
  | Err _ => []
  end.
Definition toR3 (q : Q * Q * Q) : R * R * R := let '(r, s, w) := q in (Q2R r, Q2R s, Q2R w).
Definition dsQ (sh : qsh) (pts : list (Q * Q * Q)) : list (list (list Q) * Q) :=
  map (fun q => let '(r, s, w) := q in (snd (sh r s), w)) pts.

Lemma wdet_bil n (sh : R -> R -> list R * list (list R)) (shq : qsh) ptsq c coord : hom2 shq sh ->
  Q2R c * lsum (fun q => let '(r, s, w) := q in det_at n sh coord r s * w) (map toR3 ptsq) =
  bil n (fun k l => Q2R (coefQ c (dsQ shq ptsq) k l)) coord.
Proof.
  intros Hh. unfold bil, coefQ.
  transitivity (Q2R c * rsum n (fun k => rsum n (fun l =>
     lsum (fun q : Q * Q * Q => let '(r, s, w) := q in
        Q2R w * (Q2R (qent (snd (shq r s)) 0 k) * Q2R (qent (snd (shq r s)) 1 l)
                 - Q2R (qent (snd (shq r s)) 1 k) * Q2R (qent (snd (shq r s)) 0 l))) ptsq
     * (node_x coord k * node_y coord l)))).
  - f_equal. induction ptsq as [|[[r s] w] l IH].
    + symmetry. apply rsum_zero; intros. apply rsum_zero; intros. cbn. ring.
    + cbn [map]. change (lsum ?f (?a :: ?b)) with (f a + lsum f b). cbn [toR3]. rewrite IH.
      transitivity (rsum n (fun k => rsum n (fun l => Q2R w * (Q2R (qent (snd (shq r s)) 0 k) * Q2R (qent (snd (shq r s)) 1 l)
                 - Q2R (qent (snd (shq r s)) 1 k) * Q2R (qent (snd (shq r s)) 0 l)) * (node_x coord k * node_y coord l)))
        + rsum n (fun k => rsum n (fun l0 => lsum (fun q : Q * Q * Q => let '(r0, s0, w0) := q in
        Q2R w0 * (Q2R (qent (snd (shq r0 s0)) 0 k) * Q2R (qent (snd (shq r0 s0)) 1 l0)
                 - Q2R (qent (snd (shq r0 s0)) 1 k) * Q2R (qent (snd (shq r0 s0)) 0 l0))) l
     * (node_x coord k * node_y coord l0)))).
      2:{ rewrite <- rsum_plus. apply rsum_ext; intros k _. rewrite <- rsum_plus. apply rsum_ext; intros l0 _. cbn. ring. }
      f_equal. unfold det_at, J2det, Jac. rewrite <- Hh.
      set (D := snd (shq r s)).
      transitivity (rsum n (fun k => rsum n (fun l0 =>
        Q2R w * (Q2R (qent D 0 k) * node_x coord k * (Q2R (qent D 1 l0) * node_y coord l0))
        - Q2R w * (Q2R (qent D 1 k) * node_x coord k * (Q2R (qent D 0 l0) * node_y coord l0))))).
      2:{ apply rsum_ext; intros k _. apply rsum_ext; intros l0 _. ring. }
      unfold node_x, node_y.
      transitivity (Q2R w * (rsum n (fun k => ent (map (map Q2R) D) 0 k * ent coord k 0) * rsum n (fun k => ent (map (map Q2R) D) 1 k * ent coord k 1))
        + - Q2R w * (rsum n (fun k => ent (map (map Q2R) D) 1 k * ent coord k 0) * rsum n (fun k => ent (map (map Q2R) D) 0 k * ent coord k 1))); [ring|].
      rewrite <- !rsum_scal_r, <- !rsum_scal, <- rsum_plus. apply rsum_ext; intros k _.
      rewrite <- !rsum_scal, <- rsum_plus. apply rsum_ext; intros l0 _.
      rewrite !ent_qent. ring.
  - rewrite <- rsum_scal. apply rsum_ext; intros k _. rewrite <- rsum_scal. apply rsum_ext; intros l _.
    rewrite Q2R_red, Q2R_mult, Q2R_qlsum. unfold dsQ. rewrite lsum_map.
    rewrite <- Rmult_assoc. f_equal. f_equal. apply lsum_ext. intros [[r s] w] _.
    rewrite Q2R_red, Q2R_mult, Q2R_minus, !Q2R_mult. reflexivity.
Qed.

(** ** tri6 *)
Definition crossQ (i j k l : nat) : Q :=
  (if (k =? i)%nat && (l =? j)%nat then 1 else if (k =? j)%nat && (l =? i)%nat then -1 else 0)%Q.
Definition arcQ (i m j k l : nat) : Q := Qred (2/3 * (crossQ i m k l + crossQ m j k l) - 1/6 * crossQ i j k l).
Definition area6Q (k l : nat) : Q := Qred (arcQ 0 3 1 k l + arcQ 1 4 2 k l + arcQ 2 5 0 k l).

Lemma area6_bil coord : bil 6 (fun k l => Q2R (area6Q k l)) coord = area6 coord.
Proof.
  unfold bil. cbn [rsum]. 
  repeat match goal with |- context [Q2R (area6Q ?k ?l)] =>
    let v := eval vm_compute in (area6Q k l) in change (area6Q k l) with v end.
  unfold area6, arc, cross. q2r. field.
Qed.

Lemma move2_id_x coord tx ty k : (k < length coord)%nat ->
  node_x (move2 1 0 tx ty coord) k = node_x coord k + tx /\ node_y (move2 1 0 tx ty coord) k = node_y coord k + ty.
Proof. intros Hk. unfold node_x, node_y. destruct (move2_ent 1 0 tx ty coord k Hk) as [-> ->]. split; ring. Qed.

Lemma wdet_move p coord tx ty : In p planes -> length coord = pl_n p ->
  wdet p (move2 1 0 tx ty coord) = wdet p coord.
Proof.
  intros Hp Hl. unfold wdet. f_equal. apply lsum_ext. intros [[r s] w] _. f_equal.
  unfold det_at. apply det_move; try (apply plane_D0; auto); [exact Hl|ring].
Qed.

Lemma within_move n coord xc yc r : length coord = n -> within2 n coord xc yc r ->
  within2 n (move2 1 0 (- xc) (- yc) coord) 0 0 r.
Proof.
  intros Hl Hw k Hk. destruct (move2_id_x coord (- xc) (- yc) k) as [-> ->]; [lia|].
  destruct (Hw k Hk) as [Hx Hy]. rewrite !Rminus_0_r. split; assumption.
Qed.

Lemma area6_move coord tx ty : length coord = 6%nat -> area6 (move2 1 0 tx ty coord) = area6 coord.
Proof.
  intros Hl. unfold area6, arc, cross.
  repeat match goal with |- context [node_x (move2 1 0 tx ty coord) ?k] =>
    destruct (move2_id_x coord tx ty k) as [-> ->]; [lia|] end. field.
Qed.
Lemma area8_move coord tx ty : (8 <= length coord)%nat -> area8 (move2 1 0 tx ty coord) = area8 coord.
Proof.
  intros Hl. unfold area8, arc, cross.
  repeat match goal with |- context [node_x (move2 1 0 tx ty coord) ?k] =>
    destruct (move2_id_x coord tx ty k) as [-> ->]; [lia|] end. field.
Qed.

Lemma tri6_defect : Qle_bool (defect 6 (coefQ (1#2) (dsQ shape_tri6 (triplesQ (gauss_tri 3)))) area6Q) (1#250000000000) = true.
Proof. vm_compute. reflexivity. Qed.

Lemma tri6_pts : pl_gq pl_tri6 = map toR3 (triplesQ (gauss_tri 3)).
Proof.
  unfold pl_tri6. cbn [pl_gq]. unfold triples, triplesQ, gauss_tri.
  cbn [GaussTab.gauss_tri_tab]. unfold GaussTab.gauss_tri_3_4_5_pts, GaussTab.gauss_tri_3_4_5_wts.
  cbn [map combine fst snd nth toR3].
  repeat (apply (f_equal2 (@cons _)); [apply (f_equal2 pair); [apply (f_equal2 pair)|]; symmetry; apply Q2R_red|]).
  reflexivity.
Qed.

Lemma tri6_area coord xc yc r : length coord = 6%nat -> 0 <= r -> within2 6 coord xc yc r ->
  Rabs (wdet pl_tri6 coord - area6 coord) <= 1 / 250000000000 * (r * r).
Proof.
  intros Hl Hr Hw.
  rewrite <- (wdet_move pl_tri6 coord (- xc) (- yc)), <- (area6_move coord (- xc) (- yc)); auto; [|cbn; tauto].
  pose proof (within_move 6 coord xc yc r Hl Hw) as Hw'. set (co := move2 1 0 (- xc) (- yc) coord) in *.
  unfold wdet. rewrite tri6_pts. change (pl_c pl_tri6) with (1/2). change (pl_n pl_tri6) with 6%nat.
  change (pl_sh pl_tri6) with (@shape_tri6 R Num_R).
  replace (1/2) with (Q2R (1#2)) by (q2r; lra).
  rewrite (wdet_bil 6 shape_tri6 shape_tri6 (triplesQ (gauss_tri 3)) (1#2) co hom_tri6).
  rewrite <- area6_bil.
  eapply Rle_trans; [apply (bil_bound 6 _ _ co r Hr Hw')|]. apply Rmult_le_compat_r; [apply Rmult_le_pos; assumption|].
  pose proof (Qle_bool_imp_le _ _ tri6_defect) as HQ. apply Qle_Rle in HQ.
  eapply Rle_trans; [exact HQ|]. q2r. lra.
Qed.

(** ** quad8 and quad9: coefficients of the polynomial interpolating the nodal values v *)
Definition q10 (v : nat -> R) : R := (v 5%nat - v 7%nat) / 2.
Definition q01 (v : nat -> R) : R := (v 6%nat - v 4%nat) / 2.
Definition q11 (v : nat -> R) : R := (v 0%nat - v 1%nat + v 2%nat - v 3%nat) / 4.
Definition q21 (v : nat -> R) : R := ((v 3%nat + v 2%nat) / 2 - v 6%nat - (v 0%nat + v 1%nat) / 2 + v 4%nat) / 2.
Definition q12 (v : nat -> R) : R := ((v 1%nat + v 2%nat) / 2 - v 5%nat - (v 0%nat + v 3%nat) / 2 + v 7%nat) / 2.
Definition e20 (v : nat -> R) : R := ((v 3%nat + v 2%nat) / 2 - v 6%nat + (v 0%nat + v 1%nat) / 2 - v 4%nat) / 2.
Definition e02 (v : nat -> R) : R := ((v 1%nat + v 2%nat) / 2 - v 5%nat + (v 0%nat + v 3%nat) / 2 - v 7%nat) / 2.
Definition n20 (v : nat -> R) : R := (v 5%nat + v 7%nat) / 2 - v 8%nat.
Definition n02 (v : nat -> R) : R := (v 6%nat + v 4%nat) / 2 - v 8%nat.
Definition n22 (v : nat -> R) : R := e20 v - n20 v.

Lemma quad8_dr r s v : rsum 8 (fun k => ent (snd (shape_quad8 r s)) 0 k * v k) =
  q10 v + 2 * e20 v * r + q11 v * s + 2 * q21 v * r * s + q12 v * (s * s).
Proof. unfold q10, q11, q21, q12, e20, ent. shp. cbn [rsum nth]. field. Qed.
Lemma quad8_ds r s v : rsum 8 (fun k => ent (snd (shape_quad8 r s)) 1 k * v k) =
  q01 v + 2 * e02 v * s + q11 v * r + 2 * q12 v * r * s + q21 v * (r * r).
Proof. unfold q01, q11, q21, q12, e02, ent. shp. cbn [rsum nth]. field. Qed.
Lemma quad9_dr r s v : rsum 9 (fun k => ent (snd (shape_quad9 r s)) 0 k * v k) =
  q10 v + 2 * n20 v * r + q11 v * s + 2 * q21 v * r * s + q12 v * (s * s) + 2 * n22 v * r * (s * s).
Proof. unfold q10, q11, q21, q12, n22, e20, n20, ent. shp. cbn [rsum nth]. field. Qed.
Lemma quad9_ds r s v : rsum 9 (fun k => ent (snd (shape_quad9 r s)) 1 k * v k) =
  q01 v + 2 * n02 v * s + q11 v * r + 2 * q12 v * r * s + q21 v * (r * r) + 2 * n22 v * (r * r) * s.
Proof. unfold q01, q11, q21, q12, n22, e20, n20, n02, ent. shp. cbn [rsum nth]. field. Qed.

Lemma gauss33 : exists g w0 w1, g = 774596669241483377 / 1000000000000000000 /\
  w1 = 555555555555555556 / 1000000000000000000 /\ w0 = 888888888888888889 / 1000000000000000000 /\
  triples (gauss_nd 3 2) = [(- g, - g, w1 * w1); (- g, 0, w1 * w0); (- g, g, w1 * w1);
     (0, - g, w0 * w1); (0, 0, w0 * w0); (0, g, w0 * w1);
     (g, - g, w1 * w1); (g, 0, w1 * w0); (g, g, w1 * w1)].
Proof.
  do 3 eexists. split; [reflexivity|]. split; [reflexivity|]. split; [reflexivity|].
  cbn. repeat (apply (f_equal2 (@cons _)); [apply (f_equal2 pair); [apply (f_equal2 pair)|]; q2r; lra|]). reflexivity.
Qed.

Section Biquad.
  Variables (A10 A01 A11 A20 A02 A21 A12 A22 B10 B01 B11 B20 B02 B21 B12 B22 : R).
  Definition biq_det (r s : R) : R :=
    (A10 + 2 * A20 * r + A11 * s + 2 * A21 * r * s + A12 * (s * s) + 2 * A22 * r * (s * s))
    * (B01 + 2 * B02 * s + B11 * r + 2 * B12 * r * s + B21 * (r * r) + 2 * B22 * (r * r) * s)
    - (B10 + 2 * B20 * r + B11 * s + 2 * B21 * r * s + B12 * (s * s) + 2 * B22 * r * (s * s))
    * (A01 + 2 * A02 * s + A11 * r + 2 * A12 * r * s + A21 * (r * r) + 2 * A22 * (r * r) * s).
  Definition k00 : R := A10 * B01 - A01 * B10.
  Definition k20 : R := A10 * B21 + 2 * A20 * B11 - A21 * B10 - 2 * A11 * B20
                      + (2 * A11 * B02 + A12 * B01 - 2 * A02 * B11 - A01 * B12).
  Definition k22 : R := 3 * (A21 * B12 - A12 * B21).
  Lemma biq_sum g w0 w1 :
    lsum (fun q => let '(r, s, w) := q in biq_det r s * w)
     [(- g, - g, w1 * w1); (- g, 0, w1 * w0); (- g, g, w1 * w1);
     (0, - g, w0 * w1); (0, 0, w0 * w0); (0, g, w0 * w1);
     (g, - g, w1 * w1); (g, 0, w1 * w0); (g, g, w1 * w1)] =
    k00 * ((2 * w1 + w0) * (2 * w1 + w0)) + k20 * ((2 * w1 + w0) * (2 * w1 * (g * g)))
    + k22 * ((2 * w1 * (g * g)) * (2 * w1 * (g * g))).
  Proof. unfold lsum, biq_det, k00, k20, k22. cbn [fold_right]. ring. Qed.
End Biquad.

Lemma prod_bound a b x y : Rabs a <= x -> Rabs b <= y -> - (x * y) <= a * b <= x * y.
Proof.
  intros Ha Hb. apply Rabs_le_inv || idtac. 
  assert (Rabs (a * b) <= x * y) by (rewrite Rabs_mult; apply Rmult_le_compat; auto using Rabs_pos).
  split; [|eapply Rle_trans; [apply Rle_abs|assumption]].
  assert (- (a * b) <= Rabs (a * b)) by (rewrite <- Rabs_Ropp; apply Rle_abs). lra.
Qed.
Lemma abs_le a x : - x <= a <= x -> Rabs a <= x.
Proof. intros. apply Rabs_le. assumption. Qed.
Lemma abs_inv a x : Rabs a <= x -> - x <= a <= x.
Proof. intros Ha. split; [|eapply Rle_trans; [apply Rle_abs|assumption]].
  assert (- a <= Rabs a) by (rewrite <- Rabs_Ropp; apply Rle_abs). lra. Qed.

Lemma k_bounds r A10 A01 A11 A20 A02 A21 A12 B10 B01 B11 B20 B02 B21 B12 :
  Rabs A10 <= r -> Rabs A01 <= r -> Rabs A11 <= r -> Rabs A20 <= 2 * r -> Rabs A02 <= 2 * r -> Rabs A21 <= 2 * r -> Rabs A12 <= 2 * r ->
  Rabs B10 <= r -> Rabs B01 <= r -> Rabs B11 <= r -> Rabs B20 <= 2 * r -> Rabs B02 <= 2 * r -> Rabs B21 <= 2 * r -> Rabs B12 <= 2 * r ->
  Rabs (k00 A10 A01 B10 B01) <= 2 * (r * r) /\
  Rabs (k20 A10 A01 A11 A20 A02 A21 A12 B10 B01 B11 B20 B02 B21 B12) <= 24 * (r * r) /\
  Rabs (k22 A21 A12 B21 B12) <= 24 * (r * r).
Proof.
  intros. unfold k00, k20, k22.
  pose proof (prod_bound A10 B01 r r ltac:(assumption) ltac:(assumption)).
  pose proof (prod_bound A01 B10 r r ltac:(assumption) ltac:(assumption)).
  pose proof (prod_bound A10 B21 r (2 * r) ltac:(assumption) ltac:(assumption)).
  pose proof (prod_bound A20 B11 (2 * r) r ltac:(assumption) ltac:(assumption)).
  pose proof (prod_bound A21 B10 (2 * r) r ltac:(assumption) ltac:(assumption)).
  pose proof (prod_bound A11 B20 r (2 * r) ltac:(assumption) ltac:(assumption)).
  pose proof (prod_bound A11 B02 r (2 * r) ltac:(assumption) ltac:(assumption)).
  pose proof (prod_bound A12 B01 (2 * r) r ltac:(assumption) ltac:(assumption)).
  pose proof (prod_bound A02 B11 (2 * r) r ltac:(assumption) ltac:(assumption)).
  pose proof (prod_bound A01 B12 r (2 * r) ltac:(assumption) ltac:(assumption)).
  pose proof (prod_bound A21 B12 (2 * r) (2 * r) ltac:(assumption) ltac:(assumption)).
  pose proof (prod_bound A12 B21 (2 * r) (2 * r) ltac:(assumption) ltac:(assumption)).
  split; [|split]; apply abs_le; lra.
Qed.

Lemma gauss33_error a b c r2 : 0 <= r2 -> Rabs a <= 2 * r2 -> Rabs b <= 24 * r2 -> Rabs c <= 24 * r2 ->
  forall g w0 w1, g = 774596669241483377 / 1000000000000000000 ->
  w1 = 555555555555555556 / 1000000000000000000 -> w0 = 888888888888888889 / 1000000000000000000 ->
  Rabs (a * ((2 * w1 + w0) * (2 * w1 + w0)) + b * ((2 * w1 + w0) * (2 * w1 * (g * g)))
    + c * ((2 * w1 * (g * g)) * (2 * w1 * (g * g))) - (4 * a + 4 / 3 * b + 4 / 9 * c)) <= 1 / 1000000000000000 * r2.
Proof.
  intros Hr Ha Hb Hc g w0 w1 Hg H1 H0. apply abs_inv in Ha, Hb, Hc.
  assert (E0 : 0 <= (2 * w1 + w0) * (2 * w1 + w0) - 4 <= 1 / 100000000000000000) by (subst; split; lra).
  assert (E1 : - (1 / 100000000000000000) <= (2 * w1 + w0) * (2 * w1 * (g * g)) - 4/3 <= 1 / 100000000000000000) by (subst; split; lra).
  assert (E2 : - (1 / 100000000000000000) <= (2 * w1 * (g * g)) * (2 * w1 * (g * g)) - 4/9 <= 1 / 100000000000000000) by (subst; split; lra).
  clear Hg H1 H0. set (x := (2 * w1 + w0) * (2 * w1 + w0)) in *. set (y := (2 * w1 + w0) * (2 * w1 * (g * g))) in *.
  set (z := (2 * w1 * (g * g)) * (2 * w1 * (g * g))) in *.
  pose proof (prod_bound a (x - 4) (2 * r2) (1 / 100000000000000000) ltac:(apply abs_le; lra) ltac:(apply abs_le; lra)).
  pose proof (prod_bound b (y - 4/3) (24 * r2) (1 / 100000000000000000) ltac:(apply abs_le; lra) ltac:(apply abs_le; lra)).
  pose proof (prod_bound c (z - 4/9) (24 * r2) (1 / 100000000000000000) ltac:(apply abs_le; lra) ltac:(apply abs_le; lra)).
  apply abs_le. lra.
Qed.

Lemma coef_bounds n v r : (8 <= n)%nat -> (forall k, (k < n)%nat -> Rabs (v k) <= r) ->
  Rabs (q10 v) <= r /\ Rabs (q01 v) <= r /\ Rabs (q11 v) <= r /\ Rabs (q21 v) <= 2 * r /\ Rabs (q12 v) <= 2 * r /\
  Rabs (e20 v) <= 2 * r /\ Rabs (e02 v) <= 2 * r /\ ((9 <= n)%nat -> Rabs (n20 v) <= 2 * r /\ Rabs (n02 v) <= 2 * r).
Proof.
  intros Hn Hv. unfold q10, q01, q11, q21, q12, e20, e02, n20, n02.
  pose proof (abs_inv _ _ (Hv 0%nat ltac:(lia))). pose proof (abs_inv _ _ (Hv 1%nat ltac:(lia))).
  pose proof (abs_inv _ _ (Hv 2%nat ltac:(lia))). pose proof (abs_inv _ _ (Hv 3%nat ltac:(lia))).
  pose proof (abs_inv _ _ (Hv 4%nat ltac:(lia))). pose proof (abs_inv _ _ (Hv 5%nat ltac:(lia))).
  pose proof (abs_inv _ _ (Hv 6%nat ltac:(lia))). pose proof (abs_inv _ _ (Hv 7%nat ltac:(lia))).
  repeat (split; [apply abs_le; lra|]). intros H9. pose proof (abs_inv _ _ (Hv 8%nat ltac:(lia))).
  split; apply abs_le; lra.
Qed.

Lemma area8_k20 coord e f : 
  area8 coord = 4 * k00 (q10 (node_x coord)) (q01 (node_x coord)) (q10 (node_y coord)) (q01 (node_y coord))
   + 4/3 * k20 (q10 (node_x coord)) (q01 (node_x coord)) (q11 (node_x coord)) (e20 (node_x coord) - e) (e02 (node_x coord) - e) (q21 (node_x coord)) (q12 (node_x coord))
               (q10 (node_y coord)) (q01 (node_y coord)) (q11 (node_y coord)) (e20 (node_y coord) - f) (e02 (node_y coord) - f) (q21 (node_y coord)) (q12 (node_y coord))
   + 4/9 * k22 (q21 (node_x coord)) (q12 (node_x coord)) (q21 (node_y coord)) (q12 (node_y coord)).
Proof.
  unfold area8, arc, cross, k00, k20, k22, q10, q01, q11, q21, q12, e20, e02.
  generalize (node_x coord) (node_y coord). intros x y. field.
Qed.

Lemma quad8_area coord xc yc r : length coord = 8%nat -> 0 <= r -> within2 8 coord xc yc r ->
  Rabs (wdet pl_quad8 coord - area8 coord) <= 1 / 1000000000000000 * (r * r).
Proof.
  intros Hl Hr Hw.
  rewrite <- (wdet_move pl_quad8 coord (- xc) (- yc)), <- (area8_move coord (- xc) (- yc)); auto; [|lia|cbn; tauto].
  pose proof (within_move 8 coord xc yc r Hl Hw) as Hw'. set (co := move2 1 0 (- xc) (- yc) coord) in *.
  unfold wdet. change (pl_c pl_quad8) with 1. change (pl_n pl_quad8) with 8%nat.
  change (pl_sh pl_quad8) with (@shape_quad8 R Num_R). change (pl_gq pl_quad8) with (triples (gauss_nd 3 2)).
  rewrite (area8_k20 co 0 0), Rmult_1_l. rewrite !Rminus_0_r.
  destruct gauss33 as [g [w0 [w1 [Hg [H1 [H0 ->]]]]]].
  set (X := node_x co). set (Y := node_y co).
  erewrite lsum_ext.
  2:{ intros [[a b] w] _. instantiate (1 := fun q => let '(a, b, w) := q in
        biq_det (q10 X) (q01 X) (q11 X) (e20 X) (e02 X) (q21 X) (q12 X) 0 (q10 Y) (q01 Y) (q11 Y) (e20 Y) (e02 Y) (q21 Y) (q12 Y) 0 a b * w).
      cbn beta iota. f_equal. unfold det_at, J2det, biq_det.
      apply (f_equal2 Rminus); apply (f_equal2 Rmult).
      - eapply eq_trans; [exact (quad8_dr a b X)|ring].
      - eapply eq_trans; [exact (quad8_ds a b Y)|ring].
      - eapply eq_trans; [exact (quad8_dr a b Y)|ring].
      - eapply eq_trans; [exact (quad8_ds a b X)|ring]. }
  rewrite biq_sum.
  destruct (coef_bounds 8 X r) as [? [? [? [? [? [? [? _]]]]]]]; [lia|intros k Hk; destruct (Hw' k Hk) as [Hx _]; rewrite Rminus_0_r in Hx; exact Hx|].
  destruct (coef_bounds 8 Y r) as [? [? [? [? [? [? [? _]]]]]]]; [lia|intros k Hk; destruct (Hw' k Hk) as [_ Hy]; rewrite Rminus_0_r in Hy; exact Hy|].
  destruct (k_bounds r (q10 X) (q01 X) (q11 X) (e20 X) (e02 X) (q21 X) (q12 X) (q10 Y) (q01 Y) (q11 Y) (e20 Y) (e02 Y) (q21 Y) (q12 Y)) as [? [? ?]]; try assumption.
  apply gauss33_error; try assumption. apply Rmult_le_pos; assumption.
Qed.

Lemma quad9_area coord xc yc r : length coord = 9%nat -> 0 <= r -> within2 9 coord xc yc r ->
  Rabs (wdet pl_quad9 coord - area8 coord) <= 1 / 1000000000000000 * (r * r).
Proof.
  intros Hl Hr Hw.
  rewrite <- (wdet_move pl_quad9 coord (- xc) (- yc)), <- (area8_move coord (- xc) (- yc)); auto; [|lia|cbn; tauto].
  pose proof (within_move 9 coord xc yc r Hl Hw) as Hw'. set (co := move2 1 0 (- xc) (- yc) coord) in *.
  unfold wdet. change (pl_c pl_quad9) with 1. change (pl_n pl_quad9) with 9%nat.
  change (pl_sh pl_quad9) with (@shape_quad9 R Num_R). change (pl_gq pl_quad9) with (triples (gauss_nd 3 2)).
  set (X := node_x co). set (Y := node_y co).
  rewrite (area8_k20 co (n22 X) (n22 Y)), Rmult_1_l. fold X Y.
  replace (e20 X - n22 X) with (n20 X) by (unfold n22; ring).
  replace (e02 X - n22 X) with (n02 X) by (unfold n22, e20, e02, n20, n02; field).
  replace (e20 Y - n22 Y) with (n20 Y) by (unfold n22; ring).
  replace (e02 Y - n22 Y) with (n02 Y) by (unfold n22, e20, e02, n20, n02; field).
  destruct gauss33 as [g [w0 [w1 [Hg [H1 [H0 ->]]]]]].
  erewrite lsum_ext.
  2:{ intros [[a b] w] _. instantiate (1 := fun q => let '(a, b, w) := q in
        biq_det (q10 X) (q01 X) (q11 X) (n20 X) (n02 X) (q21 X) (q12 X) (n22 X) (q10 Y) (q01 Y) (q11 Y) (n20 Y) (n02 Y) (q21 Y) (q12 Y) (n22 Y) a b * w).
      cbn beta iota. f_equal. unfold det_at, J2det, biq_det.
      apply (f_equal2 Rminus); apply (f_equal2 Rmult).
      - eapply eq_trans; [exact (quad9_dr a b X)|ring].
      - eapply eq_trans; [exact (quad9_ds a b Y)|ring].
      - eapply eq_trans; [exact (quad9_dr a b Y)|ring].
      - eapply eq_trans; [exact (quad9_ds a b X)|ring]. }
  rewrite biq_sum.
  destruct (coef_bounds 9 X r) as [? [? [? [? [? [_ [_ H9]]]]]]]; [lia|intros k Hk; destruct (Hw' k Hk) as [Hx _]; rewrite Rminus_0_r in Hx; exact Hx|].
  destruct (H9 ltac:(lia)) as [? ?]. clear H9.
  destruct (coef_bounds 9 Y r) as [? [? [? [? [? [_ [_ H9]]]]]]]; [lia|intros k Hk; destruct (Hw' k Hk) as [_ Hy]; rewrite Rminus_0_r in Hy; exact Hy|].
  destruct (H9 ltac:(lia)) as [? ?]. clear H9.
  destruct (k_bounds r (q10 X) (q01 X) (q11 X) (n20 X) (n02 X) (q21 X) (q12 X) (q10 Y) (q01 Y) (q11 Y) (n20 Y) (n02 Y) (q21 Y) (q12 Y)) as [? [? ?]]; try assumption.
  apply gauss33_error; try assumption. apply Rmult_le_pos; assumption.
Qed.
