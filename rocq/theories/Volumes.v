(** * Proofs: weighted Jacobians of hex8 against the volume *)
From Coq Require Import String Reals List Arith Lia Lra Bool ZArith QArith Qreals.
From Verif Require Import Num LinAlg Gauss Fem Uel Spec LinR Base ElemShape BarProofs SpecElem SpecShape ShapeProofs ElemCore Sampled Elem2 MatProofs Elem2Props Elem3 Elem3Props Areas.
Import ListNotations.
Local Open Scope R_scope.

Definition t100 (v : nat -> R) : R := (- v 0%nat + v 1%nat + v 2%nat - v 3%nat - v 4%nat + v 5%nat + v 6%nat - v 7%nat) / 8.
Definition t010 (v : nat -> R) : R := (- v 0%nat - v 1%nat + v 2%nat + v 3%nat - v 4%nat - v 5%nat + v 6%nat + v 7%nat) / 8.
Definition t001 (v : nat -> R) : R := (- v 0%nat - v 1%nat - v 2%nat - v 3%nat + v 4%nat + v 5%nat + v 6%nat + v 7%nat) / 8.
Definition t110 (v : nat -> R) : R := (v 0%nat - v 1%nat + v 2%nat - v 3%nat + v 4%nat - v 5%nat + v 6%nat - v 7%nat) / 8.
Definition t101 (v : nat -> R) : R := (v 0%nat - v 1%nat - v 2%nat + v 3%nat - v 4%nat + v 5%nat + v 6%nat - v 7%nat) / 8.
Definition t011 (v : nat -> R) : R := (v 0%nat + v 1%nat - v 2%nat - v 3%nat - v 4%nat - v 5%nat + v 6%nat + v 7%nat) / 8.
Definition t111 (v : nat -> R) : R := (- v 0%nat + v 1%nat - v 2%nat + v 3%nat + v 4%nat - v 5%nat + v 6%nat - v 7%nat) / 8.

Lemma hex8_dr r s t v : rsum 8 (fun k => ent (snd (shape_hex8 r s t)) 0 k * v k) = t100 v + t110 v * s + t101 v * t + t111 v * s * t.
Proof. unfold t100, t110, t101, t111, ent. shp. cbn [rsum nth]. field. Qed.
Lemma hex8_ds r s t v : rsum 8 (fun k => ent (snd (shape_hex8 r s t)) 1 k * v k) = t010 v + t110 v * r + t011 v * t + t111 v * r * t.
Proof. unfold t010, t110, t011, t111, ent. shp. cbn [rsum nth]. field. Qed.
Lemma hex8_dt r s t v : rsum 8 (fun k => ent (snd (shape_hex8 r s t)) 2 k * v k) = t001 v + t101 v * r + t011 v * s + t111 v * r * s.
Proof. unfold t001, t101, t011, t111, ent. shp. cbn [rsum nth]. field. Qed.

Lemma gauss23 : exists g, g = 577350269189625764 / 1000000000000000000 /\
  quads (gauss_nd 2 3) = [(- g, - g, - g, 1); (- g, - g, g, 1); (- g, g, - g, 1); (- g, g, g, 1);
                          (g, - g, - g, 1); (g, - g, g, 1); (g, g, - g, 1); (g, g, g, 1)].
Proof.
  eexists. split; [reflexivity|]. cbn.
  repeat (apply (f_equal2 (@cons _)); [apply (f_equal2 pair); [apply (f_equal2 pair); [apply (f_equal2 pair)|]|]; q2r; lra|]). reflexivity.
Qed.

Definition trip (a b c : nat -> R) : R :=
  a 0%nat * (b 1%nat * c 2%nat - b 2%nat * c 1%nat) - a 1%nat * (b 0%nat * c 2%nat - b 2%nat * c 0%nat)
  + a 2%nat * (b 0%nat * c 1%nat - b 1%nat * c 0%nat).

Definition tri_det (c1 c2 c3 d12 d13 d23 e : nat -> R) (r s t : R) : R :=
  trip (fun i => c1 i + d12 i * s + d13 i * t + e i * s * t)
       (fun i => c2 i + d12 i * r + d23 i * t + e i * r * t)
       (fun i => c3 i + d13 i * r + d23 i * s + e i * r * s).

Lemma tri_sum c1 c2 c3 d12 d13 d23 e g :
  lsum (fun q => let '(r, s, t, w) := q in tri_det c1 c2 c3 d12 d13 d23 e r s t * w)
    [(- g, - g, - g, 1); (- g, - g, g, 1); (- g, g, - g, 1); (- g, g, g, 1);
     (g, - g, - g, 1); (g, - g, g, 1); (g, g, - g, 1); (g, g, g, 1)] =
  8 * (trip c1 c2 c3 + g * g * (trip c1 d12 d13 + trip d12 c2 d23 + trip d13 d23 c3)).
Proof. unfold lsum, tri_det, trip. cbn [fold_right]. ring. Qed.

Definition col (coord : list (list R)) (a k : nat) : R := ent coord k a.
Definition tv (f : (nat -> R) -> R) (coord : list (list R)) (a : nat) : R := f (col coord a).

Lemma vol8_det coord : vol8 coord =
  8 * (trip (tv t100 coord) (tv t010 coord) (tv t001 coord)
   + 1/3 * (trip (tv t100 coord) (tv t110 coord) (tv t101 coord) + trip (tv t110 coord) (tv t010 coord) (tv t011 coord)
            + trip (tv t101 coord) (tv t011 coord) (tv t001 coord))).
Proof.
  unfold vol8, face, cone, J3det, trip, tv, t100, t010, t001, t110, t101, t011, col. cbn [nth].
  generalize (fun k a => ent coord k a). intros c. cbn beta.
  field.
Qed.

Lemma hex8_wdet coord : exists g, g = 577350269189625764 / 1000000000000000000 /\ wdet3 so_hex8 coord =
  8 * (trip (tv t100 coord) (tv t010 coord) (tv t001 coord)
   + g * g * (trip (tv t100 coord) (tv t110 coord) (tv t101 coord) + trip (tv t110 coord) (tv t010 coord) (tv t011 coord)
            + trip (tv t101 coord) (tv t011 coord) (tv t001 coord))).
Proof.
  destruct gauss23 as [g [Hg Hq]]. exists g. split; [exact Hg|].
  unfold wdet3. change (so_c so_hex8) with 1. change (so_n so_hex8) with 8%nat.
  change (so_sh so_hex8) with (@shape_hex8 R Num_R). change (so_gq so_hex8) with (quads (gauss_nd 2 3)).
  rewrite Hq, Rmult_1_l, <- (tri_sum _ _ _ _ _ _ (tv t111 coord)).
  apply lsum_ext. intros [[[r s] t] w] _. f_equal. unfold det_at3, J3det, tri_det, trip.
  assert (H0 : forall b, Jac 8 (snd (shape_hex8 r s t)) coord 0 b =
    tv t100 coord b + tv t110 coord b * s + tv t101 coord b * t + tv t111 coord b * s * t) by (intros; exact (hex8_dr r s t (col coord b))).
  assert (H1 : forall b, Jac 8 (snd (shape_hex8 r s t)) coord 1 b =
    tv t010 coord b + tv t110 coord b * r + tv t011 coord b * t + tv t111 coord b * r * t) by (intros; exact (hex8_ds r s t (col coord b))).
  assert (H2 : forall b, Jac 8 (snd (shape_hex8 r s t)) coord 2 b =
    tv t001 coord b + tv t101 coord b * r + tv t011 coord b * s + tv t111 coord b * r * s) by (intros; exact (hex8_dt r s t (col coord b))).
  rewrite <- !H0, <- !H1, <- !H2. reflexivity.
Qed.

Lemma trip_bound r a b c : 0 <= r -> (forall i, (i < 3)%nat -> Rabs (a i) <= r) -> (forall i, (i < 3)%nat -> Rabs (b i) <= r) ->
  (forall i, (i < 3)%nat -> Rabs (c i) <= r) -> - (6 * (r * r * r)) <= trip a b c <= 6 * (r * r * r).
Proof.
  intros Hr Ha Hb Hc. unfold trip.
  assert (H : forall i j k, (i < 3)%nat -> (j < 3)%nat -> (k < 3)%nat -> - (r * r * r) <= a i * (b j * c k) <= r * r * r).
  { intros i j k Hi Hj Hk. replace (r * r * r) with (r * (r * r)) by ring. apply prod_bound; [auto|].
    apply abs_le. apply prod_bound; auto. }
  pose proof (H 0 1 2 ltac:(lia) ltac:(lia) ltac:(lia))%nat. pose proof (H 0 2 1 ltac:(lia) ltac:(lia) ltac:(lia))%nat.
  pose proof (H 1 0 2 ltac:(lia) ltac:(lia) ltac:(lia))%nat. pose proof (H 1 2 0 ltac:(lia) ltac:(lia) ltac:(lia))%nat.
  pose proof (H 2 0 1 ltac:(lia) ltac:(lia) ltac:(lia))%nat. pose proof (H 2 1 0 ltac:(lia) ltac:(lia) ltac:(lia))%nat.
  lra.
Qed.

Lemma hex8_volume coord c r : 0 <= r -> within3 8 coord c r ->
  Rabs (wdet3 so_hex8 coord - vol8 coord) <= 1 / 1000000000000000 * (r * r * r).
Proof.
  intros Hr Hw. destruct (hex8_wdet coord) as [g [Hg ->]]. rewrite vol8_det.
  assert (HX : forall f, In f [t100; t010; t001; t110; t101; t011] -> forall i, (i < 3)%nat -> Rabs (tv f coord i) <= r).
  { intros f Hf i Hi.
    pose proof (abs_inv _ _ (Hw 0%nat i ltac:(lia) Hi)). pose proof (abs_inv _ _ (Hw 1%nat i ltac:(lia) Hi)).
    pose proof (abs_inv _ _ (Hw 2%nat i ltac:(lia) Hi)). pose proof (abs_inv _ _ (Hw 3%nat i ltac:(lia) Hi)).
    pose proof (abs_inv _ _ (Hw 4%nat i ltac:(lia) Hi)). pose proof (abs_inv _ _ (Hw 5%nat i ltac:(lia) Hi)).
    pose proof (abs_inv _ _ (Hw 6%nat i ltac:(lia) Hi)). pose proof (abs_inv _ _ (Hw 7%nat i ltac:(lia) Hi)).
    repeat (destruct Hf as [<-|Hf]; [apply abs_le; unfold tv, col, t100, t010, t001, t110, t101, t011; lra|]). destruct Hf. }
  pose proof (trip_bound r (tv t100 coord) (tv t110 coord) (tv t101 coord) Hr (HX t100 ltac:(cbn; tauto)) (HX t110 ltac:(cbn; tauto)) (HX t101 ltac:(cbn; tauto))) as B1.
  pose proof (trip_bound r (tv t110 coord) (tv t010 coord) (tv t011 coord) Hr (HX t110 ltac:(cbn; tauto)) (HX t010 ltac:(cbn; tauto)) (HX t011 ltac:(cbn; tauto))) as B2.
  pose proof (trip_bound r (tv t101 coord) (tv t011 coord) (tv t001 coord) Hr (HX t101 ltac:(cbn; tauto)) (HX t011 ltac:(cbn; tauto)) (HX t001 ltac:(cbn; tauto))) as B3.
  clear HX Hw.
  set (Y := trip (tv t100 coord) (tv t110 coord) (tv t101 coord)) in *.
  set (Z := trip (tv t110 coord) (tv t010 coord) (tv t011 coord)) in *.
  set (V := trip (tv t101 coord) (tv t011 coord) (tv t001 coord)) in *.
  set (X := trip (tv t100 coord) (tv t010 coord) (tv t001 coord)) in *.
  assert (E : - (1 / 100000000000000000) <= 8 * (g * g - 1/3) <= 1 / 100000000000000000) by (subst g; split; lra).
  pose proof (prod_bound (Y + Z + V) (8 * (g * g - 1 / 3)) (18 * (r * r * r)) (1 / 100000000000000000) ltac:(apply abs_le; lra) ltac:(apply abs_le; lra)).
  assert (0 <= r * r * r) by (repeat apply Rmult_le_pos; assumption).
  apply abs_le. lra.
Qed.
