(** * Proofs: energy and kinetic energy of polynomial fields in solids *)
From Coq Require Import String Reals List Arith Lia Lra Bool ZArith QArith Qreals.
From Verif Require Import Num LinAlg Gauss Fem Uel Spec LinR Base ElemShape BarProofs SpecElem SpecShape ShapeProofs ElemCore Sampled MatProofs Elem2 Elem3 Elem3Props.
From Verif Require Import SpecQuad QuadProofs QuadTables QuadFinal SpecEnergy EnergyProofs SpecEnergy3.
Import ListNotations.
Local Open Scope R_scope.

Lemma poly3_cons c i j k p r s t : poly3 ((c, (i, j, k)) :: p) r s t = c * (r ^ i * s ^ j * t ^ k) + poly3 p r s t.
Proof. reflexivity. Qed.
Lemma poly3_app p q r s t : poly3 (p ++ q) r s t = poly3 p r s t + poly3 q r s t.
Proof. unfold poly3. rewrite lsum_app. reflexivity. Qed.
Lemma poly3_scale k p r s t : poly3 (pscale3 k p) r s t = k * poly3 p r s t.
Proof.
  induction p as [|[c [[i j] l]] p IH]; [unfold poly3; cbn; ring|].
  cbn [pscale3 map]. rewrite !poly3_cons. fold (pscale3 k p). rewrite IH. ring.
Qed.
Lemma poly3_mul p q r s t : poly3 (pmul3 p q) r s t = poly3 p r s t * poly3 q r s t.
Proof.
  induction p as [|[c [[i j] m]] p IH]; [unfold poly3; cbn; ring|].
  cbn [pmul3 flat_map]. rewrite poly3_app, poly3_cons. fold (pmul3 p q). rewrite IH.
  rewrite Rmult_plus_distr_r. f_equal. clear. induction q as [|[d [[k l] n]] q IH]; [unfold poly3; cbn; ring|].
  cbn [map]. rewrite !poly3_cons, IH, !pow_add. ring.
Qed.

(** derivative of the monomial r^i s^j t^k along axis a *)
Definition dmono (a i j k : nat) (r s t : R) : R :=
  match a with
  | 0%nat => INR i * r ^ pred i * s ^ j * t ^ k
  | 1%nat => r ^ i * (INR j * s ^ pred j) * t ^ k
  | _ => r ^ i * s ^ j * (INR k * t ^ pred k)
  end.
Lemma poly3_d_cons a c i j k p r s t : poly3 (d_ref a ((c, (i, j, k)) :: p)) r s t = c * dmono a i j k r s t + poly3 (d_ref a p) r s t.
Proof.
  cbn [d_ref flat_map]. rewrite poly3_app. fold (d_ref a p). f_equal. unfold dmono.
  destruct a as [|[|a]]; [destruct i|destruct j|destruct k]; unfold poly3; cbn [lsum fold_right pred]; cbn; ring.
Qed.

Lemma d_ref_derives p r s t :
  derivable_pt_lim (fun x => poly3 p x s t) r (poly3 (d_ref 0 p) r s t) /\
  derivable_pt_lim (fun y => poly3 p r y t) s (poly3 (d_ref 1 p) r s t) /\
  derivable_pt_lim (fun z => poly3 p r s z) t (poly3 (d_ref 2 p) r s t).
Proof.
  induction p as [|[c [[i j] k]] p (IH1 & IH2 & IH3)].
  - unfold poly3; cbn. repeat split; apply derivable_pt_lim_const.
  - rewrite !poly3_d_cons. unfold dmono. repeat split.
    + apply (derivable_pt_lim_plus (fun x => c * (x ^ i * s ^ j * t ^ k)) (fun x => poly3 p x s t)); [|exact IH1].
      apply (derivable_pt_lim_scal (fun x => x ^ i * s ^ j * t ^ k)).
      replace (INR i * r ^ pred i * s ^ j * t ^ k) with ((INR i * r ^ pred i * s ^ j + r ^ i * 0) * t ^ k + r ^ i * s ^ j * 0) by ring.
      apply (derivable_pt_lim_mult (fun x => x ^ i * s ^ j) (fun _ => t ^ k)); [|apply derivable_pt_lim_const].
      apply (derivable_pt_lim_mult (fun x => x ^ i) (fun _ => s ^ j)); [apply derivable_pt_lim_pow|apply derivable_pt_lim_const].
    + apply (derivable_pt_lim_plus (fun x => c * (r ^ i * x ^ j * t ^ k)) (fun x => poly3 p r x t)); [|exact IH2].
      apply (derivable_pt_lim_scal (fun x => r ^ i * x ^ j * t ^ k)).
      replace (r ^ i * (INR j * s ^ pred j) * t ^ k) with (r ^ i * (INR j * s ^ pred j) * t ^ k + r ^ i * s ^ j * 0) by ring.
      apply (derivable_pt_lim_mult (fun x => r ^ i * x ^ j) (fun _ => t ^ k)); [|apply derivable_pt_lim_const].
      apply (derivable_pt_lim_scal (fun x => x ^ j)). apply derivable_pt_lim_pow.
    + apply (derivable_pt_lim_plus (fun x => c * (r ^ i * s ^ j * x ^ k)) (fun x => poly3 p r s x)); [|exact IH3].
      apply (derivable_pt_lim_scal (fun x => r ^ i * s ^ j * x ^ k)). apply (derivable_pt_lim_scal (fun x => x ^ k)). apply derivable_pt_lim_pow.
Qed.

(** ** chain rule *)
Lemma lin_derives3 a b x : derivable_pt_lim (fun t => a + b * t) x b.
Proof.
  assert (H : derivable_pt_lim (fun t => a + b * t) x (0 + b * 1)); [|replace (0 + b * 1) with b in H by ring; exact H].
  apply (derivable_pt_lim_plus (fun _ => a) (fun t => b * t)); [apply derivable_pt_lim_const|].
  apply (derivable_pt_lim_scal (fun t => t)). apply derivable_pt_lim_id.
Qed.
Lemma pow_lin_derives3 a b n x : derivable_pt_lim (fun t => (a + b * t) ^ n) x (INR n * (a + b * x) ^ pred n * b).
Proof. apply (derivable_pt_lim_comp (fun t => a + b * t) (fun y => y ^ n)); [apply lin_derives3|apply derivable_pt_lim_pow]. Qed.
Lemma chain3 F a b c d e f t : derivable_pt_lim (fun t => poly3 F (a + b * t) (c + d * t) (e + f * t)) t
  (poly3 (d_ref 0 F) (a + b * t) (c + d * t) (e + f * t) * b + poly3 (d_ref 1 F) (a + b * t) (c + d * t) (e + f * t) * d +
   poly3 (d_ref 2 F) (a + b * t) (c + d * t) (e + f * t) * f).
Proof.
  induction F as [|[q [[i j] k]] F IH].
  - unfold poly3. cbn. replace (0 * b + 0 * d + 0 * f) with 0 by ring. apply derivable_pt_lim_const.
  - rewrite !poly3_d_cons. unfold dmono.
    match goal with |- derivable_pt_lim _ _ ((q * ?A + ?B) * b + (q * ?C + ?D) * d + (q * ?G + ?H) * f) =>
      replace ((q * A + B) * b + (q * C + D) * d + (q * G + H) * f) with (q * (A * b + C * d + G * f) + (B * b + D * d + H * f)) by ring end.
    apply (derivable_pt_lim_plus (fun t => q * ((a + b * t) ^ i * (c + d * t) ^ j * (e + f * t) ^ k))
      (fun t => poly3 F (a + b * t) (c + d * t) (e + f * t))); [|exact IH].
    apply (derivable_pt_lim_scal (fun t => (a + b * t) ^ i * (c + d * t) ^ j * (e + f * t) ^ k)).
    match goal with |- derivable_pt_lim _ _ (INR i * ?A * ?B * ?Z * b + ?C * (INR j * ?D) * ?Z * d + ?C * ?B * (INR k * ?G) * f) =>
      replace (INR i * A * B * Z * b + C * (INR j * D) * Z * d + C * B * (INR k * G) * f)
      with (((INR i * A * b) * B + C * (INR j * D * d)) * Z + C * B * (INR k * G * f)) by ring end.
    apply (derivable_pt_lim_mult (fun t => (a + b * t) ^ i * (c + d * t) ^ j) (fun t => (e + f * t) ^ k)); [|apply pow_lin_derives3].
    apply (derivable_pt_lim_mult (fun t => (a + b * t) ^ i) (fun t => (c + d * t) ^ j)); apply pow_lin_derives3.
Qed.

Lemma coord3_value m b r s t : poly3 (coord3 m b) r s t = org m b + edge m 0 b * r + edge m 1 b * s + edge m 2 b * t.
Proof. unfold coord3, poly3; cbn; ring. Qed.
Lemma d_phys_value m a p r s t : poly3 (d_phys m a p) r s t =
  adjug (edge m) a 0 / volume3 m * poly3 (d_ref 0 p) r s t + adjug (edge m) a 1 / volume3 m * poly3 (d_ref 1 p) r s t +
  adjug (edge m) a 2 / volume3 m * poly3 (d_ref 2 p) r s t.
Proof. unfold d_phys. cbn [flat_map]. rewrite !poly3_app, !poly3_scale. unfold poly3 at 4. cbn. ring. Qed.
Lemma adjug_cof J a b : (a < 3)%nat -> (b < 3)%nat -> adjug J a b = cof3 J a b.
Proof.
  intros Ha Hb. do 3 (destruct a as [|a]; [do 3 (destruct b as [|b]; [unfold adjug, cof3; cbn; ring|]); lia|]). lia.
Qed.

Lemma limit_same f g x l l' : (forall y, f y = g y) -> derivable_pt_lim f x l -> derivable_pt_lim g x l' -> l = l'.
Proof.
  intros E Hf Hg. apply (uniqueness_limite f x); [exact Hf|]. intros eps He. destruct (Hg eps He) as [d Hd].
  exists d. intros h H1 H2. rewrite !E. apply Hd; assumption.
Qed.

Lemma gradient_physical3 m P F : volume3 m <> 0 ->
  (forall r s t, poly3 P r s t = poly3 F (poly3 (coord3 m 0) r s t) (poly3 (coord3 m 1) r s t) (poly3 (coord3 m 2) r s t)) ->
  forall a r s t, (a < 3)%nat -> poly3 (d_phys m a P) r s t =
    poly3 (d_ref a F) (poly3 (coord3 m 0) r s t) (poly3 (coord3 m 1) r s t) (poly3 (coord3 m 2) r s t).
Proof.
  intros Hd HP a r s t Ha.
  assert (HP' : forall r s t, poly3 P r s t = poly3 F (org m 0 + edge m 0 0 * r + edge m 1 0 * s + edge m 2 0 * t)
     (org m 1 + edge m 0 1 * r + edge m 1 1 * s + edge m 2 1 * t) (org m 2 + edge m 0 2 * r + edge m 1 2 * s + edge m 2 2 * t)).
  { intros. rewrite HP, !coord3_value. reflexivity. } clear HP.
  rewrite !coord3_value. destruct (d_ref_derives P r s t) as (D0 & D1 & D2).
  set (o0 := org m 0) in *. set (o1 := org m 1) in *. set (o2 := org m 2) in *.
  set (X := o0 + edge m 0 0 * r + edge m 1 0 * s + edge m 2 0 * t).
  set (Y := o1 + edge m 0 1 * r + edge m 1 1 * s + edge m 2 1 * t).
  set (Z := o2 + edge m 0 2 * r + edge m 1 2 * s + edge m 2 2 * t).
  assert (H0 : poly3 (d_ref 0 P) r s t = poly3 (d_ref 0 F) X Y Z * edge m 0 0 + poly3 (d_ref 1 F) X Y Z * edge m 0 1 + poly3 (d_ref 2 F) X Y Z * edge m 0 2).
  { assert (C := chain3 F (o0 + edge m 1 0 * s + edge m 2 0 * t) (edge m 0 0) (o1 + edge m 1 1 * s + edge m 2 1 * t) (edge m 0 1)
       (o2 + edge m 1 2 * s + edge m 2 2 * t) (edge m 0 2) r).
    replace (o0 + edge m 1 0 * s + edge m 2 0 * t + edge m 0 0 * r) with X in C by (unfold X; ring).
    replace (o1 + edge m 1 1 * s + edge m 2 1 * t + edge m 0 1 * r) with Y in C by (unfold Y; ring).
    replace (o2 + edge m 1 2 * s + edge m 2 2 * t + edge m 0 2 * r) with Z in C by (unfold Z; ring).
    refine (limit_same _ _ _ _ _ _ D0 C). intros y. rewrite HP'. f_equal; ring. }
  assert (H1 : poly3 (d_ref 1 P) r s t = poly3 (d_ref 0 F) X Y Z * edge m 1 0 + poly3 (d_ref 1 F) X Y Z * edge m 1 1 + poly3 (d_ref 2 F) X Y Z * edge m 1 2).
  { assert (C := chain3 F (o0 + edge m 0 0 * r + edge m 2 0 * t) (edge m 1 0) (o1 + edge m 0 1 * r + edge m 2 1 * t) (edge m 1 1)
       (o2 + edge m 0 2 * r + edge m 2 2 * t) (edge m 1 2) s).
    replace (o0 + edge m 0 0 * r + edge m 2 0 * t + edge m 1 0 * s) with X in C by (unfold X; ring).
    replace (o1 + edge m 0 1 * r + edge m 2 1 * t + edge m 1 1 * s) with Y in C by (unfold Y; ring).
    replace (o2 + edge m 0 2 * r + edge m 2 2 * t + edge m 1 2 * s) with Z in C by (unfold Z; ring).
    refine (limit_same _ _ _ _ _ _ D1 C). intros y. rewrite HP'. f_equal; ring. }
  assert (H2 : poly3 (d_ref 2 P) r s t = poly3 (d_ref 0 F) X Y Z * edge m 2 0 + poly3 (d_ref 1 F) X Y Z * edge m 2 1 + poly3 (d_ref 2 F) X Y Z * edge m 2 2).
  { assert (C := chain3 F (o0 + edge m 0 0 * r + edge m 1 0 * s) (edge m 2 0) (o1 + edge m 0 1 * r + edge m 1 1 * s) (edge m 2 1)
       (o2 + edge m 0 2 * r + edge m 1 2 * s) (edge m 2 2) t). fold X Y Z in C.
    refine (limit_same _ _ _ _ _ _ D2 C). intros y. rewrite HP'. reflexivity. }
  rewrite d_phys_value, H0, H1, H2. unfold volume3, J3det in *.
  do 3 (destruct a as [|a]; [unfold adjug; cbn; field; exact Hd|]). lia.
Qed.

(** ** integrals over the cube *)
Lemma sq_ext f g I : (forall x y, f x y = g x y) -> integral_sq f I -> integral_sq g I.
Proof.
  intros E [h [Hh HI]]. exists h. split; [|exact HI]. intros x. apply (integral_ext (f x)); auto.
Qed.
Lemma cube_unique f I J : integral_cube f I -> integral_cube f J -> I = J.
Proof.
  intros [g [Hg HI]] [h [Hh HJ]]. apply (sq_unique g); [exact HI|]. apply (sq_ext h); [|exact HJ].
  intros x y. exact (integral_unique _ _ _ _ _ (Hh x y) (Hg x y)).
Qed.
Definition cube_int (p : pol3) : R :=
  lsum (fun t : R * (nat * nat * nat) => fst t * (pow_int (fst (fst (snd t))) * pow_int (snd (fst (snd t))) * pow_int (snd (snd t)))) p.
Lemma poly3_cube p : integral_cube (poly3 p) (cube_int p).
Proof.
  set (q := map (fun '(c, (i, j, k)) => (c * pow_int k, (i, j))) p : pol).
  exists (poly2 q). split.
  - intros x y.
    apply (integral_ext (fun z => lsum (fun t : R * (nat * nat * nat) => (fst t * (x ^ fst (fst (snd t)) * y ^ snd (fst (snd t)))) * z ^ snd (snd t)) p)).
    { intros z. unfold poly3. apply lsum_ext. intros [c [[i j] k]] _. cbn. ring. }
    replace (poly2 q x y) with (lsum (fun t : R * (nat * nat * nat) => (fst t * (x ^ fst (fst (snd t)) * y ^ snd (fst (snd t)))) * pow_int (snd (snd t))) p).
    { apply (integral_lsum p (fun t z => (fst t * (x ^ fst (fst (snd t)) * y ^ snd (fst (snd t)))) * z ^ snd (snd t))). intros t _.
      apply integral_scal, pow_int_spec. }
    unfold poly2, q. rewrite lsum_map. apply lsum_ext. intros [c [[i j] k]] _. cbn. ring.
  - assert (S := poly2_sq q). replace (cube_int p) with (lsum (fun t : R * (nat * nat) => fst t * (pow_int (fst (snd t)) * pow_int (snd (snd t)))) q); [exact S|].
    unfold cube_int, q. rewrite lsum_map. apply lsum_ext. intros [c [[i j] k]] _. cbn [fst snd]. ring.
Qed.

Definition box3 (a : nat) (p : pol3) : Prop :=
  Forall (fun t => (fst (fst (snd t)) <= a)%nat /\ (snd (fst (snd t)) <= a)%nat /\ (snd (snd t) <= a)%nat) p.
Definition upto3 (a : nat) (p : pol3) : Prop := Forall (fun t => (fst (fst (snd t)) + snd (fst (snd t)) + snd (snd t) <= a)%nat) p.

Lemma gauss_cube_degree n pts wts p I a : @gauss_nd R Num_R n 3 = Ok (pts, wts) ->
  box3 a p -> (Z.of_nat a <= 2 * n - 1)%Z -> integral_cube (poly3 p) I ->
  Rabs (rule3 pts wts (poly3 p) - I) <= 1 / 1000000000000000 * size p.
Proof.
  intros H Hp Hn HI. rewrite (cube_unique _ _ _ HI (poly3_cube p)), rule3_poly. unfold cube_int.
  apply (lift p (fun e => rule3 pts wts (fun x y z => x ^ fst (fst e) * y ^ snd (fst e) * z ^ snd e))
    (fun e => pow_int (fst (fst e)) * pow_int (snd (fst e)) * pow_int (snd e))); [lra|].
  intros [c [[i j] k]] Ht. cbn [fst snd]. unfold box3 in Hp. rewrite Forall_forall in Hp. specialize (Hp _ Ht). cbn in Hp.
  assert (B := gauss_nd_monomials n 3 pts wts [i; j; k] [pow_int i; pow_int j; pow_int k] H eq_refl).
  eapply Rle_trans; [|eapply Rle_trans; [apply B|]].
  - right. f_equal. f_equal.
    + unfold rule3, rule. apply lsum_ext. intros [x w] _. cbn [tensor map]. destruct x as [|x1 [|x2 [|x3 x]]]; cbn; ring.
    + cbn. ring.
  - repeat constructor; try lia; apply pow_int_spec.
  - cbn. lra.
Qed.
