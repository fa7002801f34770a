(** * Proofs: no spurious modes of tet4; trilinear fields on hex8 *)
From Coq Require Import String Reals List Arith Lia Lra Bool ZArith QArith Qreals.
From Verif Require Import Num LinAlg Gauss Fem Uel Spec LinR Base ElemShape BarProofs SpecElem SpecShape ShapeProofs ElemCore Sampled Elem2 MatProofs Elem2Props Elem3 Elem3Props SpecModes.
Import ListNotations.
Local Open Scope R_scope.

Lemma solid_strain_zero p coord E nu rho K m u : In p solids -> so_f p coord [E; nu; rho] = Ok (K, m) ->
  0 < E -> -1 < nu < 1 / 2 -> form (3 * so_n p) K u u = 0 ->
  forall r s t w, In (r, s, t, w) (so_gq p) ->
    det_at3 (so_n p) (so_sh p) coord r s t <> 0 /\
    forall a, (a < 6)%nat -> strain3 (so_n p) (snd (so_sh p r s t)) coord u a = 0.
Proof.
  intros Hp Hrun HE Hnu H0 r s t w Hin.
  destruct (solid_summary p coord _ K m Hp Hrun) as [E' [nu' [rho' [M [Hpar [_ [_ [Ha [_ HS]]]]]]]]].
  injection Hpar as <- <- <-. split; [destruct Ha as [_ [_ Ha]]; specialize (Ha r s t w Hin); lra|].
  assert (HZ := sampled_zero_energy _ _ _ _ _ _ _ _ HS u (fun g Hg => gs3_weights p coord g Hp Ha Hg) (hooke_psd E nu HE Hnu) H0).
  specialize (HZ (gdat3 (so_n p) (so_sh p) coord (so_c p) (r, s, t, w)) (in_map _ _ _ Hin)).
  cbn [gdat3 g_eps] in HZ. exact (hooke_pd E nu _ HE Hnu HZ).
Qed.

(** derivative of the displacement b along the reference direction i *)
Definition H3 (n : nat) (D : list (list R)) (u : nat -> R) (i b : nat) : R := rsum n (fun k => ent D i k * u (3 * k + b)%nat).

Lemma H3_G n D coord u i b : (i < 3)%nat -> J3det (Jac n D coord) <> 0 ->
  H3 n D u i b = rsum 3 (fun a => Jac n D coord i a * G3 n D coord u a b).
Proof.
  intros Hi Hd. unfold G3.
  transitivity (rsum 3 (fun j => (if (i =? j)%nat then 1 else 0) * H3 n D u j b)).
  { cbn [rsum]. do 3 (destruct i as [|i]; [cbn [Nat.eqb]; ring|]). lia. }
  transitivity (rsum 3 (fun j => rsum 3 (fun a => Jac n D coord i a * (cof3 (Jac n D coord) a j / J3det (Jac n D coord))) * H3 n D u j b)).
  { apply rsum_ext. intros j Hj. rewrite cof3_right by assumption. reflexivity. }
  transitivity (rsum 3 (fun a => Jac n D coord i a * rsum 3 (fun j => cof3 (Jac n D coord) a j / J3det (Jac n D coord) * H3 n D u j b))).
  { cbn [rsum]. ring. }
  apply rsum_ext. intros a Ha. f_equal. symmetry. exact (grad3_lin n D coord a (fun k => u (3 * k + b)%nat)).
Qed.
Definition anti (G : nat -> nat -> R) : Prop := forall a b, (a < 3)%nat -> (b < 3)%nat -> G a b + G b a = 0.
Lemma strain_anti G : (forall a, (a < 6)%nat -> strain_of G a = 0) -> anti G.
Proof.
  intros H. pose proof (H 0%nat ltac:(lia)) as H0. pose proof (H 1%nat ltac:(lia)) as H1. pose proof (H 2%nat ltac:(lia)) as H2.
  pose proof (H 3%nat ltac:(lia)) as H3. pose proof (H 4%nat ltac:(lia)) as H4. pose proof (H 5%nat ltac:(lia)) as H5. cbn [strain_of] in *.
  intros a b Ha Hb. do 3 (destruct a as [|a]; [do 3 (destruct b as [|b]; [lra|]); lia|]). lia.
Qed.

(** an affine field with a skew gradient is a rigid motion *)
Lemma skew_rigid n coord u (xi : nat -> nat -> R) (t0 : nat -> R) (x0 : nat -> R) (J G : nat -> nat -> R) : anti G ->
  (forall k b, (k < n)%nat -> (b < 3)%nat -> u (3 * k + b)%nat = t0 b + rsum 3 (fun i => xi k i * rsum 3 (fun a => J i a * G a b))) ->
  (forall k a, (k < n)%nat -> (a < 3)%nat -> ent coord k a = x0 a + rsum 3 (fun i => xi k i * J i a)) ->
  exists t w, forall j, (j < 3 * n)%nat -> u j = rigid3 coord t w j.
Proof.
  intros A Hu Hx. exists (fun b => t0 b - rsum 3 (fun a => x0 a * G a b)), (fun c => match c with 0%nat => G 1%nat 2%nat | 1%nat => G 2%nat 0%nat | _ => G 0%nat 1%nat end).
  intros j Hj. set (k := (j / 3)%nat). set (b := (j mod 3)%nat).
  assert (Ej : j = (3 * k + b)%nat) by (unfold k, b; apply Nat.div_mod; lia). assert (Hb : (b < 3)%nat) by (unfold b; apply Nat.mod_upper_bound; lia).
  assert (Hk : (k < n)%nat) by lia. clearbody k b. subst j. rewrite Hu by assumption.
  unfold rigid3, affine3. rewrite mod3, div3 by assumption. cbn [rsum]. rewrite !(Hx k) by (assumption || lia). cbn [rsum].
  pose proof (A 0%nat 0%nat ltac:(lia) ltac:(lia)) as A00. pose proof (A 1%nat 1%nat ltac:(lia) ltac:(lia)) as A11. pose proof (A 2%nat 2%nat ltac:(lia) ltac:(lia)) as A22.
  pose proof (A 0%nat 1%nat ltac:(lia) ltac:(lia)) as A01. pose proof (A 0%nat 2%nat ltac:(lia) ltac:(lia)) as A02. pose proof (A 1%nat 2%nat ltac:(lia) ltac:(lia)) as A12.
  assert (E00 : G 0%nat 0%nat = 0) by lra. assert (E11 : G 1%nat 1%nat = 0) by lra. assert (E22 : G 2%nat 2%nat = 0) by lra.
  assert (E10 : G 1%nat 0%nat = - G 0%nat 1%nat) by lra. assert (E20 : G 2%nat 0%nat = - G 0%nat 2%nat) by lra.
  assert (E21 : G 2%nat 1%nat = - G 1%nat 2%nat) by lra.
  do 3 (destruct b as [|b]; [cbn [skew3]; rewrite ?E00, ?E11, ?E22, ?E10, ?E20, ?E21; ring|]). lia.
Qed.

(** ** tet4 *)
Lemma tet4_D r s t v i : (i < 3)%nat -> rsum 4 (fun k => ent (snd (shape_tet4 r s t)) i k * v k) = v (S i) - v 0%nat.
Proof. intros Hi. unfold ent. shp. do 3 (destruct i as [|i]; [cbn [rsum nth]; ring|]). lia. Qed.
Lemma tet4_modes coord E nu rho K m u : elast_tet4 coord [E; nu; rho] = Ok (K, m) -> 0 < E -> -1 < nu < 1 / 2 -> form 12 K u u = 0 ->
  exists t w, forall j, (j < 12)%nat -> u j = rigid3 coord t w j.
Proof.
  intros Hrun HE Hnu H0. assert (Hp : In so_tet4 solids) by (left; reflexivity).
  assert (G : exists r s t w, In (r, s, t, w) (so_gq so_tet4)) by (do 4 eexists; left; reflexivity). destruct G as (r & s & t & w0 & Hin).
  destruct (solid_strain_zero so_tet4 coord E nu rho K m u Hp Hrun HE Hnu H0 r s t w0 Hin) as [Hd Hs]. clear Hin.
  cbn [so_n so_sh so_tet4] in *. unfold det_at3 in Hd. pose proof (tet4_D r s t) as HD. set (D := snd (shape_tet4 r s t)) in *.
  assert (A : anti (G3 4 D coord u)) by exact (strain_anti _ Hs).
  apply (skew_rigid 4 coord u (fun k i => if (k =? S i)%nat then 1 else 0) (fun b => u b) (fun a => ent coord 0 a) (Jac 4 D coord) (G3 4 D coord u) A).
  - intros k b Hk Hb.
    assert (E0 : forall i, (i < 3)%nat -> u (3 * S i + b)%nat - u b = rsum 3 (fun a => Jac 4 D coord i a * G3 4 D coord u a b)).
    { intros i Hi. rewrite <- H3_G by assumption. unfold H3. symmetry. etransitivity; [apply (HD (fun k => u (3 * k + b)%nat) i Hi)|]. reflexivity. }
    destruct k as [|k]; [cbn [Nat.mul Nat.add rsum Nat.eqb]; ring|]. assert (Hk3 : (k < 3)%nat) by lia.
    transitivity (u b + (u (3 * S k + b)%nat - u b)); [ring|]. rewrite E0 by exact Hk3. f_equal.
    cbn [rsum]. do 3 (destruct k as [|k]; [cbn [Nat.eqb]; ring|]). lia.
  - intros k a Hk Ha. assert (E0 : forall i, (i < 3)%nat -> Jac 4 D coord i a = ent coord (S i) a - ent coord 0 a).
    { intros i Hi. exact (HD (fun k => ent coord k a) i Hi). }
    cbn [rsum]. rewrite !E0 by lia. do 4 (destruct k as [|k]; [cbn [Nat.eqb]; ring|]). lia.
Qed.

(** ** hex8 *)
Definition sg (k i : nat) : R :=
  match i with
  | 0%nat => if existsb (Nat.eqb k) [1; 2; 5; 6]%nat then 1 else -1
  | 1%nat => if existsb (Nat.eqb k) [2; 3; 6; 7]%nat then 1 else -1
  | _ => if existsb (Nat.eqb k) [4; 5; 6; 7]%nat then 1 else -1
  end.
Definition mean8 (f : nat -> R) (v : nat -> R) : R := rsum 8 (fun k => f k * v k) / 8.
Definition h0 := mean8 (fun _ => 1).
Definition hr := mean8 (fun k => sg k 0).
Definition hs := mean8 (fun k => sg k 1).
Definition ht := mean8 (fun k => sg k 2).
Definition hrs := mean8 (fun k => sg k 0 * sg k 1).
Definition hrt := mean8 (fun k => sg k 0 * sg k 2).
Definition hst := mean8 (fun k => sg k 1 * sg k 2).
Definition hrst := mean8 (fun k => sg k 0 * sg k 1 * sg k 2).
Ltac unh := unfold h0, hr, hs, ht, hrs, hrt, hst, hrst, mean8; cbn [rsum sg existsb Nat.eqb orb].
Lemma hex8_D0 r s t v : rsum 8 (fun k => ent (snd (shape_hex8 r s t)) 0 k * v k) = hr v + hrs v * s + hrt v * t + hrst v * s * t.
Proof. unfold ent. shp. unh. cbn [nth]. field. Qed.
Lemma hex8_D1 r s t v : rsum 8 (fun k => ent (snd (shape_hex8 r s t)) 1 k * v k) = hs v + hrs v * r + hst v * t + hrst v * r * t.
Proof. unfold ent. shp. unh. cbn [nth]. field. Qed.
Lemma hex8_D2 r s t v : rsum 8 (fun k => ent (snd (shape_hex8 r s t)) 2 k * v k) = ht v + hrt v * r + hst v * s + hrst v * r * s.
Proof. unfold ent. shp. unh. cbn [nth]. field. Qed.
Lemma hex8_value k v : (k < 8)%nat -> v k = h0 v + hr v * sg k 0 + hs v * sg k 1 + ht v * sg k 2 + hrs v * (sg k 0 * sg k 1) + hrt v * (sg k 0 * sg k 2) + hst v * (sg k 1 * sg k 2)
  + hrst v * (sg k 0 * sg k 1 * sg k 2).
Proof. intros Hk. unh. do 8 (destruct k as [|k]; [cbn [sg existsb Nat.eqb orb]; field|]). lia. Qed.
Lemma brick_flat coord c : parallelepiped coord -> (c < 3)%nat ->
  let X := fun k => ent coord k c in hrs X = 0 /\ hrt X = 0 /\ hst X = 0 /\ hrst X = 0.
Proof.
  intros (A & B & C & D & F) Hc X. unfold same_edge in *. specialize (A c Hc). specialize (B c Hc). specialize (C c Hc). specialize (D c Hc). specialize (F c Hc).
  unh. fold (X 0%nat) (X 1%nat) (X 2%nat) (X 3%nat) (X 4%nat) (X 5%nat) (X 6%nat) (X 7%nat) in *. repeat split; lra.
Qed.
Lemma bil_zero g a b c d : g <> 0 -> (forall s t, (s = g \/ s = - g) -> (t = g \/ t = - g) -> a + b * s + c * t + d * s * t = 0) -> a = 0 /\ b = 0 /\ c = 0 /\ d = 0.
Proof.
  intros Hg H. pose proof (H g g ltac:(tauto) ltac:(tauto)) as H1. pose proof (H g (- g) ltac:(tauto) ltac:(tauto)) as H2.
  pose proof (H (- g) g ltac:(tauto) ltac:(tauto)) as H3. pose proof (H (- g) (- g) ltac:(tauto) ltac:(tauto)) as H4. clear H.
  assert (Ea : a = 0) by lra. assert (Eb : b * g = 0) by lra. assert (Ec : c * g = 0) by lra. assert (Ed : d * (g * g) = 0) by lra.
  assert (G2 : g * g <> 0) by (intros E; apply Rmult_integral in E; tauto).
  apply Rmult_integral in Eb. apply Rmult_integral in Ec. apply Rmult_integral in Ed. repeat split; tauto.
Qed.
