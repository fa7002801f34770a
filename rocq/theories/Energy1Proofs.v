(** * Proofs: matrices of bars and beams are integrals along the length *)
From Coq Require Import String Reals List Arith Lia Lra Bool ZArith.
From Verif Require Import Num LinAlg Gauss Fem Uel Spec LinR Base SpecElem SpecQuad SpecEnergy1 ElemFinal2 ElemFinal3 QuadProofs BarProofs ElemCore BeamProofs BeamFrame.
Import ListNotations.
Local Open Scope R_scope.

Lemma integral_val f a b I J : integral f a b I -> I = J -> integral f a b J.
Proof. intros H <-. exact H. Qed.
Lemma sextic L e0 e1 e2 e3 e4 e5 e6 :
  integral (fun s => e0 + e1 * s + e2 * s ^ 2 + e3 * s ^ 3 + e4 * s ^ 4 + e5 * s ^ 5 + e6 * s ^ 6) 0 L
    (e0 * L + e1 * L ^ 2 / 2 + e2 * L ^ 3 / 3 + e3 * L ^ 4 / 4 + e4 * L ^ 5 / 5 + e5 * L ^ 6 / 6 + e6 * L ^ 7 / 7).
Proof.
  pose proof (fun n c => integral_scal c _ 0 L _ (integral_pow n 0 L)) as P.
  pose proof (integral_plus _ _ _ _ _ _ (integral_plus _ _ _ _ _ _ (integral_plus _ _ _ _ _ _ (integral_plus _ _ _ _ _ _ (integral_plus _ _ _ _ _ _
    (integral_plus _ _ _ _ _ _ (P 0%nat e0) (P 1%nat e1)) (P 2%nat e2)) (P 3%nat e3)) (P 4%nat e4)) (P 5%nat e5)) (P 6%nat e6)) as S.
  eapply integral_val; [eapply integral_ext; [|exact S]|].
  - intros x. cbn. ring.
  - cbn. field.
Qed.
(** the value of an integral of a polynomial of degree up to 6 *)
Lemma along_sextic L f e0 e1 e2 e3 e4 e5 e6 I : (forall s, f s = e0 + e1 * s + e2 * s ^ 2 + e3 * s ^ 3 + e4 * s ^ 4 + e5 * s ^ 5 + e6 * s ^ 6) ->
  I = e0 * L + e1 * L ^ 2 / 2 + e2 * L ^ 3 / 3 + e3 * L ^ 4 / 4 + e4 * L ^ 5 / 5 + e5 * L ^ 6 / 6 + e6 * L ^ 7 / 7 -> along L f I.
Proof.
  intros Hf ->. assert (S : integral f 0 L (e0 * L + e1 * L ^ 2 / 2 + e2 * L ^ 3 / 3 + e3 * L ^ 4 / 4 + e4 * L ^ 5 / 5 + e5 * L ^ 6 / 6 + e6 * L ^ 7 / 7)).
  { eapply integral_ext; [|apply sextic]. intros s. cbv beta. symmetry. apply Hf. }
  split; [exact S|]. intros J HJ. exact (integral_unique _ _ _ _ _ HJ S).
Qed.

(** derivatives of the polynomials *)
Lemma slope_unique f g h : slope f g -> slope f h -> forall s, g s = h s.
Proof. intros H1 H2 s. exact (uniqueness_limite f s _ _ (H1 s) (H2 s)). Qed.
Lemma slope_ext f g h : (forall s, f s = g s) -> slope f h -> slope g h.
Proof.
  intros E H s eps He. destruct (H s eps He) as [d Hd]. exists d. intros t Ht Hd'. rewrite <- !E. exact (Hd t Ht Hd').
Qed.
Lemma slope_poly a b c d : slope (fun s => a + b * s + c * s ^ 2 + d * s ^ 3) (fun s => b + 2 * c * s + 3 * d * s ^ 2).
Proof.
  intros s.
  pose proof (derivable_pt_lim_plus _ _ _ _ _ (derivable_pt_lim_plus _ _ _ _ _ (derivable_pt_lim_plus _ _ _ _ _ (derivable_pt_lim_const a s)
    (derivable_pt_lim_scal _ b _ _ (derivable_pt_lim_id s))) (derivable_pt_lim_scal _ c _ _ (derivable_pt_lim_pow s 2))) (derivable_pt_lim_scal _ d _ _ (derivable_pt_lim_pow s 3))) as H.
  replace (b + 2 * c * s + 3 * d * s ^ 2) with (0 + b * 1 + c * (INR 2 * s ^ Init.Nat.pred 2) + d * (INR 3 * s ^ Init.Nat.pred 3)) by (cbn; ring).
  exact H.
Qed.
Lemma slope_cubic f g a b c d : (forall s, f s = a + b * s + c * s ^ 2 + d * s ^ 3) -> slope f g -> forall s, g s = b + 2 * c * s + 3 * d * s ^ 2.
Proof. intros E H. apply (slope_unique f); [exact H|]. eapply slope_ext; [|apply slope_poly]. intros s. cbv beta. symmetry. apply E. Qed.
Lemma slope_quadratic f g a b c : (forall s, f s = a + b * s + c * s ^ 2) -> slope f g -> forall s, g s = b + 2 * c * s.
Proof. intros E H s. rewrite (slope_cubic f g a b c 0); [ring| |exact H]. intros t. rewrite E. ring. Qed.
Lemma slope_affine f g a b : (forall s, f s = a + b * s) -> slope f g -> forall s, g s = b.
Proof. intros E H s. rewrite (slope_cubic f g a b 0 0); [ring| |exact H]. intros t. rewrite E. ring. Qed.

Section Along.
  Variables (xa ya xb yb : R).
  Hypothesis Hne : xa <> xb \/ ya <> yb.
  Let L := bar_len xa ya xb yb.
  Let nx := (xb - xa) / L.
  Let ny := (yb - ya) / L.
  Let coord := [[xa; ya]; [xb; yb]].

  Lemma al_pos : 0 < L /\ nx * nx + ny * ny = 1.
  Proof. exact (unit_axis xa ya xb yb Hne). Qed.

  (** bars *)
  Theorem bar_integrals X Y P Q X' Y' P' Q' E A rho : affine X -> affine Y -> affine P -> affine Q -> slope X X' -> slope Y Y' -> slope P P' -> slope Q Q' ->
    exists K M, truss2D coord [E; A; rho] = Ok (K, M2 M) /\
      along L (fun s => E * A * (nx * X' s + ny * Y' s) * (nx * P' s + ny * Q' s)) (form 4 K (bar_ends L X Y) (bar_ends L P Q)) /\
      along L (fun s => rho * A * (X s * P s + Y s * Q s)) (form 4 M (bar_ends L X Y) (bar_ends L P Q)).
  Proof.
    intros (a & b & HX) (c & d & HY) (e & f & HP) (g & h & HQ) SX SY SP SQ. pose proof al_pos as [HL _].
    do 2 eexists. split; [apply truss_unfold; apply axis_ok; exact Hne|]. fold L nx ny.
    split.
    - eapply (along_sextic L _ (E * A * (nx * b + ny * d) * (nx * f + ny * h)) 0 0 0 0 0 0).
      + intros s. rewrite (slope_affine _ _ _ _ HX SX), (slope_affine _ _ _ _ HY SY), (slope_affine _ _ _ _ HP SP), (slope_affine _ _ _ _ HQ SQ). ring.
      + rewrite axial_form. unfold bar_ends. cbn [nth]. rewrite !HX, !HY, !HP, !HQ. numR. field. lra.
    - eapply (along_sextic L _ (rho * A * (a * e + c * g)) (rho * A * (a * f + b * e + c * h + d * g)) (rho * A * (b * f + d * h)) 0 0 0 0).
      + intros s. rewrite HX, HY, HP, HQ. ring.
      + etransitivity; [apply (truss_mass_form (A * L * rho / 6))|]. unfold bar_ends. cbn [nth]. rewrite !HX, !HY, !HP, !HQ. field.
  Qed.

  Lemma bar_reach u : exists X Y, affine X /\ affine Y /\ forall i, (i < 4)%nat -> bar_ends L X Y i = u i.
  Proof.
    pose proof al_pos as [HL _]. exists (fun s => u 0%nat + (u 2%nat - u 0%nat) / L * s), (fun s => u 1%nat + (u 3%nat - u 1%nat) / L * s).
    split; [do 2 eexists; intros; reflexivity|]. split; [do 2 eexists; intros; reflexivity|].
    intros i Hi. unfold bar_ends. do 4 (destruct i as [|i]; [cbn [nth]; field; lra|]). lia.
  Qed.
  Lemma beam_reach cx cy u : cx * cx + cy * cy = 1 ->
    exists a w w', affine a /\ cubic w /\ slope w w' /\ forall i, (i < 6)%nat -> beam_ends cx cy L a w w' i = u i.
  Proof.
    intros H1. pose proof al_pos as [HL _].
    set (a0 := cx * u 0%nat + cy * u 1%nat). set (a1 := cx * u 3%nat + cy * u 4%nat).
    set (w0 := - cy * u 0%nat + cx * u 1%nat). set (w1 := - cy * u 3%nat + cx * u 4%nat).
    set (c := (3 * (w1 - w0) - L * (2 * u 2%nat + u 5%nat)) / (L * L)). set (d := (2 * (w0 - w1) + L * (u 2%nat + u 5%nat)) / (L * L * L)).
    exists (fun s => a0 + (a1 - a0) / L * s), (fun s => w0 + u 2%nat * s + c * s ^ 2 + d * s ^ 3), (fun s => u 2%nat + 2 * c * s + 3 * d * s ^ 2).
    split; [do 2 eexists; intros; reflexivity|]. split; [do 4 eexists; intros; reflexivity|]. split; [apply slope_poly|].
    assert (EA : a0 + (a1 - a0) / L * L = a1) by (field; lra). assert (EW : w0 + u 2%nat * L + c * L ^ 2 + d * L ^ 3 = w1) by (unfold c, d; field; lra).
    assert (ES : u 2%nat + 2 * c * L + 3 * d * L ^ 2 = u 5%nat) by (unfold c, d; field; lra).
    intros i Hi. unfold beam_ends. cbv beta.
    destruct i as [|i]; [cbn [nth]; transitivity (cx * a0 - cy * w0); [ring|unfold a0, w0; transitivity ((cx * cx + cy * cy) * u 0%nat); [ring|rewrite H1; ring]]|].
    destruct i as [|i]; [cbn [nth]; transitivity (cy * a0 + cx * w0); [ring|unfold a0, w0; transitivity ((cx * cx + cy * cy) * u 1%nat); [ring|rewrite H1; ring]]|].
    destruct i as [|i]; [cbn [nth]; ring|].
    destruct i as [|i]; [cbn [nth]; rewrite EA, EW; unfold a1, w1; transitivity ((cx * cx + cy * cy) * u 3%nat); [ring|rewrite H1; ring]|].
    destruct i as [|i]; [cbn [nth]; rewrite EA, EW; unfold a1, w1; transitivity ((cx * cx + cy * cy) * u 4%nat); [ring|rewrite H1; ring]|].
    destruct i as [|i]; [cbn [nth]; exact ES|]. lia.
  Qed.

  (** local displacements of the fields *)
  Lemma ends_local a w w' : loc_ax nx ny (beam_ends nx (- ny) L a w w') 0 = a 0 /\ loc_ax nx ny (beam_ends nx (- ny) L a w w') 1 = a L /\
    loc_tr nx ny (beam_ends nx (- ny) L a w w') 0 = w 0 /\ loc_tr nx ny (beam_ends nx (- ny) L a w w') 1 = w L.
  Proof.
    pose proof al_pos as [_ H1]. unfold loc_ax, loc_tr, beam_ends. cbn [nth Nat.mul Nat.add].
    repeat split; (match goal with |- _ = ?f ?t => transitivity ((nx * nx + ny * ny) * f t); [ring|rewrite H1; ring] end).
  Qed.

  Lemma mass4_form c u v : form 4 (mscale c [[156; 22 * L; 54; - (13) * L]; [22 * L; 4 * (L * L); 13 * L; - (3) * (L * L)];
           [54; 13 * L; 156; - (22) * L]; [- (13) * L; - (3) * (L * L); - (22) * L; 4 * (L * L)]]) u v =
    c * (156 * u 0%nat * v 0%nat + 4 * L * L * u 1%nat * v 1%nat + 156 * u 2%nat * v 2%nat + 4 * L * L * u 3%nat * v 3%nat
       + 22 * L * (u 0%nat * v 1%nat + u 1%nat * v 0%nat) + 54 * (u 0%nat * v 2%nat + u 2%nat * v 0%nat) - 13 * L * (u 0%nat * v 3%nat + u 3%nat * v 0%nat)
       + 13 * L * (u 1%nat * v 2%nat + u 2%nat * v 1%nat) - 3 * L * L * (u 1%nat * v 3%nat + u 3%nat * v 1%nat) - 22 * L * (u 2%nat * v 3%nat + u 3%nat * v 2%nat)).
  Proof. rewrite form_mscale. unfold form, act, ent. cbn [rsum nth]. ring. Qed.
  Definition mass_energy (c : R) (u v : nat -> R) : R :=
    let p := loc_tr nx ny u 0 in let p' := loc_tr nx ny v 0 in let q := loc_tr nx ny u 1 in let q' := loc_tr nx ny v 1 in
    c * (156 * p * p' + 4 * L * L * u 2%nat * v 2%nat + 156 * q * q' + 4 * L * L * u 5%nat * v 5%nat
       + 22 * L * (p * v 2%nat + u 2%nat * p') + 54 * (p * q' + q * p') - 13 * L * (p * v 5%nat + u 5%nat * p')
       + 13 * L * (u 2%nat * q' + q * v 2%nat) - 3 * L * L * (u 2%nat * v 5%nat + u 5%nat * v 2%nat) - 22 * L * (q * v 5%nat + u 5%nat * q')).

  Lemma beamU_mass young I dens area K M : beam2DU coord [young; I; dens; area] = Ok (K, M2 M) ->
    forall u v, form 6 M u v = mass_energy (area * L * dens / 420) u v.
  Proof.
    unfold beam2DU. unfold coord. rewrite (axis_ok xa ya xb yb Hne). fold L nx ny. cbn [bind]. intros HO u v. apply Ok_pair_inj in HO. destruct HO as [_ HM]. apply M2_inj in HM. subst M.
    rewrite form_congr. etransitivity; [apply (mass4_form (area * L * dens / 420))|].
    unfold mass_energy, loc_tr, act, ent. cbn [rsum nth Nat.mul Nat.add]. numR. ring.
  Qed.
  Lemma beam_mass_form young I area dens K M : beam2D coord [young; I; area; dens] = Ok (K, M2 M) ->
    forall u v, form 6 M u v = area * L * dens / 420 * (140 * (loc_ax nx ny u 0 * loc_ax nx ny v 0 + loc_ax nx ny u 1 * loc_ax nx ny v 1)
       + 70 * (loc_ax nx ny u 0 * loc_ax nx ny v 1 + loc_ax nx ny u 1 * loc_ax nx ny v 0)) + mass_energy (area * L * dens / 420) u v.
  Proof.
    unfold beam2D. unfold coord. rewrite (axis_ok xa ya xb yb Hne). fold L nx ny. cbn [bind]. intros HO u v. inv_ok HO. cbn [map bcast_mul bind] in HO.
    apply Ok_pair_inj in HO. destruct HO as [_ HM]. apply M2_inj in HM. subst M.
    rewrite form_congr. match goal with |- form 6 _ ?f ?g = _ => transitivity (form 6 (mscale (area * L * dens / 420) (beam_mass6 L)) f g); [reflexivity|] end.
    rewrite form_mscale. unfold mass_energy, beam_mass6, form, loc_tr, loc_ax, act, ent. cbn [rsum nth Nat.mul Nat.add]. numR. field.
  Qed.

  (** beams *)
  Section Cubics.
    Variables (a w w' w2 b v v' v2 : R -> R).
    Variables (a1 b1 : R -> R).
    Hypotheses (Ha : affine a) (Hb : affine b) (Hw : cubic w) (Hv : cubic v).
    Hypotheses (Sa : slope a a1) (Sb : slope b b1) (Sw : slope w w') (Sv : slope v v') (Sw2 : slope w' w2) (Sv2 : slope v' v2).
    Let u := beam_ends nx (- ny) L a w w'.
    Let z := beam_ends nx (- ny) L b v v'.

    Lemma u25 : u 2%nat = w' 0 /\ u 5%nat = w' L /\ z 2%nat = v' 0 /\ z 5%nat = v' L.
    Proof. repeat split. Qed.

    Lemma bend_along EI : along L (fun s => EI * w2 s * v2 s) (bend_energy EI nx ny L u z).
    Proof.
      destruct Hw as (p0 & p1 & p2 & p3 & Ew). destruct Hv as (q0 & q1 & q2 & q3 & Ev).
      pose proof (slope_cubic _ _ _ _ _ _ Ew Sw) as Ew1. pose proof (slope_cubic _ _ _ _ _ _ Ev Sv) as Ev1.
      pose proof (slope_quadratic _ _ _ _ _ Ew1 Sw2) as Ew2. pose proof (slope_quadratic _ _ _ _ _ Ev1 Sv2) as Ev2. pose proof al_pos as [HL _].
      apply (along_sextic L _ (EI * (4 * p2 * q2)) (EI * (12 * (p2 * q3 + p3 * q2))) (EI * (36 * p3 * q3)) 0 0 0 0).
      - intros s. rewrite Ew2, Ev2. ring.
      - unfold bend_energy, bend1, bend2. destruct (ends_local a w w') as (_ & _ & T0 & T1). destruct (ends_local b v v') as (_ & _ & R0 & R1). fold u in T0, T1. fold z in R0, R1.
        destruct u25 as (U2 & U5 & Z2 & Z5). rewrite T0, T1, R0, R1, U2, U5, Z2, Z5, !Ew, !Ev, !Ew1, !Ev1. field. lra.
    Qed.
    Lemma axial_along EA : along L (fun s => EA * a1 s * b1 s) (EA / L * (stretch nx ny u * stretch nx ny z)).
    Proof.
      destruct Ha as (p0 & p1 & Ea). destruct Hb as (q0 & q1 & Eb). pose proof al_pos as [HL _].
      apply (along_sextic L _ (EA * p1 * q1) 0 0 0 0 0 0).
      - intros s. rewrite (slope_affine _ _ _ _ Ea Sa), (slope_affine _ _ _ _ Eb Sb). ring.
      - unfold stretch. destruct (ends_local a w w') as (T0 & T1 & _). destruct (ends_local b v v') as (R0 & R1 & _). fold u in T0, T1. fold z in R0, R1.
        rewrite T0, T1, R0, R1, !Ea, !Eb. field. lra.
    Qed.
    Lemma mass_along m : along L (fun s => m * (w s * v s)) (mass_energy (m * L / 420) u z).
    Proof.
      destruct Hw as (p0 & p1 & p2 & p3 & Ew). destruct Hv as (q0 & q1 & q2 & q3 & Ev).
      pose proof (slope_cubic _ _ _ _ _ _ Ew Sw) as Ew1. pose proof (slope_cubic _ _ _ _ _ _ Ev Sv) as Ev1. pose proof al_pos as [HL _].
      apply (along_sextic L _ (m * (p0 * q0)) (m * (p0 * q1 + p1 * q0)) (m * (p0 * q2 + p1 * q1 + p2 * q0)) (m * (p0 * q3 + p1 * q2 + p2 * q1 + p3 * q0))
         (m * (p1 * q3 + p2 * q2 + p3 * q1)) (m * (p2 * q3 + p3 * q2)) (m * (p3 * q3))).
      - intros s. rewrite Ew, Ev. ring.
      - unfold mass_energy. destruct (ends_local a w w') as (_ & _ & T0 & T1). destruct (ends_local b v v') as (_ & _ & R0 & R1). fold u in T0, T1. fold z in R0, R1.
        destruct u25 as (U2 & U5 & Z2 & Z5). cbv zeta. rewrite T0, T1, R0, R1, U2, U5, Z2, Z5, !Ew, !Ev, !Ew1, !Ev1. field.
    Qed.
    Lemma amass_along m : along L (fun s => m * (a s * b s)) (m * L / 420 * (140 * (loc_ax nx ny u 0 * loc_ax nx ny z 0 + loc_ax nx ny u 1 * loc_ax nx ny z 1)
       + 70 * (loc_ax nx ny u 0 * loc_ax nx ny z 1 + loc_ax nx ny u 1 * loc_ax nx ny z 0))).
    Proof.
      destruct Ha as (p0 & p1 & Ea). destruct Hb as (q0 & q1 & Eb).
      apply (along_sextic L _ (m * (p0 * q0)) (m * (p0 * q1 + p1 * q0)) (m * (p1 * q1)) 0 0 0 0).
      - intros s. rewrite Ea, Eb. ring.
      - destruct (ends_local a w w') as (T0 & T1 & _). destruct (ends_local b v v') as (R0 & R1 & _). fold u in T0, T1. fold z in R0, R1.
        rewrite T0, T1, R0, R1, !Ea, !Eb. field.
    Qed.
    Lemma along_plus f g I J : along L f I -> along L g J -> along L (fun s => f s + g s) (I + J).
    Proof.
      intros [H1 _] [H2 _]. pose proof (integral_plus _ _ _ _ _ _ H1 H2) as S. split; [exact S|]. intros K HK. exact (integral_unique _ _ _ _ _ HK S).
    Qed.
    Lemma along_val f g I J : (forall s, f s = g s) -> I = J -> along L f I -> along L g J.
    Proof.
      intros E <- [H1 H2]. split; [exact (integral_ext _ _ _ _ _ E H1)|]. intros K HK. apply H2. apply (integral_ext g); [|exact HK]. intros s. symmetry. apply E.
    Qed.

    Theorem beam_integrals E I A rho : I <> 0 ->
      exists K M, beam2D coord [E; I; A; rho] = Ok (K, M2 M) /\
        along L (fun s => E * A * a1 s * b1 s + E * I * w2 s * v2 s) (form 6 K u z) /\
        along L (fun s => rho * A * (a s * b s + w s * v s)) (form 6 M u z).
    Proof.
      intros HI. destruct (beam2D_spec coord nx ny L E I A [rho] (axis_ok xa ya xb yb Hne) HI rho (or_intror eq_refl)) as (K & M & EQ & HK & _).
      exists K, M. split; [exact EQ|]. split.
      - eapply along_val; [|symmetry; apply HK|apply along_plus; [apply (axial_along (E * A))|apply (bend_along (I * E))]]. intros s. cbv beta. ring.
      - eapply along_val; [|symmetry; rewrite (beam_mass_form _ _ _ _ _ _ EQ); replace (A * L * rho / 420) with (rho * A * L / 420) by field; reflexivity|
          apply along_plus; [apply (amass_along (rho * A))|apply (mass_along (rho * A))]]. intros s. cbv beta. ring.
    Qed.
    Theorem beamU_integrals E I A rho :
      exists K M, beam2DU coord [E; I; rho; A] = Ok (K, M2 M) /\
        along L (fun s => E * I * w2 s * v2 s) (form 6 K u z) /\
        along L (fun s => rho * A * (w s * v s)) (form 6 M u z).
    Proof.
      destruct (beam2DU_spec coord nx ny L E I [rho; A] (axis_ok xa ya xb yb Hne) rho A (or_intror eq_refl)) as (K & M & EQ & HK & _).
      exists K, M. split; [exact EQ|]. split.
      - eapply along_val; [|symmetry; apply HK|apply (bend_along (I * E))]. intros s. cbv beta. ring.
      - eapply along_val; [|symmetry; rewrite (beamU_mass _ _ _ _ _ _ EQ); replace (A * L * rho / 420) with (rho * A * L / 420) by field; reflexivity|apply (mass_along (rho * A))]. intros s. reflexivity.
    Qed.
  End Cubics.
End Along.

(** horizontal beams: the frame is that of the beam *)
Theorem beam_integrals_flat xa xb y a w w' w2 b v v' v2 a1 b1 : xa <> xb -> affine a -> affine b -> cubic w -> cubic v ->
  slope a a1 -> slope b b1 -> slope w w' -> slope v v' -> slope w' w2 -> slope v' v2 ->
  let L := bar_len xa y xb y in let c := (xb - xa) / L in let d := (y - y) / L in
  (forall E I A rho, I <> 0 -> exists K M, beam2D [[xa; y]; [xb; y]] [E; I; A; rho] = Ok (K, M2 M) /\
     along L (fun s => E * A * a1 s * b1 s + E * I * w2 s * v2 s) (form 6 K (beam_ends c d L a w w') (beam_ends c d L b v v')) /\
     along L (fun s => rho * A * (a s * b s + w s * v s)) (form 6 M (beam_ends c d L a w w') (beam_ends c d L b v v'))) /\
  (forall E I A rho, exists K M, beam2DU [[xa; y]; [xb; y]] [E; I; rho; A] = Ok (K, M2 M) /\
     along L (fun s => E * I * w2 s * v2 s) (form 6 K (beam_ends c d L a w w') (beam_ends c d L b v v')) /\
     along L (fun s => rho * A * (w s * v s)) (form 6 M (beam_ends c d L a w w') (beam_ends c d L b v v'))).
Proof.
  intros Hx Ha Hb Hw Hv Sa Sb Sw Sv Sw2 Sv2 L c d. assert (Hne : xa <> xb \/ y <> y) by (left; exact Hx).
  assert (D : d = - ((y - y) / bar_len xa y xb y)).
  { unfold d, L. pose proof (bar_len_pos _ _ _ _ Hne). field. lra. }
  rewrite D. unfold c, L. split.
  - intros E I A rho HI. exact (beam_integrals xa y xb y Hne a w w' w2 b v v' v2 a1 b1 Ha Hb Hw Hv Sa Sb Sw Sv Sw2 Sv2 E I A rho HI).
  - intros E I A rho. exact (beamU_integrals xa y xb y Hne a w w' w2 b v v' v2 Hw Hv Sw Sv Sw2 Sv2 E I A rho).
Qed.
