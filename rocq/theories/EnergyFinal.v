(** * Proofs: element matrices are the integrals that define them *)
From Coq Require Import String Reals List Arith Lia Lra Bool ZArith QArith Qreals.
From Verif Require Import Num LinAlg Gauss Fem Uel Spec LinR Base ElemShape BarProofs SpecElem SpecShape ShapeProofs ElemCore Sampled MatProofs Elem2 Elem2Props.
From Verif Require Import SpecQuad QuadProofs QuadTables QuadFinal SpecEnergy EnergyProofs EnergyElem.
Import ListNotations.
Local Open Scope R_scope.

(** degree of a polynomial: total on triangles, per variable on squares *)
Definition dg (b : bool) (a : nat) (q : pol) : Prop := if b then upto a q else box a a q.
Lemma dg_app b a p q : dg b a p -> dg b a q -> dg b a (p ++ q).
Proof. destruct b; [apply upto_app|apply box_app]. Qed.
Lemma dg_scale b a k p : dg b a p -> dg b a (pscale k p).
Proof. destruct b; [apply upto_scale|apply box_scale]. Qed.
Lemma dg_mul b a a' c p q : dg b a p -> dg b a' q -> (a + a' <= c)%nat -> dg b c (pmul p q).
Proof. destruct b; intros; [eapply upto_mul; eauto|eapply box_mul; eauto]. Qed.
Lemma dg_le b a c p : dg b a p -> (a <= c)%nat -> dg b c p.
Proof. destruct b; intros; [eapply upto_le; eauto|eapply box_le; eauto]. Qed.
Lemma dg_dr b a p : dg b a p -> dg b a (d_r p).
Proof. destruct b; intros H; [eapply upto_le; [apply upto_dr; exact H|lia]|eapply box_le; [apply box_dr; exact H|lia|lia]]. Qed.
Lemma dg_ds b a p : dg b a p -> dg b a (d_s p).
Proof. destruct b; intros H; [eapply upto_le; [apply upto_ds; exact H|lia]|eapply box_le; [apply box_ds; exact H|lia|lia]]. Qed.

Definition over_of (b : bool) : (R -> R -> R) -> R -> Prop := if b then integral_tri else integral_sq.
Lemma over_exists b q : exists I, the_integral (over_of b) q I.
Proof.
  destruct b; cbn; [apply poly2_integrable|]. exists (lsum (fun t : R * (nat * nat) => fst t * (pow_int (fst (snd t)) * pow_int (snd (snd t)))) q).
  split; [apply poly2_sq|]. intros J HJ. exact (sq_unique _ _ _ HJ (poly2_sq q)).
Qed.

Lemma within_dg (es : list (nat * nat)) (b : bool) a q :
  Forall (fun e : nat * nat => if b then (fst e + snd e <= a)%nat else (fst e <= a)%nat /\ (snd e <= a)%nat) es -> within es q -> dg b a q.
Proof.
  intros H W. unfold within in W. rewrite Forall_forall in H. destruct b; unfold dg, upto, box; revert W; apply Forall_impl; intros t Ht;
    exact (H _ Ht).
Qed.

(** element, reference nodes, powers of its fields, powers of its maps, kind of domain,
    degree of its fields, of the Jacobian of its maps, and of its rule *)
Definition qcase := (pcase * list (nat * nat) * bool * (nat * nat * nat))%type.
Definition qcases : list qcase :=
  [((pl_tri3, ref_tri3, linear2), linear2, true, (1, 0, 2)%nat);
   ((pl_tri6, ref_tri6, quadratic2), linear2, true, (2, 0, 5)%nat);
   ((pl_quad4, ref_quad4, bilinear2), bilinear2, false, (1, 1, 3)%nat);
   ((pl_quad8, ref_quad8, serendipity2), bilinear2, false, (2, 1, 5)%nat);
   ((pl_quad9, ref_quad9, biquadratic2), bilinear2, false, (2, 1, 5)%nat)].

Ltac qc H := repeat (destruct H as [H|H]; [injection H as <- <- <- <- <- <- <- <-|]); [| | | | |destruct H].

Lemma qcase_pcase p nodes basis gb b a g d : In (p, nodes, basis, gb, b, (a, g, d)) qcases -> In (p, nodes, basis) pcases.
Proof. intros H. qc H; cbn; tauto. Qed.
Lemma qcase_degs p nodes basis gb b a g d : In (p, nodes, basis, gb, b, (a, g, d)) qcases ->
  (a + a + g <= d)%nat /\ (forall q, within basis q -> dg b a q) /\
  (forall X Y, within gb X -> within gb Y -> dg b g (jac X Y)) /\ incl gb basis.
Proof.
  intros H. qc H; (split; [lia|]); (split; [intros q; apply within_dg; repeat constructor|]); split;
    try (intros e He; cbn in *; tauto); intros X Y HX HY; unfold jac.
  - assert (A : upto 1 X) by (apply (within_dg linear2 true 1); [repeat constructor|exact HX]).
    assert (B : upto 1 Y) by (apply (within_dg linear2 true 1); [repeat constructor|exact HY]).
    apply upto_app; [|apply upto_scale]; (eapply upto_mul; [first [apply upto_dr|apply upto_ds]; eassumption|first [apply upto_dr|apply upto_ds]; eassumption|cbn; lia]).
  - assert (A : upto 1 X) by (apply (within_dg linear2 true 1); [repeat constructor|exact HX]).
    assert (B : upto 1 Y) by (apply (within_dg linear2 true 1); [repeat constructor|exact HY]).
    apply upto_app; [|apply upto_scale]; (eapply upto_mul; [first [apply upto_dr|apply upto_ds]; eassumption|first [apply upto_dr|apply upto_ds]; eassumption|cbn; lia]).
  - assert (A : box 1 1 X) by (apply (within_dg bilinear2 false 1); [repeat constructor|exact HX]).
    assert (B : box 1 1 Y) by (apply (within_dg bilinear2 false 1); [repeat constructor|exact HY]).
    apply box_app; [|apply box_scale]; (eapply box_mul; [first [apply box_dr; eassumption|apply box_ds; eassumption]|first [apply box_ds; eassumption|apply box_dr; eassumption]|cbn; lia|cbn; lia]).
  - assert (A : box 1 1 X) by (apply (within_dg bilinear2 false 1); [repeat constructor|exact HX]).
    assert (B : box 1 1 Y) by (apply (within_dg bilinear2 false 1); [repeat constructor|exact HY]).
    apply box_app; [|apply box_scale]; (eapply box_mul; [first [apply box_dr; eassumption|apply box_ds; eassumption]|first [apply box_ds; eassumption|apply box_dr; eassumption]|cbn; lia|cbn; lia]).
  - assert (A : box 1 1 X) by (apply (within_dg bilinear2 false 1); [repeat constructor|exact HX]).
    assert (B : box 1 1 Y) by (apply (within_dg bilinear2 false 1); [repeat constructor|exact HY]).
    apply box_app; [|apply box_scale]; (eapply box_mul; [first [apply box_dr; eassumption|apply box_ds; eassumption]|first [apply box_ds; eassumption|apply box_dr; eassumption]|cbn; lia|cbn; lia]).
Qed.

(** the sum over the points of the element *)
Lemma rule_triples c pts wts (f : R -> R -> R) :
  lsum (fun '(r, s, w) => c * w * f r s) (triples (Ok (pts, wts))) = c * rule2 pts wts f.
Proof.
  unfold triples, rule2, rule. rewrite <- lsum_scal, lsum_map. apply lsum_ext. intros [x w] _. cbn. ring.
Qed.
Lemma qcase_rule p nodes basis gb b a g d q I : In (p, nodes, basis, gb, b, (a, g, d)) qcases ->
  dg b d q -> over_of b (poly2 q) I ->
  Rabs (lsum (fun '(r, s, w) => pl_c p * w * poly2 q r s) (pl_gq p) - I) <= 1 / 1000000000000 * size q.
Proof.
  intros H Hq HI.
  assert (Tri : forall n, (1 <= n <= 7)%Z -> upto (Z.to_nat n) q -> integral_tri (poly2 q) I ->
    Rabs (lsum (fun '(r, s, w) => 1 / 2 * w * poly2 q r s) (triples (gauss_tri n)) - I) <= 1 / 1000000000000 * size q).
  { intros n Hn U HT. destruct (proj1 (gauss_tri_range n) Hn) as (pts & wts & E & _). rewrite E, rule_triples.
    replace (1 / 2 * rule2 pts wts (poly2 q)) with (rule2 pts wts (poly2 q) / 2) by field.
    apply (gauss_tri_degree n pts wts q I E); [|exact HT]. revert U. apply Forall_impl. intros [c [i j]]; cbn; lia. }
  assert (Sq : forall n e, (2 <= n <= 10)%Z -> (Z.of_nat e <= 2 * n - 1)%Z -> box e e q -> integral_sq (poly2 q) I ->
    Rabs (lsum (fun '(r, s, w) => 1 * w * poly2 q r s) (triples (gauss_nd n 2)) - I) <= 1 / 1000000000000 * size q).
  { intros n e Hn He U HT. destruct (proj1 (gauss_nd_runs n 2) Hn) as (pts & wts & E). rewrite E, rule_triples, Rmult_1_l.
    exact (gauss_sq_degree n pts wts q I e E U He HT). }
  qc H; cbn [dg over_of] in *.
  - apply (Tri 2%Z); auto; lia.
  - change (pl_gq pl_tri6) with (triples (@gauss_tri R Num_R 3)).
    replace (@gauss_tri R Num_R 3) with (@gauss_tri R Num_R 5) by reflexivity. apply (Tri 5%Z); auto; lia.
  - apply (Sq 2%Z 3%nat); auto; lia.
  - apply (Sq 3%Z 5%nat); auto; lia.
  - apply (Sq 3%Z 5%nat); auto; lia.
Qed.

Lemma pl_par_three p E nu rho : In p planes -> pl_par p [E; nu; rho] = Some (E, nu, rho).
Proof. intros H. repeat (destruct H as [<-|H]; [reflexivity|]). destruct H. Qed.

Lemma gq_nonempty p : In p planes -> exists r s w, In (r, s, w) (pl_gq p).
Proof.
  intros H. destruct (pl_gq p) as [|[[r s] w] l] eqn:E; [|exists r, s, w; left; reflexivity].
  exfalso. exact (gq_ne p H E).
Qed.

Lemma qcase_ncols p nodes basis gb b a g d X Y : In (p, nodes, basis, gb, b, (a, g, d)) qcases ->
  ncols (map (fun '(r, s) => [poly2 X r s; poly2 Y r s]) nodes) = 2%nat.
Proof. intros H. qc H; reflexivity. Qed.

Section Case.
  Variables (p : plane) (nodes : list (R * R)) (basis gb : list (nat * nat)) (b : bool) (a g d : nat).
  Hypothesis Hq : In (p, nodes, basis, gb, b, (a, g, d)) qcases.
  Let Hc := qcase_pcase _ _ _ _ _ _ _ _ Hq.

  Lemma image_shape X Y : length (image X Y nodes) = pl_n p /\ ncols (image X Y nodes) = 2%nat.
  Proof.
    destruct (pcase_plane _ _ _ Hc) as (_ & HL & _). unfold image. rewrite map_length. split; [exact HL|].
    exact (qcase_ncols _ _ _ _ _ _ _ _ X Y Hq).
  Qed.

  Lemma frame_accepts m : 1 / 100000000 < fdet m <-> accepted2 (pl_n p) (pl_sh p) (pl_gq p) (image (fX m) (fY m) nodes).
  Proof.
    destruct (image_shape (fX m) (fY m)) as [H1 H2]. unfold accepted2. split.
    - intros H. repeat split; auto. intros r s w _. rewrite (frame_det p nodes basis Hc). exact H.
    - intros (_ & _ & H). destruct (gq_nonempty p) as (r & s & w & Hin); [apply (pcase_plane _ _ _ Hc)|].
      specialize (H r s w Hin). rewrite (frame_det p nodes basis Hc) in H. exact H.
  Qed.
  Lemma frame_runs m E nu rho :
    (exists K M, pl_f p (image (fX m) (fY m) nodes) [E; nu; rho] = Ok (K, M2 M)) <-> 1 / 100000000 < fdet m /\ nu * nu <> 1.
  Proof.
    destruct (pcase_plane _ _ _ Hc) as (Hp & _). split.
    - intros (K & M & H). destruct (plane_summary p _ _ _ _ Hp H) as (E' & nu' & rho' & M' & P & Hn & Ha & _).
      rewrite (pl_par_three p E nu rho Hp) in P. injection P as <- <- <-. split; [apply frame_accepts; exact Ha|intros HH; apply Hn; lra].
    - intros [H Hn]. apply (plane_runs p _ _ E nu rho Hp); [apply pl_par_three; exact Hp|intros HH; apply Hn; lra|].
      apply frame_accepts. exact H.
  Qed.

  Lemma energy_dg E nu m P Q P' Q' : within basis P -> within basis Q -> within basis P' -> within basis Q' ->
    dg b (a + a) (energy E nu m P Q P' Q').
  Proof.
    intros HP HQ HP' HQ'. destruct (qcase_degs _ _ _ _ _ _ _ _ Hq) as (_ & HD & _).
    assert (Dx : forall q, within basis q -> dg b a (d_x m q)).
    { intros q W. unfold d_x. apply dg_app; apply dg_scale; [apply dg_dr|apply dg_ds]; auto. }
    assert (Dy : forall q, within basis q -> dg b a (d_y m q)).
    { intros q W. unfold d_y. apply dg_app; apply dg_scale; [apply dg_dr|apply dg_ds]; auto. }
    unfold energy. apply dg_scale.
    repeat first [apply dg_app|apply dg_scale]; (eapply dg_mul; [| |apply Nat.le_refl]); repeat apply dg_app; apply dg_scale; first [apply dg_dr|apply dg_ds]; auto.
  Qed.

  Lemma stiffness_integral m P Q P' Q' E nu rho K M :
    within basis P -> within basis Q -> within basis P' -> within basis Q' ->
    pl_f p (image (fX m) (fY m) nodes) [E; nu; rho] = Ok (K, M) ->
    exists I, the_integral (over_of b) (energy E nu m P Q P' Q') I /\
      Rabs (form (2 * length nodes) K (nodal P Q nodes) (nodal P' Q' nodes) - fdet m * I)
        <= fdet m * (1 / 1000000000000 * size (energy E nu m P Q P' Q')).
  Proof.
    intros HP HQ HP' HQ' H. destruct (pcase_plane _ _ _ Hc) as (Hp & HL & _).
    destruct (plane_summary p _ _ _ _ Hp H) as (E' & nu' & rho' & M' & Par & Hn & Ha & _ & HS).
    rewrite (pl_par_three p E nu rho Hp) in Par. injection Par as <- <- <-.
    apply frame_accepts in Ha. destruct (over_exists b (energy E nu m P Q P' Q')) as [I HI]. exists I. split; [exact HI|].
    rewrite HL, (sa_K _ _ _ _ _ _ _ _ HS). unfold gs_of. rewrite lsum_map.
    rewrite (lsum_ext _ (fun q => fdet m * (let '(r, s, w) := q in pl_c p * w * poly2 (energy E nu m P Q P' Q') r s))).
    2:{ intros [[r s] w] _. unfold vK. cbn [gdat2 g_w g_eps]. rewrite (frame_det p nodes basis Hc).
        rewrite (nodal_energy p nodes basis Hc m ltac:(lra) E nu P Q P' Q' r s) by assumption. ring. }
    rewrite lsum_scal, <- Rmult_minus_distr_l, Rabs_mult, (Rabs_right (fdet m)) by lra.
    apply Rmult_le_compat_l; [lra|]. destruct (qcase_degs _ _ _ _ _ _ _ _ Hq) as (HA & _).
    apply (qcase_rule p nodes basis gb b a g d); [exact Hq| |apply HI].
    eapply dg_le; [apply energy_dg; assumption|lia].
  Qed.

  Lemma mass_integral X Y P Q P' Q' E nu rho K M :
    within gb X -> within gb Y -> within basis P -> within basis Q -> within basis P' -> within basis Q' ->
    pl_f p (image X Y nodes) [E; nu; rho] = Ok (K, M2 M) ->
    exists I, the_integral (over_of b) (pmul (kinetic rho P Q P' Q') (jac X Y)) I /\
      Rabs (form (2 * length nodes) M (nodal P Q nodes) (nodal P' Q' nodes) - I)
        <= 1 / 1000000000000 * size (pmul (kinetic rho P Q P' Q') (jac X Y)).
  Proof.
    intros HX HY HP HQ HP' HQ' H. destruct (pcase_plane _ _ _ Hc) as (Hp & HL & _).
    destruct (qcase_degs _ _ _ _ _ _ _ _ Hq) as (HA & HD & HJ & Hi).
    assert (HX' : within basis X) by (revert HX; apply Forall_impl; intros t; apply Hi).
    assert (HY' : within basis Y) by (revert HY; apply Forall_impl; intros t; apply Hi).
    destruct (plane_summary p _ _ _ _ Hp H) as (E' & nu' & rho' & M' & Par & Hn & Ha & HM & HS).
    rewrite (pl_par_three p E nu rho Hp) in Par. injection Par as <- <- <-. injection HM as <-.
    destruct (over_exists b (pmul (kinetic rho P Q P' Q') (jac X Y))) as [I HI]. exists I. split; [exact HI|].
    rewrite HL, (sa_M _ _ _ _ _ _ _ _ HS), <- lsum_scal. unfold gs_of. rewrite lsum_map.
    rewrite (lsum_ext _ (fun q => let '(r, s, w) := q in pl_c p * w * poly2 (pmul (kinetic rho P Q P' Q') (jac X Y)) r s)).
    2:{ intros [[r s] w] _. unfold vM. cbn [gdat2 g_w g_val]. rewrite (det_jac p nodes basis Hc X Y r s HX' HY').
        cbn [rsum]. rewrite !(nodal_val p nodes basis Hc) by (assumption || lia). cbn [nth].
        unfold kinetic. rewrite poly2_mul, poly2_scale, poly2_app, !poly2_mul. ring. }
    apply (qcase_rule p nodes basis gb b a g d); [exact Hq| |apply HI].
    apply (dg_mul b (a + a) g); [|apply HJ; assumption|lia].
    unfold kinetic. apply dg_scale, dg_app; (eapply dg_mul; [| |apply Nat.le_refl]); auto.
  Qed.
End Case.
