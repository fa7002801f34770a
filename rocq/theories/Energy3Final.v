(** * Proofs: matrices of solid elements are the integrals that define them *)
From Coq Require Import String Reals List Arith Lia Lra Bool ZArith QArith Qreals.
From Verif Require Import Num LinAlg Gauss Fem Uel Spec LinR Base ElemShape BarProofs SpecElem SpecShape ShapeProofs ElemCore Sampled MatProofs Elem2 Elem3 Elem3Props.
From Verif Require Import SpecQuad QuadProofs QuadTables QuadFinal SpecEnergy EnergyProofs SpecEnergy3 Energy3Proofs.
Import ListNotations.
Local Open Scope R_scope.

(** ** degrees *)
Definition dg3 (b : bool) (a : nat) (q : pol3) : Prop := if b then upto3 a q else box3 a q.
Lemma dg3_app b a p q : dg3 b a p -> dg3 b a q -> dg3 b a (p ++ q).
Proof. destruct b; intros; apply Forall_app; auto. Qed.
Lemma dg3_scale b a k p : dg3 b a p -> dg3 b a (pscale3 k p).
Proof. destruct b; unfold dg3, upto3, box3, pscale3; rewrite Forall_map; apply Forall_impl; intros [c [[i j] l]]; cbn; auto. Qed.
Lemma dg3_mul b a a' c p q : dg3 b a p -> dg3 b a' q -> (a + a' <= c)%nat -> dg3 b c (pmul3 p q).
Proof.
  intros Hp Hq L. destruct b; unfold dg3, upto3, box3, pmul3 in *; rewrite Forall_flat_map; revert Hp; apply Forall_impl; intros [k [[i j] l]] H; cbn in H;
    rewrite Forall_map; revert Hq; apply Forall_impl; intros [d [[m n] o]] H'; cbn in *; lia.
Qed.
Lemma dg3_d b a x p : dg3 b a p -> dg3 b a (d_ref x p).
Proof.
  destruct b; unfold dg3, upto3, box3, d_ref; rewrite Forall_flat_map; apply Forall_impl; intros [k [[i j] l]] H; cbn in *;
    destruct x as [|[|x]]; [destruct i|destruct j|destruct l|destruct i|destruct j|destruct l]; constructor; cbn in *; try lia; constructor.
Qed.
Lemma dg3_phys b a m x p : dg3 b a p -> dg3 b a (d_phys m x p).
Proof.
  intros H. unfold d_phys. cbn [flat_map]. repeat (apply dg3_app; [apply dg3_scale, dg3_d, H|]). destruct b; constructor.
Qed.

Definition over3 (b : bool) : (R -> R -> R -> R) -> R -> Prop := if b then integral_tet else integral_cube.
Lemma over3_exists b q : exists I, the_integral3 (over3 b) q I.
Proof.
  destruct b; cbn; [apply poly3_integrable|]. exists (cube_int q).
  split; [apply poly3_cube|]. intros J HJ. exact (cube_unique _ _ _ HJ (poly3_cube q)).
Qed.

Definition scases : list (solid * list (R * R * R) * list (nat * nat * nat) * bool) :=
  [(so_tet4, ref_tet4, linear3, true); (so_hex8, ref_hex8, trilinear3, false)].
Ltac sc H := repeat (destruct H as [H|H]; [injection H as <- <- <- <-|]); [| |destruct H].

Lemma scase_solid p nodes basis b : In (p, nodes, basis, b) scases -> In p solids /\ length nodes = so_n p /\
  In (0, 0, 0)%nat basis /\ In (1, 0, 0)%nat basis /\ In (0, 1, 0)%nat basis /\ In (0, 0, 1)%nat basis /\
  (forall q, within3 basis q -> dg3 b 1 q).
Proof.
  intros H. sc H; (split; [cbn; tauto|]); (split; [reflexivity|]); (repeat (split; [cbn; tauto|]));
    intros q; unfold within3, dg3, upto3, box3; apply Forall_impl; intros [c [[i j] k]] Ht; cbn in Ht |- *;
    repeat (destruct Ht as [Ht|Ht]; [injection Ht as <- <- <-; lia|]); destruct Ht.
Qed.

Lemma rule_quads c pts wts (f : R -> R -> R -> R) :
  lsum (fun '(r, s, t, w) => c * w * f r s t) (quads (Ok (pts, wts))) = c * rule3 pts wts f.
Proof. unfold quads, rule3, rule. rewrite <- lsum_scal, lsum_map. apply lsum_ext. intros [x w] _. cbn. ring. Qed.
Lemma scase_rule p nodes basis b q I : In (p, nodes, basis, b) scases -> dg3 b 2 q -> over3 b (poly3 q) I ->
  Rabs (lsum (fun '(r, s, t, w) => so_c p * w * poly3 q r s t) (so_gq p) - I) <= 1 / 1000000000000000 * size q.
Proof.
  intros H Hq HI. sc H; cbn [dg3 over3] in *.
  - cbn [so_c so_gq so_tet4]. destruct (proj1 (gauss_tet_range 3) ltac:(lia)) as (pts & wts & E & _). rewrite E, rule_quads.
    replace (1 / 6 * rule3 pts wts (poly3 q)) with (rule3 pts wts (poly3 q) / 6) by field.
    apply (gauss_tet_degree 3 pts wts q I E); [|exact HI]. revert Hq. apply Forall_impl. intros [c [[i j] k]]; cbn; lia.
  - cbn [so_c so_gq so_hex8]. destruct (proj1 (gauss_nd_runs 2 3) ltac:(lia)) as (pts & wts & E). rewrite E, rule_quads, Rmult_1_l.
    exact (gauss_cube_degree 2 pts wts q I 2 E Hq ltac:(lia) HI).
Qed.

(** ** values and derivatives at the points *)
Definition nd3 (nodes : list (R * R * R)) (k : nat) : R * R * R := nth k nodes (0, 0, 0).
Definition at3 (p : pol3) (x : R * R * R) : R := let '(r, s, t) := x in poly3 p r s t.
Definition mono3 (i j k : nat) (x : R * R * R) : R := let '(r, s, t) := x in r ^ i * s ^ j * t ^ k.

Ltac monom3 := unfold ent, mono3, nd3, dmono; shp; unfold ref_tet4, ref_hex8;
  cbn [app nth fst snd pow pred INR rsum]; field.
Lemma mono3_complete p nodes basis b i j k r s t : In (p, nodes, basis, b) scases -> In (i, j, k) basis ->
  rsum (so_n p) (fun n => nth n (fst (so_sh p r s t)) 0 * mono3 i j k (nd3 nodes n)) = r ^ i * s ^ j * t ^ k.
Proof.
  intros H Hb. sc H; cbn [so_n so_sh so_tet4 so_hex8];
    repeat (destruct Hb as [Hb|Hb]; [injection Hb as <- <- <-; monom3|]); destruct Hb.
Qed.
Lemma mono3_d p nodes basis b i j k a r s t : In (p, nodes, basis, b) scases -> In (i, j, k) basis -> (a < 3)%nat ->
  rsum (so_n p) (fun n => ent (snd (so_sh p r s t)) a n * mono3 i j k (nd3 nodes n)) = dmono a i j k r s t.
Proof.
  intros H Hb Ha. sc H; cbn [so_n so_sh so_tet4 so_hex8];
    repeat (destruct Hb as [Hb|Hb]; [injection Hb as <- <- <-; do 3 (destruct a as [|a]; [monom3|]); lia|]); destruct Hb.
Qed.
Lemma rsum_cons3 n g (X : nat -> R * R * R) c i j k P :
  rsum n (fun m => g m * at3 ((c, (i, j, k)) :: P) (X m)) = c * rsum n (fun m => g m * mono3 i j k (X m)) + rsum n (fun m => g m * at3 P (X m)).
Proof. rewrite <- rsum_scal, <- rsum_plus. apply rsum_ext. intros m _. unfold at3, mono3. destruct (X m) as [[r s] t]. rewrite poly3_cons. ring. Qed.
Lemma rsum_nil3 n g (X : nat -> R * R * R) : rsum n (fun m => g m * at3 [] (X m)) = 0.
Proof. apply rsum_zero. intros m _. unfold at3. destruct (X m) as [[r s] t]. unfold poly3. cbn. ring. Qed.

Lemma hooke_form E nu e e' : 1 + nu <> 0 -> 1 - 2 * nu <> 0 -> form 6 (hooke E nu) e e' =
  E * nu / ((1 + nu) * (1 - 2 * nu)) * ((e 0%nat + (e 1%nat + e 2%nat)) * (e' 0%nat + (e' 1%nat + e' 2%nat))) +
  (E / (1 + nu) * (e 0%nat * e' 0%nat + (e 1%nat * e' 1%nat + e 2%nat * e' 2%nat)) +
  E / (2 * (1 + nu)) * (e 3%nat * e' 3%nat + (e 4%nat * e' 4%nat + e 5%nat * e' 5%nat))).
Proof. intros. unfold form, act, hooke, ent, lam, mu. cbn [rsum nth]. field. split; lra. Qed.

Section OneSolid.
  Variables (p : solid) (nodes : list (R * R * R)) (basis : list (nat * nat * nat)) (b : bool).
  Hypothesis Hc : In (p, nodes, basis, b) scases.
  Let N r s t k := nth k (fst (so_sh p r s t)) 0.
  Let D r s t := snd (so_sh p r s t).

  Lemma val_field3 P r s t : within3 basis P -> rsum (so_n p) (fun k => N r s t k * at3 P (nd3 nodes k)) = poly3 P r s t.
  Proof.
    unfold within3. induction P as [|[c [[i j] k]] P IH]; intros H; [apply rsum_nil3|]. inversion H as [|? ? H1 H2]; subst. cbn in H1.
    rewrite rsum_cons3, (IH H2), poly3_cons. f_equal. f_equal. exact (mono3_complete p nodes basis b i j k r s t Hc H1).
  Qed.
  Lemma d_field3 a P r s t : (a < 3)%nat -> within3 basis P ->
    rsum (so_n p) (fun k => ent (D r s t) a k * at3 P (nd3 nodes k)) = poly3 (d_ref a P) r s t.
  Proof.
    intros Ha. unfold within3. induction P as [|[c [[i j] k]] P IH]; intros H; [apply rsum_nil3|]. inversion H as [|? ? H1 H2]; subst. cbn in H1.
    rewrite rsum_cons3, (IH H2), poly3_d_cons. f_equal. f_equal. exact (mono3_d p nodes basis b i j k a r s t Hc H1 Ha).
  Qed.
  Lemma coord3_within m x : within3 basis (coord3 m x).
  Proof. destruct (scase_solid _ _ _ _ Hc) as (_ & _ & H1 & H2 & H3 & H4 & _). repeat constructor; assumption. Qed.
  Lemma image3_ent m k x : (k < so_n p)%nat -> (x < 3)%nat -> ent (image3 m nodes) k x = at3 (coord3 m x) (nd3 nodes k).
  Proof.
    intros Hk Hx. destruct (scase_solid _ _ _ _ Hc) as (_ & HL & _). unfold ent, image3.
    set (f := fun '(r, s, t) => [poly3 (coord3 m 0) r s t; poly3 (coord3 m 1) r s t; poly3 (coord3 m 2) r s t]).
    rewrite (nth_indep _ [] (f (0, 0, 0))) by (rewrite map_length; lia).
    rewrite (map_nth f). unfold nd3, at3, f. destruct (nth k nodes (0, 0, 0)) as [[r s] t].
    destruct x as [|[|[|]]]; [reflexivity|reflexivity|reflexivity|lia].
  Qed.
  Lemma frame3_jac m r s t x y : (x < 3)%nat -> (y < 3)%nat -> Jac (so_n p) (D r s t) (image3 m nodes) x y = edge m x y.
  Proof.
    intros Hx Hy. unfold Jac.
    rewrite (rsum_ext _ _ (fun k => ent (D r s t) x k * at3 (coord3 m y) (nd3 nodes k))) by (intros k Hk; rewrite image3_ent by assumption; reflexivity).
    rewrite d_field3 by (assumption || apply coord3_within). unfold coord3, poly3.
    do 3 (destruct x as [|x]; [cbn; ring|]). lia.
  Qed.
  Lemma frame3_det m r s t : det_at3 (so_n p) (so_sh p) (image3 m nodes) r s t = volume3 m.
  Proof.
    unfold det_at3, volume3, J3det. fold (D r s t). rewrite !frame3_jac by lia. reflexivity.
  Qed.
  Lemma cof3_ext J J' x y : (forall a c, (a < 3)%nat -> (c < 3)%nat -> J a c = J' a c) -> (x < 3)%nat -> (y < 3)%nat -> cof3 J x y = cof3 J' x y.
  Proof.
    intros H Hx Hy. do 3 (destruct x as [|x]; [do 3 (destruct y as [|y]; [unfold cof3; rewrite !H by lia; reflexivity|]); lia|]). lia.
  Qed.

  Lemma grad3_field m a P r s t : (a < 3)%nat -> within3 basis P ->
    rsum (so_n p) (fun k => grad3g (so_n p) (D r s t) (image3 m nodes) a k * at3 P (nd3 nodes k)) = poly3 (d_phys m a P) r s t.
  Proof.
    intros Ha HP. rewrite grad3_lin, d_phys_value. pose proof (frame3_det m r s t) as Ed. unfold det_at3 in Ed. fold (D r s t) in Ed. rewrite Ed.
    cbn [rsum]. rewrite !d_field3 by (assumption || lia).
    rewrite !(cof3_ext (Jac (so_n p) (D r s t) (image3 m nodes)) (edge m)) by (intros; try apply frame3_jac; assumption || lia).
    rewrite <- !adjug_cof by lia. ring.
  Qed.
  Lemma nodal3_at U k x : (x < 3)%nat -> nodal3 U nodes (3 * k + x) = at3 (U x) (nd3 nodes k).
  Proof.
    intros Hx. unfold nodal3, at3, nd3. replace (3 * k + x)%nat with (x + k * 3)%nat by lia.
    rewrite Nat.div_add, Nat.mod_add, Nat.div_small, Nat.mod_small by lia. reflexivity.
  Qed.
  Lemma G3_field m U a x r s t : (a < 3)%nat -> (x < 3)%nat -> within3 basis (U x) ->
    G3 (so_n p) (D r s t) (image3 m nodes) (nodal3 U nodes) a x = poly3 (d_phys m a (U x)) r s t.
  Proof.
    intros Ha Hx HU. unfold G3. rewrite <- grad3_field by assumption. apply rsum_ext. intros k _. rewrite nodal3_at by exact Hx. reflexivity.
  Qed.
  Lemma value3_field U x r s t : (x < 3)%nat -> within3 basis (U x) -> value3 (so_n p) (fst (so_sh p r s t)) (nodal3 U nodes) x = poly3 (U x) r s t.
  Proof.
    intros Hx HU. unfold value3. rewrite <- val_field3 by assumption. apply rsum_ext. intros k _. rewrite nodal3_at by exact Hx. reflexivity.
  Qed.

  Lemma nodal3_energy m E nu U V r s t : 1 + nu <> 0 -> 1 - 2 * nu <> 0 ->
    (forall x, (x < 3)%nat -> within3 basis (U x)) -> (forall x, (x < 3)%nat -> within3 basis (V x)) ->
    form 6 (hooke E nu) (strain3 (so_n p) (D r s t) (image3 m nodes) (nodal3 U nodes))
      (strain3 (so_n p) (D r s t) (image3 m nodes) (nodal3 V nodes)) = poly3 (energy3 E nu m U V) r s t.
  Proof.
    intros H1 H2 HU HV. rewrite hooke_form by assumption. unfold strain3, strain_of.
    rewrite !G3_field by (try (apply HU || apply HV); lia).
    unfold energy3. rewrite !poly3_app, !poly3_scale, !poly3_app, !poly3_mul, !poly3_app. ring.
  Qed.

  Lemma image3_shape m : length (image3 m nodes) = so_n p /\ ncols (image3 m nodes) = 3%nat.
  Proof.
    destruct (scase_solid _ _ _ _ Hc) as (_ & HL & _). unfold image3. rewrite map_length. split; [exact HL|].
    clear HL. pose proof Hc as H. sc H; reflexivity.
  Qed.
  Lemma frame3_accepts m : 1 / 100000000 < volume3 m <-> accepted3 (so_n p) (so_sh p) (so_gq p) (image3 m nodes).
  Proof.
    destruct (image3_shape m) as [H1 H2]. destruct (scase_solid _ _ _ _ Hc) as (Hp & _). unfold accepted3. split.
    - intros H. repeat split; auto. intros r s t w _. rewrite frame3_det. exact H.
    - intros (_ & _ & H). pose proof (so_ne p Hp) as Hne. destruct (so_gq p) as [|[[[r s] t] w] l]; [congruence|].
      specialize (H r s t w (or_introl eq_refl)). rewrite frame3_det in H. exact H.
  Qed.
  Lemma frame3_runs m E nu rho :
    (exists K M, so_f p (image3 m nodes) [E; nu; rho] = Ok (K, M2 M)) <-> 1 / 100000000 < volume3 m /\ nu <> -1 /\ nu <> 1 / 2.
  Proof.
    destruct (scase_solid _ _ _ _ Hc) as (Hp & _). split.
    - intros (K & M & H). destruct (solid_summary p _ _ _ _ Hp H) as (E' & nu' & rho' & M' & P & Hn & Hn' & Ha & _).
      injection P as <- <- <-. split; [apply frame3_accepts; exact Ha|]. split; intros HH; [apply Hn|apply Hn']; lra.
    - intros (H & Hn & Hn'). apply (solid_runs p _ E nu rho Hp); [intros HH; apply Hn; lra|intros HH; apply Hn'; lra|].
      apply frame3_accepts. exact H.
  Qed.

  Lemma energy3_dg E nu m U V : (forall x, (x < 3)%nat -> within3 basis (U x)) -> (forall x, (x < 3)%nat -> within3 basis (V x)) ->
    dg3 b 2 (energy3 E nu m U V).
  Proof.
    intros HU HV. destruct (scase_solid _ _ _ _ Hc) as (_ & _ & _ & _ & _ & _ & HD).
    assert (DU : forall a x, (x < 3)%nat -> dg3 b 1 (d_phys m a (U x))) by (intros; apply dg3_phys, HD, HU; assumption).
    assert (DV : forall a x, (x < 3)%nat -> dg3 b 1 (d_phys m a (V x))) by (intros; apply dg3_phys, HD, HV; assumption).
    unfold energy3.
    repeat lazymatch goal with
    | |- dg3 _ _ (_ ++ _) => apply dg3_app
    | |- dg3 _ _ (pscale3 _ _) => apply dg3_scale
    | |- dg3 _ 2 (pmul3 _ _) => apply (dg3_mul b 1 1); [| |lia]
    end; (apply DU || apply DV); lia.
  Qed.

  Lemma stiffness_integral3 m U V E nu rho K M :
    (forall x, (x < 3)%nat -> within3 basis (U x)) -> (forall x, (x < 3)%nat -> within3 basis (V x)) ->
    so_f p (image3 m nodes) [E; nu; rho] = Ok (K, M) ->
    exists I, the_integral3 (over3 b) (energy3 E nu m U V) I /\
      Rabs (form (3 * length nodes) K (nodal3 U nodes) (nodal3 V nodes) - volume3 m * I)
        <= volume3 m * (1 / 1000000000000000 * size (energy3 E nu m U V)).
  Proof.
    intros HU HV H. destruct (scase_solid _ _ _ _ Hc) as (Hp & HL & _).
    destruct (solid_summary p _ _ _ _ Hp H) as (E' & nu' & rho' & M' & Par & Hn & Hn' & Ha & _ & HS).
    injection Par as <- <- <-. apply frame3_accepts in Ha.
    destruct (over3_exists b (energy3 E nu m U V)) as [I HI]. exists I. split; [exact HI|].
    rewrite HL, (sa_K _ _ _ _ _ _ _ _ HS). unfold gs3. rewrite lsum_map.
    rewrite (lsum_ext _ (fun q => volume3 m * (let '(r, s, t, w) := q in so_c p * w * poly3 (energy3 E nu m U V) r s t))).
    2:{ intros [[[r s] t] w] _. unfold vK. cbn [gdat3 g_w g_eps]. rewrite frame3_det.
        pose proof (nodal3_energy m E nu U V r s t Hn Hn' HU HV) as EE. unfold D in EE. rewrite EE. ring. }
    rewrite lsum_scal, <- Rmult_minus_distr_l, Rabs_mult, (Rabs_right (volume3 m)) by lra.
    apply Rmult_le_compat_l; [lra|]. apply (scase_rule p nodes basis b); [exact Hc| |apply HI]. apply energy3_dg; assumption.
  Qed.
  Lemma mass_integral3 m U V E nu rho K M :
    (forall x, (x < 3)%nat -> within3 basis (U x)) -> (forall x, (x < 3)%nat -> within3 basis (V x)) ->
    so_f p (image3 m nodes) [E; nu; rho] = Ok (K, M2 M) ->
    exists I, the_integral3 (over3 b) (kinetic3 rho U V) I /\
      Rabs (form (3 * length nodes) M (nodal3 U nodes) (nodal3 V nodes) - volume3 m * I)
        <= volume3 m * (1 / 1000000000000000 * size (kinetic3 rho U V)).
  Proof.
    intros HU HV H. destruct (scase_solid _ _ _ _ Hc) as (Hp & HL & _ & _ & _ & _ & HD).
    destruct (solid_summary p _ _ _ _ Hp H) as (E' & nu' & rho' & M' & Par & Hn & Hn' & Ha & HM & HS).
    injection Par as <- <- <-. injection HM as <-. apply frame3_accepts in Ha.
    destruct (over3_exists b (kinetic3 rho U V)) as [I HI]. exists I. split; [exact HI|].
    rewrite HL, (sa_M _ _ _ _ _ _ _ _ HS), <- lsum_scal. unfold gs3. rewrite lsum_map.
    rewrite (lsum_ext _ (fun q => volume3 m * (let '(r, s, t, w) := q in so_c p * w * poly3 (kinetic3 rho U V) r s t))).
    2:{ intros [[[r s] t] w] _. unfold vM. cbn [gdat3 g_w g_val]. rewrite frame3_det. cbn [rsum].
        rewrite !value3_field by (try (apply HU || apply HV); lia).
        unfold kinetic3. rewrite poly3_scale, !poly3_app, !poly3_mul. ring. }
    rewrite lsum_scal, <- Rmult_minus_distr_l, Rabs_mult, (Rabs_right (volume3 m)) by lra.
    apply Rmult_le_compat_l; [lra|]. apply (scase_rule p nodes basis b); [exact Hc| |apply HI].
    unfold kinetic3. apply dg3_scale.
    apply dg3_app; [|apply dg3_app]; (apply (dg3_mul b 1 1); [| |lia]); apply HD; (apply HU || apply HV); lia.
  Qed.
End OneSolid.

(** ** in terms of the routines *)
Lemma solid_frames f nodes : In (f, nodes) [(elast_tet4, ref_tet4); (elast_hex8, ref_hex8)] -> forall m E nu rho,
  (exists K M, f (image3 m nodes) [E; nu; rho] = Ok (K, M2 M)) <-> 1 / 100000000 < volume3 m /\ nu <> -1 /\ nu <> 1 / 2.
Proof.
  intros H m E nu rho. repeat (destruct H as [H|H]; [injection H as <- <-|]); [| |destruct H].
  - apply (frame3_runs so_tet4 ref_tet4 linear3 true); cbn; tauto.
  - apply (frame3_runs so_hex8 ref_hex8 trilinear3 false); cbn; tauto.
Qed.
Lemma solid_energy f nodes basis over :
  In (f, nodes, basis, over) [(elast_tet4, ref_tet4, linear3, integral_tet); (elast_hex8, ref_hex8, trilinear3, integral_cube)] ->
  forall m U V E nu rho K M,
  (forall x, (x < 3)%nat -> within3 basis (U x)) -> (forall x, (x < 3)%nat -> within3 basis (V x)) ->
  f (image3 m nodes) [E; nu; rho] = Ok (K, M2 M) ->
  (exists I, the_integral3 over (energy3 E nu m U V) I /\
     Rabs (form (3 * length nodes) K (nodal3 U nodes) (nodal3 V nodes) - volume3 m * I)
       <= volume3 m * (1 / 1000000000000000 * size (energy3 E nu m U V))) /\
  (exists I, the_integral3 over (kinetic3 rho U V) I /\
     Rabs (form (3 * length nodes) M (nodal3 U nodes) (nodal3 V nodes) - volume3 m * I)
       <= volume3 m * (1 / 1000000000000000 * size (kinetic3 rho U V))).
Proof.
  intros H m U V E nu rho K M HU HV R. repeat (destruct H as [H|H]; [injection H as <- <- <- <-|]); [| |destruct H].
  - split; [apply (stiffness_integral3 so_tet4 ref_tet4 linear3 true ltac:(cbn; tauto) m U V E nu rho K (M2 M) HU HV R)
           |apply (mass_integral3 so_tet4 ref_tet4 linear3 true ltac:(cbn; tauto) m U V E nu rho K M HU HV R)].
  - split; [apply (stiffness_integral3 so_hex8 ref_hex8 trilinear3 false ltac:(cbn; tauto) m U V E nu rho K (M2 M) HU HV R)
           |apply (mass_integral3 so_hex8 ref_hex8 trilinear3 false ltac:(cbn; tauto) m U V E nu rho K M HU HV R)].
Qed.

(** every nodal vector *)
Definition c4t (v : nat -> R) : pol3 :=
  [(v 0%nat, (0, 0, 0)%nat); (v 1%nat - v 0%nat, (1, 0, 0)%nat); (v 2%nat - v 0%nat, (0, 1, 0)%nat); (v 3%nat - v 0%nat, (0, 0, 1)%nat)].
Definition c8h (v : nat -> R) : pol3 :=
  let g a1 a2 a3 a4 a5 a6 a7 a8 := (a1 * v 0%nat + a2 * v 1%nat + a3 * v 2%nat + a4 * v 3%nat + a5 * v 4%nat + a6 * v 5%nat + a7 * v 6%nat + a8 * v 7%nat) / 8 in
  [(g 1 1 1 1 1 1 1 1, (0, 0, 0)%nat); (g (-1) 1 1 (-1) (-1) 1 1 (-1), (1, 0, 0)%nat);
   (g (-1) (-1) 1 1 (-1) (-1) 1 1, (0, 1, 0)%nat); (g (-1) (-1) (-1) (-1) 1 1 1 1, (0, 0, 1)%nat);
   (g 1 (-1) 1 (-1) 1 (-1) 1 (-1), (1, 1, 0)%nat); (g 1 1 (-1) (-1) (-1) (-1) 1 1, (0, 1, 1)%nat);
   (g 1 (-1) (-1) 1 (-1) 1 1 (-1), (1, 0, 1)%nat); (g (-1) 1 (-1) 1 1 (-1) 1 (-1), (1, 1, 1)%nat)].
Lemma every_scalar3 nodes basis : In (nodes, basis) [(ref_tet4, linear3); (ref_hex8, trilinear3)] ->
  forall v, exists P, within3 basis P /\ forall k, (k < length nodes)%nat -> at3 P (nd3 nodes k) = v k.
Proof.
  intros H v. repeat (destruct H as [H|H]; [injection H as <- <-|]); [| |destruct H].
  - exists (c4t v). split; [repeat constructor; cbn; tauto|]. intros k Hk. cbn in Hk.
    do 4 (destruct k as [|k]; [unfold at3, nd3, poly3; cbn; field|]). lia.
  - exists (c8h v). split; [unfold within3, c8h; repeat (apply Forall_cons; [cbn [snd]; unfold trilinear3; cbn [In]; tauto|]); apply Forall_nil|]. intros k Hk. cbn in Hk.
    do 8 (destruct k as [|k]; [unfold at3, nd3, poly3; cbn; field|]). lia.
Qed.
Lemma every_field3 nodes basis : In (nodes, basis) [(ref_tet4, linear3); (ref_hex8, trilinear3)] ->
  forall u, exists U, (forall x, (x < 3)%nat -> within3 basis (U x)) /\ forall j, (j < 3 * length nodes)%nat -> nodal3 U nodes j = u j.
Proof.
  intros H u. destruct (every_scalar3 nodes basis H (fun k => u (3 * k + 0)%nat)) as (P0 & W0 & E0).
  destruct (every_scalar3 nodes basis H (fun k => u (3 * k + 1)%nat)) as (P1 & W1 & E1).
  destruct (every_scalar3 nodes basis H (fun k => u (3 * k + 2)%nat)) as (P2 & W2 & E2).
  exists (fun x => nth x [P0; P1; P2] []). split.
  - intros x Hx. destruct x as [|[|[|]]]; [exact W0|exact W1|exact W2|lia].
  - intros j Hj. rewrite (Nat.div_mod j 3) by lia. assert (Hm := Nat.mod_upper_bound j 3 ltac:(lia)).
    rewrite nodal3_at by exact Hm. assert (Hd : (j / 3 < length nodes)%nat) by (apply Nat.div_lt_upper_bound; lia).
    destruct (j mod 3)%nat as [|[|[|]]]; [apply E0|apply E1|apply E2|lia]; exact Hd.
Qed.
Lemma pol3_derivatives p r s t :
  derivable_pt_lim (fun x => poly3 p x s t) r (poly3 (d_ref 0 p) r s t) /\
  derivable_pt_lim (fun y => poly3 p r y t) s (poly3 (d_ref 1 p) r s t) /\
  derivable_pt_lim (fun z => poly3 p r s z) t (poly3 (d_ref 2 p) r s t).
Proof. apply d_ref_derives. Qed.
Lemma pol3_arithmetic p q k r s t :
  poly3 (pmul3 p q) r s t = poly3 p r s t * poly3 q r s t /\ poly3 (pscale3 k p) r s t = k * poly3 p r s t /\
  poly3 (p ++ q) r s t = poly3 p r s t + poly3 q r s t.
Proof. split; [apply poly3_mul|]. split; [apply poly3_scale|apply poly3_app]. Qed.
