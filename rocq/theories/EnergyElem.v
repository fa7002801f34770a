(** * Proofs: element matrices of polynomial fields *)
From Coq Require Import String Reals List Arith Lia Lra Bool ZArith QArith Qreals.
From Verif Require Import Num LinAlg Gauss Fem Uel Spec LinR Base ElemShape BarProofs SpecElem SpecShape ShapeProofs ElemCore Sampled MatProofs Elem2 Elem2Props.
From Verif Require Import SpecQuad QuadProofs QuadTables QuadFinal SpecEnergy EnergyProofs.
Import ListNotations.
Local Open Scope R_scope.

Definition pcase := (plane * list (R * R) * list (nat * nat))%type.
Definition pcases : list pcase :=
  [(pl_tri3, ref_tri3, linear2); (pl_tri6, ref_tri6, quadratic2); (pl_quad4, ref_quad4, bilinear2);
   (pl_quad8, ref_quad8, serendipity2); (pl_quad9, ref_quad9, biquadratic2)].

Lemma pcase_plane p nodes basis : In (p, nodes, basis) pcases -> In p planes /\ length nodes = pl_n p /\
  In (0, 0)%nat basis /\ In (1, 0)%nat basis /\ In (0, 1)%nat basis.
Proof.
  intros H. repeat (destruct H as [H|H]; [injection H as <- <- <-; split; [cbn; tauto|split; [reflexivity|cbn; tauto]]|]). destruct H.
Qed.

Ltac monom := unfold ent; shp; unfold ref_quad9, ref_quad8, ref_quad4, ref_tri6, ref_tri3;
  cbn [app nth fst snd pow pred INR rsum]; field.

Lemma mono_complete p nodes basis i j r s : In (p, nodes, basis) pcases -> In (i, j) basis ->
  rsum (pl_n p) (fun k => nth k (fst (pl_sh p r s)) 0 * (fst (nth k nodes (0, 0)) ^ i * snd (nth k nodes (0, 0)) ^ j)) = r ^ i * s ^ j.
Proof.
  intros H Hb.
  repeat (destruct H as [H|H]; [injection H as <- <- <-; cbn [pl_n pl_sh pl_tri3 pl_tri6 pl_quad4 pl_quad8 pl_quad9];
    repeat (destruct Hb as [Hb|Hb]; [injection Hb as <- <-; monom|]); destruct Hb|]). destruct H.
Qed.
Lemma mono_dr p nodes basis i j r s : In (p, nodes, basis) pcases -> In (i, j) basis ->
  rsum (pl_n p) (fun k => ent (snd (pl_sh p r s)) 0 k * (fst (nth k nodes (0, 0)) ^ i * snd (nth k nodes (0, 0)) ^ j)) = INR i * r ^ pred i * s ^ j.
Proof.
  intros H Hb.
  repeat (destruct H as [H|H]; [injection H as <- <- <-; cbn [pl_n pl_sh pl_tri3 pl_tri6 pl_quad4 pl_quad8 pl_quad9];
    repeat (destruct Hb as [Hb|Hb]; [injection Hb as <- <-; monom|]); destruct Hb|]). destruct H.
Qed.
Lemma mono_ds p nodes basis i j r s : In (p, nodes, basis) pcases -> In (i, j) basis ->
  rsum (pl_n p) (fun k => ent (snd (pl_sh p r s)) 1 k * (fst (nth k nodes (0, 0)) ^ i * snd (nth k nodes (0, 0)) ^ j)) = r ^ i * (INR j * s ^ pred j).
Proof.
  intros H Hb.
  repeat (destruct H as [H|H]; [injection H as <- <- <-; cbn [pl_n pl_sh pl_tri3 pl_tri6 pl_quad4 pl_quad8 pl_quad9];
    repeat (destruct Hb as [Hb|Hb]; [injection Hb as <- <-; monom|]); destruct Hb|]). destruct H.
Qed.

Lemma rsum_cons n g (X Y : nat -> R) c i j P :
  rsum n (fun k => g k * poly2 ((c, (i, j)) :: P) (X k) (Y k)) =
  c * rsum n (fun k => g k * (X k ^ i * Y k ^ j)) + rsum n (fun k => g k * poly2 P (X k) (Y k)).
Proof. rewrite <- rsum_scal, <- rsum_plus. apply rsum_ext. intros k _. rewrite poly2_cons. ring. Qed.
Lemma rsum_nil n g (X Y : nat -> R) : rsum n (fun k => g k * poly2 [] (X k) (Y k)) = 0.
Proof. apply rsum_zero. intros. unfold poly2. cbn. ring. Qed.

Section OneCase.
  Variables (p : plane) (nodes : list (R * R)) (basis : list (nat * nat)).
  Hypothesis Hc : In (p, nodes, basis) pcases.
  Let nx k := fst (nth k nodes (0, 0)).
  Let ny k := snd (nth k nodes (0, 0)).
  Let N r s k := nth k (fst (pl_sh p r s)) 0.
  Let D r s := snd (pl_sh p r s).

  Lemma val_field P r s : within basis P -> rsum (pl_n p) (fun k => N r s k * poly2 P (nx k) (ny k)) = poly2 P r s.
  Proof.
    unfold within. induction P as [|[c [i j]] P IH]; intros H; [apply rsum_nil|]. inversion H as [|? ? H1 H2]; subst. cbn in H1.
    rewrite rsum_cons, (IH H2), poly2_cons. f_equal. f_equal. exact (mono_complete p nodes basis i j r s Hc H1).
  Qed.
  Lemma dr_field P r s : within basis P -> rsum (pl_n p) (fun k => ent (D r s) 0 k * poly2 P (nx k) (ny k)) = poly2 (d_r P) r s.
  Proof.
    unfold within. induction P as [|[c [i j]] P IH]; intros H; [apply rsum_nil|]. inversion H as [|? ? H1 H2]; subst. cbn in H1.
    rewrite rsum_cons, (IH H2), poly2_dr_cons. f_equal. f_equal. exact (mono_dr p nodes basis i j r s Hc H1).
  Qed.
  Lemma ds_field P r s : within basis P -> rsum (pl_n p) (fun k => ent (D r s) 1 k * poly2 P (nx k) (ny k)) = poly2 (d_s P) r s.
  Proof.
    unfold within. induction P as [|[c [i j]] P IH]; intros H; [apply rsum_nil|]. inversion H as [|? ? H1 H2]; subst. cbn in H1.
    rewrite rsum_cons, (IH H2), poly2_ds_cons. f_equal. f_equal. exact (mono_ds p nodes basis i j r s Hc H1).
  Qed.

  Lemma image_ent X Y k : (k < pl_n p)%nat ->
    ent (image X Y nodes) k 0 = poly2 X (nx k) (ny k) /\ ent (image X Y nodes) k 1 = poly2 Y (nx k) (ny k).
  Proof.
    intros Hk. destruct (pcase_plane _ _ _ Hc) as (_ & HL & _). unfold ent, image.
    set (f := fun '(r, s) => [poly2 X r s; poly2 Y r s]).
    rewrite (nth_indep _ [] (f (0, 0))) by (rewrite map_length; lia).
    rewrite (map_nth f). unfold nx, ny, f. destruct (nth k nodes (0, 0)) as [a b]. split; reflexivity.
  Qed.
  Lemma jac_entries X Y r s : within basis X -> within basis Y ->
    Jac (pl_n p) (D r s) (image X Y nodes) 0 0 = poly2 (d_r X) r s /\
    Jac (pl_n p) (D r s) (image X Y nodes) 0 1 = poly2 (d_r Y) r s /\
    Jac (pl_n p) (D r s) (image X Y nodes) 1 0 = poly2 (d_s X) r s /\
    Jac (pl_n p) (D r s) (image X Y nodes) 1 1 = poly2 (d_s Y) r s.
  Proof.
    intros HX HY. unfold Jac.
    rewrite <- (dr_field X r s HX), <- (dr_field Y r s HY), <- (ds_field X r s HX), <- (ds_field Y r s HY).
    repeat split; apply rsum_ext; intros k Hk; destruct (image_ent X Y k Hk) as [E E']; rewrite ?E, ?E'; reflexivity.
  Qed.
  Lemma det_jac X Y r s : within basis X -> within basis Y ->
    det_at (pl_n p) (pl_sh p) (image X Y nodes) r s = poly2 (jac X Y) r s.
  Proof.
    intros HX HY. unfold det_at, J2det. destruct (jac_entries X Y r s HX HY) as (E1 & E2 & E3 & E4).
    unfold D in *. rewrite E1, E2, E3, E4. unfold jac. rewrite poly2_app, poly2_scale, !poly2_mul. ring.
  Qed.

  Lemma nodal_val P Q r s a : within basis P -> within basis Q -> (a < 2)%nat ->
    value2 (pl_n p) (fst (pl_sh p r s)) (nodal P Q nodes) a = poly2 (nth a [P; Q] []) r s.
  Proof.
    intros HP HQ Ha. unfold value2, nodal. destruct a as [|[|]]; [| |lia]; cbn [nth].
    - erewrite rsum_ext; [|intros k _; rewrite field2_even; reflexivity]. exact (val_field P r s HP).
    - erewrite rsum_ext; [|intros k _; rewrite field2_odd; reflexivity]. exact (val_field Q r s HQ).
  Qed.

  Variable m : frame.
  Hypothesis Hd : fdet m <> 0.
  Lemma flat_within a b c : within basis (flat a b c).
  Proof. destruct (pcase_plane _ _ _ Hc) as (_ & _ & H1 & H2 & H3). repeat constructor; assumption. Qed.
  Lemma frame_jac r s :
    Jac (pl_n p) (D r s) (image (fX m) (fY m) nodes) 0 0 = xr m /\
    Jac (pl_n p) (D r s) (image (fX m) (fY m) nodes) 0 1 = yr m /\
    Jac (pl_n p) (D r s) (image (fX m) (fY m) nodes) 1 0 = xs m /\
    Jac (pl_n p) (D r s) (image (fX m) (fY m) nodes) 1 1 = ys m.
  Proof.
    destruct (jac_entries (fX m) (fY m) r s (flat_within _ _ _) (flat_within _ _ _)) as (-> & -> & -> & ->).
    unfold fX, fY, flat, poly2; cbn; repeat split; ring.
  Qed.
  Lemma frame_det r s : det_at (pl_n p) (pl_sh p) (image (fX m) (fY m) nodes) r s = fdet m.
  Proof.
    unfold det_at, J2det. destruct (frame_jac r s) as (E1 & E2 & E3 & E4). unfold D in *. rewrite E1, E2, E3, E4.
    unfold fdet. ring.
  Qed.
  Lemma grad_x P r s : within basis P ->
    rsum (pl_n p) (fun k => grad2 (pl_n p) (D r s) (image (fX m) (fY m) nodes) 0 k * poly2 P (nx k) (ny k)) = poly2 (d_x m P) r s.
  Proof.
    intros HP. pose proof (frame_det r s) as Ed. unfold det_at in Ed. destruct (frame_jac r s) as (E1 & E2 & E3 & E4).
    unfold grad2. fold (D r s) in Ed. rewrite Ed, ?E1, ?E2, ?E3, ?E4.
    unfold d_x. rewrite poly2_app, !poly2_scale, <- (dr_field P r s HP), <- (ds_field P r s HP), <- !rsum_scal, <- rsum_plus.
    apply rsum_ext. intros k _. field. exact Hd.
  Qed.
  Lemma grad_y P r s : within basis P ->
    rsum (pl_n p) (fun k => grad2 (pl_n p) (D r s) (image (fX m) (fY m) nodes) 1 k * poly2 P (nx k) (ny k)) = poly2 (d_y m P) r s.
  Proof.
    intros HP. pose proof (frame_det r s) as Ed. unfold det_at in Ed. destruct (frame_jac r s) as (E1 & E2 & E3 & E4).
    unfold grad2. fold (D r s) in Ed. rewrite Ed, ?E1, ?E2, ?E3, ?E4.
    unfold d_y. rewrite poly2_app, !poly2_scale, <- (dr_field P r s HP), <- (ds_field P r s HP), <- !rsum_scal, <- rsum_plus.
    apply rsum_ext. intros k _. field. exact Hd.
  Qed.
  Lemma nodal_strain P Q r s a : within basis P -> within basis Q -> (a < 3)%nat ->
    strain2 (pl_n p) (D r s) (image (fX m) (fY m) nodes) (nodal P Q nodes) a =
    poly2 (nth a [d_x m P; d_y m Q; d_y m P ++ d_x m Q] []) r s.
  Proof.
    intros HP HQ Ha. unfold strain2, nodal. destruct a as [|[|[|]]]; [| | |lia]; cbn [nth].
    - erewrite rsum_ext; [|intros k _; rewrite field2_even; reflexivity]. exact (grad_x P r s HP).
    - erewrite rsum_ext; [|intros k _; rewrite field2_odd; reflexivity]. exact (grad_y Q r s HQ).
    - erewrite rsum_ext; [|intros k _; rewrite field2_even, field2_odd; reflexivity].
      rewrite rsum_plus, poly2_app. f_equal; [exact (grad_y P r s HP)|exact (grad_x Q r s HQ)].
  Qed.
  Lemma nodal_energy E nu P Q P' Q' r s :
    within basis P -> within basis Q -> within basis P' -> within basis Q' ->
    form 3 (umat_R E nu) (strain2 (pl_n p) (D r s) (image (fX m) (fY m) nodes) (nodal P Q nodes))
      (strain2 (pl_n p) (D r s) (image (fX m) (fY m) nodes) (nodal P' Q' nodes)) = poly2 (energy E nu m P Q P' Q') r s.
  Proof.
    intros HP HQ HP' HQ'.
    rewrite (form_ext 3 _ _ (fun a => poly2 (nth a [d_x m P; d_y m Q; d_y m P ++ d_x m Q] []) r s) _ 
      (fun a => poly2 (nth a [d_x m P'; d_y m Q'; d_y m P' ++ d_x m Q'] []) r s))
      by (intros; apply nodal_strain; assumption).
    unfold form, act, umat_R, ent, energy. cbn [rsum nth].
    rewrite !poly2_scale, !poly2_app, !poly2_scale, !poly2_app, !poly2_mul, !poly2_app. ring.
  Qed.
End OneCase.
