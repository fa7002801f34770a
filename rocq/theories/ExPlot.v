(** * Concrete trusses for the properties of plot_truss *)
From Coq Require Import String Reals List Arith Lia Lra Bool ZArith QArith Qreals.
From Verif Require Import Num LinAlg Assem Post PlotTruss Spec LinR Base SpecModel SpecPlot PostProofs PostTotal ElemFinal3 StaticProofs3 PlotProofs.
Import ListNotations.
Local Open Scope R_scope.

(** two bars in a V, areas 1 and 2 *)
Definition vnodes : list (list R) := [[0; 0; 0]; [1; 1; 1]; [2; 2; 0]].
Definition vmats : list (list R) := [[1; 1]; [1; 2]].
(** rows of the two bars, with the identifiers given *)
Definition vbars (i j : Z) : list (list Z) := [[i; 6; 0; 0; 1]; [j; 6; 1; 1; 2]]%Z.

Lemma v_peak : peak [1; -2] 2.
Proof.
  split.
  - intros x [<-|[<-|[]]]; apply Rabs_le; lra.
  - exists (-2). split; [right; left; reflexivity|]. rewrite Rabs_left; lra.
Qed.
Lemma v_zero_peak : peak [0; 0] 0.
Proof.
  split.
  - intros x [<-|[<-|[]]]; rewrite Rabs_R0; lra.
  - exists 0. split; [left; reflexivity|apply Rabs_R0].
Qed.
Lemma v_nodes : Forall (fun row => (2 < length row)%nat) vnodes.
Proof. repeat constructor. Qed.
Lemma v_mats : Forall (fun row => (1 < length row)%nat) vmats.
Proof. repeat constructor. Qed.
Lemma v_drawable i j : Forall (drawable vnodes vmats) (vbars i j).
Proof.
  apply Forall_cons; [|apply Forall_cons; [|apply Forall_nil]]; (split; [reflexivity|split; [|cbn; lia]]);
    intros k Hk; destruct k as [|[|k]]; cbn; lia.
Qed.
Lemma v_ids k e : nth_error (vbars 0 1) k = Some e -> drawable vnodes vmats e /\ nth 0 e 0%Z = Z.of_nat k.
Proof.
  intros H. pose proof (v_drawable 0 1) as HD. split; [exact (proj1 (Forall_forall _ _) HD e (nth_error_In _ _ H))|].
  destruct k as [|[|k]]; cbn in H; [injection H as <-; reflexivity|injection H as <-; reflexivity|destruct k; discriminate].
Qed.
Lemma v_least : least (areas vmats) 1.
Proof. split; [intros x [<-|[<-|[]]]; cbn; lra|left; reflexivity]. Qed.
Lemma v_greatest : greatest (areas vmats) 2.
Proof. split; [intros x [<-|[<-|[]]]; cbn; lra|right; left; reflexivity]. Qed.

(** bars numbered in reverse order get each other's colour *)
Lemma v_swapped : exists l0 l1, plot_truss vnodes (vbars 1 0) vmats (Some [1; -2]) 4 (1 / 2) = Ok [l0; l1] /\
  tl_color l0 = ByValue 0 /\ tl_color l1 = ByValue (3 / 4).
Proof.
  unfold plot_truss. rewrite (colors_ok _ _ 2 v_peak) by lra. cbn [bind].
  destruct (width_rules vmats 4 (1 / 2) 1 2 v_mats v_least v_greatest) as (ws & -> & L & _); try lra.
  destruct ws as [|w0 [|w1 [|]]]; try discriminate.
  eexists _, _. split; [reflexivity|]. split; cbn [tl_color]; f_equal; lra.
Qed.
(** bars numbered from 1: index out of bounds *)
Lemma v_from_one : plot_truss vnodes (vbars 1 2) vmats (Some [1; -2]) 4 (1 / 2) = Err IndexError.
Proof.
  unfold plot_truss. rewrite (colors_ok _ _ 2 v_peak) by lra. cbn [bind].
  destruct (width_rules vmats 4 (1 / 2) 1 2 v_mats v_least v_greatest) as (ws & -> & L & _); try lra.
  destruct ws as [|w0 [|w1 [|]]]; try discriminate. reflexivity.
Qed.

Lemma v_numbering : peak [1; -2] 2 /\ 2 <> 0 /\ length [1; -2] = length (vbars 1 0) /\ length [1; -2] = length (vbars 1 2) /\
  Forall (drawable vnodes vmats) (vbars 1 0) /\ Forall (drawable vnodes vmats) (vbars 1 2) /\
  (exists l0 l1, plot_truss vnodes (vbars 1 0) vmats (Some [1; -2]) 4 (1 / 2) = Ok [l0; l1] /\
     tl_color l0 = ByValue (1 / 2 + nth 1 [1; -2] 0 / (2 * 2)) /\ tl_color l1 = ByValue (1 / 2 + nth 0 [1; -2] 0 / (2 * 2)) /\
     tl_color l0 <> tl_color l1) /\
  plot_truss vnodes (vbars 1 2) vmats (Some [1; -2]) 4 (1 / 2) = Err IndexError.
Proof.
  split; [exact v_peak|]. split; [lra|]. split; [reflexivity|]. split; [reflexivity|].
  split; [exact (v_drawable 1 0)|]. split; [exact (v_drawable 1 2)|]. split; [|exact v_from_one].
  destruct v_swapped as (l0 & l1 & H & C0 & C1). exists l0, l1. split; [exact H|].
  rewrite C0, C1. split; [f_equal; cbn; lra|]. split; [f_equal; cbn; lra|]. intros E. injection E as E. lra.
Qed.

(** areas of a square millimetre and half of one, in square metres *)
Definition small_mats : list (list R) := [[1; 1 / 2000000]; [1; 1 / 1000000]].
Lemma small_widths mx mn : truss_widths small_mats mx mn = Ok [3; 3].
Proof.
  apply (width_equal small_mats mx mn (1 / 2000000) (1 / 1000000)).
  - repeat constructor.
  - split; [intros x [<-|[<-|[]]]; cbn; lra|left; reflexivity].
  - split; [intros x [<-|[<-|[]]]; cbn; lra|right; left; reflexivity].
  - lra.
Qed.
Lemma small_double : nth 1 (areas small_mats) 0 = 2 * nth 0 (areas small_mats) 0.
Proof. cbn. lra. Qed.
Lemma small_pos : 0 < nth 0 (areas small_mats) 0.
Proof. cbn. lra. Qed.
