(** * Concrete models: rectangular grids of any size, held on the left and at the bottom, pulled to the right *)
From Coq Require Import Reals List Arith Lia Lra Bool ZArith.
From Verif Require Import Num LinAlg Gauss Fem Uel Assem Post Pre Main Spec LinR Base SpecAssem SpecModel SpecElem SpecPost SpecPre SpecStatic SpecPatch SpecDriver SpecGrid
  ElemCore Elem2 AssemProofs AssemProofs3 AssemProofs4 ModelProofs ModelProofs2 GridProofs PostProofs PostFinal GridModel GridLoads ExSolver.
Import ListNotations.
Local Open Scope R_scope.

Definition pulled (L H : R) (nx ny : nat) (E nu s : R) : model :=
  let N := ((nx + 1) * (ny + 1))%nat in
  let '(x, y, els) := rect_grid L H nx ny in
  mkModel (grid_table x y)
    (map (fun k => [if (k mod (nx + 1) =? 0)%nat then -1 else 0; if (k / (nx + 1) =? 0)%nat then -1 else 0]) (seq 0 N))
    els [[E; nu]]
    (map (fun k => [INR k; s * (H / INR ny) * outward nx (k mod (nx + 1)) * tributary ny (k / (nx + 1)); 0]) (seq 0 N)).

Lemma node_mod nx i j : (i <= nx)%nat -> (node nx i j mod (nx + 1) = i)%nat /\ (node nx i j / (nx + 1) = j)%nat.
Proof.
  intros Hi. unfold node. split.
  - rewrite Nat.add_comm, Nat.mod_add by lia. apply Nat.mod_small. lia.
  - rewrite Nat.add_comm, Nat.div_add by lia. rewrite Nat.div_small by lia. lia.
Qed.

Section Pulled.
  Variables (L H : R) (nx ny : nat) (E nu s : R).
  Hypothesis (Hx : (1 <= nx)%nat) (Hy : (1 <= ny)%nat) (HL : 0 < L) (HH : 0 < H)
    (Hd : 1 / 100000000 < L * H / (4 * INR nx * INR ny)) (HE : 0 < E) (Hnu : -1 < nu < 1).
  Let md := pulled L H nx ny E nu s.

  Lemma pulled_grid : grid_model L H nx ny E nu md.
  Proof.
    unfold md, pulled. destruct (rect_grid L H nx ny) as [[x y] els] eqn:R. repeat (split; [assumption|]). split; [reflexivity|]. exists x, y. split; [exact R|reflexivity].
  Qed.
  Lemma pulled_cons i j : (i <= nx)%nat -> (j <= ny)%nat -> ent (md_cons md) (node nx i j) 0 = (if (i =? 0)%nat then -1 else 0) /\
    ent (md_cons md) (node nx i j) 1 = (if (j =? 0)%nat then -1 else 0).
  Proof.
    intros Hi Hj. pose proof (node_bound nx ny i j Hi Hj) as Hb. destruct (node_mod nx i j Hi) as [E1 E2]. unfold ent, md, pulled. destruct (rect_grid L H nx ny) as [[x y] els]. cbn [md_cons].
    rewrite (map_nth_def _ _ _ 0%nat) by (rewrite seq_length; exact Hb). rewrite seq_nth by exact Hb. cbn [Nat.add nth]. rewrite E1, E2. split; reflexivity.
  Qed.
  Lemma pulled_wf : wf_model md.
  Proof.
    pose proof (gm_length L H nx ny E nu md pulled_grid) as HN. split; [|split; [|split]].
    - unfold md, pulled. destruct (rect_grid L H nx ny) as [[x y] els]. cbn [md_cons]. apply Forall_forall. intros row Hr. apply in_map_iff in Hr as (k & <- & _).
      split; [reflexivity|]. apply Forall_cons; [|apply Forall_cons; [|constructor]]; [destruct (k mod (nx + 1) =? 0)%nat|destruct (k / (nx + 1) =? 0)%nat]; tauto.
    - rewrite HN. unfold md, pulled. destruct (rect_grid L H nx ny) as [[x y] els]. cbn [md_cons]. rewrite map_length, seq_length. reflexivity.
    - apply Forall_forall. intros e He. pose proof (gm_mesh L H nx ny E nu md pulled_grid) as HM. unfold mesh_of in HM. rewrite Forall_forall in HM. apply (HM e He).
    - rewrite HN. unfold md, pulled. destruct (rect_grid L H nx ny) as [[x y] els]. cbn [md_loads]. apply Forall_forall. intros row Hr. apply in_map_iff in Hr as (k & <- & Hk).
      apply in_seq in Hk. split; [cbn; lia|]. exists k. split; [lia|reflexivity].
  Qed.
  Lemma pulled_loads i j d : (i <= nx)%nat -> (j <= ny)%nat -> (d < 2)%nat ->
    applied (md_loads md) (node nx i j) d = if (d =? 0)%nat then s * (H / INR ny) * outward nx i * tributary ny j else 0.
  Proof.
    intros Hi Hj Hd2. pose proof (node_bound nx ny i j Hi Hj) as Hb. destruct (node_mod nx i j Hi) as [E1 E2]. unfold md, pulled. destruct (rect_grid L H nx ny) as [[x y] els]. cbn [md_loads].
    replace ((nx + 1) * (ny + 1))%nat with (node nx i j + S ((nx + 1) * (ny + 1) - node nx i j - 1))%nat by lia.
    rewrite seq_app, map_app. cbn [Nat.add seq map]. rewrite applied_last; [|reflexivity|].
    - rewrite E1, E2. destruct d as [|[|]]; [reflexivity|reflexivity|lia].
    - intros r Hr. apply in_map_iff in Hr as (k & <- & Hk). apply in_seq in Hk. cbn [nth]. intros HC. apply INR_eq in HC. lia.
  Qed.

  Theorem pulled_run sv plot strains : solver_ok sv -> solver_total sv ->
    exists out, auto sv md plot strains = Ok out /\ out_warn out = false /\
      (forall i j, (i <= nx)%nat -> (j <= ny)%nat ->
         table out (node nx i j) 0 = s / E * (INR i * (L / INR nx)) /\ table out (node nx i j) 1 = - (nu * s / E) * (INR j * (H / INR ny))) /\
      (strains = true -> out_strains out = Some (repeat [s / E; - (nu * s / E); 0] ((nx + 1) * (ny + 1)), repeat [s; 0; 0] ((nx + 1) * (ny + 1)))).
  Proof.
    intros Hsv Htot. apply (grid_tension L H nx ny E nu md pulled_grid sv plot strains s 0 0 1 pulled_wf Hsv Htot); try lia.
    - apply pulled_cons; lia.
    - apply pulled_cons; lia.
    - apply pulled_cons; lia.
    - intros i j Hi Hj. destruct (pulled_cons i j Hi Hj) as [-> ->]. split; intros HC.
      + destruct (Nat.eqb_spec i 0); [assumption|lra].
      + destruct (Nat.eqb_spec j 0); [assumption|lra].
    - intros i j d Hi Hj (_ & Hd2 & _). exact (pulled_loads i j d Hi Hj Hd2).
  Qed.
End Pulled.
