(** * Concrete model: a bracket of three bars (sides 4, 3 and 5) on a wall, loaded at its tip *)
From Coq Require Import Reals List Arith Lia Lra Bool ZArith.
From Verif Require Import Num LinAlg Fem Uel Assem Post Main Spec LinR Base SpecAssem SpecModel SpecElem SpecPost SpecStatic SpecTruss
  ModelProofs BarProofs ExModel ExSolver StaticProofs StaticProofs3 TrussProofs TrussCount.
Import ListNotations.
Local Open Scope R_scope.

Definition br_nodes : list (list R) := [[0; 0; 0]; [1; 4; 0]; [2; 0; 3]].
Definition br_bars : list (list Z) := [[0; 6; 0; 0; 1]; [1; 6; 1; 2; 0]; [2; 6; 2; 1; 2]]%Z.
Definition brm : model := mkModel br_nodes [[-1; -1]; [0; 0]; [-1; 0]] br_bars [[10; 2]; [7; 1]; [100; 5; 3]] [[1; 0; -3]].

Lemma br_wf : wf_model brm.
Proof.
  split; [|split; [reflexivity|split]].
  - flags.
  - cbn [md_elements brm br_bars]. all_forall; cbn; lia.
  - cbn [md_loads brm]. all_forall. split; [cbn; lia|]. exists 1%nat. split; [cbn; lia|reflexivity].
Qed.
Lemma br_truss : truss_model brm.
Proof.
  split; [cbn [md_nodes brm br_nodes]; all_forall; reflexivity|]. cbn [md_elements brm br_bars]. all_forall.
  - exists 0%Z, 0%Z, 0%Z, 1%Z, 10, 2, []. repeat split; try lia; try lra. left. cbv -[IZR]. lra.
  - exists 1%Z, 1%Z, 2%Z, 0%Z, 7, 1, []. repeat split; try lia; try lra. right. cbv -[IZR]. lra.
  - exists 2%Z, 2%Z, 1%Z, 2%Z, 100, 5, [3]. repeat split; try lia; try lra. left. cbv -[IZR]. lra.
Qed.
Lemma br_simple : simple_truss brm [1; 2; 0]%nat.
Proof.
  apply (simple_add brm [2; 0]%nat 1 (0 - 4) (0 - 0) (0 - 4) (3 - 0)).
  - apply (simple_add brm [0]%nat 2 1 0 (0 - 0) (0 - 3)).
    + apply (simple_add brm []%nat 0 1 0 0 1).
      * constructor.
      * cbn; lia.
      * left. repeat split.
      * right; left. repeat split.
      * lra.
    + cbn; lia.
    + left. repeat split.
    + right; right. exists [1; 6; 1; 2; 0]%Z, 0%nat. split; [cbn; tauto|]. split; [cbn; tauto|]. split; [left; split; reflexivity|split; reflexivity].
    + lra.
  - cbn; lia.
  - right; right. exists [0; 6; 0; 0; 1]%Z, 0%nat. split; [cbn; tauto|]. split; [cbn; tauto|]. split; [right; split; reflexivity|split; reflexivity].
  - right; right. exists [2; 6; 2; 1; 2]%Z, 2%nat. split; [cbn; tauto|]. split; [cbn; tauto|]. split; [left; split; reflexivity|split; reflexivity].
  - lra.
Qed.
Lemma br_all i : (i < length (md_nodes brm))%nat -> In i [1; 2; 0]%nat.
Proof. cbn. lia. Qed.
Lemma br_stable : stable brm.
Proof. exact (simple_stable brm _ br_wf br_truss br_simple br_all). Qed.
Lemma br_count : length (md_elements brm) = length (free_dofs brm).
Proof.
  unfold free_dofs, ent. cbn. repeat match goal with |- context [Req_EM_T ?a ?b] => destruct (Req_EM_T a b); try lra end. reflexivity.
Qed.
Lemma br_len a b c d l : 0 <= l -> (c - a) * (c - a) + (d - b) * (d - b) = l * l -> bar_len a b c d = l.
Proof. intros Hl H. unfold bar_len. rewrite H. apply sqrt_square. exact Hl. Qed.
Lemma br_balanced : balanced brm (fun m => nth m [-4; -3; 5] 0).
Proof.
  assert (L0 : b_len br_nodes [0; 6; 0; 0; 1]%Z = 4) by (unfold b_len; apply br_len; [lra|cbv -[Rmult Rplus Rminus IZR]; lra]).
  assert (L1 : b_len br_nodes [1; 6; 1; 2; 0]%Z = 3) by (unfold b_len; apply br_len; [lra|cbv -[Rmult Rplus Rminus IZR]; lra]).
  assert (L2 : b_len br_nodes [2; 6; 2; 1; 2]%Z = 5) by (unfold b_len; apply br_len; [lra|cbv -[Rmult Rplus Rminus IZR]; lra]).
  intros i d (Hi & Hd & C). cbn in Hi. unfold joint, applied, pull, b_dir. cbn [md_elements brm br_bars length rsum nth md_nodes md_loads fold_left]. rewrite L0, L1, L2.
  assert (HI : (i = 0 \/ i = 1 \/ i = 2)%nat) by lia. assert (HD : (d = 0 \/ d = 1)%nat) by lia.
  destruct HI as [->|[->| ->]]; destruct HD as [->| ->]; unfold ent in C; cbn [nth md_cons brm] in C; try lra;
    unfold ent; cbn [nth br_nodes]; match goal with |- context [Req_EM_T ?a ?b] => destruct (Req_EM_T a b) as [X|X]; cbn [INR] in X end; cbv -[Rmult Rplus Rminus Rdiv Ropp Rinv IZR]; lra.
Qed.
Lemma br_runs plot strains : strains = false -> plot = false -> exists out, auto elim_solver brm plot strains = Ok out.
Proof.
  intros -> ->. apply (model_runs elim_solver brm br_wf (truss_accepted brm br_wf br_truss) br_stable elim_ok elim_total).
  exists 1%nat, 0%nat. split; [cbn; lia|split; [lia|reflexivity]].
Qed.
Lemma br_stresses : exists out, auto elim_solver brm false false = Ok out /\
  stress_truss (md_nodes brm) (md_elements brm) (md_mats brm) (out_disp out) = Ok [-2; -3; 1].
Proof.
  destruct (br_runs false false eq_refl eq_refl) as [out Hout]. exists out. split; [exact Hout|].
  destruct (truss_joints elim_solver brm false false out br_wf br_truss elim_ok Hout) as (S & HS & LS & _). rewrite HS. f_equal.
  pose proof (truss_determinate elim_solver brm false false out S _ br_wf br_truss elim_ok Hout HS (count_determinate brm br_wf br_truss br_stable br_count) br_balanced) as HD.
  pose proof (HD 0%nat ltac:(cbn; lia)) as D0. pose proof (HD 1%nat ltac:(cbn; lia)) as D1. pose proof (HD 2%nat ltac:(cbn; lia)) as D2.
  destruct S as [|s0 [|s1 [|s2 [|]]]]; try discriminate. unfold b_area, ent in D0, D1, D2. cbn in D0, D1, D2. cbv [Pos.to_nat Pos.iter_op Nat.add nth] in D0, D1, D2. subst. repeat f_equal; lra.
Qed.
