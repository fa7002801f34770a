(** * Property C115: symmetric structures answer symmetrically *)
From Coq Require Import Reals List Arith ZArith Lia Lra Permutation.
From Verif Require Import Num LinAlg Main Spec SpecAssem SpecModel SpecStatic SpecSquare SpecSymm SquareProofs SymmFinal SymmCase ExSolver.
Import ListNotations.
Local Open Scope R_scope.

(** loads that a mirror line or a half turn carries onto themselves (c = 1) or reverses (c = -1): so do the displacements and reactions *)
Theorem C115_symmetric : forall sx sy tx ty s c md sv plot strains out, wf_model md -> node_rows_ok md -> continuum_or_truss md -> stable md -> solver_ok sv ->
  symmetry sx sy tx ty s md -> c = 1 \/ c = -1 -> follows sx sy c s (length (md_nodes md)) (applied (md_loads md)) ->
  auto sv md plot strains = Ok out ->
  follows sx sy c s (length (md_nodes md)) (table out) /\ follows sx sy c s (length (md_nodes md)) (reaction md (table out)).
Proof. exact symmetric_run. Qed.
Print Assumptions C115_symmetric.

(** a node on the mirror line stays on it (symmetric loads) or crosses it at a right angle (reversed loads); the centre of a half turn stays *)
Theorem C115_axis : forall sx sy tx ty s c md sv plot strains out, wf_model md -> node_rows_ok md -> continuum_or_truss md -> stable md -> solver_ok sv ->
  symmetry sx sy tx ty s md -> c = 1 \/ c = -1 -> follows sx sy c s (length (md_nodes md)) (applied (md_loads md)) ->
  auto sv md plot strains = Ok out ->
  forall i d, (i < length (md_nodes md))%nat -> (d < 2)%nat -> s i = i -> c * sgn sx sy d = -1 -> table out i d = 0.
Proof. exact axis_run. Qed.
Print Assumptions C115_axis.

(** the plate of the tutorial and its loads are symmetric about x = 1 *)
Example C115_case_plate : symmetry (-1) 1 2 0 mirror9 (plate 1 1 1 (3/10) 1) /\ follows (-1) 1 1 mirror9 9 (applied (md_loads (plate 1 1 1 (3/10) 1))).
Proof.
  split; [|apply plate_follows]. pose proof (plate_mirror 1 1 1 (3/10) (md_loads (plate 1 1 1 (3/10) 1)) 1) as H.
  replace 2 with (2 * 1) by ring. exact H.
Qed.
(** pushed sideways at its upper corners: the nodes in the middle move neither up nor down *)
Example C115_case_sway : exists out, auto elim_solver (swayed 5) true true = Ok out /\ table out 6 1 = 0 /\ table out 8 1 = 0 /\ table out 3 0 = table out 2 0.
Proof.
  destruct (swayed_runs 5 elim_solver true true elim_ok elim_total) as [out H]. exists out. split; [exact H|].
  pose proof (plate_mirror 1 1 1 (3/10) [[3; 5; 0]; [2; 5; 0]] 1) as HY. pose proof (swayed_follows 5) as HL.
  pose proof (C115_axis _ _ _ _ _ (-1) _ _ _ _ _ (swayed_wf 5) (swayed_rows 5) (swayed_types 5) (swayed_stable 5) elim_ok HY (or_intror eq_refl) HL H) as HA.
  destruct (C115_symmetric _ _ _ _ _ (-1) _ _ _ _ _ (swayed_wf 5) (swayed_rows 5) (swayed_types 5) (swayed_stable 5) elim_ok HY (or_intror eq_refl) HL H) as [HT _].
  split; [apply HA; [cbn; lia|lia|reflexivity|cbn; ring]|]. split; [apply HA; [cbn; lia|lia|reflexivity|cbn; ring]|].
  specialize (HT 2%nat 0%nat ltac:(cbn; lia) ltac:(lia)). cbn [mirror9 nth sgn] in HT. rewrite HT. ring.
Qed.
(** four bars pinned at their outer ends, meeting in the middle: a half turn about the middle *)
Example C115_case_cross : symmetry (-1) (-1) 0 0 (fun i => nth i [1; 0; 3; 2; 4]%nat i)
  (mkModel [[0; 3; 1]; [1; -3; -1]; [2; -1; 2]; [3; 1; -2]; [4; 0; 0]] [[-1; -1]; [-1; -1]; [-1; -1]; [-1; -1]; [0; 0]]
           [[0; 6; 0; 4; 0]; [1; 6; 0; 1; 4]; [2; 6; 1; 2; 4]; [3; 6; 1; 3; 4]]%Z [[1; 1]; [2; 1]] [[4; 1; 1]]).
Proof.
  split.
  - split; right; reflexivity.
  - intros i Hi. cbn in Hi. do 5 (destruct i as [|i]; [cbn; split; (lia || reflexivity)|]). lia.
  - intros i Hi. cbn in Hi. do 5 (destruct i as [|i]; [unfold ent; cbn; split; ring|]). lia.
  - intros i d Hi Hd. cbn in Hi. do 5 (destruct i as [|i]; [reflexivity|]). lia.
  - exists [[1; 6; 0; 1; 4]; [0; 6; 0; 4; 0]; [3; 6; 1; 3; 4]; [2; 6; 1; 2; 4]]%Z. cbn [md_elements]. split.
    + eapply perm_trans; [apply perm_swap|]. apply perm_skip, perm_skip, perm_swap.
    + repeat (apply Forall2_cons; [|]); try apply Forall2_nil;
      [exists 6%Z, [1; 0]%nat|exists 6%Z, [1; 0]%nat|exists 6%Z, [0; 1]%nat|exists 6%Z, [0; 1]%nat];
      (split; [reflexivity|]; split; [reflexivity|]; split; [reflexivity|]; split; [right; split; [ring|cbn; tauto]|reflexivity]).
Qed.
