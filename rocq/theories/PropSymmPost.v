(** * Property C116: recovered strains and stresses of symmetric structures *)
From Coq Require Import Reals List Arith ZArith Lia Lra Permutation.
From Verif Require Import Num LinAlg Post Main Spec SpecAssem SpecModel SpecPost SpecStatic SpecPre SpecOrder SpecSymm SymmPost SymmRef.
Import ListNotations.
Local Open Scope R_scope.

(** Full statement: in a symmetric run (C115) the recovered strains and stresses of a node and its image agree up to the signs
    of their components.  False for quadrilaterals: the plate of the first tutorial with its upper corners pulled apart, where
    the two corners get different strains (the points given to the nodes are not those next to them, C50) *)
Theorem C116_refuted : exists sx sy tx ty s c md, wf_model md /\ node_rows_ok md /\ continuum_or_truss md /\ stable md /\
  symmetry sx sy tx ty s md /\ c = 1 /\ follows sx sy c s (length (md_nodes md)) (applied (md_loads md)) /\ mesh_of 1 4 (length (md_nodes md)) (md_elements md) /\
  (forall sv plot, solver_ok sv -> solver_total sv -> exists out, auto sv md plot true = Ok out) /\
  forall sv plot out, solver_ok sv -> auto sv md plot true = Ok out ->
    exists Es Ss i, out_strains out = Some (Es, Ss) /\ (i < length (md_nodes md))%nat /\ ent Es (s i) 0 <> c * ent Es i 0.
Proof. exact strains_refuted. Qed.
Print Assumptions C116_refuted.

(** True if the points go along with the nodes: quadrilaterals listed like their images (half turns), triangles of three nodes
    listed from the image of their first node.  Missing: all other listings *)
Theorem C116_run_partial : forall sx sy tx ty s c md t n sv plot out, wf_model md -> node_rows_ok md -> continuum_or_truss md -> stable md -> solver_ok sv ->
  symmetry sx sy tx ty s md -> c = 1 \/ c = -1 -> follows sx sy c s (length (md_nodes md)) (applied (md_loads md)) ->
  In (t, n) [(1%Z, 4%nat); (2%Z, 6%nat); (3%Z, 3%nat)] -> mesh_of t n (length (md_nodes md)) (md_elements md) -> listed_alike sx sy s md ->
  auto sv md plot true = Ok out ->
  exists Es Ss, out_strains out = Some (Es, Ss) /\ forall i, (i < length (md_nodes md))%nat ->
    ent Es (s i) 0 = c * ent Es i 0 /\ ent Es (s i) 1 = c * ent Es i 1 /\ ent Es (s i) 2 = c * (sx * sy) * ent Es i 2 /\
    ent Ss (s i) 0 = c * ent Ss i 0 /\ ent Ss (s i) 1 = c * ent Ss i 1 /\ ent Ss (s i) 2 = c * (sx * sy) * ent Ss i 2.
Proof. exact symmetric_strains. Qed.
Print Assumptions C116_run_partial.

(** the same for strain_nodes on any displacements that follow the symmetry *)
Theorem C116_rows_partial : forall sx sy tx ty s c md t n sol E S, symmetry sx sy tx ty s md ->
  In (t, n) [(1%Z, 4%nat); (2%Z, 6%nat); (3%Z, 3%nat)] -> mesh_of t n (length (md_nodes md)) (md_elements md) -> listed_alike sx sy s md ->
  length sol = length (md_nodes md) -> follows sx sy c s (length (md_nodes md)) (ent sol) ->
  strain_rows (md_nodes md) (md_elements md) (md_mats md) sol = Ok (E, S) ->
  rows_mirrored sx sy c s (length (md_nodes md)) E /\ rows_mirrored sx sy c s (length (md_nodes md)) S.
Proof. exact symmetric_rows. Qed.
Print Assumptions C116_rows_partial.

(** 6-node triangles: the full statement, however they are listed *)
Theorem C116_tri6_partial : forall sx sy tx ty s c md sv plot out, wf_model md -> node_rows_ok md -> continuum_or_truss md -> stable md -> solver_ok sv ->
  symmetry sx sy tx ty s md -> c = 1 \/ c = -1 -> follows sx sy c s (length (md_nodes md)) (applied (md_loads md)) ->
  mesh_of 2 6 (length (md_nodes md)) (md_elements md) -> auto sv md plot true = Ok out ->
  exists Es Ss, out_strains out = Some (Es, Ss) /\ forall i, (i < length (md_nodes md))%nat ->
    ent Es (s i) 0 = c * ent Es i 0 /\ ent Es (s i) 1 = c * ent Es i 1 /\ ent Es (s i) 2 = c * (sx * sy) * ent Es i 2 /\
    ent Ss (s i) 0 = c * ent Ss i 0 /\ ent Ss (s i) 1 = c * ent Ss i 1 /\ ent Ss (s i) 2 = c * (sx * sy) * ent Ss i 2.
Proof. exact tri6_strains. Qed.
Print Assumptions C116_tri6_partial.

(** two quadrilaterals side by side, the second listed from its upper right corner: a half turn about (1, 1/2) *)
Example C116_case_quads : symmetry (-1) (-1) 2 1 (fun i => 5 - i)%nat
    (mkModel [[0; 0; 0]; [1; 1; 0]; [2; 2; 0]; [3; 0; 1]; [4; 1; 1]; [5; 2; 1]] [[-1; -1]; [0; 0]; [0; 0]; [0; 0]; [0; 0]; [-1; -1]]
       [[0; 1; 0; 0; 1; 4; 3]; [1; 1; 0; 5; 4; 1; 2]]%Z [[1; 1/4]] [[1; 0; 1]; [4; 0; -1]]) /\
  listed_alike (-1) (-1) (fun i => 5 - i)%nat
    (mkModel [[0; 0; 0]; [1; 1; 0]; [2; 2; 0]; [3; 0; 1]; [4; 1; 1]; [5; 2; 1]] [[-1; -1]; [0; 0]; [0; 0]; [0; 0]; [0; 0]; [-1; -1]]
       [[0; 1; 0; 0; 1; 4; 3]; [1; 1; 0; 5; 4; 1; 2]]%Z [[1; 1/4]] [[1; 0; 1]; [4; 0; -1]]).
Proof.
  assert (G : listed_alike (-1) (-1) (fun i => 5 - i)%nat
    (mkModel [[0; 0; 0]; [1; 1; 0]; [2; 2; 0]; [3; 0; 1]; [4; 1; 1]; [5; 2; 1]] [[-1; -1]; [0; 0]; [0; 0]; [0; 0]; [0; 0]; [-1; -1]]
       [[0; 1; 0; 0; 1; 4; 3]; [1; 1; 0; 5; 4; 1; 2]]%Z [[1; 1/4]] [[1; 0; 1]; [4; 0; -1]])).
  { exists [[1; 1; 0; 5; 4; 1; 2]; [0; 1; 0; 0; 1; 4; 3]]%Z. split; [apply perm_swap|]. cbn [md_elements].
    repeat (apply Forall2_cons; [|]); try apply Forall2_nil;
      (exists 1%Z, [0; 1; 2; 3]%nat; split; [reflexivity|]; split; [reflexivity|]; split; [reflexivity|]; split; [right; split; [ring|cbn; tauto]|]; split; reflexivity). }
  split; [|exact G]. split.
  - split; right; reflexivity.
  - intros i Hi. cbn in Hi. cbn [md_nodes length]. split; lia.
  - intros i Hi. cbn in Hi. do 6 (destruct i as [|i]; [unfold ent; cbn; split; ring|]). lia.
  - intros i d Hi Hd. cbn in Hi. do 6 (destruct i as [|i]; [reflexivity|]). lia.
  - destruct G as (els & HP & HF). exists els. split; [exact HP|]. clear HP. induction HF as [|e e' l l' H _ IH]; [apply Forall2_nil|]. apply Forall2_cons; [|exact IH].
    destruct H as (t & o & H1 & H2 & H3 & H4 & _ & H5). exists t, o. auto.
Qed.
(** one triangle of six nodes, symmetric about the x axis *)
Example C116_case_tri6 : symmetry 1 (-1) 0 0 (fun i => nth i [0; 2; 1; 5; 4; 3]%nat i)
    (mkModel [[0; 0; 0]; [1; 2; -1]; [2; 2; 1]; [3; 1; -1/2]; [4; 2; 0]; [5; 1; 1/2]] (repeat [0; 0] 6) [[0; 2; 0; 0; 1; 2; 3; 4; 5]]%Z [[1; 1/4]] []) /\
  mesh_of 2 6 6 [[0; 2; 0; 0; 1; 2; 3; 4; 5]]%Z.
Proof.
  split.
  - split.
    + split; [left|right]; reflexivity.
    + intros i Hi. cbn in Hi. do 6 (destruct i as [|i]; [cbn; split; (lia || reflexivity)|]). lia.
    + intros i Hi. cbn in Hi. do 6 (destruct i as [|i]; [unfold ent; cbn; split; field|]). lia.
    + intros i d Hi Hd. cbn in Hi. do 6 (destruct i as [|i]; [reflexivity|]). lia.
    + eexists. split; [apply Permutation_refl|]. cbn [md_elements]. apply Forall2_cons; [|apply Forall2_nil].
      exists 2%Z, [0; 2; 1; 5; 4; 3]%nat. split; [reflexivity|]. split; [reflexivity|]. split; [reflexivity|]. split; [left; split; [ring|cbn; tauto]|reflexivity].
  - apply Forall_cons; [|apply Forall_nil]. split; [reflexivity|]. split; [reflexivity|]. split; [cbn; lia|]. cbn [skipn]. repeat (apply Forall_cons; [lia|]). apply Forall_nil.
Qed.
