(** * Properties C12-C20: whole models *)
From Coq Require Import String Reals List Arith Lia Lra Bool ZArith Permutation.
From Verif Require Import Num LinAlg Fem Uel Assem Post Pre TextIO Main Spec SpecAssem SpecModel
  AssemProofs4 ModelProofs ModelProofs2 ExModel MeshProofs ExModel2.
Import ListNotations.
Local Open Scope R_scope.

(** ** C12 *)
Theorem C12_equilibrium : forall sv md plot strains out,
  wf_model md -> solver_ok sv -> auto sv md plot strains = Ok out -> in_equilibrium md (table out).
Proof. exact run_equilibrium. Qed.
Print Assumptions C12_equilibrium.

Example C12_case : forall f, wf_model (bar2 f) /\ solver_ok sv1 /\ exists out, auto sv1 (bar2 f) false false = Ok out.
Proof. exact (fun f => conj (bar2_wf f) (conj sv1_ok (bar2_run f))). Qed.

(** ** C13 *)
Theorem C13_superposition : forall sv md l1 l2 l3 a b p1 s1 p2 s2 p3 s3 o1 o2 o3,
  solver_ok sv -> stable md ->
  wf_model (with_loads md l1) -> wf_model (with_loads md l2) -> wf_model (with_loads md l3) ->
  (forall i d, (i < length (md_nodes md))%nat -> (d < 2)%nat ->
     applied l3 i d = a * applied l1 i d + b * applied l2 i d) ->
  auto sv (with_loads md l1) p1 s1 = Ok o1 ->
  auto sv (with_loads md l2) p2 s2 = Ok o2 ->
  auto sv (with_loads md l3) p3 s3 = Ok o3 ->
  forall i d, (i < length (md_nodes md))%nat -> (d < 2)%nat ->
    table o3 i d = a * table o1 i d + b * table o2 i d.
Proof. exact superposition. Qed.
Print Assumptions C13_superposition.

(** the row-wise combination of two load tables on the same nodes is such a table *)
Theorem C13_combination : forall a b l1 l2 i d,
  Forall2 (fun r1 r2 => nth 0 r1 0 = nth 0 r2 0) l1 l2 -> (d < 2)%nat ->
  applied (comb_loads a b l1 l2) i d = a * applied l1 i d + b * applied l2 i d.
Proof. exact applied_comb. Qed.
Print Assumptions C13_combination.

Example C13_case : stable (bar2 0) /\
  wf_model (with_loads (bar2 0) [[1; 9; 0]]) /\
  with_loads (bar2 0) (comb_loads 2 3 [[1; 9; 0]] [[1; 18; 0]]) = bar2 (2 * 9 + 3 * 18) /\
  exists out, auto sv1 (with_loads (bar2 0) [[1; 9; 0]]) false false = Ok out.
Proof.
  split; [apply bar2_stable|]. split; [apply (bar2_wf 9)|]. split.
  - unfold with_loads, bar2, comb_loads. cbn. do 4 f_equal. f_equal. lra.
  - apply (bar2_run 9).
Qed.

(** ** C14 *)
Theorem C14_patch : forall sv md plot strains out U,
  wf_model md -> solver_ok sv -> stable md -> in_equilibrium md U ->
  auto sv md plot strains = Ok out ->
  forall i d, (i < length (md_nodes md))%nat -> (d < 2)%nat -> table out i d = U i d.
Proof. exact patch. Qed.
Print Assumptions C14_patch.

Example C14_case : exists out, auto sv1 (bar2 9) false false = Ok out /\ stable (bar2 9) /\
  in_equilibrium (bar2 9) (table out).
Proof.
  destruct (bar2_run 9) as [out H]. exists out. split; [exact H|]. split; [apply bar2_stable|].
  exact (run_equilibrium sv1 _ _ _ _ (bar2_wf 9) sv1_ok H).
Qed.

(** ** C15.  [node_rigid nodes a b w i d] is a rigid motion of the nodes; the element forces do
    no work on it (a, b: sums of the forces; w: sum of the moments). *)
Theorem C15_internal_forces : forall md, wf_model md -> node_rows_ok md -> continuum_or_truss md ->
  Forall (fun e => exists k m, retriever e (md_mats md) (md_nodes md) None = Ok (k, m)) (md_elements md) ->
  forall U a b w,
  rsum (length (md_nodes md)) (fun i => rsum 2 (fun d =>
    node_rigid (md_nodes md) a b w i d * internal_force (md_mats md) (md_nodes md) (md_elements md) U i d)) = 0.
Proof. exact forces_balance. Qed.
Print Assumptions C15_internal_forces.

Theorem C15_reactions : forall sv md plot strains out d,
  wf_model md -> node_rows_ok md -> continuum_or_truss md -> solver_ok sv ->
  auto sv md plot strains = Ok out -> (d < 2)%nat ->
  rsum (length (md_nodes md)) (fun i => reaction md (table out) i d)
  + rsum (length (md_nodes md)) (fun i => applied (md_loads md) i d) = 0.
Proof. exact reactions_balance. Qed.
Print Assumptions C15_reactions.

Theorem C15_moments : forall sv md plot strains out,
  wf_model md -> node_rows_ok md -> continuum_or_truss md -> solver_ok sv ->
  auto sv md plot strains = Ok out ->
  let total i d := reaction md (table out) i d + applied (md_loads md) i d in
  rsum (length (md_nodes md)) (fun i =>
    ent (md_nodes md) i 1 * total i 1%nat - ent (md_nodes md) i 2 * total i 0%nat) = 0.
Proof. exact moments_balance. Qed.
Print Assumptions C15_moments.

Example C15_case : wf_model (bar2 9) /\ node_rows_ok (bar2 9) /\ continuum_or_truss (bar2 9) /\ solver_ok sv1 /\
  exists out, auto sv1 (bar2 9) false false = Ok out.
Proof. exact (conj (bar2_wf 9) (conj (bar2_rows 9) (conj (bar2_types 9) (conj sv1_ok (bar2_run 9))))). Qed.

(** ** C16 *)
Theorem C16_energy : forall u K,
  energy u K = - (1 / 2) * form (length u) K (fun i => nth i u 0) (fun i => nth i u 0).
Proof. exact energy_form. Qed.
Print Assumptions C16_energy.

Theorem C16_work : forall u K f, length f = length u ->
  (forall p, (p < length u)%nat -> act (length u) K (fun q => nth q u 0) p = nth p f 0) ->
  energy u K = - (1 / 2) * rsum (length u) (fun p => nth p f 0 * nth p u 0).
Proof. exact energy_work. Qed.
Print Assumptions C16_work.

Theorem C16_elements : forall elements mats nodes neq op uel locs sparse gk gm u,
  locals_of elements mats nodes op uel locs -> Forall (local_ok neq) locs ->
  assembler elements mats nodes neq op sparse uel = Ok (gk, gm) -> length u = neq ->
  let v l := gather l (fun i => nth i u 0) in
  energy u (fst (mats_of (gk, gm))) = - (1 / 2) * lsum (fun l => form (l_n l) (l_K l) (v l) (v l)) locs.
Proof. exact energy_elements. Qed.
Print Assumptions C16_elements.

Theorem C16_sign : forall u K, psd (length u) K -> energy u K <= 0.
Proof. exact energy_sign. Qed.
Print Assumptions C16_sign.

Theorem C16_scale : forall c u K, energy (map (Rmult c) u) K = c ^ 2 * energy u K.
Proof. exact energy_scale. Qed.
Print Assumptions C16_scale.

Example C16_case : (forall u v, energy [u; v] [[2; -1]; [-1; 2]] = - (u * u - u * v + v * v)) /\
  locals_of ex_elements ex_mats ex_nodes ex_op (Some ex_uel) ex_locs /\ Forall (local_ok 2) ex_locs.
Proof. exact (conj ex_energy (conj ex_locals ex_locals_ok)). Qed.

(** ** C17.  The library solvers are parameters. *)
Theorem C17_dispatch : forall elements mats nodes neq op uel gk gm (sp np : list (list R) -> list R -> res (list R)) f (sparse : bool),
  assembler elements mats nodes neq op sparse uel = Ok (gk, gm) ->
  static_sol sp np gk f = (if sparse then sp else np) (fst (mats_of (gk, gm))) f /\
  static_sol sp np gm f = (if sparse then sp else np) (snd (mats_of (gk, gm))) f.
Proof. exact dispatch. Qed.
Print Assumptions C17_dispatch.

Theorem C17_other_storage : forall (sp np : list (list R) -> list R -> res (list R)) a f,
  static_sol sp np (OtherMat a) f = Err TypeError.
Proof. exact dispatch_other. Qed.
Print Assumptions C17_other_storage.

Theorem C17_same_answer : forall elements mats nodes neq op uel gk gm gk' gm' sp np f x y,
  op_in_range elements mats nodes neq op uel -> sound sp -> sound np -> length f = neq ->
  assembler elements mats nodes neq op true uel = Ok (gk, gm) ->
  assembler elements mats nodes neq op false uel = Ok (gk', gm') ->
  regular neq (fst (mats_of (gk, gm))) ->
  static_sol sp np gk f = Ok x -> static_sol sp np gk' f = Ok y -> x = y.
Proof. exact same_answer. Qed.
Print Assumptions C17_same_answer.

Example C17_case : op_in_range ex_elements ex_mats ex_nodes 2 ex_op (Some ex_uel) /\ sound solve2 /\
  (forall sparse, exists gk gm, assembler ex_elements ex_mats ex_nodes 2 ex_op sparse (Some ex_uel) = Ok (gk, gm) /\
     fst (mats_of (gk, gm)) = [[4; -1]; [-1; 2]]) /\
  regular 2 [[4; -1]; [-1; 2]] /\ forall f0 f1, exists x, solve2 [[4; -1]; [-1; 2]] [f0; f1] = Ok x.
Proof. exact (conj ex_range (conj solve2_sound (conj ex_matrix (conj ex_regular ex_solves)))). Qed.

(** ** C18 *)
Theorem C18_two_drivers : forall sv fs gui prompt plot strains folder nodes mats elements loads,
  Forall (fun row => length row = 5%nat) nodes ->
  readin fs folder = Ok (nodes, mats, elements, loads) ->
  solids_GUI sv fs gui prompt plot strains (Some folder) =
  solids_auto sv (map (firstn 3) nodes) (map (skipn 3) nodes) elements mats loads plot strains.
Proof. exact gui_auto. Qed.
Print Assumptions C18_two_drivers.

Example C18_case : exists nodes mats elements loads, @readin R Num_R fs_bar "m/" = Ok (nodes, mats, elements, loads) /\
  Forall (fun row => length row = 5%nat) nodes /\ length nodes = 3%nat.
Proof. exact bar_files. Qed.

(** ** C19: false of the code.  Full statement: for every beam model (three flags per node) given
    to solids_auto the number of equations is the number of free dofs.  Witness: a cantilever of
    one beam with three free dofs runs with two equations. *)
Theorem C19_beam_equations_refuted :
  count_free beam_cons = 3%nat /\
  (exists out, solids_auto echo_solver beam_nodes beam_cons beam_elements beam_mats [] false false = Ok out) /\
  forall sv loads plot strains out,
    solids_auto sv beam_nodes beam_cons beam_elements beam_mats loads plot strains = Ok out -> out_neq out = 2%Z.
Proof. exact beam_equations_lost. Qed.
Print Assumptions C19_beam_equations_refuted.

(** what holds: DME called with three dofs per node numbers them all (missing: the drivers never
    do that) *)
Theorem C19_beam_equations_partial : forall cons elements,
  flags01 3 cons -> Forall (good_row 3 18 None cons) elements ->
  exists op bc, DME cons elements 3 18 None = Ok (op, bc, Z.of_nat (count_free cons)) /\
    numbering cons bc (count_free cons) /\ Forall2 (row_spec bc 3 18) elements op.
Proof. exact (DME_ok 3 18 None). Qed.
Print Assumptions C19_beam_equations_partial.

Example C19_case : flags01 3 beam_cons /\ Forall (good_row 3 18 None beam_cons) beam_elements.
Proof.
  split; [flags|]. repeat constructor. exists 8%Z. split; [reflexivity|]. split; [reflexivity|].
  split; [cbn; lia|]. repeat constructor; cbn; lia.
Qed.

(** ** C20 *)
Theorem C20_relabelling : forall s t md md' U U',
  relabelling s t md md' -> wf_model md ->
  (forall i d, (i < length (md_nodes md))%nat -> (d < 2)%nat -> U' (s i) d = U i d) ->
  in_equilibrium md U <-> in_equilibrium md' U'.
Proof. exact (fun s t md md' U U' H W => relabel_equilibrium s t md md' H W U U'). Qed.
Print Assumptions C20_relabelling.

Theorem C20_relabelled_runs : forall s t md md' sv p1 s1 p2 s2 o o',
  relabelling s t md md' -> wf_model md -> wf_model md' -> solver_ok sv -> stable md ->
  auto sv md p1 s1 = Ok o -> auto sv md' p2 s2 = Ok o' ->
  forall i d, (i < length (md_nodes md))%nat -> (d < 2)%nat -> table o' (s i) d = table o i d.
Proof. exact (fun s t md md' sv p1 s1 p2 s2 o o' H W => relabel_run s t md md' H W sv p1 s1 p2 s2 o o'). Qed.
Print Assumptions C20_relabelled_runs.

Example C20_case : forall f, relabelling (fun i => 2 - i)%nat (fun i => 2 - i)%nat (bar2 f) (bar2r f) /\
  wf_model (bar2 f) /\ stable (bar2 f).
Proof. exact (fun f => conj (bar2_relabelled f) (conj (bar2_wf f) (bar2_stable f))). Qed.
