(** * Properties C73 (with strains and plots), C77, C78: uniform stress states, accepted shapes *)
From Coq Require Import Reals List Arith Lra Lia ZArith Bool.
From Verif Require Import Num LinAlg Fem Uel Assem Post Main Spec SpecAssem SpecModel SpecElem SpecPost SpecStatic SpecPatch SpecDriver
  StaticProofs3 DriverProofs ConvexProofs PatchProofs PatchProofs2 ExSolver ExPatch.
Import ListNotations.
Local Open Scope R_scope.

(** ** C73: the driver succeeds on stable models, strain recovery and plots included *)
Theorem C73_full : forall sv md plot strains, wf_model md -> accepted md -> stable md -> solver_ok sv -> solver_total sv ->
  (exists i d, free md i d) -> (strains = true -> recoverable md) -> (plot = true -> plottable md) ->
  exists out, auto sv md plot strains = Ok out.
Proof. exact model_runs_full. Qed.
Print Assumptions C73_full.

Example C73_full_case : wf_model ptm /\ accepted ptm /\ stable ptm /\ solver_ok elim_solver /\ solver_total elim_solver /\
  (exists i d, free ptm i d) /\ recoverable ptm /\ plottable ptm.
Proof. exact (conj pt_wf (conj pt_accepted (conj pt_stable (conj elim_ok (conj elim_total (conj pt_free (conj pt_recoverable pt_plottable))))))). Qed.

(** ** C77: the patch test *)
(** the internal forces of a field of uniform strain are half the forces of its stress on the sides at each node *)
Theorem C77_forces : forall md E nu c a0 a1 a2 b0 b1 b2 i d, wf_model md -> patch_mesh md E nu c -> (d < 2)%nat ->
  internal_force (md_mats md) (md_nodes md) (md_elements md) (affine_table (md_nodes md) a0 a1 a2 b0 b1 b2) i d =
  c * sides_at (md_nodes md) (md_elements md) (hooke2 E nu (affine_strain a1 a2 b1 b2)) i d.
Proof. exact patch_forces. Qed.
Print Assumptions C77_forces.

(** no force at a node the elements close up around, whatever its position *)
Theorem C77_interior : forall md E nu c a0 a1 a2 b0 b1 b2 i d, wf_model md -> patch_mesh md E nu c -> (d < 2)%nat ->
  surrounded (md_elements md) i ->
  internal_force (md_mats md) (md_nodes md) (md_elements md) (affine_table (md_nodes md) a0 a1 a2 b0 b1 b2) i d = 0.
Proof. exact patch_interior. Qed.
Print Assumptions C77_interior.

(** boundary loads of a uniform stress, supports that do not disturb it: the run returns the field *)
Theorem C77_run : forall sv md plot strains out E nu c a0 a1 a2 b0 b1 b2,
  wf_model md -> solver_ok sv -> stable md -> patch_mesh md E nu c ->
  admissible md (affine_table (md_nodes md) a0 a1 a2 b0 b1 b2) ->
  (forall i d, free md i d -> applied (md_loads md) i d = c * sides_at (md_nodes md) (md_elements md) (hooke2 E nu (affine_strain a1 a2 b1 b2)) i d) ->
  auto sv md plot strains = Ok out ->
  forall i d, (i < length (md_nodes md))%nat -> (d < 2)%nat -> table out i d = affine_table (md_nodes md) a0 a1 a2 b0 b1 b2 i d.
Proof. exact patch_run. Qed.
Print Assumptions C77_run.

(** and, for quadrilaterals, its strain and stress at every node *)
Theorem C77_recovered : forall sv md plot out E nu a0 a1 a2 b0 b1 b2,
  wf_model md -> solver_ok sv -> stable md -> patch_mesh md E nu 1 ->
  admissible md (affine_table (md_nodes md) a0 a1 a2 b0 b1 b2) ->
  (forall i d, free md i d -> applied (md_loads md) i d = 1 * sides_at (md_nodes md) (md_elements md) (hooke2 E nu (affine_strain a1 a2 b1 b2)) i d) ->
  auto sv md plot true = Ok out ->
  exists Es Ss, out_strains out = Some (Es, Ss) /\
    Es = repeat [a1; b2; a2 + b1] (length (md_nodes md)) /\
    Ss = repeat (map (hooke2 E nu (affine_strain a1 a2 b1 b2)) [0; 1; 2]%nat) (length (md_nodes md)).
Proof. exact patch_recovered. Qed.
Print Assumptions C77_recovered.

(** four distorted quadrilaterals around node 4, pulled to the right: u = x, v = - y / 4 *)
Example C77_case : wf_model ptm /\ stable ptm /\ patch_mesh ptm 1 (1/4) 1 /\ surrounded (md_elements ptm) 4 /\
  admissible ptm (affine_table (md_nodes ptm) 0 1 0 0 0 (-1/4)) /\
  (forall i d, free ptm i d -> applied (md_loads ptm) i d =
     1 * sides_at (md_nodes ptm) (md_elements ptm) (hooke2 1 (1/4) (affine_strain 1 0 0 (-1/4))) i d) /\
  exists out, auto elim_solver ptm true true = Ok out.
Proof. exact (conj pt_wf (conj pt_stable (conj pt_patch (conj pt_interior (conj pt_admissible (conj pt_loads pt_runs)))))). Qed.

(** ** C78: which elements the Jacobian test accepts.
    Full statement: elast_quad4 accepts a quadrilateral exactly if all corners turn left.  False of
    the code: only the Gauss points are looked at; a reflex quadrilateral, whose map folds over at
    a corner, is accepted. *)
Theorem C78_reflex_refuted : exists coord K M, elast_quad4 coord [1; 1/4] = Ok (K, M2 M) /\ length coord = 4%nat /\ turn 4 coord 2 < 0 /\
  J2det (Jac 4 (snd (shape_quad4 1 1)) coord) < 0.
Proof. exact reflex_accepted. Qed.
Print Assumptions C78_reflex_refuted.

(** what holds: quadrilaterals that turn left enough everywhere are accepted *)
Theorem C78_convex_partial : forall coord E nu rest, length coord = 4%nat -> length (hd [] coord) = 2%nat -> 1 - nu * nu <> 0 ->
  (forall k, (k < 4)%nat -> 4 / 100000000 < turn 4 coord k) ->
  exists K M, elast_quad4 coord (E :: nu :: rest) = Ok (K, M2 M).
Proof. exact convex_accepted. Qed.
Print Assumptions C78_convex_partial.

(** accepted quadrilaterals have an area above 4e-8 (missing: the sign at each corner) *)
Theorem C78_area_partial : forall coord params K m, elast_quad4 coord params = Ok (K, m) ->
  4 / 100000000 < (turn 4 coord 0 + turn 4 coord 1 + turn 4 coord 2 + turn 4 coord 3) / 4.
Proof. exact quad4_area. Qed.
Print Assumptions C78_area_partial.

(** three-node triangles are accepted exactly if twice their signed area exceeds 1e-8 *)
Theorem C78_triangle_partial : forall coord E nu rest k, length coord = 3%nat -> length (hd [] coord) = 2%nat -> 1 - nu * nu <> 0 -> (k < 3)%nat ->
  ((exists K M, elast_tri3 coord (E :: nu :: rest) = Ok (K, M)) <-> 1 / 100000000 < turn 3 coord k).
Proof. exact tri3_accepted. Qed.
Print Assumptions C78_triangle_partial.

Example C78_case : forall k, (k < 4)%nat -> 4 / 100000000 < turn 4 [[0; 0]; [2; 0]; [5/2; 3/2]; [0; 2]] k.
Proof.
  intros k Hk. assert (E : (k = 0 \/ k = 1 \/ k = 2 \/ k = 3)%nat) by lia.
  destruct E as [->|[->|[->| ->]]]; unfold turn, ent; cbn [nth Nat.add Nat.sub Nat.modulo Nat.divmod fst snd]; lra.
Qed.
Example C78_triangle_case : turn 3 [[0; 0]; [2; 0]; [0; 3]] 1 = 6 /\ turn 3 [[0; 0]; [0; 3]; [2; 0]] 1 = -6.
Proof. unfold turn, ent; cbn [nth Nat.add Nat.sub Nat.modulo Nat.divmod fst snd]. lra. Qed.
