(** * Properties C82-C84: the same structure in another frame or in other units *)
From Coq Require Import Reals List Arith Lra Lia ZArith Bool.
From Verif Require Import Num LinAlg Assem Post Main Spec SpecAssem SpecModel SpecElem SpecPost SpecStatic SpecGrid SpecFrame
  FrameProofs FrameProofs2 StrainFrame PostPos ExSolver ExGrid ExTruss ExFrame.
Import ListNotations.
Local Open Scope R_scope.

(** ** C82: turned and translated models *)
(** displacements of the turned model: the turned displacements (any two solvers, any flags) *)
Theorem C82_turned : forall sv sv' md c s tx ty cons' plot strains plot' strains' out out',
  wf_model md -> node_rows_ok md -> continuum_or_truss md -> flags01 2 cons' -> length cons' = length (md_nodes md) -> c * c + s * s = 1 ->
  supports_follow c s md (moved c s tx ty cons' md) -> solver_ok sv -> solver_ok sv' -> stable md ->
  auto sv md plot strains = Ok out -> auto sv' (moved c s tx ty cons' md) plot' strains' = Ok out' ->
  forall i d, (i < length (md_nodes md))%nat -> (d < 2)%nat -> table out' i d = turned c s (table out) i d.
Proof. exact moved_run. Qed.
Print Assumptions C82_turned.

(** both runs succeed *)
Theorem C82_runs : forall sv md c s tx ty cons',
  wf_model md -> node_rows_ok md -> continuum_or_truss md -> flags01 2 cons' -> length cons' = length (md_nodes md) -> c * c + s * s = 1 ->
  supports_follow c s md (moved c s tx ty cons' md) -> accepted md -> stable md -> solver_ok sv -> solver_total sv -> (exists i d, free md i d) ->
  exists out out', auto sv md false false = Ok out /\ auto sv (moved c s tx ty cons' md) false false = Ok out' /\
    forall i d, (i < length (md_nodes md))%nat -> (d < 2)%nat -> table out' i d = turned c s (table out) i d.
Proof. exact moved_runs. Qed.
Print Assumptions C82_runs.

(** supports that follow: translations; any angle if every node is clamped or free; quarter turns
    with the two columns of flags exchanged *)
Theorem C82_supports : forall md tx ty, wf_model md ->
  supports_follow 1 0 md (moved 1 0 tx ty (md_cons md) md) /\
  (forall c s, c * c + s * s = 1 -> clamped_or_free md -> supports_follow c s md (moved c s tx ty (md_cons md) md)) /\
  (let flipped := map (fun r => [nth 1 r 0; nth 0 r 0]) (md_cons md) in
   flags01 2 flipped /\ length flipped = length (md_nodes md) /\ supports_follow 0 1 md (moved 0 1 tx ty flipped md)).
Proof. exact follow_all. Qed.
Print Assumptions C82_supports.

(** the bracket turned by a quarter, and grids of every size translated *)
Example C82_case : wf_model brm /\ node_rows_ok brm /\ continuum_or_truss brm /\ accepted brm /\ stable brm /\ (exists i d, free brm i d) /\
  exists out out', auto elim_solver brm false false = Ok out /\
    auto elim_solver (moved 0 1 7 5 [[-1; -1]; [0; 0]; [0; -1]] brm) false false = Ok out' /\
    table out' 1 0 = - table out 1 1 /\ table out' 1 1 = table out 1 0.
Proof.
  pose proof (proj1 br_types) as HT. pose proof (TrussProofs.truss_accepted brm br_wf br_truss) as HA.
  repeat (split; [first [exact br_wf|exact br_rows|exact HT|exact HA|exact br_stable|exact br_free]|]).
  destruct (follow_all brm 7 5 br_wf) as (_ & _ & F1 & F2 & F3).
  destruct (moved_runs elim_solver brm 0 1 7 5 _ br_wf br_rows HT F1 F2 ltac:(lra) F3 HA br_stable elim_ok elim_total br_free) as (out & out' & H1 & H2 & H3).
  exists out, out'. split; [exact H1|]. split; [exact H2|].
  rewrite (H3 1%nat 0%nat ltac:(cbn; lia) ltac:(lia)), (H3 1%nat 1%nat ltac:(cbn; lia) ltac:(lia)). cbn [turned]. lra.
Qed.
Example C82_grids : forall L H nx ny E nu s, (1 <= nx)%nat -> (1 <= ny)%nat -> 0 < L -> 0 < H -> 1 / 100000000 < L * H / (4 * INR nx * INR ny) -> 0 < E -> -1 < nu < 1 ->
  let md := pulled L H nx ny E nu s in
  wf_model md /\ node_rows_ok md /\ all_plane md /\ continuum_or_truss md /\ accepted md /\ stable md /\ (exists i d, free md i d).
Proof.
  intros L H nx ny E nu s Hx Hy HL HH Hd HE Hn. cbv zeta. split; [apply pl_wf; assumption|]. split; [apply pl_rows; assumption|].
  split; [apply pl_plane; assumption|]. split; [apply pl_plane; assumption|]. split; [apply pl_accepted; assumption|].
  split; [apply pl_stable; assumption|]. apply pl_free; assumption.
Qed.

(** ** C83: other units *)
(** plane elements (thickness one): lengths times a, moduli times tE, loads times tF *)
Theorem C83_plane : forall sv sv' md a tE tF plot strains plot' strains' out out',
  wf_model md -> node_rows_ok md -> all_plane md -> a <> 0 -> tE <> 0 -> solver_ok sv -> solver_ok sv' -> stable md ->
  auto sv md plot strains = Ok out -> auto sv' (rescaled a tE 1 tF md) plot' strains' = Ok out' ->
  forall i d, (i < length (md_nodes md))%nat -> (d < 2)%nat -> table out' i d = tF / tE * table out i d.
Proof. exact rescaled_plane_run. Qed.
Print Assumptions C83_plane.

(** both runs succeed if lengths do not shrink (the Jacobian test is absolute, see C26) *)
Theorem C83_plane_runs : forall sv md a tE tF, wf_model md -> node_rows_ok md -> all_plane md -> 1 <= a -> tE <> 0 ->
  accepted md -> stable md -> solver_ok sv -> solver_total sv -> (exists i d, free md i d) ->
  exists out out', auto sv md false false = Ok out /\ auto sv (rescaled a tE 1 tF md) false false = Ok out' /\
    forall i d, (i < length (md_nodes md))%nat -> (d < 2)%nat -> table out' i d = tF / tE * table out i d.
Proof. exact rescaled_plane_runs. Qed.
Print Assumptions C83_plane_runs.

(** trusses: also areas times tA *)
Theorem C83_truss : forall sv sv' md a tE tA tF plot strains plot' strains' out out',
  wf_model md -> node_rows_ok md -> all_bars md -> 0 < a -> tE <> 0 -> tA <> 0 -> solver_ok sv -> solver_ok sv' -> stable md ->
  auto sv md plot strains = Ok out -> auto sv' (rescaled a tE tA tF md) plot' strains' = Ok out' ->
  forall i d, (i < length (md_nodes md))%nat -> (d < 2)%nat -> table out' i d = a * tF / (tE * tA) * table out i d.
Proof. exact rescaled_bar_run. Qed.
Print Assumptions C83_truss.

Theorem C83_truss_runs : forall sv md a tE tA tF, wf_model md -> node_rows_ok md -> all_bars md -> 0 < a -> tE <> 0 -> tA <> 0 ->
  accepted md -> stable md -> solver_ok sv -> solver_total sv -> (exists i d, free md i d) ->
  exists out out', auto sv md false false = Ok out /\ auto sv (rescaled a tE tA tF md) false false = Ok out' /\
    forall i d, (i < length (md_nodes md))%nat -> (d < 2)%nat -> table out' i d = a * tF / (tE * tA) * table out i d.
Proof. exact rescaled_bar_runs. Qed.
Print Assumptions C83_truss_runs.

(** the bracket in mm, N and MPa instead of m, N and Pa: displacements times 1000 *)
Example C83_case : all_bars brm /\
  exists out out', auto elim_solver brm false false = Ok out /\ auto elim_solver (rescaled 1000 (1/1000000) 1000000 1 brm) false false = Ok out' /\
    table out' 1 1 = 1000 * table out 1 1.
Proof.
  split; [exact (proj2 br_types)|].
  destruct (rescaled_bar_runs elim_solver brm 1000 (1/1000000) 1000000 1 br_wf br_rows (proj2 br_types) ltac:(lra) ltac:(lra) ltac:(lra)
    (TrussProofs.truss_accepted brm br_wf br_truss) br_stable elim_ok elim_total br_free) as (out & out' & H1 & H2 & H3).
  exists out, out'. split; [exact H1|]. split; [exact H2|]. rewrite (H3 1%nat 1%nat ltac:(cbn; lia) ltac:(lia)). field.
Qed.
Example C83_case_plane : exists out out', auto elim_solver (pulled 4 2 2 1 10 (1/4) 2) false false = Ok out /\
  auto elim_solver (rescaled 1000 (1/1000) 1 1 (pulled 4 2 2 1 10 (1/4) 2)) false false = Ok out' /\ table out' 5 0 = 1000 * table out 5 0.
Proof.
  assert (G : forall P, ((1 <= 2)%nat -> (1 <= 1)%nat -> 0 < 4 -> 0 < 2 -> 1 / 100000000 < 4 * 2 / (4 * INR 2 * INR 1) -> 0 < 10 -> -1 < 1 / 4 < 1 -> P) -> P)
    by (intros P HP; apply HP; try lia; try lra; cbn; lra).
  destruct (rescaled_plane_runs elim_solver (pulled 4 2 2 1 10 (1/4) 2) 1000 (1/1000) 1
    (G _ (pl_wf 4 2 2 1 10 (1/4) 2)) (G _ (pl_rows 4 2 2 1 10 (1/4) 2)) (proj1 (G _ (pl_plane 4 2 2 1 10 (1/4) 2))) ltac:(lra) ltac:(lra)
    (G _ (pl_accepted 4 2 2 1 10 (1/4) 2)) (G _ (pl_stable 4 2 2 1 10 (1/4) 2)) elim_ok elim_total (G _ (pl_free 4 2 2 1 10 (1/4) 2))) as (out & out' & H1 & H2 & H3).
  exists out, out'. split; [exact H1|]. split; [exact H2|]. rewrite (H3 5%nat 0%nat); [field| |lia].
  rewrite (GridModel.gm_length 4 2 2 1 10 (1/4) _ (G _ (pulled_grid 4 2 2 1 10 (1/4) 2))). cbn. lia.
Qed.

(** ** C84: strains and stresses *)
(** nodal strains and stresses of the turned mesh under the turned field: the components of the same tensors *)
Theorem C84_turned : forall t n N nodes elements mats sol sol' c s tx ty E S E' S',
  In (t, n) [(1%Z, 4%nat); (2%Z, 6%nat); (3%Z, 3%nat)] -> mesh_of t n N elements -> length nodes = N -> length sol = N -> length sol' = N ->
  c * c + s * s = 1 -> (forall i d, (i < N)%nat -> (d < 2)%nat -> ent sol' i d = turned c s (ent sol) i d) ->
  (forall e, In e elements -> e_nu mats e <> 1 /\ e_nu mats e <> -1) ->
  strain_rows nodes elements mats sol = Ok (E, S) ->
  strain_rows (map (fun r => [nth 0 r 0; c * nth 1 r 0 - s * nth 2 r 0 + tx; s * nth 1 r 0 + c * nth 2 r 0 + ty]) nodes) elements mats sol' = Ok (E', S') ->
  rows_follow N (turned_strain c s) E E' /\ rows_follow N (turned_stress c s) S S'.
Proof. exact strain_turned. Qed.
Print Assumptions C84_turned.

(** linear in the displacements *)
Theorem C84_linear : forall t n N nodes elements mats sol1 sol2 sol3 x y E1 S1 E2 S2 E3 S3,
  In (t, n) [(1%Z, 4%nat); (2%Z, 6%nat); (3%Z, 3%nat)] -> mesh_of t n N elements -> length nodes = N ->
  length sol1 = N -> length sol2 = N -> length sol3 = N ->
  (forall i d, (i < N)%nat -> (d < 2)%nat -> ent sol3 i d = x * ent sol1 i d + y * ent sol2 i d) ->
  strain_rows nodes elements mats sol1 = Ok (E1, S1) -> strain_rows nodes elements mats sol2 = Ok (E2, S2) ->
  strain_rows nodes elements mats sol3 = Ok (E3, S3) ->
  rows_combine N x y E1 E2 E3 /\ rows_combine N x y S1 S2 S3.
Proof. exact strain_linear. Qed.
Print Assumptions C84_linear.

(** bar stresses do not depend on the frame *)
Theorem C84_truss : forall nodes elements mats disp disp' c s tx ty, Forall (bar_row nodes mats disp) elements -> c * c + s * s = 1 ->
  shape (length nodes) 2 disp' -> (forall i d, (i < length nodes)%nat -> (d < 2)%nat -> ent disp' i d = turned c s (ent disp) i d) ->
  stress_truss (map (fun r => [nth 0 r 0; c * nth 1 r 0 - s * nth 2 r 0 + tx; s * nth 1 r 0 + c * nth 2 r 0 + ty]) nodes) elements mats disp' =
  stress_truss nodes elements mats disp.
Proof. exact bar_stress_turned. Qed.
Print Assumptions C84_truss.

(** two squares of two materials turned by the angle of the 3-4-5 triangle *)
Example C84_case : mesh_of 1 4 7 two_quads /\ (3/5) * (3/5) + (4/5) * (4/5) = 1 /\
  (forall i d, (i < 7)%nat -> (d < 2)%nat -> ent two_turned i d = turned (3/5) (4/5) (ent two_sol) i d) /\
  (exists E S, strain_rows two_nodes two_quads [[8; 1/3]; [1; 0]] two_sol = Ok (E, S)) /\
  exists E S, strain_rows (map (fun r => [nth 0 r 0; 3/5 * nth 1 r 0 - 4/5 * nth 2 r 0 + 1; 4/5 * nth 1 r 0 + 3/5 * nth 2 r 0 + 2]) two_nodes) two_quads [[8; 1/3]; [1; 0]] two_turned = Ok (E, S).
Proof.
  split; [exact two_mesh|]. split; [lra|]. split; [exact two_turned_ent|]. split; [|exact (two_turned_runs 1 2)].
  destruct (two_runs [[8; 1/3]; [1; 0]] (or_intror eq_refl)) as (E & S & H & _). eauto.
Qed.
