(** * Properties C98, C99: positive masses, natural frequencies of meshes *)
From Coq Require Import Reals List Arith Lra Lia ZArith Bool.
From Verif Require Import Num LinAlg Uel Assem Main Script Spec SpecAssem SpecModel SpecElem SpecStatic SpecModes SpecScript SpecSolid SpecMass
  BeamFrame ScriptProofs2 ScriptFinal SolidProofs MassPos2 SpectralMesh StaticProofs3 ExModel ExModes ExTruss ExScript ExSolid ExMass.
Import ListNotations.
Local Open Scope R_scope.

(** ** C98: u' M u > 0 for every u other than zero *)
Theorem C98_plane : forall f n, In (f, n) [(elast_quad4, 4); (elast_tri6, 6); (elast_tri3, 3); (elast_quad9, 9); (elast_quad8, 8)]%nat ->
  forall coord E nu rho K M, f coord [E; nu; rho] = Ok (K, M2 M) -> 0 < rho -> positive_definite (2 * n) M.
Proof. exact plane_list_pd. Qed.
Print Assumptions C98_plane.

Theorem C98_solid : forall f n, In (f, n) [(elast_tet4, 4); (elast_hex8, 8)]%nat ->
  forall coord E nu rho K M, f coord [E; nu; rho] = Ok (K, M2 M) -> 0 < rho -> positive_definite (3 * n) M.
Proof. exact solid_list_pd. Qed.
Print Assumptions C98_solid.

Theorem C98_axi : forall coord E nu rho K M, elast_axi_quad9 coord [E; nu; rho] = Ok (K, M2 M) -> 0 < rho -> positive_definite 18 M.
Proof. exact axi_pd. Qed.
Print Assumptions C98_axi.

Theorem C98_truss : forall coord E A rho K M, truss2D coord [E; A; rho] = Ok (K, M2 M) -> 0 < A -> 0 < rho -> positive_definite 4 M.
Proof. exact truss_list_pd. Qed.
Print Assumptions C98_truss.

Example C98_elements : exists K M, elast_quad9 skew9 [1; 1/4; 2] = Ok (K, M2 M) /\ positive_definite 18 M.
Proof. destruct skew9_runs as (K & M & H). exists K, M. split; [exact H|]. apply (C98_plane elast_quad9 9%nat ltac:(right; right; right; left; reflexivity) _ _ _ _ _ _ H). lra. Qed.
Example C98_brick : exists K M, elast_hex8 brick [1; 1/4; 2] = Ok (K, M2 M) /\ positive_definite 24 M.
Proof. destruct brick_runs as (K & M & H). exists K, M. split; [exact H|]. apply (C98_solid elast_hex8 8%nat ltac:(right; left; reflexivity) _ _ _ _ _ _ H). lra. Qed.
Example C98_ring : exists K M, elast_axi_quad9 skew9 [1; 1/4; 2] = Ok (K, M2 M) /\ positive_definite 18 M.
Proof. destruct skew9_axi_runs as (K & M & H). exists K, M. split; [exact H|]. apply (C98_axi _ _ _ _ _ _ H). lra. Qed.

(** the assembled matrix of the free dofs, in both storages *)
Theorem C98_model : forall md, wf_model md -> accepted md -> heavy_model md ->
  forall sparse gk gm, p_matrices (plane_problem md) sparse = Ok (gk, gm) -> positive_definite (count_free (md_cons md)) (snd (mats_of (gk, gm))).
Proof. exact plane_mass_pd. Qed.
Print Assumptions C98_model.

Theorem C98_solids : forall p, solid_mesh p -> heavy_solids p -> (forall i, (i < length (p_nodes p))%nat -> exists e, In e (p_elements p) /\ has_node e i) ->
  forall sparse gk gm, p_matrices p sparse = Ok (gk, gm) -> positive_definite (count_free (p_cons p)) (snd (mats_of (gk, gm))).
Proof. exact solids_mass_pd. Qed.
Print Assumptions C98_solids.

Theorem C98_frames : forall p, frame p -> (forall i, (i < length (p_nodes p))%nat -> exists e k, In e (p_elements p) /\ (k < 2)%nat /\ e_node e k = i) ->
  forall sparse gk gm, p_matrices p sparse = Ok (gk, gm) -> positive_definite (count_free (p_cons p)) (snd (mats_of (gk, gm))).
Proof. exact frame_mass_pd. Qed.
Print Assumptions C98_frames.

(** a nine-node and a six-node element; three bars; a brick with a tetrahedron *)
Example C98_cases : (wf_model him /\ accepted him /\ heavy_model him) /\ (wf_model brm /\ accepted brm /\ heavy_model brm) /\ (solid_mesh mx /\ heavy_solids mx /\ connected3 mx).
Proof. exact (conj (conj hi_wf (conj hi_accepted hi_heavy)) (conj (conj br_wf (conj br_accepted br_heavy)) (conj mx_mesh (conj mx_heavy mx_connected)))). Qed.

(** ** C99: natural frequencies *)
Theorem C99_model : forall md, wf_model md -> accepted md -> heavy_model md -> forall lam U, p_mode (plane_problem md) lam U ->
  0 <= lam /\ lam = p_energy (plane_problem md) U U / p_kinetic (plane_problem md) U U /\ (stable md -> 0 < lam).
Proof. exact plane_modes. Qed.
Print Assumptions C99_model.

Theorem C99_solids : forall p, solid_mesh p -> heavy_solids p -> (forall i, (i < length (p_nodes p))%nat -> exists e, In e (p_elements p) /\ has_node e i) ->
  forall lam U, p_mode p lam U -> 0 <= lam /\ lam = p_energy p U U / p_kinetic p U U /\ (connected3 p -> supported3 p -> 0 < lam).
Proof. exact solids_modes. Qed.
Print Assumptions C99_solids.

Theorem C99_orthogonal : forall md, accepted md -> heavy_model md -> forall lam mu U V,
  p_mode (plane_problem md) lam U -> p_mode (plane_problem md) mu V -> lam <> mu ->
  p_kinetic (plane_problem md) U V = 0 /\ p_energy (plane_problem md) U V = 0.
Proof. exact plane_orthogonal. Qed.
Print Assumptions C99_orthogonal.

Theorem C99_solids_orthogonal : forall p, solid_mesh p -> heavy_solids p -> (forall i, (i < length (p_nodes p))%nat -> exists e, In e (p_elements p) /\ has_node e i) ->
  forall lam mu U V, p_mode p lam U -> p_mode p mu V -> lam <> mu -> p_kinetic p U V = 0 /\ p_energy p U V = 0.
Proof. exact solids_orthogonal. Qed.
Print Assumptions C99_solids_orthogonal.

(** as many natural motions as free dofs *)
Theorem C99_model_basis : forall md, wf_model md -> accepted md -> heavy_model md -> exists lam U, modal_basis (plane_problem md) lam U.
Proof. exact plane_basis. Qed.
Print Assumptions C99_model_basis.

Theorem C99_solids_basis : forall p, solid_mesh p -> heavy_solids p -> (forall i, (i < length (p_nodes p))%nat -> exists e, In e (p_elements p) /\ has_node e i) ->
  exists lam U, modal_basis p lam U.
Proof. exact solids_basis. Qed.
Print Assumptions C99_solids_basis.

Theorem C99_frames_basis : forall p, frame p -> (forall i, (i < length (p_nodes p))%nat -> exists e k, In e (p_elements p) /\ (k < 2)%nat /\ e_node e k = i) ->
  exists lam U, modal_basis p lam U.
Proof. exact frame_basis. Qed.
Print Assumptions C99_frames_basis.

Example C99_case : (exists lam U, modal_basis (plane_problem him) lam U /\ forall k, (k < 20)%nat -> 0 < lam k) /\
  (exists lam U, modal_basis (plane_problem brm) lam U) /\ (exists lam U, modal_basis mx lam U) /\ (exists lam U, modal_basis tf lam U).
Proof.
  split; [|split; [exact (plane_basis _ br_wf br_accepted br_heavy)|split; [exact (solids_basis _ mx_mesh mx_heavy (proj2 mx_connected))|exact (frame_basis _ tf_frame tf_covered)]]].
  destruct (plane_basis _ hi_wf hi_accepted hi_heavy) as (lam & U & H). exists lam, U. split; [exact H|]. intros k Hk.
  destruct H as (H & _). refine (proj2 (proj2 (plane_modes him hi_wf hi_accepted hi_heavy (lam k) (U k) (H k _))) hi_stable).
  change (p_cons (plane_problem him)) with hi_cons. rewrite hi_free. exact Hk.
Qed.
