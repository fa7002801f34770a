(** * Property C100: the order in which the nodes of an element are listed *)
From Coq Require Import Reals List Arith Lia Lra ZArith Relations.
From Verif Require Import Num LinAlg Gauss Fem Uel Assem Post Main Script Spec SpecAssem SpecModel SpecElem SpecPost SpecShape SpecStatic SpecScript SpecMass SpecOrder
  BeamFrame SolidProofs MassPos2 ScriptFinal ExModel ExModes ExTruss ExScript ExSolid ExMass ExOrder.
Import ListNotations.
Local Open Scope R_scope.

(** rows and columns follow the nodes *)
Theorem C100_element : forall f d s, In (f, d, s) (turns ++ simplex_turns) -> forall coord params K M, length coord = length s -> rectangular coord ->
  f coord params = Ok (K, M2 M) ->
  exists K' M', f (pick [] s coord) params = Ok (K', M2 M') /\ permuted d s K K' /\ (In (f, d, s) turns -> permuted d s M M').
Proof. exact element_turn. Qed.
Print Assumptions C100_element.

(** a skew nine-node element and a brick *)
Example C100_case_quad9 : exists K M, elast_quad9 skew9 [1; 1/4; 2] = Ok (K, M2 M) /\ length skew9 = 9%nat /\ rectangular skew9.
Proof. destruct skew9_runs as (K & M & H). exists K, M. split; [exact H|]. split; [reflexivity|]. exists 2%nat. repeat (constructor; [reflexivity|]). constructor. Qed.
Example C100_case_brick : exists K M, elast_hex8 brick [1; 1/4; 2] = Ok (K, M2 M) /\ length brick = 8%nat /\ rectangular brick.
Proof. destruct brick_runs as (K & M & H). exists K, M. split; [exact H|]. split; [reflexivity|]. exists 3%nat. repeat (constructor; [reflexivity|]). constructor. Qed.

(** meshes: same energy, same nodal forces, same stability *)
Theorem C100_mesh : forall p els, wf_problem p -> rectangular (p_nodes p) -> Forall2 (relisted (turns ++ simplex_turns) p) (p_elements p) els ->
  wf_problem (with_elements p els) /\ (forall U V, p_energy (with_elements p els) U V = p_energy p U V) /\
  (forall U i d, p_dof p i d -> p_internal (with_elements p els) U i d = p_internal p U i d) /\
  (p_stable (with_elements p els) <-> p_stable p).
Proof. exact mesh_turn. Qed.
Print Assumptions C100_mesh.

(** the same answer or the same error, whatever the solvers and the storage *)
Theorem C100_runs : forall p els, wf_problem p -> rectangular (p_nodes p) -> Forall2 (relisted (turns ++ simplex_turns) p) (p_elements p) els ->
  forall sv sparse, p_script sv (with_elements p els) sparse = p_script sv p sparse.
Proof. exact runs_turn. Qed.
Print Assumptions C100_runs.

(** masses and natural motions *)
Theorem C100_masses : forall p els, wf_problem p -> rectangular (p_nodes p) -> Forall2 (relisted turns p) (p_elements p) els ->
  (forall U V, p_kinetic (with_elements p els) U V = p_kinetic p U V) /\
  (forall sparse, p_matrices (with_elements p els) sparse = p_matrices p sparse) /\
  forall lam U, p_mode (with_elements p els) lam U <-> p_mode p lam U.
Proof. exact masses_turn. Qed.
Print Assumptions C100_masses.

(** solids_auto *)
Theorem C100_auto : forall md els, wf_model md -> accepted md -> rectangular (md_nodes md) ->
  Forall2 (relisted (turns ++ simplex_turns) (plane_problem md)) (md_elements md) els ->
  let md' := mkModel (md_nodes md) (md_cons md) els (md_mats md) (md_loads md) in
  forall sv, auto sv md' false false = auto sv md false false /\
    forall plot strains plot' strains' out out', auto sv md plot strains = Ok out -> auto sv md' plot' strains' = Ok out' ->
      out_disp out' = out_disp out /\ out_neq out' = out_neq out /\ out_warn out' = out_warn out.
Proof. exact auto_turn. Qed.
Print Assumptions C100_auto.

(** a nine-node element from its third corner (and a six-node one as it was); two of three bars and one of two beams
    from their other ends; a brick seen from another side with a tetrahedron *)
Example C100_cases :
  (wf_model him /\ accepted him /\ rectangular (md_nodes him) /\ Forall2 (relisted turns (plane_problem him)) (md_elements him) hi_relisted) /\
  (wf_model brm /\ accepted brm /\ rectangular (md_nodes brm) /\ Forall2 (relisted turns (plane_problem brm)) (md_elements brm) br_relisted) /\
  (wf_problem tf /\ rectangular (p_nodes tf) /\ Forall2 (relisted turns tf) (p_elements tf) tf_relisted) /\
  (wf_problem mx /\ rectangular (p_nodes mx) /\ Forall2 (relisted (turns ++ simplex_turns) mx) (p_elements mx) mx_relisted).
Proof. exact (conj (conj hi_wf (conj hi_accepted hi_relist)) (conj (conj br_wf (conj br_accepted br_relist)) (conj (conj (frame_wf tf tf_frame) tf_relist) (conj (solid_wf mx mx_mesh) mx_relist)))). Qed.

(** the strains at the nodes do not follow: one quad4, same displacements, next corner first *)
Theorem C100_strains_refuted : exists N nodes e mats sol E S E' S' i er er',
  mesh_of 1 4 N [e] /\ NoDup (skipn 3 e) /\ length nodes = N /\ length sol = N /\
  strain_rows nodes [e] mats sol = Ok (E, S) /\ strain_rows nodes [firstn 3 e ++ pick 0%Z [1; 2; 3; 0]%nat (skipn 3 e)] mats sol = Ok (E', S') /\
  nth i E None = Some er /\ nth i E' None = Some er' /\ nth 0 er 0 <> nth 0 er' 0.
Proof. exact order_strains_refuted. Qed.
Print Assumptions C100_strains_refuted.
