(** * Property C38 for six-, eight- and nine-node, solid and axisymmetric elements; C72 for meshes of them *)
From Coq Require Import Reals List Arith ZArith Bool Lra.
From Verif Require Import Num LinAlg Uel Assem Main Spec SpecAssem SpecModel SpecElem SpecModes SpecStatic
  Elem2Modes2 Elem3Modes Hex8Modes AxiModes StaticProofs2 ExSolver ExModes.
Import ListNotations.
Local Open Scope R_scope.

(** ** C38: plane elements; six-node triangles may have curved sides *)
Theorem C38_tri6 : forall coord E nu rest K m u, elast_tri6 coord (E :: nu :: rest) = Ok (K, m) ->
  0 < E -> -1 < nu < 1 -> form 12 K u u = 0 -> exists a b w, forall j, (j < 12)%nat -> u j = rigid2 coord a b w j.
Proof. exact (fun coord E nu rest K m u H => tri6_modes coord _ K m E nu _ u H eq_refl). Qed.
Print Assumptions C38_tri6.

Theorem C38_quad8 : forall coord E nu rho K m u, elast_quad8 coord [E; nu; rho] = Ok (K, m) ->
  0 < E -> -1 < nu < 1 -> straight8 coord -> form 16 K u u = 0 -> exists a b w, forall j, (j < 16)%nat -> u j = rigid2 coord a b w j.
Proof. exact (fun coord E nu rho K m u H => quad8_modes coord _ K m E nu _ u H eq_refl). Qed.
Print Assumptions C38_quad8.

Theorem C38_quad9 : forall coord E nu rest K m u, elast_quad9 coord (E :: nu :: rest) = Ok (K, m) ->
  0 < E -> -1 < nu < 1 -> straight9 coord -> form 18 K u u = 0 -> exists a b w, forall j, (j < 18)%nat -> u j = rigid2 coord a b w j.
Proof. exact (fun coord E nu rest K m u H => quad9_modes coord _ K m E nu _ u H eq_refl). Qed.
Print Assumptions C38_quad9.

Example C38_case_plane : (exists K M, elast_tri6 hi_tr [1; 1/4] = Ok (K, M2 M)) /\
  (straight8 skew8 /\ exists K M, elast_quad8 skew8 [1; 1/4; 2] = Ok (K, M2 M)) /\
  (straight9 skew9 /\ exists K M, elast_quad9 skew9 [1; 1/4; 2] = Ok (K, M2 M)).
Proof. exact (conj hi_tr_runs (conj (conj skew8_straight skew8_runs) (conj skew9_straight skew9_runs))). Qed.

(** ** C38: solids *)
Theorem C38_tet4 : forall coord E nu rho K m u, elast_tet4 coord [E; nu; rho] = Ok (K, m) ->
  0 < E -> -1 < nu < 1 / 2 -> form 12 K u u = 0 -> exists t w, forall j, (j < 12)%nat -> u j = rigid3 coord t w j.
Proof. exact tet4_modes. Qed.
Print Assumptions C38_tet4.

(** bricks of any shape whose volume vanishes nowhere: skew or warped, faces need not be plane *)
Theorem C38_hex8 : forall coord E nu rho K m u, elast_hex8 coord [E; nu; rho] = Ok (K, m) ->
  0 < E -> -1 < nu < 1 / 2 -> regular_brick coord -> form 24 K u u = 0 -> exists t w, forall j, (j < 24)%nat -> u j = rigid3 coord t w j.
Proof. exact hex8_modes_any. Qed.
Print Assumptions C38_hex8.

(** every parallelepiped that the routine accepts is one *)
Theorem C38_parallelepiped : forall coord E nu rho K m, elast_hex8 coord [E; nu; rho] = Ok (K, m) -> parallelepiped coord -> regular_brick coord.
Proof. exact box_regular. Qed.
Print Assumptions C38_parallelepiped.

Example C38_case_solid : (exists K M, elast_tet4 skew4 [1; 1/4; 2] = Ok (K, M2 M)) /\
  (parallelepiped brick /\ exists K M, elast_hex8 brick [1; 1/4; 2] = Ok (K, M2 M)) /\
  (regular_brick pyramid /\ ~ parallelepiped pyramid /\ exists K M, elast_hex8 pyramid [1; 1/4; 2] = Ok (K, M2 M)) /\
  (regular_brick warped /\ ~ parallelepiped warped /\ exists K M, elast_hex8 warped [1; 1/4; 2] = Ok (K, M2 M)).
Proof. exact (conj skew4_runs (conj (conj brick_box brick_runs) (conj (conj pyramid_regular (conj pyramid_no_box pyramid_runs)) (conj warped_regular (conj warped_no_box warped_runs))))). Qed.

(** ** C38: the axisymmetric element deforms under every motion but the axial translation *)
Theorem C38_axisymmetric : forall coord E nu rho K m u, elast_axi_quad9 coord [E; nu; rho] = Ok (K, m) ->
  0 < E -> -1 < nu < 1 / 2 -> straight9 coord -> form 18 K u u = 0 -> exists b, forall j, (j < 18)%nat -> u j = trans2 0 b j.
Proof. exact axi_modes. Qed.
Print Assumptions C38_axisymmetric.

Example C38_case_axisymmetric : straight9 skew9 /\ exists K M, elast_axi_quad9 skew9 [1; 1/4; 2] = Ok (K, M2 M).
Proof. exact (conj skew9_straight skew9_axi_runs). Qed.

(** ** C72: C72_stable also covers six-node triangles and nine-node quadrilaterals *)
Example C72_case_high_order : wf_model him /\ Forall (sound_plane him) (md_elements him) /\ connected him /\ supported him /\
  exists out, auto elim_solver him false false = Ok out.
Proof. exact (conj hi_wf (conj hi_sound (conj hi_connected (conj hi_supported hi_runs)))). Qed.
