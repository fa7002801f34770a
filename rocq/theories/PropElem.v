(** * Properties C31, C32, C34-C38 of the continuum elements and bars; C06 for the built-in elements *)
From Coq Require Import String Reals List Arith Lia Lra ZArith.
From Verif Require Import Num LinAlg Fem Uel Assem Spec SpecAssem SpecElem SpecShape ElemAxi BeamProofs Elem2Modes ElemFinal2 ElemFinal3 MeshProofs ExModel2.
Import ListNotations.
Local Open Scope R_scope.

(** concrete geometries used below: the reference squares, triangles, cube, tetrahedron *)
Example reference_elements : forall f n ref,
  In (f, n, ref) [(elast_quad4, 4%nat, ref_quad4); (elast_tri6, 6%nat, ref_tri6); (elast_tri3, 3%nat, ref_tri3);
                  (elast_quad9, 9%nat, ref_quad9); (elast_quad8, 8%nat, ref_quad8)] ->
  forall E nu rho, 1 - nu * nu <> 0 -> exists K M, f (pts2 ref) [E; nu; rho] = Ok (K, M2 M).
Proof. exact ref_runs. Qed.
Example reference_solids : forall E nu rho, 1 + nu <> 0 -> 1 - 2 * nu <> 0 ->
  (exists K M, elast_tet4 (pts3 ref_tet4) [E; nu; rho] = Ok (K, M2 M)) /\
  (exists K M, elast_hex8 (pts3 ref_hex8) [E; nu; rho] = Ok (K, M2 M)).
Proof. exact ref_runs3. Qed.

(** ** C06 *)
Theorem C06_builtin : forall d max cons elements mats nodes sparse op bc neq gk gm,
  flags01 d cons -> Forall (good_row d max None cons) elements ->
  DME cons elements d max None = Ok (op, bc, neq) ->
  assembler elements mats nodes (Z.to_nat neq) op sparse None = Ok (gk, gm) ->
  (forall elem t im params, In elem elements -> nth_error elem 1 = Some t -> nth_error elem 2 = Some im ->
     np_get mats im = Ok params -> material_ok t params) ->
  let n := Z.to_nat neq in
  symmetric n (fst (mats_of (gk, gm))) /\ symmetric n (snd (mats_of (gk, gm))) /\
  psd n (fst (mats_of (gk, gm))) /\ psd n (snd (mats_of (gk, gm))).
Proof. exact mesh_sym_psd. Qed.
Print Assumptions C06_builtin.

(** a square of two triangles on two supports *)
Example C06_builtin_case :
  (flags01 2 sq_cons /\ Forall (good_row 2 18 None sq_cons) sq_elements) /\
  (forall sparse, exists op bc neq gk gm, DME sq_cons sq_elements 2 18 None = Ok (op, bc, neq) /\ neq = 5%Z /\
     assembler sq_elements [[1; 1/4; 2]] sq_nodes (Z.to_nat neq) op sparse None = Ok (gk, gm)) /\
  forall elem t im params, In elem sq_elements -> nth_error elem 1 = Some t -> nth_error elem 2 = Some im ->
     np_get [[1; 1/4; 2]] im = Ok params -> material_ok t params.
Proof. exact (conj sq_rows (conj sq_assembled sq_materials)). Qed.

(** ** C31 *)
Theorem C31_plane : forall f n,
  In (f, n) [(elast_quad4, 4%nat); (elast_tri6, 6%nat); (elast_tri3, 3%nat); (elast_quad9, 9%nat); (elast_quad8, 8%nat)] ->
  forall coord E nu rest K m, f coord (E :: nu :: rest) = Ok (K, m) ->
  symmetric (2 * n) K /\ (0 <= E -> -1 < nu < 1 -> psd (2 * n) K).
Proof. exact plane_sym_psd. Qed.
Print Assumptions C31_plane.

Theorem C31_solid : forall f n, In (f, n) [(elast_tet4, 4%nat); (elast_hex8, 8%nat)] ->
  forall coord E nu rho K m, f coord [E; nu; rho] = Ok (K, m) ->
  symmetric (3 * n) K /\ (0 < E -> -1 < nu < 1/2 -> psd (3 * n) K).
Proof. exact solid_sym_psd. Qed.
Print Assumptions C31_solid.

Theorem C31_axisymmetric : forall coord E nu rho K m, elast_axi_quad9 coord [E; nu; rho] = Ok (K, m) ->
  symmetric 18 K /\ (0 < E -> -1 < nu < 1/2 -> psd 18 K).
Proof. exact axi_sym_psd. Qed.
Print Assumptions C31_axisymmetric.

Theorem C31_truss : forall coord young area rest K m, truss2D coord (young :: area :: rest) = Ok (K, m) ->
  symmetric 4 K /\ (0 <= young * area -> psd 4 K).
Proof. exact truss_sym_psd. Qed.
Print Assumptions C31_truss.

Theorem C31_spring : forall coord c K m, spring coord [c] = Ok (K, m) -> symmetric 4 K /\ (0 <= c -> psd 4 K).
Proof. exact spring_sym_psd. Qed.
Print Assumptions C31_spring.

Theorem C31_beam : forall xa ya xb yb, xa <> xb \/ ya <> yb ->
  forall young I area rest, I <> 0 -> rest = [] \/ (exists d, rest = [d]) ->
  exists K M, beam2D [[xa; ya]; [xb; yb]] (young :: I :: area :: rest) = Ok (K, M2 M) /\
    symmetric 6 K /\ (0 <= young * I -> 0 <= young * area -> psd 6 K) /\ symmetric 6 M /\
    forall a b, let u := field3 (fun _ => a) (fun _ => b) (fun _ => 0) in
      form 6 M u u = area * bar_len xa ya xb yb * match rest with [d] => d | _ => 1 end * (a * a + b * b).
Proof. exact beams_sym_psd. Qed.
Print Assumptions C31_beam.

Theorem C31_beamU : forall xa ya xb yb, xa <> xb \/ ya <> yb ->
  forall young I rest, rest = [] \/ (exists d A, rest = [d; A]) ->
  exists K M, beam2DU [[xa; ya]; [xb; yb]] (young :: I :: rest) = Ok (K, M2 M) /\
    symmetric 6 K /\ (0 <= young * I -> psd 6 K) /\ symmetric 6 M.
Proof. exact beamsU_sym_psd. Qed.
Print Assumptions C31_beamU.

Example C31_case : (exists K M, elast_axi_quad9 (ring_coord 1) [1; 1/4; 1] = Ok (K, M2 M)) /\
  (exists K m, truss2D [[0; 0]; [3; 4]] [2; 3] = Ok (K, m)) /\ (exists K m, spring [[0; 0]; [3; 4]] [2] = Ok (K, m)).
Proof.
  split; [exact (axi_runs (ring_coord 1) 1 (1/4) 1 ltac:(lra) ltac:(lra) (ring_accepted 1 ltac:(lra)))|].
  destruct (BarProofs.bars_closed_form 0 0 3 4 ltac:(left; lra)) as [A B]. split.
  - destruct (A 2 3 []) as [K [M [H _]]]. eauto.
  - destruct (B 2) as [K [m [H _]]]. eauto.
Qed.

(** ** C32 *)
Theorem C32_plane : forall f n,
  In (f, n) [(elast_quad4, 4%nat); (elast_tri6, 6%nat); (elast_tri3, 3%nat); (elast_quad9, 9%nat); (elast_quad8, 8%nat)] ->
  forall coord params K m, f coord params = Ok (K, m) ->
  forall a b w i, (i < 2 * n)%nat -> act (2 * n) K (rigid2 coord a b w) i = 0.
Proof. exact plane_rigid_free. Qed.
Print Assumptions C32_plane.

Theorem C32_solid : forall f n, In (f, n) [(elast_tet4, 4%nat); (elast_hex8, 8%nat)] ->
  forall coord params K m, f coord params = Ok (K, m) ->
  forall t w i, (i < 3 * n)%nat -> act (3 * n) K (rigid3 coord t w) i = 0.
Proof. exact solid_rigid_free. Qed.
Print Assumptions C32_solid.

(** the rigid motion of an axisymmetric body is the axial translation *)
Theorem C32_axisymmetric : forall coord params K m b, elast_axi_quad9 coord params = Ok (K, m) ->
  forall i, (i < 18)%nat -> act 18 K (trans2 0 b) i = 0.
Proof. exact axi_translation. Qed.
Print Assumptions C32_axisymmetric.

Theorem C32_bars : forall xa ya xb yb K m,
  (exists params, truss2D [[xa; ya]; [xb; yb]] params = Ok (K, m)) \/
  (exists c, spring [[xa; ya]; [xb; yb]] [c] = Ok (K, m)) ->
  forall a b w i, (i < 4)%nat -> act 4 K (rigid2 [[xa; ya]; [xb; yb]] a b w) i = 0.
Proof. exact bars_rigid. Qed.
Print Assumptions C32_bars.

(** a rotation of the reference square about the origin *)
Example C32_case : forall j, (j < 8)%nat ->
  rigid2 (pts2 ref_quad4) 0 0 1 j = nth j [1; -1; 1; 1; -1; 1; -1; -1] 0.
Proof.
  intros j Hj. do 8 (destruct j as [|j]; [unfold rigid2, affine2, field2, node_x, node_y, ent; cbn; ring|]).
  lia.
Qed.

(** ** C34.  For each element, what the weighted sum W of the Jacobians is: exact for the straight
    sided elements, up to the printed digits of the quadrature tables otherwise. *)
Theorem C34_plane : forall f n P,
  In (f, n, P)
   [(elast_quad4, 4%nat, fun coord W => W = area4 coord);
    (elast_tri3, 3%nat, fun coord W => W = area3 coord * (999999999999 / 1000000000000));
    (elast_tri6, 6%nat, fun coord W => forall xc yc r, 0 <= r -> within2 6 coord xc yc r ->
       Rabs (W - area6 coord) <= 1 / 250000000000 * (r * r));
    (elast_quad8, 8%nat, fun coord W => forall xc yc r, 0 <= r -> within2 8 coord xc yc r ->
       Rabs (W - area8 coord) <= 1 / 1000000000000000 * (r * r));
    (elast_quad9, 9%nat, fun coord W => forall xc yc r, 0 <= r -> within2 9 coord xc yc r ->
       Rabs (W - area8 coord) <= 1 / 1000000000000000 * (r * r))] ->
  forall coord E nu rest K m, f coord (E :: nu :: rest) = Ok (K, m) ->
  exists W, 0 < W /\ P coord W /\
    forall a0 a1 a2 b0 b1 b2 a0' a1' a2' b0' b1' b2',
      form (2 * n) K (affine2 coord a0 a1 a2 b0 b1 b2) (affine2 coord a0' a1' a2' b0' b1' b2') =
      W * (E / (1 - nu * nu) * (a1 * a1' + nu * (a1 * b2' + b2 * a1') + b2 * b2'
             + (1 - nu) / 2 * ((a2 + b1) * (a2' + b1')))).
Proof. exact plane_energy. Qed.
Print Assumptions C34_plane.

Theorem C34_solid : forall f n P,
  In (f, n, P)
   [(elast_tet4, 4%nat, fun coord W => W = vol4 coord);
    (elast_hex8, 8%nat, fun coord W => forall c r, 0 <= r -> within3 8 coord c r ->
       Rabs (W - vol8 coord) <= 1 / 1000000000000000 * (r * r * r))] ->
  forall coord E nu rho K m, f coord [E; nu; rho] = Ok (K, m) ->
  exists W, 0 < W /\ P coord W /\
    forall t A t' A', form (3 * n) K (affine3 coord t A) (affine3 coord t' A') = W * energy3 E nu (voigt3 A) (voigt3 A').
Proof. exact solid_energy. Qed.
Print Assumptions C34_solid.

(** the reference square has area 4, the reference triangle area 1/2, the reference cube volume 8 *)
Example C34_case : area4 (pts2 ref_quad4) = 4 /\ area8 (pts2 ref_quad8) = 4 /\ area6 (pts2 ref_tri6) = 1/2 /\
  vol8 (pts3 ref_hex8) = 8 /\ vol4 (pts3 ref_tet4) = 1/6.
Proof.
  unfold area4, area8, area6, vol8, vol4, arc, cross, face, cone, J3det, node_x, node_y, ent.
  cbn [pts2 pts3 map fst snd ref_quad4 ref_quad8 ref_tri3 ref_tri6 ref_hex8 ref_tet4 app nth]. repeat split; field.
Qed.

(** ** C35 *)
Theorem C35_plane : forall f n P,
  In (f, n, P)
   [(elast_quad4, 4%nat, fun coord W => W = area4 coord);
    (elast_tri3, 3%nat, fun coord W => W = area3 coord * (999999999999 / 1000000000000));
    (elast_tri6, 6%nat, fun coord W => forall xc yc r, 0 <= r -> within2 6 coord xc yc r ->
       Rabs (W - area6 coord) <= 1 / 250000000000 * (r * r));
    (elast_quad8, 8%nat, fun coord W => forall xc yc r, 0 <= r -> within2 8 coord xc yc r ->
       Rabs (W - area8 coord) <= 1 / 1000000000000000 * (r * r));
    (elast_quad9, 9%nat, fun coord W => forall xc yc r, 0 <= r -> within2 9 coord xc yc r ->
       Rabs (W - area8 coord) <= 1 / 1000000000000000 * (r * r))] ->
  forall coord E nu rho K m, f coord [E; nu; rho] = Ok (K, m) ->
  exists M W, m = M2 M /\ symmetric (2 * n) M /\ (0 <= rho -> psd (2 * n) M) /\
    (forall i j, (i < 2 * n)%nat -> (j < 2 * n)%nat -> Nat.even i <> Nat.even j -> ent M i j = 0) /\
    0 < W /\ P coord W /\
    forall a b a' b', form (2 * n) M (trans2 a b) (trans2 a' b') = rho * W * (a * a' + b * b').
Proof. exact plane_mass_props. Qed.
Print Assumptions C35_plane.

Theorem C35_solid : forall f n P,
  In (f, n, P)
   [(elast_tet4, 4%nat, fun coord W => W = vol4 coord);
    (elast_hex8, 8%nat, fun coord W => forall c r, 0 <= r -> within3 8 coord c r ->
       Rabs (W - vol8 coord) <= 1 / 1000000000000000 * (r * r * r))] ->
  forall coord E nu rho K m, f coord [E; nu; rho] = Ok (K, m) ->
  exists M W, m = M2 M /\ symmetric (3 * n) M /\ (0 <= rho -> psd (3 * n) M) /\
    (forall i j, (i < 3 * n)%nat -> (j < 3 * n)%nat -> (i mod 3 <> j mod 3)%nat -> ent M i j = 0) /\
    0 < W /\ P coord W /\
    forall c c', form (3 * n) M (trans3 c) (trans3 c') = rho * W * rsum 3 (fun a => c a * c' a).
Proof. exact solid_mass_props. Qed.
Print Assumptions C35_solid.

Theorem C35_truss : forall xa ya xb yb young area dens K m,
  truss2D [[xa; ya]; [xb; yb]] [young; area; dens] = Ok (K, m) ->
  exists M, m = M2 M /\ symmetric 4 M /\ (0 <= dens * area -> psd 4 M) /\
    (forall i j, (i < 4)%nat -> (j < 4)%nat -> Nat.even i <> Nat.even j -> ent M i j = 0) /\
    forall a b a' b', form 4 M (trans2 a b) (trans2 a' b') = dens * (area * bar_len xa ya xb yb) * (a * a' + b * b').
Proof. exact truss_mass_props. Qed.
Print Assumptions C35_truss.

(** mass matrices of the beams *)
Theorem C35_beam : forall coord young I area rest K M, beam2D coord (young :: I :: area :: rest) = Ok (K, M2 M) ->
  (rest = [] /\ 0 <= area \/ exists d, rest = [d] /\ 0 <= area * d) -> psd 6 M.
Proof. exact beam2D_mass_psd. Qed.
Print Assumptions C35_beam.

Theorem C35_beamU : forall coord young I rest K M, beam2DU coord (young :: I :: rest) = Ok (K, M2 M) ->
  (rest = [] \/ exists d A, rest = [d; A] /\ 0 <= d * A) -> psd 6 M.
Proof. exact beam2DU_mass_psd. Qed.
Print Assumptions C35_beamU.

Example C35_case : exists K m, truss2D [[0; 0]; [3; 4]] [2; 3; 7] = Ok (K, m).
Proof.
  destruct (BarProofs.bars_closed_form 0 0 3 4 ltac:(left; lra)) as [A _]. destruct (A 2 3 [7]) as [K [M [H _]]]. eauto.
Qed.

(** ** C36 *)
Theorem C36_plane : forall f n,
  In (f, n) [(elast_quad4, 4%nat); (elast_tri6, 6%nat); (elast_tri3, 3%nat); (elast_quad9, 9%nat); (elast_quad8, 8%nat)] ->
  forall coord E nu rho K M, f coord [E; nu; rho] = Ok (K, M2 M) ->
  forall t s, exists K' M', f coord [t * E; nu; s * rho] = Ok (K', M2 M') /\
    forall i j, ent K' i j = t * ent K i j /\ ent M' i j = s * ent M i j.
Proof. exact plane_scaled. Qed.
Print Assumptions C36_plane.

Theorem C36_solid : forall f n, In (f, n) [(elast_tet4, 4%nat); (elast_hex8, 8%nat)] ->
  forall coord E nu rho K M, f coord [E; nu; rho] = Ok (K, M2 M) ->
  forall t s, exists K' M', f coord [t * E; nu; s * rho] = Ok (K', M2 M') /\
    forall i j, ent K' i j = t * ent K i j /\ ent M' i j = s * ent M i j.
Proof. exact solid_scaled. Qed.
Print Assumptions C36_solid.

Theorem C36_truss : forall coord E A rho K M, truss2D coord [E; A; rho] = Ok (K, M2 M) ->
  forall t s, exists K' M', truss2D coord [t * E; A; s * rho] = Ok (K', M2 M') /\
    forall i j, (i < 4)%nat -> (j < 4)%nat -> ent K' i j = t * ent K i j /\ ent M' i j = s * ent M i j.
Proof. exact truss_scaled. Qed.
Print Assumptions C36_truss.

Theorem C36_plane_independent : forall f n,
  In (f, n) [(elast_quad4, 4%nat); (elast_tri6, 6%nat); (elast_tri3, 3%nat); (elast_quad9, 9%nat); (elast_quad8, 8%nat)] ->
  forall coord E nu rho E' nu' rho' K M K' M',
  f coord [E; nu; rho] = Ok (K, M) -> f coord [E'; nu'; rho'] = Ok (K', M') ->
  (E = E' -> nu = nu' -> K = K') /\ (rho = rho' -> M = M').
Proof. exact plane_indep. Qed.
Print Assumptions C36_plane_independent.

Theorem C36_solid_independent : forall f n, In (f, n) [(elast_tet4, 4%nat); (elast_hex8, 8%nat)] ->
  forall coord E nu rho E' nu' rho' K M K' M',
  f coord [E; nu; rho] = Ok (K, M) -> f coord [E'; nu'; rho'] = Ok (K', M') ->
  (E = E' -> nu = nu' -> K = K') /\ (rho = rho' -> M = M').
Proof. exact solid_indep. Qed.
Print Assumptions C36_solid_independent.

Theorem C36_truss_independent : forall coord A E rho E' rho' K M K' M',
  truss2D coord [E; A; rho] = Ok (K, M) -> truss2D coord [E'; A; rho'] = Ok (K', M') ->
  (E = E' -> K = K') /\ (rho = rho' -> M = M').
Proof. exact truss_indep. Qed.
Print Assumptions C36_truss_independent.

Theorem C36_default : forall coord (E nu : R),
  Forall (fun f : uel_fun R => f coord [E; nu] = f coord [E; nu; 1])
    [elast_tri3; elast_tri6; elast_quad4; elast_quad9; truss2D].
Proof. exact density_default. Qed.
Print Assumptions C36_default.

(** hypotheses met by [reference_elements], [reference_solids] and [C35_case] *)
Example C36_case : exists K M, elast_quad8 (pts2 ref_quad8) [200; 3/10; 78] = Ok (K, M2 M).
Proof. apply (ref_runs elast_quad8 8%nat ref_quad8); [do 4 right; left; reflexivity|lra]. Qed.

(** ** C37 *)
Theorem C37_plane : forall f n,
  In (f, n) [(elast_quad4, 4%nat); (elast_tri6, 6%nat); (elast_tri3, 3%nat); (elast_quad9, 9%nat); (elast_quad8, 8%nat)] ->
  forall coord params K m, f coord params = Ok (K, m) ->
  forall c s tx ty, c * c + s * s = 1 ->
  exists M K' M', m = M2 M /\ f (move2 c s tx ty coord) params = Ok (K', M2 M') /\
    forall u v, form (2 * n) K' (turn2 c s u) (turn2 c s v) = form (2 * n) K u v /\
                form (2 * n) M' (turn2 c s u) (turn2 c s v) = form (2 * n) M u v.
Proof. exact plane_frame_indiff. Qed.
Print Assumptions C37_plane.

Theorem C37_solid : forall f n, In (f, n) [(elast_tet4, 4%nat); (elast_hex8, 8%nat)] ->
  forall coord params K m, f coord params = Ok (K, m) ->
  forall Q t, orthogonal Q -> J3det Q = 1 ->
  exists M K' M', m = M2 M /\ f (move3 Q t coord) params = Ok (K', M2 M') /\
    forall u v, form (3 * n) K' (turn3 Q u) (turn3 Q v) = form (3 * n) K u v /\
                form (3 * n) M' (turn3 Q u) (turn3 Q v) = form (3 * n) M u v.
Proof. exact solid_frame_indiff. Qed.
Print Assumptions C37_solid.

Theorem C37_truss : forall xa ya xb yb params K m, truss2D [[xa; ya]; [xb; yb]] params = Ok (K, m) ->
  forall c s tx ty, c * c + s * s = 1 ->
  exists M K' M', m = M2 M /\ truss2D (move2 c s tx ty [[xa; ya]; [xb; yb]]) params = Ok (K', M2 M') /\
    forall u v, form 4 K' (turn2 c s u) (turn2 c s v) = form 4 K u v /\
                form 4 M' (turn2 c s u) (turn2 c s v) = form 4 M u v.
Proof. exact truss_frame. Qed.
Print Assumptions C37_truss.

Theorem C37_plane_translated : forall f n,
  In (f, n) [(elast_quad4, 4%nat); (elast_tri6, 6%nat); (elast_tri3, 3%nat); (elast_quad9, 9%nat); (elast_quad8, 8%nat)] ->
  forall coord params K m, f coord params = Ok (K, m) ->
  forall tx ty, f (move2 1 0 tx ty coord) params = Ok (K, m).
Proof. exact plane_translate. Qed.
Print Assumptions C37_plane_translated.

Theorem C37_solid_translated : forall f n, In (f, n) [(elast_tet4, 4%nat); (elast_hex8, 8%nat)] ->
  forall coord params K m, f coord params = Ok (K, m) ->
  forall t, f (move3 (fun a b => if Nat.eqb a b then 1 else 0) t coord) params = Ok (K, m).
Proof. exact solid_translate. Qed.
Print Assumptions C37_solid_translated.

Theorem C37_bars_translated : forall xa ya xb yb params tx ty,
  truss2D (move2 1 0 tx ty [[xa; ya]; [xb; yb]]) params = truss2D [[xa; ya]; [xb; yb]] params /\
  spring (move2 1 0 tx ty [[xa; ya]; [xb; yb]]) params = spring [[xa; ya]; [xb; yb]] params.
Proof. exact bars_translate. Qed.
Print Assumptions C37_bars_translated.

Example C37_case : (3/5) * (3/5) + (4/5) * (4/5) = 1 /\
  let Q a b := nth b (nth a [[0; -1; 0]; [1; 0; 0]; [0; 0; 1]] []) 0 in orthogonal Q /\ J3det Q = 1.
Proof.
  split; [field|]. cbv zeta. split; [|unfold J3det; cbn; ring].
  intros a b Ha Hb. do 3 (destruct a as [|a]; [do 3 (destruct b as [|b]; [cbn; ring|]);
    lia|]).
  lia.
Qed.

(** ** C38 *)
Theorem C38_tri3 : forall coord E nu rest K m u, elast_tri3 coord (E :: nu :: rest) = Ok (K, m) ->
  0 < E -> -1 < nu < 1 -> form 6 K u u = 0 -> exists a b w, forall j, (j < 6)%nat -> u j = rigid2 coord a b w j.
Proof. exact (fun coord E nu rest K m u H => tri3_modes coord _ K m E nu _ u H eq_refl). Qed.
Print Assumptions C38_tri3.

Theorem C38_quad4 : forall coord E nu rest K m u, elast_quad4 coord (E :: nu :: rest) = Ok (K, m) ->
  0 < E -> -1 < nu < 1 -> form 8 K u u = 0 -> exists a b w, forall j, (j < 8)%nat -> u j = rigid2 coord a b w j.
Proof. exact (fun coord E nu rest K m u H => quad4_modes coord _ K m E nu _ u H eq_refl). Qed.
Print Assumptions C38_quad4.

Example C38_case : exists K M, elast_quad4 (pts2 ref_quad4) [200; 3/10; 78] = Ok (K, M2 M).
Proof. apply (ref_runs elast_quad4 4%nat ref_quad4); [left; reflexivity|lra]. Qed.
