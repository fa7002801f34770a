(** * Property C79: rectangular grids from mesh generator to results *)
From Coq Require Import Reals List Arith Lra Lia ZArith Bool.
From Verif Require Import Num LinAlg Assem Pre Main Spec SpecModel SpecElem SpecPost SpecStatic SpecPatch SpecGrid GridModel GridLoads ExSolver ExGrid.
Import ListNotations.
Local Open Scope R_scope.

(** the mesh of rect_grid holds any model whose supports block the rigid motions *)
Theorem C79_stable : forall L H nx ny E nu md, grid_model L H nx ny E nu md -> wf_model md -> supported md -> stable md.
Proof. exact gm_stable. Qed.
Print Assumptions C79_stable.

(** nodal forces of a uniform stress: tributary lengths on the four edges, nothing inside *)
Theorem C79_forces : forall L H nx ny E nu md, grid_model L H nx ny E nu md -> forall s i j d, (i <= nx)%nat -> (j <= ny)%nat -> (d < 2)%nat ->
  sides_at (md_nodes md) (md_elements md) s (node nx i j) d = grid_load L H nx ny s i j d.
Proof. exact grid_sides. Qed.
Print Assumptions C79_forces.

(** any uniform strain compatible with the supports, any number of cells: the run succeeds, does not
    warn and returns the field, its strain and its stress *)
Theorem C79_run : forall L H nx ny E nu md, grid_model L H nx ny E nu md -> forall sv plot strains a0 a1 a2 b0 b1 b2,
  wf_model md -> supported md -> (exists i d, free md i d) -> solver_ok sv -> solver_total sv ->
  admissible md (affine_table (md_nodes md) a0 a1 a2 b0 b1 b2) ->
  (forall i j d, (i <= nx)%nat -> (j <= ny)%nat -> free md (node nx i j) d ->
     applied (md_loads md) (node nx i j) d = grid_load L H nx ny (hooke2 E nu (affine_strain a1 a2 b1 b2)) i j d) ->
  exists out, auto sv md plot strains = Ok out /\ out_warn out = false /\
    (forall i j, (i <= nx)%nat -> (j <= ny)%nat ->
       let x := - L / 2 + INR i * (L / INR nx) in let y := - H / 2 + INR j * (H / INR ny) in
       table out (node nx i j) 0 = a0 + a1 * x + a2 * y /\ table out (node nx i j) 1 = b0 + b1 * x + b2 * y) /\
    (strains = true -> out_strains out = Some (repeat [a1; b2; a2 + b1] ((nx + 1) * (ny + 1)),
       repeat (map (hooke2 E nu (affine_strain a1 a2 b1 b2)) [0; 1; 2]%nat) ((nx + 1) * (ny + 1)))).
Proof. exact grid_run. Qed.
Print Assumptions C79_run.

(** the tension test: rollers on the left edge and the bottom row, a pull [s] on the right edge *)
Theorem C79_tension : forall L H nx ny E nu md, grid_model L H nx ny E nu md -> forall sv plot strains s i0 j1 j2,
  wf_model md -> solver_ok sv -> solver_total sv ->
  (j1 <= ny)%nat -> (j2 <= ny)%nat -> j1 <> j2 -> (i0 <= nx)%nat ->
  ent (md_cons md) (node nx 0 j1) 0 = -1 -> ent (md_cons md) (node nx 0 j2) 0 = -1 -> ent (md_cons md) (node nx i0 0) 1 = -1 ->
  (forall i j, (i <= nx)%nat -> (j <= ny)%nat ->
     (ent (md_cons md) (node nx i j) 0 = -1 -> i = 0%nat) /\ (ent (md_cons md) (node nx i j) 1 = -1 -> j = 0%nat)) ->
  (forall i j d, (i <= nx)%nat -> (j <= ny)%nat -> free md (node nx i j) d ->
     applied (md_loads md) (node nx i j) d = if (d =? 0)%nat then s * (H / INR ny) * outward nx i * tributary ny j else 0) ->
  exists out, auto sv md plot strains = Ok out /\ out_warn out = false /\
    (forall i j, (i <= nx)%nat -> (j <= ny)%nat ->
       table out (node nx i j) 0 = s / E * (INR i * (L / INR nx)) /\ table out (node nx i j) 1 = - (nu * s / E) * (INR j * (H / INR ny))) /\
    (strains = true -> out_strains out = Some (repeat [s / E; - (nu * s / E); 0] ((nx + 1) * (ny + 1)), repeat [s; 0; 0] ((nx + 1) * (ny + 1)))).
Proof. exact grid_tension. Qed.
Print Assumptions C79_tension.

(** models of every size meet the hypotheses *)
Example C79_case : forall L H nx ny E nu s, (1 <= nx)%nat -> (1 <= ny)%nat -> 0 < L -> 0 < H -> 1 / 100000000 < L * H / (4 * INR nx * INR ny) -> 0 < E -> -1 < nu < 1 ->
  let md := pulled L H nx ny E nu s in
  grid_model L H nx ny E nu md /\ wf_model md /\ solver_ok elim_solver /\ solver_total elim_solver /\
  (forall i j, (i <= nx)%nat -> (j <= ny)%nat -> ent (md_cons md) (node nx i j) 0 = (if (i =? 0)%nat then -1 else 0) /\
                                                 ent (md_cons md) (node nx i j) 1 = (if (j =? 0)%nat then -1 else 0)) /\
  (forall i j d, (i <= nx)%nat -> (j <= ny)%nat -> (d < 2)%nat ->
     applied (md_loads md) (node nx i j) d = if (d =? 0)%nat then s * (H / INR ny) * outward nx i * tributary ny j else 0).
Proof.
  intros L H nx ny E nu s Hx Hy HL HH Hd HE Hnu.
  exact (conj (pulled_grid L H nx ny E nu s Hx Hy HL HH Hd HE Hnu) (conj (pulled_wf L H nx ny E nu s Hx Hy HL HH Hd HE Hnu) (conj elim_ok (conj elim_total
    (conj (pulled_cons L H nx ny E nu s) (pulled_loads L H nx ny E nu s Hx Hy)))))).
Qed.
(** two cells by one, pulled with 2: the right end moves by 2 * 4 / 10 *)
Example C79_numbers : exists out, auto elim_solver (pulled 4 2 2 1 10 (1/4) 2) true true = Ok out /\
  table out (node 2 2 1) 0 = 4 / 5 /\ table out (node 2 2 1) 1 = - (1 / 10).
Proof.
  destruct (pulled_run 4 2 2 1 10 (1/4) 2 ltac:(lia) ltac:(lia) ltac:(lra) ltac:(lra) ltac:(cbn; lra) ltac:(lra) ltac:(lra) elim_solver true true elim_ok elim_total)
    as (out & HO & _ & HT & _). exists out. split; [exact HO|]. destruct (HT 2%nat 1%nat ltac:(lia) ltac:(lia)) as [-> ->]. cbn. lra.
Qed.
