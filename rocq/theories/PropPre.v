(** * Properties C58-C63: rectangular grids and imported meshes *)
From Coq Require Import String QArith Reals List ZArith Arith Lra Lia.
From Verif Require Import Num LinAlg Fem Uel Pre Spec SpecElem SpecModel SpecPost SpecPre GridProofs ImportProofs.
Import ListNotations.
Local Open Scope R_scope.

(** ** C58 *)
Theorem C58_nodes : forall (L H : R) nx ny x y els, (1 <= nx)%nat -> (1 <= ny)%nat -> rect_grid L H nx ny = (x, y, els) ->
  length x = ((nx + 1) * (ny + 1))%nat /\ length y = ((nx + 1) * (ny + 1))%nat /\
  forall i j, (i <= nx)%nat -> (j <= ny)%nat ->
    nth (Z.to_nat (lattice nx i j)) x 0 = - L / 2 + INR i * (L / INR nx) /\
    nth (Z.to_nat (lattice nx i j)) y 0 = - H / 2 + INR j * (H / INR ny).
Proof. exact st_nodes. Qed.
Print Assumptions C58_nodes.

(** the signed area of every cell is L*H/(nx*ny): positive means counterclockwise *)
Theorem C58_elements : forall (L H : R) nx ny x y els, (1 <= nx)%nat -> (1 <= ny)%nat -> rect_grid L H nx ny = (x, y, els) ->
  length els = (nx * ny)%nat /\
  forall c r, (c < nx)%nat -> (r < ny)%nat ->
    nth (r * nx + c) els [] = [Z.of_nat (r * nx + c); 1; 0]%Z ++ corners nx c r /\ NoDup (corners nx c r) /\
    Forall (fun z => (0 <= z < Z.of_nat (length x))%Z) (corners nx c r) /\
    shoelace (at_nodes x y (corners nx c r)) = L * H / (INR nx * INR ny).
Proof. exact st_elements. Qed.
Print Assumptions C58_elements.

(** common nodes of two cells: those of the common edge or corner, if any *)
Theorem C58_conforming : forall nx c r c' r' z, (c < nx)%nat -> (c' < nx)%nat ->
  (In z (corners nx c r) /\ In z (corners nx c' r')) <->
  exists i j, z = lattice nx i j /\ (Nat.max c c' <= i <= Nat.min c c' + 1)%nat /\ (Nat.max r r' <= j <= Nat.min r r' + 1)%nat.
Proof. exact corners_common. Qed.
Print Assumptions C58_conforming.

(** 2 x 1 cells of a 4 x 3 rectangle *)
Example C58_case : exists x y, @rect_grid R Num_R 4 3 2 1 = (x, y, [[0; 1; 0; 0; 1; 4; 3]; [1; 1; 0; 1; 2; 5; 4]]%Z) /\
  x = [-2; 0; 2; -2; 0; 2] /\ y = [-3/2; -3/2; -3/2; 3/2; 3/2; 3/2] /\ shoelace (at_nodes x y (corners 2 1 0)) = 6.
Proof.
  assert (G : exists x y, @rect_grid R Num_R 4 3 2 1 = (x, y, [[0; 1; 0; 0; 1; 4; 3]; [1; 1; 0; 1; 2; 5; 4]]%Z) /\
    x = [-2; 0; 2; -2; 0; 2] /\ y = [-3/2; -3/2; -3/2; 3/2; 3/2; 3/2]).
  { do 2 eexists. split; [reflexivity|]. split; cbv -[Rplus Rminus Rmult Rdiv Ropp Rinv IZR]; repeat (apply f_equal2; [lra|]); reflexivity. }
  destruct G as [x [y [G [Ex Ey]]]]. exists x, y. split; [exact G|]. split; [exact Ex|]. split; [exact Ey|].
  destruct (st_elements 4 3 2 1 x y _ ltac:(lia) ltac:(lia) G) as [_ E]. destruct (E 1%nat 0%nat ltac:(lia) ltac:(lia)) as [_ [_ [_ ->]]]. cbn [INR]. lra.
Qed.

(** ** C59 *)
Theorem C59_jacobian : forall (L H : R) nx ny x y els, rect_grid L H nx ny = (x, y, els) ->
  forall c r xi eta, (c < nx)%nat -> (r < ny)%nat ->
  J2det (Jac 4 (snd (shape_quad4 xi eta)) (at_nodes x y (corners nx c r))) = L * H / (4 * INR nx * INR ny).
Proof. exact st_jacobian. Qed.
Print Assumptions C59_jacobian.

Theorem C59_accepted : forall (L H : R) nx ny x y els, rect_grid L H nx ny = (x, y, els) ->
  forall c r E nu rho, (c < nx)%nat -> (r < ny)%nat -> 1 / 100000000 < L * H / (4 * INR nx * INR ny) -> 1 - nu * nu <> 0 ->
  exists K M, elast_quad4 (at_nodes x y (corners nx c r)) [E; nu; rho] = Ok (K, M2 M).
Proof. exact st_accepted. Qed.
Print Assumptions C59_accepted.

Example C59_case : forall x y els, rect_grid 4 3 2 1 = (x, y, els) ->
  exists K M, elast_quad4 (at_nodes x y (corners 2 1 0)) [16; 1/3; 5] = Ok (K, M2 M).
Proof. intros x y els G. apply (st_accepted 4 3 2 1 x y els G); [lia|lia|cbn [INR]; lra|lra]. Qed.

(** ** C60 *)
Theorem C60_rows : forall cells cell_data tag n eles data tags phy ty mt nini,
  In (tag, n) [("triangle"%string, 3%nat); ("triangle6"%string, 6%nat); ("quad"%string, 4%nat)] ->
  has_key cells tag eles -> has_key cell_data tag data -> has_key data "gmsh:physical"%string tags ->
  (length tags <= length eles)%nat -> Forall (fun row => length row = n) eles ->
  exists els, ele_writer cells cell_data tag phy ty mt nini = Ok ((nini + Z.of_nat (length els))%Z, els) /\
    length els = length (tagged eles tags phy) /\
    forall k, (k < length els)%nat -> nth k els [] = [nini + Z.of_nat k; ty; mt]%Z ++ nth k (tagged eles tags phy) [].
Proof. exact ele_writer_ok. Qed.
Print Assumptions C60_rows.

(** chained calls (tag, (surface, (type, material))), each started at the previous nf *)
Theorem C60_chain : forall cells cell_data calls nini,
  (forall c, In c calls -> exists n eles data tags, In (fst c, n) [("triangle"%string, 3%nat); ("triangle6"%string, 6%nat); ("quad"%string, 4%nat)] /\
     has_key cells (fst c) eles /\ has_key cell_data (fst c) data /\ has_key data "gmsh:physical"%string tags /\
     (length tags <= length eles)%nat /\ Forall (fun row => length row = n) eles) ->
  exists nf els, foldM (fun st c => '(nf, els) <- ele_writer cells cell_data (fst c) (fst (snd c)) (fst (snd (snd c))) (snd (snd (snd c))) (fst st) ;; Ok (nf, snd st ++ els))
                       calls (nini, []) = Ok (nf, els) /\ nf = (nini + Z.of_nat (length els))%Z /\
    map (fun e => nth 0 e 0%Z) els = map (fun k => (nini + Z.of_nat k)%Z) (seq 0 (length els)).
Proof. exact ele_writer_chain. Qed.
Print Assumptions C60_chain.

Theorem C60_other : forall cells cell_data tag phy ty mt nini, ~ In tag ["triangle"; "triangle6"; "quad"]%string ->
  exists e, ele_writer cells cell_data tag phy ty mt nini = Err e.
Proof. exact ele_writer_unknown. Qed.
Print Assumptions C60_other.

(** the cells of surface 7 among three triangles *)
Example C60_case : ele_writer [("triangle"%string, [[0; 1; 2]; [1; 3; 2]; [3; 4; 2]]%Z)]
    [("triangle"%string, [("gmsh:physical"%string, [7; 8; 7]%Z)])] "triangle" 7 3 5 10 = Ok (12, [[10; 3; 5; 0; 1; 2]; [11; 3; 5; 3; 4; 2]])%Z /\
  tagged [[0; 1; 2]; [1; 3; 2]; [3; 4; 2]]%Z [7; 8; 7]%Z 7 = [[0; 1; 2]; [3; 4; 2]]%Z.
Proof. split; reflexivity. Qed.
Example C60_hyps : has_key [("quad"%string, 1%nat); ("triangle"%string, 2%nat)] "triangle" 2%nat.
Proof. exists [("quad"%string, 1%nat)], []. split; [reflexivity|]. intros [K|[]]. discriminate. Qed.

(** ** C61 *)
Theorem C61_nodes : forall points : list (list R), Forall (fun p => (2 <= length p)%nat) points ->
  exists a, node_writer points = Ok a /\ length a = length points /\
    forall i, (i < length points)%nat -> nth i a [] = [INR i; ent points i 0; ent points i 1; 0; 0].
Proof. exact node_writer_ok. Qed.
Print Assumptions C61_nodes.

Theorem C61_conditions : forall set_list cells cell_data lines data tags phy (a : list (list R)) bx bz,
  set_order set_list -> has_key cells "line"%string lines -> has_key cell_data "line"%string data ->
  has_key data "gmsh:physical"%string tags -> (length tags <= length lines)%nat ->
  Forall (Forall (fun z => (0 <= z < Z.of_nat (length a))%Z)) lines ->
  Forall (fun row => (5 <= length row)%nat) a ->
  exists a', boundary_conditions set_list cells cell_data phy a bx bz = Ok a' /\ length a' = length a /\
    (forall i, length (nth i a' []) = length (nth i a [])) /\
    forall i k, (on_line lines tags phy i -> k = 3%nat -> ent a' i k = bx) /\ (on_line lines tags phy i -> k = 4%nat -> ent a' i k = bz) /\
      (~ on_line lines tags phy i \/ (k <> 3 /\ k <> 4)%nat -> ent a' i k = ent a i k).
Proof. exact boundary_conditions_ok. Qed.
Print Assumptions C61_conditions.

Theorem C61_order : forall s1 s2 cells cell_data lines data tags phy (a : list (list R)) bx bz,
  set_order s1 -> set_order s2 -> has_key cells "line"%string lines -> has_key cell_data "line"%string data ->
  has_key data "gmsh:physical"%string tags -> (length tags <= length lines)%nat ->
  Forall (Forall (fun z => (0 <= z < Z.of_nat (length a))%Z)) lines -> Forall (fun row => (5 <= length row)%nat) a ->
  boundary_conditions s1 cells cell_data phy a bx bz = boundary_conditions s2 cells cell_data phy a bx bz.
Proof. exact boundary_order. Qed.
Print Assumptions C61_order.

Example C61_case : boundary_conditions uniq [("line"%string, [[0; 1]; [1; 2]; [2; 3]]%Z)] [("line"%string, [("gmsh:physical"%string, [10; 10; 20]%Z)])] 10
    [[0; 5; 5; 0; 0]; [1; 5; 6; 0; 0]; [2; 6; 6; 0; 0]; [3; 6; 5; 0; 0]] (-1) 0
  = Ok [[0; 5; 5; -1; 0]; [1; 5; 6; -1; 0]; [2; 6; 6; -1; 0]; [3; 6; 5; 0; 0]] /\ set_order uniq.
Proof. split; [reflexivity|apply uniq_order]. Qed.

(** ** C62 *)
Theorem C62_total : forall set_list cells cell_data lines data tags phy Px Py,
  set_order set_list -> has_key cells "line"%string lines -> has_key cell_data "line"%string data ->
  has_key data "gmsh:physical"%string tags -> (length tags <= length lines)%nat ->
  concat (tagged lines tags phy) <> [] ->
  exists ids rows, loading set_list cells cell_data phy Px Py = Ok rows /\
    NoDup ids /\ (forall z, In z ids <-> In z (concat (tagged lines tags phy))) /\
    length rows = length ids /\
    (forall k, (k < length ids)%nat -> nth k rows [] = [IZR (nth k ids 0%Z); Px / INR (length ids); Py / INR (length ids)]) /\
    lsum (fun row => nth 1 row 0) rows = Px /\ lsum (fun row => nth 2 row 0) rows = Py.
Proof. exact loading_ok. Qed.
Print Assumptions C62_total.

Theorem C62_empty : forall set_list cells cell_data lines data tags phy (Px Py : R),
  set_order set_list -> has_key cells "line"%string lines -> has_key cell_data "line"%string data ->
  has_key data "gmsh:physical"%string tags -> (length tags <= length lines)%nat ->
  concat (tagged lines tags phy) = [] -> loading set_list cells cell_data phy Px Py = Err ZeroDivisionError.
Proof. exact loading_empty. Qed.
Print Assumptions C62_empty.

Example C62_case : loading uniq [("line"%string, [[0; 1]; [1; 2]; [2; 3]]%Z)] [("line"%string, [("gmsh:physical"%string, [10; 10; 20]%Z)])] 10 6 9
  = Ok [[0; 6 / 3; 9 / 3]; [1; 6 / 3; 9 / 3]; [2; 6 / 3; 9 / 3]].
Proof. reflexivity. Qed.
Example C62_case_empty : @loading R Num_R uniq [("line"%string, [[0; 1]]%Z)] [("line"%string, [("gmsh:physical"%string, [10]%Z)])] 11 6 9 = Err ZeroDivisionError.
Proof. reflexivity. Qed.

(** ** C63 *)
(** the second call frees the node in the direction restrained by the first *)
Theorem C63_refuted : exists cells cell_data lines data tags p q (a : list (list R)) i,
  has_key cells "line"%string lines /\ has_key cell_data "line"%string data /\ has_key data "gmsh:physical"%string tags /\
  on_line lines tags p i /\ on_line lines tags q i /\
  forall s, set_order s -> exists a1 a2, boundary_conditions s cells cell_data p a 0 (-1) = Ok a1 /\
    boundary_conditions s cells cell_data q a1 (-1) 0 = Ok a2 /\ ent a1 i 4 = -1 /\ ent a2 i 3 = -1 /\ ent a2 i 4 = 0.
Proof. exact restraints_refuted. Qed.
Print Assumptions C63_refuted.

(** restraints survive off the second line, and on it when the second call repeats them.
    Missing for the full claim: nodes on both lines (C63_refuted). *)
Theorem C63_kept_partial : forall s cells cell_data lines data tags q (a a2 : list (list R)) bx bz i k v,
  set_order s -> has_key cells "line"%string lines -> has_key cell_data "line"%string data -> has_key data "gmsh:physical"%string tags ->
  (length tags <= length lines)%nat -> Forall (Forall (fun z => (0 <= z < Z.of_nat (length a))%Z)) lines -> Forall (fun row => (5 <= length row)%nat) a ->
  boundary_conditions s cells cell_data q a bx bz = Ok a2 -> (k = 3 \/ k = 4)%nat -> ent a i k = v ->
  (on_line lines tags q i -> (if (k =? 3)%nat then bx else bz) = v) -> ent a2 i k = v.
Proof. exact restraints_kept. Qed.
Print Assumptions C63_kept_partial.

Example C63_case : exists a1 a2, boundary_conditions uniq [("line"%string, [[0; 1]; [0; 2]]%Z)] [("line"%string, [("gmsh:physical"%string, [10; 20]%Z)])] 10
    [[0; 0; 0; 0; 0]; [1; 1; 0; 0; 0]; [2; 0; 1; 0; 0]] 0 (-1) = Ok a1 /\
  boundary_conditions uniq [("line"%string, [[0; 1]; [0; 2]]%Z)] [("line"%string, [("gmsh:physical"%string, [10; 20]%Z)])] 20 a1 (-1) 0 = Ok a2 /\
  ent a2 1 4 = -1 /\ ent a2 0 4 = 0.
Proof. do 2 eexists. split; [reflexivity|]. split; [reflexivity|]. split; reflexivity. Qed.
