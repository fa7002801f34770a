(** * Model of solidspy/preprocesor.py (except the text files, see TextIO.v) *)
From Coq Require Import String QArith ZArith Arith Bool List.
From Verif Require Import Num LinAlg.
Import ListNotations.
Local Open Scope string_scope.
Local Open Scope nat_scope.

(** Dictionaries as association lists (cells, cell_data: preprocesor.py:97-102) *)
Definition dict (A : Type) := list (string * A).

(* d[k] (preprocesor.py:97-102, 161-163) *)
Fixpoint dget {A} (d : dict A) (k : string) : res A :=
  match d with
  | [] => Err KeyError
  | (k', v) :: t => if String.eqb k k' then Ok v else dget t k
  end.

(* [cont for cont, _ in enumerate(tags) if tags[cont] == tag]
   (preprocesor.py:103-104, 164-165, 200-201) *)
Definition indices_of (tags : list Z) (tag : Z) : list Z :=
  map (fun it => Z.of_nat (fst it))
      (filter (fun it => (snd it =? tag)%Z) (combine (seq 0 (length tags)) tags)).

(* dict_nnode, preprocesor.py:98-101 *)
Definition nnode_of (ele_tag : string) : res nat :=
  dget [("triangle", 3); ("triangle6", 6); ("quad", 4)] ele_tag.

(* preprocesor.py:61-111 ele_writer.  The column count of an array without rows is
   not modelled. *)
Definition ele_writer (cells : dict (list (list Z))) (cell_data : dict (dict (list Z)))
           (ele_tag : string) (phy_sur ele_type mat_tag nini : Z)
  : res (Z * list (list Z)) :=
  eles <- dget cells ele_tag ;;
  nnode <- nnode_of ele_tag ;;
  data <- dget cell_data ele_tag ;;
  phy_surface <- dget data "gmsh:physical" ;;
  let ele_id := indices_of phy_surface phy_sur in
  rows <- mapM (np_get eles) ele_id ;;
  body <- mapM (fun row =>
                  if length row =? nnode then Ok row
                  else match row with
                       | [v] => Ok (repeat v nnode)
                       | _ => Err (ValueError "could not broadcast input array")
                       end) rows ;;
  let els_array := map (fun kr => (nini + Z.of_nat (fst kr))%Z :: ele_type :: mat_tag :: snd kr)
                       (combine (seq 0 (length ele_id)) body) in
  Ok ((nini + Z.of_nat (length ele_id))%Z, els_array).

(* nodes of the physical line: lines[ids].flatten() (preprocesor.py:161-167, 197-203) *)
Definition line_nodes (cells : dict (list (list Z))) (cell_data : dict (dict (list Z)))
           (phy_lin : Z) : res (list Z) :=
  lines <- dget cells "line" ;;
  data <- dget cell_data "line" ;;
  phy_line <- dget data "gmsh:physical" ;;
  rows <- mapM (np_get lines) (indices_of phy_line phy_lin) ;;
  Ok (concat rows).

Section Pre.
  Context {T : Type} `{Num T}.
  Local Open Scope num_scope.
  Local Notation mat := (@mat T).

  (* preprocesor.py:114-133 node_writer; point_data is not used.  points[:, :2]
     has two columns, or a single one that numpy repeats. *)
  Definition node_writer (points : mat) : res mat :=
    mapM (fun ip =>
            let (i, p) := (ip : nat * list T) in
            match p with
            | x :: y :: _ => Ok [nz (Z.of_nat i); x; y; n0; n0]
            | [x] => Ok [nz (Z.of_nat i); x; x; n0; n0]
            | [] => Err (ValueError "could not broadcast input array")
            end)
         (combine (seq 0 (length points)) points).

  (* a[ids, c] = v (preprocesor.py:169-170) *)
  Definition set_col (a : mat) (ids : list Z) (c : Z) (v : T) : res mat :=
    foldM (fun a i =>
             row <- np_get a i ;;
             row' <- np_upd row c (fun _ => v) ;;
             np_upd a i (fun _ => row')) ids a.

  (* preprocesor.py:136-171 boundary_conditions.  [set_list] is list(set(.)),
     whose order is not specified. *)
  Definition boundary_conditions (set_list : list Z -> list Z)
             (cells : dict (list (list Z))) (cell_data : dict (dict (list Z)))
             (phy_lin : Z) (nodes_array : mat) (bc_x bc_y : T) : res mat :=
    flat <- line_nodes cells cell_data phy_lin ;;
    let nodes_frontera := set_list flat in
    a1 <- set_col nodes_array nodes_frontera 3 bc_x ;;
    set_col a1 nodes_frontera 4 bc_y.

  (* preprocesor.py:174-210 loading; P_x and P_y are Python numbers, so dividing by
     zero raises *)
  Definition loading (set_list : list Z -> list Z)
             (cells : dict (list (list Z))) (cell_data : dict (dict (list Z)))
             (phy_lin : Z) (P_x P_y : T) : res mat :=
    flat <- line_nodes cells cell_data phy_lin ;;
    let nodes_carga := set_list flat in
    let ncargas := Z.of_nat (length nodes_carga) in
    _ <- guard (negb (ncargas =? 0)%Z) ZeroDivisionError ;;
    Ok (map (fun n => [nz n; P_x / nz ncargas; P_y / nz ncargas]) nodes_carga).

  (* one axis of np.mgrid[-len/2 : len/2 : (n+1)*1j] (preprocesor.py:256-257):
     i*step + start with step = (stop - start)/n, or 1 when there is one point *)
  Definition mgrid_axis (len : T) (n : nat) : list T :=
    let start := - len / nz 2 in
    let stop := len / nz 2 in
    let step := match n with O => n1 | _ => (stop - start) / nz (Z.of_nat n) end in
    map (fun i => nz (Z.of_nat i) * step + start) (seq 0 (S n)).

  (* preprocesor.py:213-266 rect_grid for nx, ny >= 0: (x, y, els) *)
  Definition rect_grid (length_ height : T) (nx ny : nat)
    : list T * list T * list (list Z) :=
    let xs := mgrid_axis length_ nx in
    let ys := mgrid_axis height ny in
    let els :=
      flat_map (fun row =>
        map (fun col =>
          let cont := Z.of_nat (row*nx + col) in
          let row := Z.of_nat row in
          let nx := Z.of_nat nx in
          [cont; 1; 0; cont + row; cont + row + 1; cont + row + nx + 2; cont + row + nx + 1]%Z)
        (seq 0 nx)) (seq 0 ny) in
    (flat_map (fun _ => xs) ys, flat_map (fun y => map (fun _ => y) xs) ys, els).
End Pre.

(* preprocesor.py:32-58 initial_params.  [easygui]: None when the import fails,
   Some None when the dialog is cancelled (None + "/" raises, the bare except
   falls back to the prompt), Some (Some f) for a chosen folder.  The Python
   version test is not modelled. *)
Definition initial_params (easygui : option (option string)) (prompt : string) : string :=
  match easygui with
  | Some (Some folder) => folder ++ "/"
  | _ => prompt
  end.
