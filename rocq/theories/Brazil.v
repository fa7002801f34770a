(** * Model of the script of docs/tutorials/brazilian_test.rst, which writes the four input files *)
From Coq Require Import String QArith ZArith Arith Bool List.
From Verif Require Import Num LinAlg Pre TextIO Template.
Import ListNotations.
Local Open Scope string_scope.
Local Open Scope nat_scope.

(* loads_array[:, 0] = id_cargas: an (n, 1) array fits a column of n rows only for n = 1
   (brazilian_test.rst:236, 240) *)
Definition vertex_ids (id_cargas : list (list Z)) : res (list Z) :=
  match id_cargas with
  | [[v]] => Ok [v]
  | _ => Err (ValueError "could not broadcast input array")
  end.

(* the list written in column 2 of the element table (brazilian_test.rst:257-258) *)
Definition brazil_profiles (n : nat) (maters : list Z) : res (list Z) :=
  broadcast n (map (fun _ => 1%Z) (filter (fun mater => (mater =? 4)%Z) maters)).

Section Brazil.
  Context {T : Type} `{Num T}.
  Local Open Scope num_scope.
  Local Notation mat := (@mat T).

  (* brazilian_test.rst:245-252: the flags of the lines 1 (left) and 2 (bottom) *)
  Definition brazil_flags (nodes_array : mat) (cells : dict (list (list Z))) (cell_data : dict (dict (list Z))) : res mat :=
    nodes_izq <- line_nodes cells cell_data 1 ;;
    nodes_inf <- line_nodes cells cell_data 2 ;;
    nodes_array <- set_col nodes_array nodes_izq 3 (nz (-1)) ;;
    set_col nodes_array nodes_inf 4 (nz (-1)).

  (* brazilian_test.rst:255-256: the material table *)
  Definition brazil_mats : mat := [[nz 70000000000; nofQ 0.35]; [nz 70000000000; nofQ 0.35]].

  (* brazilian_test.rst:219-265: the whole script, after meshio.read *)
  Definition brazil (fs : fsys) (points : mat) (cells : dict (list (list Z))) (cell_data : dict (dict (list Z))) : res fsys :=
    eles <- dget cells "triangle" ;;
    body <- mapM (broadcast 3) eles ;;
    nodes_array <- node_writer points ;;
    _ <- dget cells "line" ;;
    data <- dget cell_data "line" ;;
    _ <- dget data "gmsh:physical" ;;
    id_cargas <- dget cells "vertex" ;;
    ids <- vertex_ids id_cargas ;;
    let loads_array := map (fun v => [nz v; n0; nz (-1000000000)]) ids in
    nodes_array <- brazil_flags nodes_array cells cell_data ;;
    data <- dget cell_data "triangle" ;;
    maters <- dget data "gmsh:physical" ;;
    profiles <- brazil_profiles (length eles) maters ;;
    let els_array := map (fun kpr => Z.of_nat (fst kpr) :: 3%Z :: fst (snd kpr) :: snd (snd kpr))
                         (combine (seq 0 (length eles)) (combine profiles body)) in
    let fs := write_file fs "eles.txt" (savetxt fmt_d els_array) in
    let fs := write_file fs "nodes.txt" (savetxt_columns [Col_d; Col_f 4; Col_f 4; Col_d; Col_d] nodes_array) in
    let fs := write_file fs "loads.txt" (savetxt_columns [Col_d; Col_f 6; Col_f 6] loads_array) in
    Ok (write_file fs "mater.txt" (savetxt (fmt_f 6) brazil_mats)).
End Brazil.
