(** * Model of docs/tutorials/template_input.py, the script that writes the four input files *)
From Coq Require Import String QArith ZArith Arith Bool List.
From Verif Require Import Num LinAlg Pre TextIO.
Import ListNotations.
Local Open Scope string_scope.
Local Open Scope nat_scope.

(** the formats of a column: "%d" and "%.kf" (template_input.py:74-77) *)
Inductive column := Col_d | Col_f (k : nat).

(* the last k decimal digits of v (the part of "%.6f" after the point, template_input.py:75-77) *)
Fixpoint last_digits (k : nat) (v : Z) : string :=
  match k with
  | O => ""
  | S k => last_digits k (v / 10) ++ fmt_d (v mod 10)
  end.

(* a[:, c] = l for n rows: numpy repeats a single value (template_input.py:31, 37) *)
Definition broadcast {A} (n : nat) (l : list A) : res (list A) :=
  if length l =? n then Ok l
  else match l with
       | [v] => Ok (repeat v n)
       | _ => Err (ValueError "could not broadcast input array")
       end.

Section Template.
  Context {T : Type} `{Num T}.
  Local Open Scope num_scope.
  Local Notation mat := (@mat T).

  (* '%.kf' % x with k > 0 (template_input.py:75-77) *)
  Definition fmt_f (k : nat) (x : T) : string :=
    let p := (10 ^ Z.of_nat k)%Z in
    let n := round_even (nz p * nabs x) in
    let body := fmt_d (n / p)%Z ++ "." ++ last_digits k (n mod p)%Z in
    if nltb x n0 then "-" ++ body else body.

  (* one entry of a row; '%d' of a float prints its integer part (template_input.py:75-77) *)
  Definition fmt_column (c : column) (x : T) : string :=
    match c with
    | Col_d => fmt_d (ntrunc x)
    | Col_f k => fmt_f k x
    end.

  (* np.savetxt with one format for each column (template_input.py:75, 76) *)
  Definition savetxt_columns (cols : list column) (rows : mat) : string :=
    savetxt (fun cx => fmt_column (fst cx) (snd cx)) (map (combine cols) rows).

  (* template_input.py:22-37: the element table *)
  Definition template_elements (cells : dict (list (list Z))) (cell_data : dict (dict (list Z)))
    : res (list (list Z)) :=
    eles <- dget cells "triangle" ;;
    body <- mapM (broadcast 3) eles ;;
    data <- dget cell_data "triangle" ;;
    maters <- dget data "gmsh:physical" ;;
    profiles <- broadcast (length eles) (map (fun mater => if (mater =? 100)%Z then 0%Z else 1%Z) maters) ;;
    Ok (map (fun kpr => Z.of_nat (fst kpr) :: 3%Z :: fst (snd kpr) :: snd (snd kpr))
            (combine (seq 0 (length eles)) (combine profiles body))).

  (* template_input.py:39-61: the node table, with the restraints of lines 300 and 400.
     Lines 40-42 are those of preprocesor.node_writer. *)
  Definition template_nodes (set_list : list Z -> list Z) (points : mat)
             (cells : dict (list (list Z))) (cell_data : dict (dict (list Z))) : res mat :=
    nodes_array <- node_writer points ;;
    lat <- line_nodes cells cell_data 300 ;;
    nodes_array <- set_col nodes_array (set_list lat) 3 (nz (-1)) ;;
    abajo <- line_nodes cells cell_data 400 ;;
    set_col nodes_array (set_list abajo) 4 (nz (-1)).

  (* template_input.py:62-71: the load table *)
  Definition template_loads (set_list : list Z -> list Z)
             (cells : dict (list (list Z))) (cell_data : dict (dict (list Z))) : res mat :=
    flat <- line_nodes cells cell_data 500 ;;
    let nodes_carga := set_list flat in
    let ncargas := Z.of_nat (length nodes_carga) in
    let carga_total := nz (-2) in
    _ <- guard (negb (ncargas =? 0)%Z) ZeroDivisionError ;;
    Ok (map (fun n => [nz n; n0; carga_total / nz ncargas]) nodes_carga).

  (* template_input.py:34-35: the material table *)
  Definition template_mats : mat := [[nz 1; nofQ 0.30]; [nz 5; nofQ 0.30]].

  (* template_input.py:22-77: the whole script, after meshio.read.  [set_list] is list(set(.)),
     whose order is not specified. *)
  Definition template (set_list : list Z -> list Z) (fs : fsys) (points : mat)
             (cells : dict (list (list Z))) (cell_data : dict (dict (list Z))) : res fsys :=
    els_array <- template_elements cells cell_data ;;
    nodes_array <- template_nodes set_list points cells cell_data ;;
    cargas <- template_loads set_list cells cell_data ;;
    let fs := write_file fs "eles.txt" (savetxt fmt_d els_array) in
    let fs := write_file fs "loads.txt" (savetxt_columns [Col_d; Col_f 6; Col_f 6] cargas) in
    let fs := write_file fs "nodes.txt" (savetxt_columns [Col_d; Col_f 4; Col_f 4; Col_d; Col_d] nodes_array) in
    Ok (write_file fs "mater.txt" (savetxt (fmt_f 6) template_mats)).
End Template.
