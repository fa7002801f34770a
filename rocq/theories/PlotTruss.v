(** * Model of plot_truss (solidspy/postprocesor.py) *)
From Coq Require Import String QArith ZArith Arith Bool List.
From Verif Require Import Num LinAlg Assem Post.
Import ListNotations.
Local Open Scope string_scope.
Local Open Scope nat_scope.

Section PlotTruss.
  Context {T : Type} `{Num T}.
  Local Open Scope num_scope.
  Local Notation vec := (@vec T).
  Local Notation mat := (@mat T).

  (** Argument of the colour map: a number, or an integer index into its table when the
      array is an integer array (postprocesor.py:215, 227). *)
  Inductive truss_color :=
  | ByValue (x : T)
  | ByIndex (n : Z).

  (** One call of plt.plot: the end points, the colour and the line width; titles, axes
      and files are not modelled (postprocesor.py:228-230). *)
  Record truss_line := mkLine {
    tl_x1 : T; tl_y1 : T; tl_x2 : T; tl_y2 : T;
    tl_color : truss_color;
    tl_width : T
  }.

  (* a.min() of a 1-D array; ValueError when empty (postprocesor.py:211, 217) *)
  Definition arr_min (a : vec) : res T :=
    match a with
    | [] => Err (ValueError "zero-size array")
    | x :: t => Ok (fold_left nmin t x)
    end.
  (* a.max() of a 1-D array; ValueError when empty (postprocesor.py:212, 217) *)
  Definition arr_max (a : vec) : res T :=
    match a with
    | [] => Err (ValueError "zero-size array")
    | x :: t => Ok (fold_left nmax t x)
    end.

  (* scaled_stress, all-zero stresses divide by zero (postprocesor.py:214-218) *)
  Definition truss_colors (elements : list (list Z)) (stresses : option vec) : res (list truss_color) :=
    match stresses with
    | None => Ok (map (fun _ => ByIndex 1) elements)
    | Some s =>
      mn <- arr_min s ;;
      mx <- arr_max s ;;
      let max_stress := nmax (- mn) mx in
      _ <- guard (negb (nis0 max_stress)) NonFinite ;;
      Ok (map (fun x => ByValue (nofQ 0.5 * (x + max_stress) / max_stress)) s)
    end.

  (* widths (postprocesor.py:211-213, 219-223) *)
  Definition truss_widths (mats : mat) (max_val min_val : T) : res vec :=
    areas <- mapM (fun row => np_get row 1) mats ;;
    min_area <- arr_min areas ;;
    max_area <- arr_max areas ;;
    Ok (if nltb (nofQ 1e-6) (max_area - min_area)
        then map (fun a => (max_val - min_val) * (a - min_area) / (max_area - min_area) + min_val) areas
        else map (fun _ => nz 3) areas).

  (* one element of the loop (postprocesor.py:225-230) *)
  Definition truss_elem (nodes : mat) (colors : list truss_color) (widths : vec) (elem : list Z)
    : res truss_line :=
    '(ini, en) <- match skipn 3 elem with
                  | [a; b] => Ok (a, b)
                  | _ => Err (ValueError "unpack")
                  end ;;
    id <- np_get elem 0 ;;
    color <- np_get colors id ;;
    x1 <- np_get2 nodes ini 1 ;;
    x2 <- np_get2 nodes en 1 ;;
    y1 <- np_get2 nodes ini 2 ;;
    y2 <- np_get2 nodes en 2 ;;
    im <- np_get elem 2 ;;
    w <- np_get widths im ;;
    Ok (mkLine x1 y1 x2 y2 color w).

  (* postprocesor.py:175-241 plot_truss, as the lines it draws *)
  Definition plot_truss (nodes : mat) (elements : list (list Z)) (mats : mat)
             (stresses : option vec) (max_val min_val : T) : res (list truss_line) :=
    colors <- truss_colors elements stresses ;;
    widths <- truss_widths mats max_val min_val ;;
    mapM (truss_elem nodes colors widths) elements.
End PlotTruss.
Arguments truss_color : clear implicits.
Arguments truss_line : clear implicits.
