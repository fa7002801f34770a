(** * Model of the drawing calls of solidspy/postprocesor.py: tri_plot, plot_node_field, fields_plot

    matplotlib.pyplot is modelled by the list of its open windows (number and label) and by
    the calls that draw and save.  What the library does with the arrays it is handed is
    not modelled. *)
From Coq Require Import String QArith ZArith Arith Bool List.
From Coq Require Import DecimalString.
From Verif Require Import Num LinAlg Assem Post TextIO.
Import ListNotations.
Local Open Scope string_scope.
Local Open Scope nat_scope.

(** ** windows *)

(* plt.get_fignums() with the labels of the windows (postprocesor.py:157, 167) *)
Definition windows := list (Z * string).

(* argument of plt.figure: a number or a label (postprocesor.py:159, 167) *)
Inductive fig_id := ByNumber (n : Z) | ByLabel (s : string).

(* number of the window with this label, if any (plt.figure, postprocesor.py:167) *)
Fixpoint find_label (st : windows) (s : string) : option Z :=
  match st with
  | [] => None
  | (n, l) :: t => if String.eqb l s then Some n else find_label t s
  end.

(* next free number: largest plus one (plt.figure, postprocesor.py:167) *)
Definition next_num (st : windows) : Z := fold_right (fun w m => Z.max (fst w) m) 0%Z st + 1.

(* plt.figure(id): activates an open window or opens a new one (postprocesor.py:167) *)
Definition figure (st : windows) (id : fig_id) : windows * Z :=
  match id with
  | ByNumber n => if existsb (fun w => Z.eqb (fst w) n) st then (st, n) else ((st ++ [(n, "")])%list, n)
  | ByLabel s =>
      match find_label st s with
      | Some n => (st, n)
      | None => ((st ++ [(next_num st, s)])%list, next_num st)
      end
  end.

Section Draw.
  Context {T : Type} `{Num T}.
  Local Notation vec := (@vec T).
  Local Notation mat := (@mat T).

  (* the array handed to matplotlib: one or two axes (postprocesor.py:150, 163-166) *)
  Inductive values := OneAxis (v : vec) | TwoAxes (m : mat).

  (* plt.tripcolor or plt.tricontourf (postprocesor.py:103-106) *)
  Inductive draw_fun := Tripcolor | Tricontourf.

  (* one pass through tri_plot: the call, the title and the files written (postprocesor.py:103-112, 168-172) *)
  Record drawing := mkDrawing {
    dr_window : Z;
    dr_fun : draw_fun;
    dr_tri : @triangulation T;
    dr_values : values;
    dr_levels : Z;
    dr_title : string;
    dr_saved : list string
  }.

  (* postprocesor.py:80-112 tri_plot, drawing in window w; with an unknown plt_type disp_plot is unbound *)
  Definition tri_plot (w : Z) (tri : @triangulation T) (field : values) (title : string) (levels : Z)
             (savefigs : bool) (plt_type filename : string) : res drawing :=
    f <- (if String.eqb plt_type "pcolor" then Ok Tripcolor
          else if String.eqb plt_type "contourf" then Ok Tricontourf
          else Err UnboundLocalError) ;;
    Ok (mkDrawing w f tri field levels title (if savefigs then [filename] else [])).

  (* number of plots (postprocesor.py:150-153) *)
  Definition nfields (field : values) : nat :=
    match field with OneAxis _ => 1 | TwoAxes m => ncols m end.

  (* the array of plot cont (postprocesor.py:163-166) *)
  Definition current_field (field : values) (cont : nat) : res values :=
    if (nfields field =? 1)%nat then Ok field
    else match field with
         | OneAxis v => Ok field
         | TwoAxes m => col <- mapM (fun row => np_get row (Z.of_nat cont)) m ;; Ok (OneAxis col)
         end.

  (* the loop over the columns (postprocesor.py:162-172) *)
  Fixpoint plot_loop (st : windows) (conts : list nat) (tri : @triangulation T) (field : values)
           (plt_type : string) (levels : Z) (savefigs : bool)
           (title : list string) (figtitle : list fig_id) (filename : list string)
    : res (windows * list drawing) :=
    match conts with
    | [] => Ok (st, [])
    | cont :: rest =>
        cur <- current_field field cont ;;
        id <- np_get figtitle (Z.of_nat cont) ;;
        let (st1, w) := figure st id in
        ti <- np_get title (Z.of_nat cont) ;;
        fn <- np_get filename (Z.of_nat cont) ;;
        d <- tri_plot w tri cur ti levels savefigs plt_type fn ;;
        let d := if savefigs
                 then mkDrawing (dr_window d) (dr_fun d) (dr_tri d) (dr_values d) (dr_levels d) (dr_title d) (dr_saved d ++ [fn])%list
                 else d in
        '(st2, ds) <- plot_loop st1 rest tri field plt_type levels savefigs title figtitle filename ;;
        Ok (st2, d :: ds)
    end.

  (* postprocesor.py:115-172 plot_node_field *)
  Definition plot_field (st : windows) (field : values) (nodes : mat) (elements : list (list Z))
             (plt_type : string) (levels : Z) (savefigs : bool)
             (title : option (list string)) (figtitle : option (list fig_id)) (filename : option (list string))
    : res (windows * list drawing) :=
    tri <- mesh2tri nodes elements ;;
    let n := nfields field in
    let title := match title with Some l => l | None => repeat "" n end in
    let figtitle := match figtitle with
                    | Some l => l
                    | None => map (fun cont => ByNumber (Z.of_nat cont + 1)) (seq (length st) n)
                    end in
    let filename := match filename with
                    | Some l => l
                    | None => map (fun cont => "output" ++ fmt_d (Z.of_nat cont) ++ ".pdf") (seq 0 n)
                    end in
    plot_loop st (seq 0 n) tri field plt_type levels savefigs title figtitle filename.

  (* postprocesor.py:30-75 fields_plot with its windows; None: the table is printed *)
  Definition fields_draw (st : windows) (elements : list (list Z)) (nodes disp : mat) (E_nodes S_nodes : option mat)
    : res (windows * option (list drawing)) :=
    types <- mapM (fun e => np_get e 1) elements ;;
    if has_type types 5 || has_type types 6 || has_type types 7
    then Ok (st, None)
    else
      '(st1, d1) <- plot_field st (TwoAxes disp) nodes elements "contourf" 12 false
                      (Some ["$u_x$"; "$u_y$"])
                      (Some [ByLabel "Horizontal displacement"; ByLabel "Vertical displacement"]) None ;;
      '(st2, d2) <- match E_nodes with
                    | Some E => plot_field st1 (TwoAxes E) nodes elements "contourf" 12 false
                                  (Some ["$\epsilon_{xx}$"; "$\epsilon_{yy}$"; "$\gamma_{xy}$"])
                                  (Some [ByLabel "Strain epsilon-xx"; ByLabel "Strain epsilon-yy"; ByLabel "Strain gamma-xy"]) None
                    | None => Ok (st1, [])
                    end ;;
      '(st3, d3) <- match S_nodes with
                    | Some Sg => plot_field st2 (TwoAxes Sg) nodes elements "contourf" 12 false
                                  (Some ["$\sigma_{xx}$"; "$\sigma_{yy}$"; "$\tau_{xy}$"])
                                  (Some [ByLabel "Stress sigma-xx"; ByLabel "Stress sigma-yy"; ByLabel "Stress tau-xy"]) None
                    | None => Ok (st2, [])
                    end ;;
      Ok (st3, Some (d1 ++ d2 ++ d3)%list).
End Draw.
