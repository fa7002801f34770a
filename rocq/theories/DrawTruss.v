(** * Model of the window, title and file of plot_truss (solidspy/postprocesor.py) *)
From Coq Require Import String QArith ZArith Arith Bool List.
From Verif Require Import Num LinAlg Assem Post Draw PlotTruss.
Import ListNotations.
Local Open Scope string_scope.

(* plt.figure(figtitle); with None a new window without a label (postprocesor.py:224) *)
Definition figure_opt (st : windows) (figtitle : option fig_id) : windows * Z :=
  match figtitle with
  | None => ((st ++ [(next_num st, "")])%list, next_num st)
  | Some id => figure st id
  end.

Section DrawTruss.
  Context {T : Type} `{Num T}.
  Local Notation vec := (@vec T).
  Local Notation mat := (@mat T).

  (* what is drawn, where, the title and the files written (postprocesor.py:224-241) *)
  Record truss_figure := mkTrussFigure {
    tg_window : Z;
    tg_lines : list (truss_line T);
    tg_title : string;
    tg_saved : list string
  }.

  (* postprocesor.py:175-241 plot_truss with its window; a window opened before an exception is not kept *)
  Definition truss_draw (st : windows) (nodes : mat) (elements : list (list Z)) (mats : mat)
             (stresses : option vec) (max_val min_val : T) (savefigs : bool)
             (title : option string) (figtitle : option fig_id) (filename : option string)
    : res (windows * truss_figure) :=
    lines <- plot_truss nodes elements mats stresses max_val min_val ;;
    let (st1, w) := figure_opt st figtitle in
    let title := match title with Some s => s | None => "" end in
    let filename := match filename with Some s => s | None => "output.pdf" end in
    Ok (st1, mkTrussFigure w lines title (if savefigs then [filename] else [])).
End DrawTruss.
Arguments truss_figure : clear implicits.
