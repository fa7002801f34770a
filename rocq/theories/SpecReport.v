(** * Specification: what a run shows *)
From Coq Require Import String Reals List ZArith.
From Verif Require Import Num Post.
Import ListNotations.
Local Open Scope R_scope.
Local Open Scope string_scope.

(** the contours of a run: displacements, then strains, then stresses, one per component
    (titles of postprocesor.py:64-75) *)
Definition component (c : nat) (M : list (list R)) : list R := map (fun r => nth c r 0) M.
Definition shown (tri : triangulation R) (disp : list (list R)) (st : option (list (list R) * list (list R)))
  : list (string * triangulation R * list R) :=
  [("Horizontal displacement", tri, component 0 disp); ("Vertical displacement", tri, component 1 disp)] ++
  match st with
  | None => []
  | Some (E, Sg) =>
      [("Strain epsilon-xx", tri, component 0 E); ("Strain epsilon-yy", tri, component 1 E); ("Strain gamma-xy", tri, component 2 E);
       ("Stress sigma-xx", tri, component 0 Sg); ("Stress sigma-yy", tri, component 1 Sg); ("Stress tau-xy", tri, component 2 Sg)]
  end.
