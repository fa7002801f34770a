(** * Vocabulary for windows and drawings *)
From Coq Require Import String Reals List ZArith.
From Verif Require Import Num LinAlg Post Draw SpecReport.
Import ListNotations.
Local Open Scope string_scope.

(** windows are numbered 1, 2, ..., as long as none was closed *)
Definition consecutive (st : windows) : Prop := forall k, In k (map fst st) <-> (1 <= k <= Z.of_nat (length st))%Z.
(** requested windows are new: by distinct labels not in use, or default numbers after 1, 2, ..., n *)
Definition new_windows (st : windows) (n : nat) (figtitle : option (list fig_id)) : Prop :=
  match figtitle with
  | None => consecutive st
  | Some l => (n <= length l)%nat /\
      exists labels, l = map ByLabel labels /\ NoDup labels /\ forall s, In s labels -> ~ In s (map snd st)
  end.
(** number of components: one for a plain array, the columns of a table *)
Definition components (field : values (T := R)) : nat :=
  match field with OneAxis _ => 1 | TwoAxes m => length (hd [] m) end.
(** component c of a field *)
Definition nodal (field : values (T := R)) (c : nat) : list R :=
  match field with OneAxis v => v | TwoAxes m => component c m end.
(** entry c of an optional list, with its default *)
Definition given (o : option (list string)) (c : nat) (dflt : string) : string :=
  match o with Some l => nth c l "" | None => dflt end.
(** the eight requests of fields_plot: window label, title, nodal values (postprocesor.py:57-75) *)
Definition requests (disp : list (list R)) (st : option (list (list R) * list (list R))) : list (string * string * list R) :=
  ([("Horizontal displacement", "$u_x$", component 0 disp); ("Vertical displacement", "$u_y$", component 1 disp)] ++
  match st with
  | None => []
  | Some (E, Sg) =>
      [("Strain epsilon-xx", "$\epsilon_{xx}$", component 0 E); ("Strain epsilon-yy", "$\epsilon_{yy}$", component 1 E);
       ("Strain gamma-xy", "$\gamma_{xy}$", component 2 E);
       ("Stress sigma-xx", "$\sigma_{xx}$", component 0 Sg); ("Stress sigma-yy", "$\sigma_{yy}$", component 1 Sg);
       ("Stress tau-xy", "$\tau_{xy}$", component 2 Sg)]
  end)%list.
(** one above the highest window in use, 1 when there is none *)
Definition next_free (st : windows) (w : Z) : Prop :=
  (forall n, In n (map fst st) -> (n < w)%Z) /\ (w = 1%Z \/ In (w - 1)%Z (map fst st)).
