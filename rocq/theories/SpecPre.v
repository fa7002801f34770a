(** * Vocabulary for the mesh generation and mesh import properties *)
From Coq Require Import String Reals List ZArith Arith.
From Verif Require Import Num Spec.
Import ListNotations.
Local Open Scope R_scope.

(** ** lattices: column [i], row [j] of a lattice of [nx + 1] columns *)
Definition lattice (nx i j : nat) : Z := Z.of_nat (j * (nx + 1) + i).
(** corners of the cell between columns c, c+1 and rows r, r+1, counterclockwise *)
Definition corners (nx c r : nat) : list Z :=
  [lattice nx c r; lattice nx (c + 1) r; lattice nx (c + 1) (r + 1); lattice nx c (r + 1)].
(** coordinates of listed nodes *)
Definition at_nodes (x y : list R) (l : list Z) : list (list R) :=
  map (fun z => [nth (Z.to_nat z) x 0; nth (Z.to_nat z) y 0]) l.
(** shoelace formula *)
Definition shoelace (p : list (list R)) : R :=
  lsum (fun ab => (nth 0 (fst ab) 0 * nth 1 (snd ab) 0 - nth 0 (snd ab) 0 * nth 1 (fst ab) 0) / 2) (combine p (tl p ++ firstn 1 p)).

(** ** imported meshes *)
(** entries of a table whose tag is [tag] *)
Fixpoint tagged {A} (rows : list A) (tags : list Z) (tag : Z) : list A :=
  match rows, tags with
  | r :: rows, t :: tags => if Z.eqb t tag then r :: tagged rows tags tag else tagged rows tags tag
  | _, _ => []
  end.
(** value of a key in a dictionary *)
Definition has_key {A} (d : list (string * A)) (k : string) (v : A) : Prop :=
  exists d1 d2, d = d1 ++ (k, v) :: d2 /\ ~ In k (map fst d1).
(** nodes of the tagged lines *)
Definition on_line (lines : list (list Z)) (tags : list Z) (tag : Z) (i : nat) : Prop :=
  exists row, In row (tagged lines tags tag) /\ In (Z.of_nat i) row.
(** what is known of list(set(.)): the same members, each once *)
Definition set_order (f : list Z -> list Z) : Prop :=
  forall l, NoDup (f l) /\ forall z, In z (f l) <-> In z l.

(** ** text files: path of a file of a folder *)
Definition inside (folder file : string) : string := (if String.eqb folder "" then file else folder ++ "/" ++ file)%string.
