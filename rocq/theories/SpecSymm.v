(** * Vocabulary: structures with a mirror line or a centre *)
From Coq Require Import Reals List ZArith Permutation.
From Verif Require Import Num LinAlg Spec SpecModel SpecOrder.
Import ListNotations.
Local Open Scope R_scope.

(** orders of the nodes of one element (by element type) that describe its mirror image *)
Definition flips (t : Z) : list (list nat) :=
  match t with
  | 1%Z => [[0; 3; 2; 1]; [1; 0; 3; 2]; [2; 1; 0; 3]; [3; 2; 1; 0]]
  | 2%Z => [[0; 2; 1; 5; 4; 3]]
  | 3%Z => [[0; 2; 1]; [1; 0; 2]; [2; 1; 0]]
  | 4%Z => [[0; 3; 2; 1; 7; 6; 5; 4; 8]; [1; 0; 3; 2; 4; 7; 6; 5; 8]; [2; 1; 0; 3; 5; 4; 7; 6; 8]; [3; 2; 1; 0; 6; 5; 4; 7; 8]]
  | 6%Z => [[0; 1]; [1; 0]]
  | _ => []
  end%nat.
(** ... and those that describe its image under a half turn *)
Definition spins (t : Z) : list (list nat) :=
  match t with
  | 1%Z => [[0; 1; 2; 3]; [1; 2; 3; 0]; [2; 3; 0; 1]; [3; 0; 1; 2]]
  | 2%Z => [[0; 1; 2; 3; 4; 5]]
  | 3%Z => [[0; 1; 2]; [1; 2; 0]; [2; 0; 1]]
  | 4%Z => [[0; 1; 2; 3; 4; 5; 6; 7; 8]; [1; 2; 3; 0; 5; 6; 7; 4; 8]; [2; 3; 0; 1; 6; 7; 4; 5; 8]; [3; 0; 1; 2; 7; 4; 5; 6; 8]]
  | 6%Z => [[0; 1]; [1; 0]]
  | _ => []
  end%nat.

(** The plane map (x, y) -> (sx x + tx, sy y + ty).  Signs (-1, 1) and (1, -1): mirror lines along the axes;
    (-1, -1): half turn about a point *)
Record signs (sx sy : R) : Prop := { sg_x : sx = 1 \/ sx = -1; sg_y : sy = 1 \/ sy = -1 }.
(** factor of direction [d] *)
Definition sgn (sx sy : R) (d : nat) : R := match d with O => sx | _ => sy end.

(** the row [e'] describes the image of the element [e] *)
Definition image (sx sy : R) (s : nat -> nat) (e e' : list Z) : Prop :=
  exists t ord, nth_error e 1 = Some t /\ nth_error e' 1 = Some t /\ nth_error e' 2 = nth_error e 2 /\
    ((sx * sy = -1 /\ In ord (flips t)) \/ (sx * sy = 1 /\ In ord (spins t))) /\
    skipn 3 e' = map (fun z => Z.of_nat (s (Z.to_nat z))) (pick 0%Z ord (skipn 3 e)).

(** the map carries the nodes, the supports and the elements of the model onto themselves; it sends node [i] to node [s i] *)
Record symmetry (sx sy tx ty : R) (s : nat -> nat) (md : model) : Prop := {
  sy_signs : signs sx sy;
  sy_node : forall i, (i < length (md_nodes md))%nat -> (s i < length (md_nodes md))%nat /\ s (s i) = i;
  sy_at : forall i, (i < length (md_nodes md))%nat ->
    ent (md_nodes md) (s i) 1 = sx * ent (md_nodes md) i 1 + tx /\ ent (md_nodes md) (s i) 2 = sy * ent (md_nodes md) i 2 + ty;
  sy_held : forall i d, (i < length (md_nodes md))%nat -> (d < 2)%nat -> ent (md_cons md) (s i) d = ent (md_cons md) i d;
  sy_elements : exists els, Permutation els (md_elements md) /\ Forall2 (image sx sy s) (md_elements md) els
}.
(** a nodal table that the map carries onto itself (c = 1) or onto its opposite (c = -1) *)
Definition follows (sx sy c : R) (s : nat -> nat) (n : nat) (f : nat -> nat -> R) : Prop :=
  forall i d, (i < n)%nat -> (d < 2)%nat -> f (s i) d = c * sgn sx sy d * f i d.

(** ** recovered strains *)
(** orders under which the points where strains are recovered go along with the nodes they are given to *)
Definition aligned (t : Z) (ord : list nat) : Prop :=
  match t with
  | 1%Z => ord = [0; 1; 2; 3]%nat
  | 2%Z => True
  | 3%Z => nth 0 ord 0%nat = 0%nat
  | _ => False
  end.
Definition kept_image (sx sy : R) (s : nat -> nat) (e e' : list Z) : Prop :=
  exists t ord, nth_error e 1 = Some t /\ nth_error e' 1 = Some t /\ nth_error e' 2 = nth_error e 2 /\
    ((sx * sy = -1 /\ In ord (flips t)) \/ (sx * sy = 1 /\ In ord (spins t))) /\ aligned t ord /\
    skipn 3 e' = map (fun z => Z.of_nat (s (Z.to_nat z))) (pick 0%Z ord (skipn 3 e)).
Definition listed_alike (sx sy : R) (s : nat -> nat) (md : model) : Prop :=
  exists els, Permutation els (md_elements md) /\ Forall2 (kept_image sx sy s) (md_elements md) els.
(** rows of a table (xx, yy, xy): those of a node and its image agree up to the signs *)
Definition rows_mirrored (sx sy c : R) (s : nat -> nat) (n : nat) (E : list (option (list R))) : Prop :=
  forall i, (i < n)%nat -> (nth i E None = None /\ nth (s i) E None = None) \/
    exists r r', nth i E None = Some r /\ nth (s i) E None = Some r' /\
      nth 0 r' 0 = c * nth 0 r 0 /\ nth 1 r' 0 = c * nth 1 r 0 /\ nth 2 r' 0 = c * (sx * sy) * nth 2 r 0.
