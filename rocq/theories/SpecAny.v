(** * Vocabulary for assembly in any arithmetic *)
From Coq Require Import Reals List ZArith Arith Bool.
From Verif Require Import Num LinAlg Fem Uel Assem Spec.
Import ListNotations.

(** ** matrices over any type of numbers *)
Section Any.
  Context {T : Type} `{Num T}.
  Definition tent (M : list (list T)) (i j : nat) : T := nth j (nth i M []) n0.
  Definition tshape (p q : nat) (M : list (list T)) : Prop := length M = p /\ Forall (fun r => length r = q) M.
  (** an element as the assembler sees it: row of the assembly operator, stiffness, mass *)
  Record tlocal := mkT { t_op : list Z; t_K : list (list T); t_M : list (list T) }.
  Definition t_n (l : tlocal) : nat := length (t_K l).
  Definition t_eq (l : tlocal) (r : nat) : Z := nth r (t_op l) (-1)%Z.
  Definition t_ok (neq : nat) (l : tlocal) : Prop :=
    tshape (t_n l) (t_n l) (t_K l) /\ tshape (t_n l) (t_n l) (t_M l) /\ (t_n l <= length (t_op l))%nat /\
    forall r, (r < t_n l)%nat -> (-1 <= t_eq l r < Z.of_nat neq)%Z.
  Definition t_mesh (elements : list (list Z)) (mats nodes : list (list T)) (assem_op : list (list Z)) (uel : option (uel_fun T)) (locs : list tlocal) : Prop :=
    Forall2 (fun elem l => retriever elem mats nodes uel = Ok (t_K l, M2 (t_M l))) elements locs /\ assem_op = map t_op locs.
  (** the numbers added to entry (p, q), in the order of the loops: elements, local rows, local columns *)
  Definition terms (sel : tlocal -> list (list T)) (p q : nat) (l : tlocal) : list T :=
    map (fun rc => tent (sel l) (fst rc) (snd rc))
        (filter (fun rc => (t_eq l (fst rc) =? Z.of_nat p)%Z && (t_eq l (snd rc) =? Z.of_nat q)%Z) (list_prod (seq 0 (t_n l)) (seq 0 (t_n l)))).
  Definition all_terms (sel : tlocal -> list (list T)) (p q : nat) (locs : list tlocal) : list T := flat_map (terms sel p q) locs.
  (** running sum from zero, one addition after the other *)
  Definition running_sum (l : list T) : T := fold_left nadd l n0.
  (** no equation twice in an element *)
  Definition eqs_once (l : tlocal) : Prop :=
    forall r s, (r < t_n l)%nat -> (s < t_n l)%nat -> t_eq l r = t_eq l s -> t_eq l r <> (-1)%Z -> r = s.
  Definition tsymmetric (n : nat) (M : list (list T)) : Prop := forall i j, (i < n)%nat -> (j < n)%nat -> tent M i j = tent M j i.
End Any.
Arguments tlocal T : clear implicits.

(** ** rounded real arithmetic: every operation returns its exact result with a relative error of at most [u] *)
Local Open Scope R_scope.
Definition rounding (u : R) (rnd : R -> R) : Prop := 0 <= u < 1 /\ forall x, Rabs (rnd x - x) <= u * Rabs x.
Definition Num_F (rnd : R -> R) : Num R := {|
  n0 := 0; n1 := 1;
  nadd a b := rnd (a + b); nsub a b := rnd (a - b); nmul a b := rnd (a * b); ndiv a b := rnd (a / b); nopp a := - a;
  nz z := rnd (IZR z); nofQ q := rnd (Q2R q); nleb a b := @nleb R Num_R a b; nsqrt x := rnd (sqrt x); ntrunc := @ntrunc R Num_R |}.
(** accumulated relative error of [k] rounded operations *)
Definition gamma (k : nat) (u : R) : R := INR k * u / (1 - INR k * u).
(** the entries of two matrices agree up to the relative error [e] *)
Definition entries_close (e : R) (n : nat) (A B : list (list R)) : Prop :=
  shape n n A /\ shape n n B /\ forall i j, (i < n)%nat -> (j < n)%nat -> Rabs (ent A i j - ent B i j) <= e * Rabs (ent B i j).
(** numbers of [p] binary digits with an unbounded exponent: the nearest one, ties upwards (binary64: [p] = 53) *)
Definition expo (x : R) : Z := Int_part (ln (Rabs x) / ln 2).
Definition binary (p : nat) (x : R) : R :=
  if Req_EM_T x 0 then 0 else IZR (Int_part (x * powerRZ 2 (Z.of_nat p - 1 - expo x) + / 2)) * powerRZ 2 (expo x + 1 - Z.of_nat p).
