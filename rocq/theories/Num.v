(** * Numbers, exceptions, numpy-style indexing.

    The numeric code of SolidsPy is modelled once, for every type [T] with the
    operations of the class [Num]; it is executed on [Q] (file Tests.v) and
    reasoned about on [R].  Simplification: exact arithmetic, no binary64
    rounding; where numpy would produce inf/nan the model stops with
    [Err NonFinite]. *)
From Coq Require Import String QArith Qround Reals ZArith Bool Lia List.
Import ListNotations.

(* the number operations used by the code (+, -, *, /, comparisons, np.sqrt, astype(int)): e.g. femutil.py:575-580, postprocesor.py:608-614, assemutil.py:36 *)
Class Num (T : Type) := {
  n0 : T;
  n1 : T;
  nadd : T -> T -> T;
  nsub : T -> T -> T;
  nmul : T -> T -> T;
  ndiv : T -> T -> T;
  nopp : T -> T;
  nz   : Z -> T;          (* integer literal *)
  nofQ : Q -> T;          (* decimal literal *)
  nleb : T -> T -> bool;  (* <= *)
  nsqrt : T -> T;
  ntrunc : T -> Z         (* truncation towards zero: astype(int), int(x) *)
}.

Declare Scope num_scope.
Delimit Scope num_scope with num.
Infix "+" := nadd : num_scope.
Infix "-" := nsub : num_scope.
Infix "*" := nmul : num_scope.
Infix "/" := ndiv : num_scope.
Notation "- x" := (nopp x) : num_scope.
Arguments nofQ {T Num} _%Q.
Arguments nz {T Num} _%Z.

(** Execution instance.  [nsqrt] is exact on squares of rationals only. *)
#[export] Instance Num_Q : Num Q := {
  n0 := 0%Q;
  n1 := 1%Q;
  nadd a b := Qred (a + b);
  nsub a b := Qred (a - b);
  nmul a b := Qred (a * b);
  ndiv a b := Qred (a / b);
  nopp a := Qred (- a);
  nz z := inject_Z z;
  nofQ q := Qred q;
  nleb a b := Qle_bool a b;
  nsqrt a := Qred (Z.sqrt (Qnum a * Zpos (Qden a)) # Qden a);
  ntrunc a := Z.quot (Qnum a) (Zpos (Qden a))
}.

(* truncation of astype(int) and int(.), assemutil.py:36, 320, on the reals *)
Definition Rtrunc (x : R) : Z :=
  if Rle_dec 0 x then Int_part x else (- Int_part (- x))%Z.

(** Reasoning instance. *)
#[export] Instance Num_R : Num R := {
  n0 := 0%R;
  n1 := 1%R;
  nadd := Rplus;
  nsub := Rminus;
  nmul := Rmult;
  ndiv := Rdiv;
  nopp := Ropp;
  nz := IZR;
  nofQ := Q2R;
  nleb a b := if Rle_dec a b then true else false;
  nsqrt := R_sqrt.sqrt;
  ntrunc := Rtrunc
}.

Section NumDerived.
  Context {T : Type} `{Num T}.
  Local Open Scope num_scope.

  (* the operator < (postprocesor.py:596, femutil.py:533) *)
  Definition nltb (a b : T) : bool := negb (nleb b a).         (* a < b *)
  (* == 0 on a divisor; numpy divides anyway (uelutil.py:436-437, postprocesor.py:612) *)
  Definition nis0 (a : T) : bool := nleb a n0 && nleb n0 a.    (* a == 0 *)
  (* abs / np.abs (femutil.py:529, postprocesor.py:596, 614) *)
  Definition nabs (a : T) : T := if nleb n0 a then a else - a. (* abs(a) *)
  (* max (postprocesor.py:212, 217, 596; solids_GUI.py:70) *)
  Definition nmax (a b : T) : T := if nleb a b then b else a.  (* max(a, b) *)
  (* min (postprocesor.py:211, 217) *)
  Definition nmin (a b : T) : T := if nleb a b then a else b.  (* min(a, b) *)

  (* x**n for a literal natural exponent
     (postprocesor.py:374, femutil.py:229-300, uelutil.py:551-632) *)
  Fixpoint npow (x : T) (n : nat) : T :=
    match n with
    | O => n1
    | S O => x
    | S m => x * npow x m
    end.
End NumDerived.

(** ** Exceptions as values *)
(* raised at femutil.py:67, 443, 531, 535; gaussutil.py:101, 191, 678; assemutil.py:116; solutil.py:39; preprocesor.py:49; the others come from Python and numpy *)
Inductive exn :=
| ValueError (msg : string)
| IndexError
| TypeError
| KeyError
| LinAlgError
| ZeroDivisionError
| UnboundLocalError
| FileNotFoundError
| NonFinite.   (* not a Python exception: numpy would go on with inf or nan *)

(* outcome of a call: returned value, or exception (see exn) *)
Inductive res (A : Type) :=
| Ok (a : A)
| Err (e : exn).
Arguments Ok {A} _.
Arguments Err {A} _.

(* sequencing of statements: the first exception stops the function *)
Definition bind {A B} (x : res A) (k : A -> res B) : res B :=
  match x with
  | Ok a => k a
  | Err e => Err e
  end.

Notation "x <- e ;; k" := (bind e (fun x => k))
  (at level 61, e at next level, right associativity).
Notation "' p <- e ;; k" := (bind e (fun p => k))
  (at level 61, p pattern, e at next level, right associativity).

(* if not b: raise e (e.g. femutil.py:442-443) *)
Definition guard (b : bool) (e : exn) : res unit := if b then Ok tt else Err e.

(* list comprehension, or loop filling an array row by row (e.g. postprocesor.py:315-321) *)
Fixpoint mapM {A B} (f : A -> res B) (l : list A) : res (list B) :=
  match l with
  | [] => Ok []
  | a :: t => b <- f a ;; bs <- mapM f t ;; Ok (b :: bs)
  end.

(* for loop updating its state (e.g. assemutil.py:38-43) *)
Fixpoint foldM {A B} (f : B -> A -> res B) (l : list A) (b : B) : res B :=
  match l with
  | [] => Ok b
  | a :: t => b' <- f b a ;; foldM f t b'
  end.

(** ** numpy indexing: negative indices wrap once, anything else raises
   (used by every subscript, e.g. assemutil.py:81-87) *)
Definition np_index (n : nat) (i : Z) : option nat :=
  if (0 <=? i)%Z && (i <? Z.of_nat n)%Z then Some (Z.to_nat i)
  else if (- Z.of_nat n <=? i)%Z && (i <? 0)%Z then Some (Z.to_nat (Z.of_nat n + i))
  else None.

(* a[i] on the first axis (e.g. assemutil.py:140-142, postprocesor.py:317-321) *)
Definition np_get {A} (l : list A) (i : Z) : res A :=
  match np_index (length l) i with
  | Some k => match nth_error l k with Some a => Ok a | None => Err IndexError end
  | None => Err IndexError
  end.

(* a[i] = f (a[i]) on the first axis, [i] already normalised (e.g. assemutil.py:41, 230-231) *)
Fixpoint upd {A} (l : list A) (i : nat) (f : A -> A) : list A :=
  match l, i with
  | [], _ => []
  | a :: t, O => f a :: t
  | a :: t, S j => a :: upd t j f
  end.

(* a[i] op= ... with numpy index rules (e.g. assemutil.py:230-231, 324) *)
Definition np_upd {A} (l : list A) (i : Z) (f : A -> A) : res (list A) :=
  match np_index (length l) i with
  | Some k => Ok (upd l k f)
  | None => Err IndexError
  end.
