(** * Grammar of the input files, independent of the functions that read them *)
From Coq Require Import String Ascii Reals List ZArith Arith.
Import ListNotations.
Local Open Scope string_scope.

(** ** literals *)
(** a digit and its value *)
Definition digit_is (c : ascii) (d : Z) : Prop := exists k, (k < 10)%nat /\ c = ascii_of_nat (48 + k) /\ d = Z.of_nat k.
(** n digits and their value *)
Inductive digits : string -> Z -> nat -> Prop :=
  | digits_none : digits "" 0 0
  | digits_more c d s v n : digit_is c d -> digits s v n -> digits (String c s) (d * 10 ^ Z.of_nat n + v)%Z (S n).
(** a sign and its factor *)
Definition sign_is (s : string) (f : Z) : Prop := (s = "" /\ f = 1%Z) \/ (s = "+" /\ f = 1%Z) \/ (s = "-" /\ f = (-1)%Z).
(** an integer *)
Definition integer_is (s : string) (z : Z) : Prop :=
  exists p f t v n, s = p ++ t /\ sign_is p f /\ digits t v (S n) /\ z = (f * v)%Z.
(** 12, 12. , .5, 12.5 *)
Definition decimal_is (s : string) (x : R) : Prop :=
  (exists v n, digits s v (S n) /\ x = IZR v) \/
  (exists a v n b w m, s = a ++ "." ++ b /\ digits a v n /\ digits b w m /\ (0 < n + m)%nat /\ x = (IZR v + IZR w / 10 ^ m)%R).
(** ten to an integer power *)
Definition ten_to (e : Z) (x : R) : Prop := ((0 <= e)%Z /\ x = (10 ^ Z.to_nat e)%R) \/ ((e < 0)%Z /\ x = (/ 10 ^ Z.to_nat (- e))%R).
(** -1.5e-3 *)
Definition number_is (s : string) (x : R) : Prop :=
  exists p f t y, s = p ++ t /\ sign_is p f /\ x = (IZR f * y)%R /\
    (decimal_is t y \/
     exists a ya c b e ye, t = a ++ String c b /\ (c = "e"%char \/ c = "E"%char) /\ decimal_is a ya /\ integer_is b e /\ ten_to e ye /\ y = (ya * ye)%R).

(** ** lines *)
Definition newline (c : ascii) : Prop := c = "010"%char \/ c = "013"%char.
Definition blank (c : ascii) : Prop :=
  c = " "%char \/ c = "009"%char \/ c = "011"%char \/ c = "012"%char \/ c = "028"%char \/ c = "029"%char \/ c = "030"%char \/ c = "031"%char.
Fixpoint every (P : ascii -> Prop) (s : string) : Prop :=
  match s with EmptyString => True | String c t => P c /\ every P t end.
(** an entry: neither blank, nor newline, nor the comment sign *)
Definition word (s : string) : Prop := s <> "" /\ every (fun c => ~ blank c /\ ~ newline c /\ c <> "#"%char) s.
(** entries between blanks *)
Inductive entries : string -> list string -> Prop :=
  | entries_none : entries "" []
  | entries_blank c s l : blank c -> entries s l -> entries (String c s) l
  | entries_last w : word w -> entries w [w]
  | entries_more w c s l : word w -> blank c -> entries s l -> entries (w ++ String c s) (w :: l).
(** a line: entries, perhaps a comment *)
Definition line_is (s : string) (l : list string) : Prop :=
  entries s l \/ exists a b, s = a ++ "#" ++ b /\ entries a l /\ every (fun c => ~ newline c) b.
(** the lines of a text; those without entries do not count *)
Inductive lines_are : string -> list (list string) -> Prop :=
  | lines_last s : line_is s [] -> lines_are s []
  | lines_row s l : line_is s l -> l <> [] -> lines_are s [l]
  | lines_skip s c t r : line_is s [] -> newline c -> lines_are t r -> lines_are (s ++ String c t) r
  | lines_more s l c t r : line_is s l -> l <> [] -> newline c -> lines_are t r -> lines_are (s ++ String c t) (l :: r).
(** the text shows the table *)
Definition shows {A} (literal : string -> A -> Prop) (text : string) (tab : list (list A)) : Prop :=
  exists rows, lines_are text rows /\ Forall2 (Forall2 literal) rows tab /\
    forall r1 r2, In r1 tab -> In r2 tab -> length r1 = length r2.

(** ** written files *)
(** nearest integer, the even one of two *)
Definition nearest_even (y : R) (n : Z) : Prop := (Rabs (IZR n - y) <= 1/2)%R /\ ((Rabs (IZR n - y) = 1/2)%R -> Z.even n = true).
(** digits without a superfluous zero in front *)
Definition plain_digits (s : string) (v : Z) : Prop :=
  exists n, digits s v (S n) /\ (s = "0" \/ exists c t, s = String c t /\ c <> "0"%char).
(** an integer as written by %d *)
Definition d_is (s : string) (z : Z) : Prop := exists a, plain_digits a (Z.abs z) /\ s = (if (z <? 0)%Z then "-" else "") ++ a.
(** a number as written by %5.2f *)
Definition fixed2_is (s : string) (x : R) : Prop :=
  exists pad p a v b w, s = pad ++ p ++ a ++ "." ++ b /\
    ((x < 0)%R /\ p = "-" \/ (0 <= x)%R /\ p = "") /\ plain_digits a v /\ digits b w 2 /\ nearest_even (100 * Rabs x) (100 * v + w) /\
    every (fun c => c = " "%char) pad /\ (5 <= String.length s)%nat /\ (pad <> "" -> String.length s = 5%nat).
(** entries of a row with one blank between them *)
Inductive row_text {A} (literal : string -> A -> Prop) : string -> list A -> Prop :=
  | row_text_nil : row_text literal "" []
  | row_text_one s a : literal s a -> row_text literal s [a]
  | row_text_more s a t b l : literal s a -> row_text literal t (b :: l) -> row_text literal (s ++ " " ++ t) (a :: b :: l).
(** one line for each row *)
Inductive file_text {A} (literal : string -> A -> Prop) : string -> list (list A) -> Prop :=
  | file_text_nil : file_text literal "" []
  | file_text_row s r t tab : row_text literal s r -> file_text literal t tab -> file_text literal (s ++ String "010" t) (r :: tab).
