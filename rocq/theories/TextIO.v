(** * Model of the text files of solidspy/preprocesor.py: readin and echomod.

    numpy.savetxt and numpy.loadtxt are modelled on the subset of their behaviour
    the code relies on: one line per row, blanks between entries, '#' comments,
    blank lines skipped, every row with the same number of entries.  A missing file
    raises FileNotFoundError.  Literals are decimal, with optional sign, point and
    exponent.  Simplifications: no nan, inf or hexadecimal literals, no underscores
    between digits, the value of a literal is exact (no overflow of 1e400), integers
    written with a point are refused, ASCII text. *)
From Coq Require Import String Ascii QArith ZArith Arith Bool List.
From Coq Require Import Decimal DecimalString DecimalZ.
From Verif Require Import Num LinAlg.
Import ListNotations.
Local Open Scope string_scope.
Local Open Scope nat_scope.

(** ** Lexing *)

(* newline written by np.savetxt and read by np.loadtxt (preprocesor.py:16-29) *)
Definition nl : ascii := "010"%char.
(* ends of line of a text file, universal newlines; the empty line inside "\r\n" is
   skipped like every empty line (np.loadtxt, preprocesor.py:16-19) *)
Definition is_nl (c : ascii) : bool := (Ascii.eqb c nl) || (Ascii.eqb c "013").
(* separators of np.loadtxt: blank, tab, vertical tab, form feed, separators 28-31
   (preprocesor.py:16-19) *)
Definition is_blank (c : ascii) : bool :=
  (Ascii.eqb c " ") || (Ascii.eqb c "009") || (Ascii.eqb c "011") || (Ascii.eqb c "012")
  || (Ascii.eqb c "028") || (Ascii.eqb c "029") || (Ascii.eqb c "030") || (Ascii.eqb c "031").

(* the lines of a file (np.loadtxt, preprocesor.py:16-19) *)
Fixpoint split_lines (s : string) : list string :=
  match s with
  | EmptyString => [""]
  | String c t =>
      if is_nl c then "" :: split_lines t
      else match split_lines t with
           | [] => [String c ""]
           | l :: r => String c l :: r
           end
  end.

(* line.split('#')[0] (np.loadtxt, preprocesor.py:16-19) *)
Fixpoint strip_comment (s : string) : string :=
  match s with
  | EmptyString => ""
  | String c t => if Ascii.eqb c "#" then "" else String c (strip_comment t)
  end.

(* line.split(); [cur] is the current word, if any (np.loadtxt, preprocesor.py:16-19) *)
Fixpoint words_aux (s : string) (cur : string) : list string :=
  match s with
  | EmptyString => if String.eqb cur "" then [] else [cur]
  | String c t =>
      if is_blank c
      then (if String.eqb cur "" then words_aux t "" else cur :: words_aux t "")
      else words_aux t (cur ++ String c "")
  end.
(* line.split() (np.loadtxt, preprocesor.py:16-19) *)
Definition words (s : string) : list string := words_aux s "".

(** ** Literals *)

(* optional sign of a literal: is it negative, and the rest (np.loadtxt, preprocesor.py:16-19) *)
Definition split_sign (s : string) : bool * string :=
  match s with
  | String c t =>
      if Ascii.eqb c "-" then (true, t) else if Ascii.eqb c "+" then (false, t) else (false, s)
  | EmptyString => (false, "")
  end.

(* int(token) (np.loadtxt with dtype=int, preprocesor.py:18) *)
Definition parse_int (tok : string) : option Z :=
  let (neg, t) := split_sign tok in
  option_map (fun u => if neg then (- Z.of_uint u)%Z else Z.of_uint u) (NilZero.uint_of_string t).

(* '%d' % z (preprocesor.py:28) *)
Definition fmt_d (z : Z) : string := NilZero.string_of_int (Z.to_int z).

(* split a token at its first '.' (np.loadtxt, preprocesor.py:16-19) *)
Fixpoint split_dot (s : string) : string * option string :=
  match s with
  | EmptyString => ("", None)
  | String c t =>
      if Ascii.eqb c "." then ("", Some t)
      else let (a, b) := split_dot t in (String c a, b)
  end.

(* unsigned decimal literal, digits[.digits] (np.loadtxt, preprocesor.py:16-19) *)
Definition parse_udec (s : string) : option Q :=
  match split_dot s with
  | (a, None) => option_map (fun u => inject_Z (Z.of_uint u)) (NilZero.uint_of_string a)
  | (a, Some b) =>
      match NilEmpty.uint_of_string a, NilEmpty.uint_of_string b with
      | Some u, Some v =>
          if (String.length a + String.length b =? 0) then None
          else Some (inject_Z (Z.of_uint u) +
                     (Z.of_uint v # Pos.pow 10 (Pos.of_nat (String.length b)))
                     * (if String.length b =? 0 then 0 else 1))%Q
      | _, _ => None
      end
  end.

(* split a token at its first 'e' or 'E' (np.loadtxt, preprocesor.py:16-19) *)
Fixpoint split_e (s : string) : string * option string :=
  match s with
  | EmptyString => ("", None)
  | String c t =>
      if (Ascii.eqb c "e") || (Ascii.eqb c "E") then ("", Some t)
      else let (a, b) := split_e t in (String c a, b)
  end.

(* the factor 10**e of a literal (np.loadtxt, preprocesor.py:16-19) *)
Definition pow10 (e : Z) : Q :=
  match e with
  | Z0 => 1
  | Zpos p => Zpos (10 ^ p) # 1
  | Zneg p => 1 # (10 ^ p)
  end.

(* unsigned literal with optional exponent (np.loadtxt, preprocesor.py:16-19) *)
Definition parse_ufloat (s : string) : option Q :=
  match split_e s with
  | (a, None) => parse_udec a
  | (a, Some b) =>
      match parse_udec a, parse_int b with
      | Some q, Some e => Some (q * pow10 e)%Q
      | _, _ => None
      end
  end.

(* float(token) (np.loadtxt, preprocesor.py:16-19) *)
Definition parse_dec (s : string) : option Q :=
  let (neg, t) := split_sign s in
  option_map (fun q => if neg then Qopp q else q) (parse_ufloat t).

(** ** loadtxt / savetxt *)

(* every row has the same number of entries (np.loadtxt, preprocesor.py:16-19) *)
Definition rectangular {A} (rows : list (list A)) : bool :=
  match rows with
  | [] => true
  | r :: t => forallb (fun x => length x =? length r) t
  end.

(* np.loadtxt(file, ndmin=2) (preprocesor.py:16-19) *)
Definition loadtxt {A} (parse : string -> option A) (text : string) : res (list (list A)) :=
  let rows := filter (fun ws => negb (length ws =? 0))
                     (map (fun l => words (strip_comment l)) (split_lines text)) in
  vals <- mapM (mapM (fun tok => match parse tok with
                                 | Some a => Ok a
                                 | None => Err (ValueError "could not convert string")
                                 end)) rows ;;
  _ <- guard (rectangular vals) (ValueError "the number of columns changed") ;;
  Ok vals.

(* ' '.join (np.savetxt, preprocesor.py:26-29) *)
Fixpoint join (l : list string) : string :=
  match l with
  | [] => ""
  | [x] => x
  | x :: t => x ++ " " ++ join t
  end.

(* np.savetxt(file, rows, fmt) (preprocesor.py:26-29) *)
Definition savetxt {A} (fmt : A -> string) (rows : list (list A)) : string :=
  fold_right (fun row s => join (map fmt row) ++ String nl s) "" rows.

(** File system: path -> contents (preprocesor.py:16-29) *)
Definition fsys := string -> option string.
(* opening a file for reading (preprocesor.py:16-19) *)
Definition read_file (fs : fsys) (path : string) : res string :=
  match fs path with
  | Some s => Ok s
  | None => Err FileNotFoundError
  end.
(* opening a file for writing (preprocesor.py:26-29) *)
Definition write_file (fs : fsys) (path text : string) : fsys :=
  fun p => if String.eqb p path then Some text else fs p.

Section TextIO.
  Context {T : Type} `{Num T}.
  Local Open Scope num_scope.
  Local Notation mat := (@mat T).

  (* float(token) as a number (np.loadtxt, preprocesor.py:16-19) *)
  Definition parse_num (tok : string) : option T := option_map nofQ (parse_dec tok).

  (* preprocesor.py:14-21 readin *)
  Definition readin (fs : fsys) (folder : string)
    : res (mat * mat * list (list Z) * mat) :=
    t1 <- read_file fs (folder ++ "nodes.txt") ;;
    nodes <- loadtxt parse_num t1 ;;
    t2 <- read_file fs (folder ++ "mater.txt") ;;
    mats <- loadtxt parse_num t2 ;;
    t3 <- read_file fs (folder ++ "eles.txt") ;;
    elements <- loadtxt parse_int t3 ;;
    t4 <- read_file fs (folder ++ "loads.txt") ;;
    loads <- loadtxt parse_num t4 ;;
    Ok (nodes, mats, elements, loads).

  (* nearest integer to y >= 0, ties to even (rounding of '%5.2f', preprocesor.py:26-29) *)
  Definition round_even (y : T) : Z :=
    let k := ntrunc y in
    let frac := y - nz k in
    if nltb frac (nofQ 0.5) then k
    else if nltb (nofQ 0.5) frac then (k + 1)%Z
    else if Z.even k then k else (k + 1)%Z.

  (* pad on the left with blanks up to width w (width of '%5.2f', preprocesor.py:26-29) *)
  Definition pad_left (w : nat) (s : string) : string :=
    String.concat "" (repeat " " (w - String.length s)) ++ s.

  (* '%5.2f' % x (preprocesor.py:26, 27, 29) *)
  Definition fmt_5_2f (x : T) : string :=
    let n := round_even (nz 100 * nabs x) in
    let ip := (n / 100)%Z in
    let fp := (n mod 100)%Z in
    let body := fmt_d ip ++ "." ++ fmt_d (fp / 10)%Z ++ fmt_d (fp mod 10)%Z in
    pad_left 5 (if nltb x n0 then "-" ++ body else body).

  (* preprocesor.py:24-29 echomod *)
  Definition echomod (fs : fsys) (nodes mats : mat) (elements : list (list Z)) (loads : mat)
             (folder : string) : fsys :=
    let fs := write_file fs (folder ++ "KNODES.txt") (savetxt fmt_5_2f nodes) in
    let fs := write_file fs (folder ++ "KMATES.txt") (savetxt fmt_5_2f mats) in
    let fs := write_file fs (folder ++ "KELEMS.txt") (savetxt fmt_d elements) in
    write_file fs (folder ++ "KLOADS.txt") (savetxt fmt_5_2f loads).
End TextIO.
