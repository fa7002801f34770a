(** * Model of examples/beam_convergence/beam_convergence.ipynb (lines of the notebook file) *)
From Coq Require Import String QArith ZArith Arith Bool List.
From Verif Require Import Num LinAlg Assem Pre Template.
Import ListNotations.
Local Open Scope string_scope.
Local Open Scope nat_scope.

Section Example.
  Context {T : Type} `{Num T}.
  Local Open Scope num_scope.
  Local Notation mat := (@mat T).
  Local Notation "1" := n1 : num_scope.
  Local Notation "2" := (nz 2) : num_scope.
  Local Notation "3" := (nz 3) : num_scope.
  Local Notation "6" := (nz 6) : num_scope.

  (* a / b of two Python numbers (beam_convergence.ipynb:115-128) *)
  Definition pydiv (a b : T) : res T := if nis0 b then Err ZeroDivisionError else Ok (a / b).

  (* beam_convergence.ipynb:66-135 beam_sln at one point (x, y): (u, v, exx, eyy, gammaxy) *)
  Definition beam_sln (x y nu P E I L h : T) : res (T * T * T * T * T) :=
    G <- pydiv E (2 * (1 + nu)) ;;
    let c := h / 2 in
    C1 <- pydiv (- P) (2 * E * I) ;;
    C2 <- pydiv (- (nu * P)) (6 * E * I) ;;
    C3 <- pydiv P (2 * I * G) ;;
    C4 <- pydiv (P * npow L 2) (2 * E * I) ;;
    C5 <- pydiv (- (P * npow c 2)) (2 * I * G) ;;
    let C6 := C4 + C5 in
    C7 <- pydiv (nu * P) (2 * E * I) ;;
    C8 <- pydiv P (6 * E * I) ;;
    C9 <- pydiv (- (P * npow L 2)) (2 * E * I) ;;
    C10 <- pydiv (P * npow L 3) (3 * E * I) ;;
    B1 <- pydiv (- P) (E * I) ;;
    B2 <- pydiv (nu * P) (E * I) ;;
    B3 <- pydiv P (2 * I * G) ;;
    Ok (C1 * y * npow x 2 + C2 * npow y 3 + C3 * npow y 3 + (C5 + C6) * y,
        C7 * x * npow y 2 + C8 * npow x 3 + C9 * x + C10,
        B1 * x * y,
        B2 * x * y,
        B3 * (npow y 2 - npow c 2)).

  (* a == b on floats (beam_convergence.ipynb:1836, 1839) *)
  Definition same (a b : T) : bool := nleb a b && nleb b a.

  (* beam_convergence.ipynb:1831-1840: the tables (nodes, els, loads) of one iteration, nodes with
     the flags in its columns 3 and 4 *)
  Definition beam_tables (P L h : T) (nx ny : nat) : res (mat * list (list Z) * mat) :=
    let '(x, y, els) := rect_grid L h nx ny in
    let nodes := map (fun kxy => [nz (Z.of_nat (fst kxy)); fst (snd kxy); snd (snd kxy);
                                  if same (fst (snd kxy)) (L / 2) then - n1 else n0; n0])
                     (combine (seq 0 (length x)) (combine x y)) in
    nodes <- np_upd nodes (Z.of_nat nx * (Z.of_nat ny / 2 + 1) - 1) (fun row => firstn 4 row ++ [- n1])%list ;;
    ids <- broadcast (S ny) (map (fun row => hd n0 row) (filter (fun row => same (vget row 1) (- L / 2)) nodes)) ;;
    _ <- guard (negb (ny =? 0)%nat) ZeroDivisionError ;;
    Ok (nodes, els, map (fun i => [i; n0; P / nz (Z.of_nat ny)]) ids).

  (* beam_convergence.ipynb:1843: the call ass.DME(nodes, els) of one iteration, the first use of the tables *)
  Definition beam_dme (P L h : T) (nx ny : nat) : res (list (list Z) * list (list Z) * Z) :=
    '(nodes, els, _) <- beam_tables P L h nx ny ;;
    DME nodes els 2 18 None.
End Example.
