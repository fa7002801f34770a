(** * Matrices as lists of rows (numpy 2-D arrays). *)
From Coq Require Import List Bool Arith.
From Verif Require Import Num.
Import ListNotations.

Section LinAlg.
  Context {T : Type} `{Num T}.
  Local Open Scope num_scope.

  (* numpy 1-D array (e.g. assemutil.py:318) *)
  Definition vec := list T.
  (* numpy 2-D array (e.g. uelutil.py:63-64) *)
  Definition mat := list (list T).

  (* element access; only used inside the bounds of the array (e.g. femutil.py:407-412) *)
  Definition vget (v : vec) (i : nat) : T := nth i v n0.
  (* 2-D element access (e.g. femutil.py:407-412) *)
  Definition mget (m : mat) (i j : nat) : T := nth j (nth i m []) n0.

  (* 1-D array given by its entries (e.g. assemutil.py:318) *)
  Definition mk_vec (n : nat) (f : nat -> T) : vec := map f (seq 0 n).
  (* 2-D array given by its entries (e.g. uelutil.py:63-64) *)
  Definition mk_mat (p q : nat) (f : nat -> nat -> T) : mat :=
    map (fun i => mk_vec q (f i)) (seq 0 p).

  (* f 0 + f 1 + ... + f (n-1) (sums inside @ and np.dot: uelutil.py:75-76, femutil.py:709) *)
  Fixpoint sumn (n : nat) (f : nat -> T) : T :=
    match n with
    | O => n0
    | S m => sumn m f + f m
    end.

  (* np.zeros([p, q]) (uelutil.py:63-64, assemutil.py:217-218) *)
  Definition zeros (p q : nat) : mat := mk_mat p q (fun _ _ => n0).
  (* np.zeros(n) (assemutil.py:318) *)
  Definition vzeros (n : nat) : vec := mk_vec n (fun _ => n0).
  (* A @ B for A of shape (p, q) and B of shape (q, r) (uelutil.py:75-76, femutil.py:404, 527) *)
  Definition mmul (p q r : nat) (A B : mat) : mat :=
    mk_mat p r (fun i j => sumn q (fun k => mget A i k * mget B k j)).
  (* A.T for A of shape (p, q) (uelutil.py:75-76, femutil.py:711) *)
  Definition mtr (p q : nat) (A : mat) : mat := mk_mat q p (fun i j => mget A j i).
  (* A + B (uelutil.py:75-76) *)
  Definition madd (p q : nat) (A B : mat) : mat :=
    mk_mat p q (fun i j => mget A i j + mget B i j).
  (* c * A (uelutil.py:75-76, 441, 498) *)
  Definition mscale (c : T) (A : mat) : mat := map (map (fun x => c * x)) A.
  (* c * v, e.g. femutil.py:193, 374 *)
  Definition vscale (c : T) (v : vec) : vec := map (fun x => c * x) v.
  (* A @ v for A of shape (p, q) (femutil.py:708, solids_GUI.py:70, postprocesor.py:683) *)
  Definition mvmul (p q : nat) (A : mat) (v : vec) : vec :=
    mk_vec p (fun i => sumn q (fun k => mget A i k * vget v k)).
  (* u . v (postprocesor.py:683) *)
  Definition vdot (n : nat) (u v : vec) : T := sumn n (fun k => vget u k * vget v k).

  (* shape of an array (number of columns, e.g. postprocesor.py:153) *)
  Definition ncols (m : mat) : nat := length (hd [] m).
  (* M[i, start::step] = v   for M of shape (p, q) (femutil.py:407-412, 448-455, 492-503) *)
  Definition set_strided (p q : nat) (M : mat) (i start step : nat) (v : vec) : mat :=
    mk_mat p q (fun a b =>
      if (a =? i) && (start <=? b) && ((b - start) mod step =? 0)
      then vget v ((b - start) / step)
      else mget M a b).
End LinAlg.
