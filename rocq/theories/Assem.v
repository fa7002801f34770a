(** * Model of solidspy/assemutil.py and solidspy/solutil.py *)
From Coq Require Import String QArith ZArith Arith Bool List.
From Verif Require Import Num LinAlg Gauss Fem Uel.
Import ListNotations.
Local Open Scope string_scope.
Local Open Scope nat_scope.

(** ** Equation numbering (integers only) *)

(* assemutil.py:39-42, the inner loop over j for one row of bc_array *)
Fixpoint eq_row (ndof_node : nat) (row : list Z) (neq : Z) : res (Z * list Z) :=
  match ndof_node, row with
  | O, _ => Ok (neq, row)
  | S _, [] => Err IndexError
  | S k, b :: t =>
      if (b =? 0)%Z then
        '(neq', t') <- eq_row k t (neq + 1)%Z ;; Ok (neq', neq :: t')
      else
        '(neq', t') <- eq_row k t neq ;; Ok (neq', b :: t')
  end.

(* assemutil.py:38-42, the outer loop over the nodes *)
Fixpoint eq_rows (ndof_node : nat) (bc : list (list Z)) (neq : Z)
  : res (Z * list (list Z)) :=
  match bc with
  | [] => Ok (neq, [])
  | row :: t =>
      '(neq1, row') <- eq_row ndof_node row neq ;;
      '(neq2, t') <- eq_rows ndof_node t neq1 ;;
      Ok (neq2, row' :: t')
  end.

(* assem_op[ele, :ndof] = flat, with numpy's length test and broadcasting of a
   single value; [row] is the row of zeros being filled (assemutil.py:87) *)
Definition slice_assign (row : list Z) (ndof : nat) (flat : list Z) : res (list Z) :=
  let k := Nat.min ndof (length row) in
  if length flat =? k then Ok (flat ++ skipn k row)%list
  else match flat with
       | [v] => Ok (repeat v k ++ skipn k row)%list
       | _ => Err (ValueError "could not broadcast input array")
       end.

Section Assem.
  Context {T : Type} `{Num T}.
  Local Open Scope num_scope.
  Local Notation vec := (@vec T).
  Local Notation mat := (@mat T).
  Local Notation massmat := (massmat T).
  Local Notation uel_fun := (uel_fun T).

  (* assemutil.py:16-44 eqcounter *)
  Definition eqcounter (cons : list (list T)) (ndof_node : nat)
    : res (Z * list (list Z)) :=
    eq_rows ndof_node (map (map ntrunc) cons) 0%Z.

  (* One row of assem_op (assemutil.py:82-87).  [ndof_el] is the user callable. *)
  Definition dme_row (bc_array : list (list Z)) (ndof_el_max : nat)
             (ndof_el : option (Z -> res nat)) (elem : list Z) : res (list Z) :=
    iet <- np_get elem 1 ;;
    ndof <- match ndof_el with
            | None => '(nd, _, _) <- eletype iet ;; Ok nd
            | Some f => f iet
            end ;;
    rows <- mapM (np_get bc_array) (skipn 3 elem) ;;
    slice_assign (repeat 0%Z ndof_el_max) ndof (concat rows).

  (* assemutil.py:47-88 DME *)
  Definition DME (cons : list (list T)) (elements : list (list Z)) (ndof_node : nat)
             (ndof_el_max : nat) (ndof_el : option (Z -> res nat))
    : res (list (list Z) * list (list Z) * Z) :=
    '(neq, bc_array) <- eqcounter cons ndof_node ;;
    assem_op <- mapM (dme_row bc_array ndof_el_max ndof_el) elements ;;
    Ok (assem_op, bc_array, neq).

  (* assemutil.py:91-116 ele_fun *)
  Definition ele_fun (t : Z) : res uel_fun :=
    match t with
    | 1%Z => Ok elast_quad4
    | 2%Z => Ok elast_tri6
    | 3%Z => Ok elast_tri3
    | 4%Z => Ok elast_quad9
    | 5%Z => Ok spring
    | 6%Z => Ok truss2D
    | 7%Z => Ok beam2DU
    | 8%Z => Ok beam2D
    | _ => Err (ValueError "You entered an invalid type of element.")
    end.

  (* assemutil.py:119-146 retriever; [elem] is the row elements[ele] *)
  Definition retriever (elem : list Z) (mats nodes : mat) (uel : option uel_fun)
    : res (mat * massmat) :=
    elem_type <- np_get elem 1 ;;
    im <- np_get elem 2 ;;
    params <- np_get mats im ;;
    rows <- mapM (np_get nodes) (skipn 3 elem) ;;
    let elcoor := map (@tl T) rows in
    f <- match uel with
         | None => ele_fun elem_type
         | Some f => Ok f
         end ;;
    f elcoor params.

  (* m[i, j] (e.g. assemutil.py:230-231) *)
  Definition np_get2 (m : mat) (i j : Z) : res T :=
    row <- np_get m i ;; np_get row j.

  (* mloc[row, col]; a 1-D array has too many indices *)
  Definition mass_get (m : massmat) (i j : Z) : res T :=
    match m with
    | M2 a => np_get2 a i j
    | M1 _ => Err IndexError
    end.

  (* m[i, j] += v (assemutil.py:230-231) *)
  Definition np_add2 (m : mat) (i j : Z) (v : T) : res mat :=
    row <- np_get m i ;;
    row' <- np_upd row j (fun x => x + v) ;;
    np_upd m i (fun _ => row').

  (* assemutil.py:224-231, the double loop for one element *)
  Definition dense_elem (dme : list Z) (kloc : mat) (mloc : massmat)
             (KM : mat * mat) : res (mat * mat) :=
    let ndof := length kloc in
    foldM
      (fun KM row =>
         glob_row <- np_get dme (Z.of_nat row) ;;
         if (glob_row =? -1)%Z then Ok KM
         else
           foldM
             (fun KM col =>
                glob_col <- np_get dme (Z.of_nat col) ;;
                if (glob_col =? -1)%Z then Ok KM
                else
                  let (K, M) := (KM : mat * mat) in
                  kv <- np_get2 kloc (Z.of_nat row) (Z.of_nat col) ;;
                  K' <- np_add2 K glob_row glob_col kv ;;
                  mv <- mass_get mloc (Z.of_nat row) (Z.of_nat col) ;;
                  M' <- np_add2 M glob_row glob_col mv ;;
                  Ok (K', M'))
             (seq 0 ndof) KM)
      (seq 0 ndof) KM.

  (* for ele in range(nels): the pairs (elements[ele], assem_op[ele]); a missing row
     of assem_op raises (assemutil.py:219-223, 277-281) *)
  Definition elem_rows (elements assem_op : list (list Z)) : list (list Z * res (list Z)) :=
    map (fun i => (nth i elements [], np_get assem_op (Z.of_nat i)))
        (seq 0 (length elements)).

  (* assemutil.py:190-233 dense_assem *)
  Definition dense_assem (elements : list (list Z)) (mats nodes : mat) (neq : nat)
             (assem_op : list (list Z)) (uel : option uel_fun) : res (mat * mat) :=
    foldM
      (fun KM er =>
         let (elem, arow) := (er : list Z * res (list Z)) in
         '(kloc, mloc) <- retriever elem mats nodes uel ;;
         arow <- arow ;;
         dense_elem (firstn (length kloc) arow) kloc mloc KM)
      (elem_rows elements assem_op) (zeros neq neq, zeros neq neq).

  (* one entry (row, col, stiffness, mass) of the coordinate lists
     (assemutil.py:273-276, 288-291) *)
  Definition coo := list (Z * Z * T * T).

  (* assemutil.py:282-291, the double loop for one element *)
  Definition sparse_elem (dme : list Z) (kloc : mat) (mloc : massmat) (acc : coo)
    : res coo :=
    let ndof := length kloc in
    foldM
      (fun acc row =>
         glob_row <- np_get dme (Z.of_nat row) ;;
         if (glob_row =? -1)%Z then Ok acc
         else
           foldM
             (fun acc col =>
                glob_col <- np_get dme (Z.of_nat col) ;;
                if (glob_col =? -1)%Z then Ok acc
                else
                  kv <- np_get2 kloc (Z.of_nat row) (Z.of_nat col) ;;
                  mv <- mass_get mloc (Z.of_nat row) (Z.of_nat col) ;;
                  Ok (acc ++ [(glob_row, glob_col, kv, mv)])%list)
             (seq 0 ndof) acc)
      (seq 0 ndof) acc.

  (* scipy.sparse.coo_matrix((vals, (rows, cols)), shape=(neq, neq)).tocsr():
     indices outside 0..neq-1 raise ValueError, duplicates are summed.  The CSR
     matrix is modelled by its entries, the storage layout is not. *)
  Definition coo_tocsr (neq : nat) (ents : list (Z * Z * T)) : res mat :=
    _ <- guard (forallb (fun e => let '(r, c, _) := e in
                  (0 <=? r)%Z && (r <? Z.of_nat neq)%Z && (0 <=? c)%Z && (c <? Z.of_nat neq)%Z) ents)
           (ValueError "index exceeds matrix dimensions") ;;
    Ok (mk_mat neq neq (fun i j =>
      fold_left nadd
        (map snd (filter (fun e => let '(r, c, _) := e in
                    (r =? Z.of_nat i)%Z && (c =? Z.of_nat j)%Z) ents)) n0)).

  (* assemutil.py:236-295 sparse_assem *)
  Definition sparse_assem (elements : list (list Z)) (mats nodes : mat) (neq : nat)
             (assem_op : list (list Z)) (uel : option uel_fun) : res (mat * mat) :=
    ents <- foldM
      (fun acc er =>
         let (elem, arow) := (er : list Z * res (list Z)) in
         '(kloc, mloc) <- retriever elem mats nodes uel ;;
         arow <- arow ;;
         sparse_elem (firstn (length kloc) arow) kloc mloc acc)
      (elem_rows elements assem_op) [] ;;
    stiff <- coo_tocsr neq (map (fun e => let '(r, c, k, _) := e in (r, c, k)) ents) ;;
    mass <- coo_tocsr neq (map (fun e => let '(r, c, _, m) := e in (r, c, m)) ents) ;;
    Ok (stiff, mass).

  (** Storage class of a global matrix *)
  (* returned by assembler (assemutil.py:180-187), tested by static_sol (solutil.py:34-39) *)
  Inductive gmat :=
  | Dense (m : mat)      (* numpy.ndarray *)
  | Csr (m : mat)        (* scipy csr_matrix, by its entries *)
  | OtherMat (m : mat).  (* any other type *)

  (* assemutil.py:149-187 assembler *)
  Definition assembler (elements : list (list Z)) (mats nodes : mat) (neq : nat)
             (assem_op : list (list Z)) (sparse : bool) (uel : option uel_fun)
    : res (gmat * gmat) :=
    if sparse then
      '(k, m) <- sparse_assem elements mats nodes neq assem_op uel ;; Ok (Csr k, Csr m)
    else
      '(k, m) <- dense_assem elements mats nodes neq assem_op uel ;; Ok (Dense k, Dense m).

  (* assemutil.py:320-324, body of the loop over the loads *)
  Definition load_row (bc_array : list (list Z)) (ndof_node : nat) (rhs : vec)
             (load : list T) : res vec :=
    l0 <- np_get load 0 ;;
    let node := ntrunc l0 in
    foldM
      (fun rhs dof =>
         brow <- np_get bc_array node ;;
         dof_id <- np_get brow (Z.of_nat dof) ;;
         if (dof_id =? -1)%Z then Ok rhs
         else
           v <- np_get load (Z.of_nat dof + 1)%Z ;;
           np_upd rhs dof_id (fun _ => v))
      (seq 0 ndof_node) rhs.

  (* assemutil.py:298-325 loadasem *)
  Definition loadasem (loads : mat) (bc_array : list (list Z)) (neq : nat)
             (ndof_node : nat) : res vec :=
    foldM (load_row bc_array ndof_node) loads (vzeros neq).

  (* solutil.py:14-41 static_sol.  The two library solvers are parameters. *)
  Definition static_sol (spsolve solve : mat -> vec -> res vec) (m : gmat) (rhs : vec)
    : res vec :=
    match m with
    | Csr a => spsolve a rhs
    | Dense a => solve a rhs
    | OtherMat _ => Err TypeError
    end.
End Assem.
Arguments gmat : clear implicits.
Arguments coo : clear implicits.
