(** * Model of solidspy/blochutil.py *)
From Coq Require Import String QArith ZArith Arith Bool List.
From Verif Require Import Num LinAlg.
Import ListNotations.
Local Open Scope string_scope.
Local Open Scope nat_scope.

(* cont_dof in dofs_ima (blochutil.py:51, 178) *)
Definition zin (x : Z) (l : list Z) : bool := existsb (Z.eqb x) l.

(* list.index (blochutil.py:53) *)
Fixpoint zindex (x : Z) (l : list Z) : res Z :=
  match l with
  | [] => Err (ValueError "not in list")
  | y :: t => if (x =? y)%Z then Ok 0%Z else i <- zindex x t ;; Ok (i + 1)%Z
  end.

(* blochutil.py:50-59, loop body; state is (new_num, cont) *)
Definition reassign_step (dofs_ima dofs_ref : list Z) (st : list Z * Z) (k : nat)
  : res (list Z * Z) :=
  let (new_num, cont) := st in
  let cont_dof := Z.of_nat k in
  if zin cont_dof dofs_ima then
    let cont := (cont + 1)%Z in
    i <- zindex cont_dof dofs_ima ;;
    ref_dof <- np_get dofs_ref i ;;
    if (ref_dof <? cont_dof)%Z
    then Ok (new_num ++ [ref_dof], cont)%list
    else Ok (new_num ++ [ref_dof - cont]%Z, cont)%list
  else Ok (new_num ++ [cont_dof - cont]%Z, cont)%list.

(* blochutil.py:14-60 reassign_dof_bloch *)
Definition reassign_dof_bloch (ndofs : nat) (dofs_ima dofs_ref : list Z) : res (list Z) :=
  '(new_num, _) <- foldM (reassign_step dofs_ima dofs_ref) (seq 0 ndofs) ([], 0%Z) ;;
  Ok new_num.

(* dictionary with integer keys (blochutil.py:187-188) *)
Fixpoint zdget {A} (d : list (Z * A)) (k : Z) : res A :=
  match d with
  | [] => Err KeyError
  | (k', v) :: t => if (k =? k')%Z then Ok v else zdget t k
  end.

Section Bloch.
  Context {T : Type} `{Num T}.
  Local Open Scope num_scope.

  (* complex numbers as (re, im) (blochutil.py:186) *)
  Definition cplx := (T * T)%type.
  (* sum of duplicate entries in tocsr() (blochutil.py:195-196) *)
  Definition cadd (a b : cplx) : cplx := (fst a + fst b, snd a + snd b).
  (* entry of the matrix that is not set (blochutil.py:195-196) *)
  Definition c0 : cplx := (n0, n0).

  (* coo_matrix((vals, (rows, cols)), shape=(p, q)).tocsr() by entries (blochutil.py:195-196) *)
  Definition coo_tocsr_c (p q : Z) (ents : list (Z * Z * cplx)) : res (list (list cplx)) :=
    _ <- guard ((0 <=? p)%Z && (0 <=? q)%Z &&
                forallb (fun e => let '(r, c, _) := e in
                  (0 <=? r)%Z && (r <? p)%Z && (0 <=? c)%Z && (c <? q)%Z) ents)
           (ValueError "index exceeds matrix dimensions") ;;
    Ok (map (fun i =>
          map (fun j =>
            fold_left cadd
              (map snd (filter (fun e => let '(r, c, _) := e in
                          (r =? Z.of_nat i)%Z && (c =? Z.of_nat j)%Z) ents)) c0)
            (seq 0 (Z.to_nat q))) (seq 0 (Z.to_nat p))).

  (* np.dot(wavevector, coords[a] - coords[b]) (blochutil.py:185-186) *)
  Definition phase_arg (wavevector : list T) (ca cb : list T) : res T :=
    _ <- guard (length ca =? length cb)%nat (ValueError "operands could not be broadcast") ;;
    _ <- guard (length wavevector =? length ca)%nat (ValueError "shapes not aligned") ;;
    Ok (sumn (length wavevector) (fun k => vget wavevector k * (vget ca k - vget cb k))).

  (* blochutil.py:184-192, one (image, reference) pair of nodes.  [expi x] is
     np.exp(1.0j*x). *)
  Definition bloch_pair (expi : T -> cplx) (wavevector : list T) (coords : list (list T))
             (nodes_ref_dof nodes_ima_dof : list (Z * list Z)) (new_num : list Z)
             (ir : Z * Z) : res (list (Z * Z * cplx)) :=
    let (node_ima, node_ref) := ir in
    ca <- np_get coords node_ima ;;
    cb <- np_get coords node_ref ;;
    arg <- phase_arg wavevector ca cb ;;
    let phase_shift := expi arg in
    dof_ref <- zdget nodes_ref_dof node_ref ;;
    dof_ima <- zdget nodes_ima_dof node_ima ;;
    mapM (fun ri =>
            let (cont_ref, cont_ima) := (ri : Z * Z) in
            c <- np_get new_num cont_ref ;;
            Ok (cont_ima, c, phase_shift))
         (combine dof_ref dof_ima).

  (* blochutil.py:67-196 bloch_transform_mat; only the length of dofs_ref is used *)
  Definition bloch_transform_mat (expi : T -> cplx) (wavevector : list T)
             (coords : list (list T)) (ndofs : nat) (nodes_ref nodes_ima : list Z)
             (dofs_ref dofs_ima : list Z) (nodes_ref_dof nodes_ima_dof : list (Z * list Z))
             (new_num : list Z) : res (list (list cplx)) :=
    inner <- mapM (fun k =>
               let cont_dof := Z.of_nat k in
               if zin cont_dof dofs_ima then Ok []
               else c <- np_get new_num cont_dof ;; Ok [(cont_dof, c, (n1, n0))])
               (seq 0 ndofs) ;;
    bloch <- mapM (bloch_pair expi wavevector coords nodes_ref_dof nodes_ima_dof new_num)
               (combine nodes_ima nodes_ref) ;;
    coo_tocsr_c (Z.of_nat ndofs) (Z.of_nat ndofs - Z.of_nat (length dofs_ref))
                (concat inner ++ concat bloch).
End Bloch.
Arguments cplx : clear implicits.
