(** * Model of an analysis written with the functions of the package, as in the project's own scripts *)
From Coq Require Import String QArith ZArith Arith Bool List.
From Verif Require Import Num LinAlg Gauss Fem Uel Assem Post Main.
Import ListNotations.

Section Script.
  Context {T : Type} `{Num T}.
  Local Notation mat := (@mat T).

  (** The five calls of tests/test_integration.py:86-90 (two dofs per node, default arguments) and
      120-124 (three dofs per node, [sparse] False); [ndof_el_max], [ndof_el] and [uel] are the
      optional arguments of DME and assembler (assemutil.py:47, 149). *)
  Definition script (sv : solvers T) (ndof_node ndof_el_max : nat) (ndof_el : option (Z -> res nat))
             (uel : option (uel_fun T)) (sparse : bool)
             (nodes cons : mat) (elements : list (list Z)) (mats loads : mat) : res mat :=
    '(assem_op, bc_array, neq) <- DME cons elements ndof_node ndof_el_max ndof_el ;;
    let n := Z.to_nat neq in
    '(stiff, _) <- assembler elements mats nodes n assem_op sparse uel ;;
    load_vec <- loadasem loads bc_array n ndof_node ;;
    disp <- static_sol (spsolve sv) (npsolve sv) stiff load_vec ;;
    complete_disp bc_array nodes disp ndof_node.

  (** The two matrices handed to the eigenvalue solver (tests/test_integration.py:148-151, 174-177). *)
  Definition matrices (ndof_node ndof_el_max : nat) (ndof_el : option (Z -> res nat))
             (uel : option (uel_fun T)) (sparse : bool)
             (nodes cons : mat) (elements : list (list Z)) (mats : mat) : res (gmat T * gmat T) :=
    '(assem_op, bc_array, neq) <- DME cons elements ndof_node ndof_el_max ndof_el ;;
    assembler elements mats nodes (Z.to_nat neq) assem_op sparse uel.
End Script.
