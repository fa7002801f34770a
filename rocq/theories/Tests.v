(** * Validation of the model: the repository's own tests replayed on Q.

    These are tests, not proofs of the properties: they check that the model computes
    the numbers the Python tests expect (np.allclose tolerances). *)
From Coq Require Import String QArith ZArith Arith Bool List.
From Verif Require Import Num LinAlg Gauss Fem Uel Assem Post Pre TextIO Template Bloch Main.
Import ListNotations.
Local Open Scope Q_scope.

(* evaluates the test with the virtual machine while the file is compiled and fails unless
   the value is [true]; leaves no proof term *)
Ltac run_test b := let x := eval vm_compute in b in lazymatch x with true => idtac end.

Definition qclose (a b : Q) : bool := Qle_bool (Num.nabs (a - b)) (1e-8 + 1e-5 * Num.nabs b).
Fixpoint vclose (a b : list Q) : bool :=
  match a, b with
  | [], [] => true
  | x :: a', y :: b' => qclose x y && vclose a' b'
  | _, _ => false
  end.
Fixpoint mclose (a b : list (list Q)) : bool :=
  match a, b with
  | [], [] => true
  | x :: a', y :: b' => vclose x y && mclose a' b'
  | _, _ => false
  end.
Definition zmat (m : list (list Z)) : list (list Q) := map (map inject_Z) m.
Definition sc (c : Q) (m : list (list Z)) : list (list Q) := map (map (fun z => c * inject_Z z)) m.
Definition kclose (r : res (list (list Q) * massmat Q)) (k m : list (list Q)) : bool :=
  match r with
  | Ok (K, M2 M) => mclose K k && mclose M m
  | _ => false
  end.
Definition isOk {A} (r : res A) (p : A -> bool) : bool :=
  match r with Ok a => p a | Err _ => false end.
Definition isErr {A} (r : res A) : bool := match r with Ok _ => false | Err _ => true end.

(* tests/test_femutil.py *)
Definition t_tri6 : bool := let (N, dN) := shape_tri6 (1#3) (1#3) in
  vclose N (map (fun z => inject_Z z / 9) [-1; -1; -1; 4; 4; 4]%Z)
  && mclose dN (sc (1#3) [[-1; 1; 0; 0; 4; -4]; [-1; 0; 1; -4; 4; 0]]%Z).
Goal True. run_test t_tri6. exact I. Qed.
Definition t_quad9 : bool := let (N, dN) := shape_quad9 0.25 0.25 in
  vclose N [0.00878906; -0.01464844; 0.02441406; -0.01464844; -0.08789062; 0.14648438;
            0.14648438; -0.08789062; 0.87890625]
  && mclose dN [[0.0234375; -0.0703125; 0.1171875; -0.0390625; 0.046875;
            0.703125; -0.078125; -0.234375; -0.46875];
        [0.0234375; -0.0390625; 0.1171875; -0.0703125; -0.234375;
            -0.078125; 0.703125; 0.046875; -0.46875]].
Goal True. run_test t_quad9. exact I. Qed.
Definition t_quad8 : bool := forallb (fun rsk => let '(r, s, k) := rsk in
    vclose (fst (shape_quad8 r s)) (mk_vec 8 (fun j => if (j =? k)%nat then 1 else 0)))
  [(-1, -1, 0%nat); (1, -1, 1%nat); (1, 1, 2%nat); (-1, 1, 3%nat);
   (0, -1, 4%nat); (1, 0, 5%nat); (0, 1, 6%nat); (-1, 0, 7%nat)].
Goal True. run_test t_quad8. exact I. Qed.
Definition t_jac1 : bool := isOk (jacoper (sc 0.25 [[-1; 1; 1; -1]; [-1; -1; 1; 1]]%Z)
    [[-1.5; -1]; [0.5; -1]; [1.5; 1]; [-0.5; 1]])
    (fun r => qclose (fst r) 1 && mclose (snd r) [[1; 0]; [-0.5; 1]]).
Goal True. run_test t_jac1. exact I. Qed.
Definition t_jac2 : bool := isErr (jacoper (zmat [[-1; 1; 0]; [-1; 0; 1]]%Z) (zmat [[0;0];[0;0];[0;1]]%Z))
  && isErr (jacoper (zmat [[-1; 1; 0]; [-1; 0; 1]]%Z) (zmat [[0;0];[0;1];[1;0]]%Z))
  && isErr (jacoper (sc 0.25 [[-1; 1; 1; -1]; [-1; -1; 1; 1]]%Z) (zmat [[-1;1];[1;1];[1;-1];[-1;-1]]%Z))
  && isErr (jacoper (sc 0.25 [[-1; 1; 1; -1]; [-1; -1; 1; 1]]%Z) (zmat [[1;-1];[1;-1];[1;-1];[-1;1]]%Z)).
Goal True. run_test t_jac2. exact I. Qed.

(* tests/test_uelutil.py *)
Definition t_uel_tri3 : bool := kclose (elast_tri3 (zmat [[0; 0]; [1; 0]; [0; 1]]%Z) [8#3; 1#3; 1])
  (sc (1#2) [[4; 2; -3; -1; -1; -1];
       [2; 4; -1; -1; -1; -3];
       [-3; -1; 3; 0; 0; 1];
       [-1; -1; 0; 1; 1; 0];
       [-1; -1; 0; 1; 1; 0];
       [-1; -3; 1; 0; 0; 3]]%Z)
  (sc (1#24) [[2; 0; 1; 0; 1; 0];
        [0; 2; 0; 1; 0; 1];
        [1; 0; 2; 0; 1; 0];
        [0; 1; 0; 2; 0; 1];
        [1; 0; 1; 0; 2; 0];
        [0; 1; 0; 1; 0; 2]]%Z).
Goal True. run_test t_uel_tri3. exact I. Qed.
Definition t_uel_tri6 : bool := kclose (elast_tri6 [[0; 0]; [1; 0]; [0; 1]; [0.5; 0]; [0.5; 0.5]; [0; 0.5]] [8#3; 1#3; 1])
  (sc (1#6) [[12; 6; 3; 1; 1; 1; -12; -4; 0; 0; -4; -4];
        [6; 12; 1; 1; 1; 3; -4; -4; 0; 0; -4; -12];
        [3; 1; 9; 0; 0; -1; -12; -4; 0; 4; 0; 0];
        [1; 1; 0; 3; -1; 0; -4; -4; 4; 0; 0; 0];
        [1; 1; 0; -1; 3; 0; 0; 0; 0; 4; -4; -4];
        [1; 3; -1; 0; 0; 9; 0; 0; 4; 0; -4; -12];
        [-12; -4; -12; -4; 0; 0; 32; 8; -8; -8; 0; 8];
        [-4; -4; -4; -4; 0; 0; 8; 32; -8; -24; 8; 0];
        [0; 0; 0; 4; 0; 4; -8; -8; 32; 8; -24; -8];
        [0; 0; 4; 0; 4; 0; -8; -24; 8; 32; -8; -8];
        [-4; -4; 0; 0; -4; -4; 0; 8; -24; -8; 32; 8];
        [-4; -12; 0; 0; -4; -12; 8; 0; -8; -8; 8; 32]]%Z)
  (sc (1#360) [[6; 0; -1; 0; -1; 0; 0; 0; -4; 0; 0; 0];
        [0; 6; 0; -1; 0; -1; 0; 0; 0; -4; 0; 0];
        [-1; 0; 6; 0; -1; 0; 0; 0; 0; 0; -4; 0];
        [0; -1; 0; 6; 0; -1; 0; 0; 0; 0; 0; -4];
        [-1; 0; -1; 0; 6; 0; -4; 0; 0; 0; 0; 0];
        [0; -1; 0; -1; 0; 6; 0; -4; 0; 0; 0; 0];
        [0; 0; 0; 0; -4; 0; 32; 0; 16; 0; 16; 0];
        [0; 0; 0; 0; 0; -4; 0; 32; 0; 16; 0; 16];
        [-4; 0; 0; 0; 0; 0; 16; 0; 32; 0; 16; 0];
        [0; -4; 0; 0; 0; 0; 0; 16; 0; 32; 0; 16];
        [0; 0; -4; 0; 0; 0; 16; 0; 16; 0; 32; 0];
        [0; 0; 0; -4; 0; 0; 0; 16; 0; 16; 0; 32]]%Z).
Goal True. run_test t_uel_tri6. exact I. Qed.
Definition t_uel_quad4 : bool := kclose (elast_quad4 (zmat [[-1; -1]; [1; -1]; [1; 1]; [-1; 1]]%Z) [8#3; 1#3])
  (sc (1#6) [[ 8;  3; -5;  0; -4; -3;  1;  0];
         [ 3;  8;  0;  1; -3; -4;  0; -5];
         [-5;  0;  8; -3;  1;  0; -4;  3];
         [ 0;  1; -3;  8;  0; -5;  3; -4];
         [-4; -3;  1;  0;  8;  3; -5;  0];
         [-3; -4;  0; -5;  3;  8;  0;  1];
         [ 1;  0; -4;  3; -5;  0;  8; -3];
         [ 0; -5;  3; -4;  0;  1; -3;  8]]%Z)
  (sc (1#9) [[4; 0; 2; 0; 1; 0; 2; 0];
        [0; 4; 0; 2; 0; 1; 0; 2];
        [2; 0; 4; 0; 2; 0; 1; 0];
        [0; 2; 0; 4; 0; 2; 0; 1];
        [1; 0; 2; 0; 4; 0; 2; 0];
        [0; 1; 0; 2; 0; 4; 0; 2];
        [2; 0; 1; 0; 2; 0; 4; 0];
        [0; 2; 0; 1; 0; 2; 0; 4]]%Z).
Goal True. run_test t_uel_quad4. exact I. Qed.
Definition t_spring : bool := isOk (spring (zmat [[0; 0]; [1; 0]]%Z) [1])
  (fun r => mclose (fst r) (zmat [[1;0;-1;0];[0;0;0;0];[-1;0;1;0];[0;0;0;0]]%Z)).
Goal True. run_test t_spring. exact I. Qed.
Definition t_truss : bool := kclose (truss2D (zmat [[0; 0]; [1; 0]]%Z) [1; 1; 1])
  (zmat [[1;0;-1;0];[0;0;0;0];[-1;0;1;0];[0;0;0;0]]%Z)
  (sc (1#6) [[2;0;1;0];[0;2;0;1];[1;0;2;0];[0;1;0;2]]%Z).
Goal True. run_test t_truss. exact I. Qed.
Definition t_beam2DU : bool := kclose (beam2DU (zmat [[0; 0]; [1; 0]]%Z) [1; 1; 1; 1])
  (zmat [[0; 0; 0; 0; 0; 0];
        [0; 12; 6; 0; -12; 6];
        [0; 6; 4; 0; -6; 2];
        [0; 0; 0; 0; 0; 0];
        [0; -12; -6; 0; 12; -6];
        [0; 6; 2; 0; -6; 4]]%Z)
  (sc (1#420) [[0; 0; 0; 0; 0; 0];
        [0; 156; 22; 0; 54; -13];
        [0; 22; 4; 0; 13; -3];
        [0; 0; 0; 0; 0; 0];
        [0; 54; 13; 0; 156; -22];
        [0; -13; -3; 0; -22; 4]]%Z).
Goal True. run_test t_beam2DU. exact I. Qed.

(* tests/test_assemutil.py: 2x2 mesh, dense and sparse *)
Definition nodes22 := zmat [[0;-1;-1];[1;0;-1];[2;1;-1];[3;-1;0];[4;0;0];[5;1;0];[6;-1;1];[7;0;1];[8;1;1]]%Z.
Definition eles22 := [[0;1;0;0;1;4;3];[1;1;0;1;2;5;4];[2;1;0;3;4;7;6];[3;1;0;4;5;8;7]]%Z.
Definition assem22 := [[0;1;2;3;8;9;6;7];[2;3;4;5;10;11;8;9];[6;7;8;9;14;15;12;13];[8;9;10;11;16;17;14;15]]%Z.
Definition K22 := zmat [
        [8; 3; -5; 0; 0; 0; 1; 0; -4; -3; 0; 0; 0; 0; 0; 0; 0; 0];
        [3; 8; 0; 1; 0; 0; 0; -5; -3; -4; 0; 0; 0; 0; 0; 0; 0; 0];
        [-5; 0; 16; 0; -5; 0; -4; 3; 2; 0; -4; -3; 0; 0; 0; 0; 0; 0];
        [0; 1; 0; 16; 0; 1; 3; -4; 0; -10; -3; -4; 0; 0; 0; 0; 0; 0];
        [0; 0; -5; 0; 8; -3; 0; 0; -4; 3; 1; 0; 0; 0; 0; 0; 0; 0];
        [0; 0; 0; 1; -3; 8; 0; 0; 3; -4; 0; -5; 0; 0; 0; 0; 0; 0];
        [1; 0; -4; 3; 0; 0; 16; 0; -10; 0; 0; 0; 1; 0; -4; -3; 0; 0];
        [0; -5; 3; -4; 0; 0; 0; 16; 0; 2; 0; 0; 0; -5; -3; -4; 0; 0];
        [-4; -3; 2; 0; -4; 3; -10; 0; 32; 0; -10; 0; -4; 3; 2; 0; -4; -3];
        [-3; -4; 0; -10; 3; -4; 0; 2; 0; 32; 0; 2; 3; -4; 0; -10; -3; -4];
        [0; 0; -4; -3; 1; 0; 0; 0; -10; 0; 16; 0; 0; 0; -4; 3; 1; 0];
        [0; 0; -3; -4; 0; -5; 0; 0; 0; 2; 0; 16; 0; 0; 3; -4; 0; -5];
        [0; 0; 0; 0; 0; 0; 1; 0; -4; 3; 0; 0; 8; -3; -5; 0; 0; 0];
        [0; 0; 0; 0; 0; 0; 0; -5; 3; -4; 0; 0; -3; 8; 0; 1; 0; 0];
        [0; 0; 0; 0; 0; 0; -4; -3; 2; 0; -4; 3; -5; 0; 16; 0; -5; 0];
        [0; 0; 0; 0; 0; 0; -3; -4; 0; -10; 3; -4; 0; 1; 0; 16; 0; 1];
        [0; 0; 0; 0; 0; 0; 0; 0; -4; -3; 1; 0; 0; 0; -5; 0; 8; 3];
        [0; 0; 0; 0; 0; 0; 0; 0; -3; -4; 0; -5; 0; 0; 0; 1; 3; 8]]%Z.
Definition t_sparse : bool := isOk (sparse_assem eles22 [[16; 1#3]] nodes22 18 assem22 None)
  (fun KM => mclose (fst KM) K22).
Goal True. run_test t_sparse. exact I. Qed.
Definition t_dense : bool := isOk (dense_assem eles22 [[16; 1#3]] nodes22 18 assem22 None)
  (fun KM => mclose (fst KM) K22).
Goal True. run_test t_dense. exact I. Qed.
Definition t_DME : bool := isOk (DME (repeat [0; 0] 9) eles22 2 18 None)
  (fun r => let '(a, _, neq) := r in
     forallb (fun p => if list_eq_dec Z.eq_dec (firstn 8 (fst p)) (snd p) then true else false)
             (combine a assem22) && (neq =? 18)%Z).
Goal True. run_test t_DME. exact I. Qed.

(* tests/test_integration.py: the analytic solutions balance the assembled system *)
Definition residual_ok (nodes cons : list (list Q)) (eles : list (list Z))
           (mats loads : list (list Q)) (nd : nat) (u : list (list Q)) : bool :=
  isOk ('(a, bc, neq) <- DME cons eles nd 18 None ;;
        let n := Z.to_nat neq in
        '(K, _) <- assembler eles mats nodes n a true None ;;
        f <- loadasem loads bc n nd ;;
        let free := concat (map (fun p => filter (fun q => negb (snd q =? -1)%Z) (combine (fst p) (snd p)))
                                (combine u bc)) in
        uc <- complete_disp bc nodes (map fst free) nd ;;
        Ok (vclose (mvmul n n (entries K) (map fst free)) f && mclose uc u))
    (fun b => b).
Definition t_4_elements : bool := residual_ok
  (zmat [[0;0;0];[1;2;0];[2;2;2];[3;0;2];[4;1;0];[5;2;1];[6;1;2];[7;0;1];[8;1;1]]%Z)
  (zmat [[0;-1];[0;-1];[0;0];[0;0];[-1;-1];[0;0];[0;0];[0;0];[0;0]]%Z)
  [[0;1;0;0;4;8;7];[1;1;0;4;1;5;8];[2;1;0;7;8;6;3];[3;1;0;8;5;2;6]]%Z
  [[1; 0.3]] (zmat [[3;0;1];[6;0;2];[2;0;1]]%Z) 2
  [[0.6;0];[-0.6;0];[-0.6;4];[0.6;4];[0;0];[-0.6;2];[0;4];[0.6;2];[0;2]].
Goal True. run_test t_4_elements. exact I. Qed.
Definition t_2_elements : bool := residual_ok
  (zmat [[0;0;0];[1;1;0];[2;2;0];[3;0;1];[4;1;1];[5;2;1]]%Z)
  (zmat [[-1;-1];[0;0];[0;0];[-1;-1];[0;0];[0;0]]%Z)
  [[0;1;0;0;1;4;3];[1;1;0;1;2;5;4]]%Z
  [[1; 0.3]] [[2;0;-0.5];[5;0;-0.5]] 2
  (sc (1#45) [[0;0];[-273;-390];[-364;-1144];[0;0];[273;-390];[364;-1144]]%Z).
Goal True. run_test t_2_elements. exact I. Qed.

(* tests/test_postprocesor.py *)
Definition t_strain_nodes : bool := isOk (strain_nodes nodes22 eles22 [[8#3; 1#3]]
    (zmat [[0;0];[0;0];[0;0];[0;1];[0;1];[0;1];[0;2];[0;2];[0;2]]%Z))
  (fun ES => mclose (fst ES) (repeat [0;1;0] 9) && mclose (snd ES) (repeat [1;3;0] 9)).
Goal True. run_test t_strain_nodes. exact I. Qed.
(* postprocesor.py:583-593; sqrt 10 is irrational: compare against the residual instead *)
Definition t_eigvals : bool := isOk (eigvals (zmat [[3; 4]; [4; -3]]%Z) 1e-6)
  (fun r => let '(e1, e2, v1, v2) := r in qclose e1 (-5) || qclose e1 5).
Goal True. run_test t_eigvals. exact I. Qed.

(* tests/test_preprocesor.py *)
Example t_rect_grid : let '(x, y, els) := rect_grid 2 2 2 2 in
  vclose x [-1;0;1;-1;0;1;-1;0;1] && vclose y [-1;-1;-1;0;0;0;1;1;1] = true
  /\ els = eles22.
Proof. vm_compute. split; reflexivity. Qed.

(* blochutil.py:33-40 and 100-163 *)
Example t_reassign : reassign_dof_bloch 8 [2;3;4;5;6;7]%Z [0;1;0;1;0;1]%Z = Ok [0;1;0;1;0;1;0;1]%Z.
Proof. vm_compute. reflexivity. Qed.
Definition t_bloch : bool := isOk (bloch_transform_mat (fun _ => (1, 0)) [0; 0]
   (zmat [[0;0];[1;0];[0;1];[1;1]]%Z) 8 [0;0;0]%Z [1;2;3]%Z [0;1;0;1;0;1]%Z [2;3;4;5;6;7]%Z
   [(0, [0;1])]%Z [(1, [2;3]); (2, [4;5]); (3, [6;7])]%Z [0;1;0;1;0;1;0;1]%Z)
  (fun M => mclose (map (map fst) M) (zmat [[1;0];[0;1];[1;0];[0;1];[1;0];[0;1];[1;0];[0;1]]%Z)).
Goal True. run_test t_bloch. exact I. Qed.

(* text files *)
Example t_fmt : (map fmt_5_2f [3.14159; -0.005; 0.015; 123.456; -2], map fmt_d [12; -3; 0]%Z)
  = ([" 3.14"; "-0.00"; " 0.02"; "123.46"; "-2.00"], ["12"; "-3"; "0"])%string.
Proof. vm_compute. reflexivity. Qed.
Definition fs0 : fsys := fun p =>
  if String.eqb p "f/nodes.txt" then Some ("0 0 0 -1 -1" ++ String nl ("1 1.5 0 0 -1" ++ String nl ""))%string
  else if String.eqb p "f/mater.txt" then Some "2.0 .5 # E A"%string
  else if String.eqb p "f/eles.txt" then Some "0 6 0 0 1"%string
  else if String.eqb p "f/loads.txt" then Some "1 -3.5 0"%string
  else None.
Definition t_readin : bool := isOk (readin fs0 "f/")
  (fun r => let '(n, m, e, l) := r in
    mclose n [[0;0;0;-1;-1];[1;1.5;0;0;-1]] && mclose m [[2;0.5]] && mclose l [[1;-3.5;0]]
    && mclose (zmat e) [[0;6;0;0;1]]).
Goal True. run_test t_readin. exact I. Qed.
(* one bar, solved by dividing: u = f L / (E A) *)
Definition sv1 : solvers Q := {| spsolve := fun K f => Ok [Qred (vget f 0 / mget K 0 0)];
                                 npsolve := fun _ _ => Err LinAlgError |}.
Definition t_gui : bool := isOk (solids_GUI sv1 fs0 None "f/" true false None)
  (fun o => mclose (out_disp o) [[0;0];[-5.25;0]] && negb (out_warn o) && (out_neq o =? 1)%Z).
Goal True. run_test t_gui. exact I. Qed.

(* examples/square-4_elements/*.txt as they are in the repository *)
Definition fs4 : fsys := fun p =>
  if String.eqb p "nodes.txt" then Some "0  0.00  0.00   0  -1
1  2.00  0.00   0  -1
2  2.00  2.00   0   0
3  0.00  2.00   0   0
4  1.00  0.00  -1  -1
5  2.00  1.00   0   0
6  1.00  2.00   0   0
7  0.00  1.00   0   0
8  1.00  1.00   0   0
"%string
  else if String.eqb p "mater.txt" then Some "1.0  0.3

"%string
  else if String.eqb p "eles.txt" then Some "0   1   0   0   4   8   7
1   1   0   4   1   5   8
2   1   0   7   8   6   3
3   1   0   8   5   2   6
"%string
  else if String.eqb p "loads.txt" then Some "3  0.0   1.0
6  0.0   2.0
2  0.0   1.0
"%string
  else None.
Definition t_example : bool := isOk (readin fs4 "")
  (fun r => let '(n, m, e, l) := r in
    mclose n [[0;0;0;0;-1];[1;2;0;0;-1];[2;2;2;0;0];[3;0;2;0;0];[4;1;0;-1;-1];[5;2;1;0;0];[6;1;2;0;0];[7;0;1;0;0];[8;1;1;0;0]]
    && mclose m [[1;0.3]] && mclose l [[3;0;1];[6;0;2];[2;0;1]]
    && mclose (zmat e) [[0;1;0;0;4;8;7];[1;1;0;4;1;5;8];[2;1;0;7;8;6;3];[3;1;0;8;5;2;6]]).
Goal True. run_test t_example. exact I. Qed.
Definition oq (o : option Q) (q : Q) : bool := match o with Some x => Qeq_bool x q | None => false end.
Definition t_literals : bool :=
  oq (parse_dec "1e3") 1000 && oq (parse_dec "-2.5E-2") (-(1#40)) && oq (parse_dec "+.5e+1") 5 && oq (parse_dec "3.") 3
  && match parse_dec ".", parse_dec "e3", parse_dec "1e", parse_dec "--1", parse_dec "1e2.5", parse_dec "1 2", parse_dec "0x1" with None, None, None, None, None, None, None => true | _, _, _, _, _, _, _ => false end
  && match parse_int "+7", parse_int "-07", parse_int "7.0", parse_int "" with Some 7%Z, Some (-7)%Z, None, None => true | _, _, _, _ => false end.
Goal True. run_test t_literals. exact I. Qed.

(* docs/tutorials/template_input.py on a plate of two triangles *)
Definition t_template : bool :=
  match template (nodup Z.eq_dec) (fun _ => None) [[0;0];[1.25;-0.00004];[1;2.00006];[0;1]]
          [("line"%string, [[0;3];[0;1];[3;2];[2;3]]%Z); ("triangle"%string, [[0;1;2];[0;2;3]]%Z)]
          [("line"%string, [("gmsh:physical"%string, [300;400;500;500]%Z)]); ("triangle"%string, [("gmsh:physical"%string, [100;200]%Z)])] with
  | Ok fs =>
      let is p t := match fs p with Some u => String.eqb u t | None => false end in
      is "eles.txt"%string "0 3 0 0 1 2
1 3 1 0 2 3
"%string && is "nodes.txt"%string "0 0.0000 0.0000 -1 -1
1 1.2500 -0.0000 0 -1
2 1.0000 2.0001 0 0
3 0.0000 1.0000 -1 0
"%string && is "loads.txt"%string "2 0.000000 -1.000000
3 0.000000 -1.000000
"%string && is "mater.txt"%string "1.000000 0.300000
5.000000 0.300000
"%string
  | Err _ => false
  end.
Goal True. run_test t_template. exact I. Qed.
