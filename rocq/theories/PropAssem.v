(** * Properties C01-C11: numbering, assembly, loads, completion, element tables *)
From Coq Require Import String Reals List Arith Lia Lra Bool ZArith Permutation.
From Verif Require Import Num LinAlg Gauss Fem Uel Assem Post Spec SpecAssem SpecModel
  AssemProofs AssemProofs2 AssemProofs3 AssemProofs4 AssemOne ElemShape BarProofs ExModel.
Import ListNotations.
Local Open Scope R_scope.

(** ** C01 *)
Theorem C01_numbering : forall d cons, flags01 d cons ->
  exists bc, eqcounter cons d = Ok (Z.of_nat (count_free cons), bc) /\
             numbering cons bc (count_free cons).
Proof. exact eqcounter_numbering. Qed.
Print Assumptions C01_numbering.

Example C01_case : flags01 2 [[-1; -1]; [0; -1]; [0; 0]].
Proof. flags. Qed.

(** ** C02 *)
Theorem C02_assembly_operator : forall d max ndof_el cons elements,
  flags01 d cons -> Forall (good_row d max ndof_el cons) elements ->
  exists op bc, DME cons elements d max ndof_el = Ok (op, bc, Z.of_nat (count_free cons)) /\
    numbering cons bc (count_free cons) /\
    Forall2 (row_spec bc d max) elements op.
Proof. exact DME_ok. Qed.
Print Assumptions C02_assembly_operator.

Theorem C02_rejections : forall d max ndof_el cons l1 elem l2 t,
  flags01 d cons -> (2 <= d)%nat -> Forall (good_row d max ndof_el cons) l1 -> nth_error elem 1 = Some t ->
  (forall e, dofs_of ndof_el t = Err e -> DME cons (l1 ++ elem :: l2) d max ndof_el = Err e) /\
  (forall nd, dofs_of ndof_el t = Ok nd ->
     Exists (fun z => (z < - Z.of_nat (length cons) \/ Z.of_nat (length cons) <= z)%Z) (skipn 3 elem) ->
     DME cons (l1 ++ elem :: l2) d max ndof_el = Err IndexError) /\
  (forall nd, dofs_of ndof_el t = Ok nd ->
     Forall (fun z => (0 <= z < Z.of_nat (length cons))%Z) (skipn 3 elem) ->
     nd <> ((length elem - 3) * d)%nat -> (nd <= max)%nat ->
     exists m, DME cons (l1 ++ elem :: l2) d max ndof_el = Err (ValueError m)).
Proof. exact DME_err. Qed.
Print Assumptions C02_rejections.

(** the one mismatch that is not rejected: a single dof is repeated over the declared number *)
Theorem C02_single : forall max ndof_el cons elements, flags01 1 cons ->
  Forall (fun elem => exists z t nd, skipn 3 elem = [z] /\ (0 <= z < Z.of_nat (length cons))%Z /\ nth_error elem 1 = Some t /\ dofs_of ndof_el t = Ok nd /\ (nd <= max)%nat) elements ->
  exists op bc, DME cons elements 1 max ndof_el = Ok (op, bc, Z.of_nat (count_free cons)) /\ numbering cons bc (count_free cons) /\
    Forall2 (fun elem row => forall z t nd, skipn 3 elem = [z] -> nth_error elem 1 = Some t -> dofs_of ndof_el t = Ok nd ->
      row = repeat (zent bc (Z.to_nat z) 0) nd ++ repeat 0%Z (max - nd)) elements op.
Proof. exact DME_one. Qed.
Print Assumptions C02_single.

Example C02_case_single : flags01 1 [[-1]; [0]] /\
  Forall (fun elem => exists z t nd, skipn 3 elem = [z] /\ (0 <= z < 2)%Z /\ nth_error elem 1 = Some t /\ dofs_of None t = Ok nd /\ (nd <= 18)%nat) [[0; 6; 0; 1]]%Z.
Proof.
  split; [flags|]. constructor; [|constructor]. exists 1%Z, 6%Z, 4%nat. repeat split; try reflexivity; lia.
Qed.
Example C02_case :
  flags01 2 [[-1; -1]; [0; -1]; [0; 0]] /\
  Forall (good_row 2 18 None [[-1; -1]; [0; -1]; [0; 0]]) [[0; 3; 0; 0; 1; 2]; [1; 6; 0; 2; 0]]%Z.
Proof.
  split; [flags|]. all_forall; eexists; (split; [reflexivity|]; split; [reflexivity|]; split; [cbn; lia|]; all_forall; cbn; lia).
Qed.

(** ** C03 *)
Theorem C03_direct_stiffness : forall elements mats nodes neq assem_op uel locs sparse,
  locals_of elements mats nodes assem_op uel locs ->
  Forall (local_ok neq) locs ->
  exists K M, assembler elements mats nodes neq assem_op sparse uel =
      Ok (if sparse then (Csr K, Csr M) else (Dense K, Dense M)) /\
    shape neq neq K /\ shape neq neq M /\
    forall p q, (p < neq)%nat -> (q < neq)%nat ->
       ent K p q = lsum (fun l => scatter l (l_K l) p q) locs /\
       ent M p q = lsum (fun l => scatter l (l_M l) p q) locs.
Proof. exact assembler_ok. Qed.
Print Assumptions C03_direct_stiffness.

Example C03_case :
  locals_of ex_elements ex_mats ex_nodes ex_op (Some ex_uel) ex_locs /\ Forall (local_ok 2) ex_locs.
Proof. exact (conj ex_locals ex_locals_ok). Qed.

(** ** C04 *)
Theorem C04_sparse_dense : forall elements mats nodes neq assem_op uel,
  op_in_range elements mats nodes neq assem_op uel ->
  match assembler elements mats nodes neq assem_op true uel,
        assembler elements mats nodes neq assem_op false uel with
  | Ok (Csr k, Csr m), Ok (Dense k', Dense m') => k = k' /\ m = m'
  | Err e, Err e' => e = e'
  | _, _ => False
  end.
Proof. exact assembler_agree. Qed.
Print Assumptions C04_sparse_dense.

Example C04_case : op_in_range ex_elements ex_mats ex_nodes 2 ex_op (Some ex_uel) /\
  exists gk gm, assembler ex_elements ex_mats ex_nodes 2 ex_op true (Some ex_uel) = Ok (gk, gm).
Proof. exact (conj (locals_op_in_range _ _ _ _ _ _ _ ex_locals ex_locals_ok) (ex_assembled true)). Qed.

(** ** C05 *)
Theorem C05_element_order : forall elements mats nodes neq assem_op uel elements' assem_op' sparse KM,
  length elements = length assem_op -> length elements' = length assem_op' ->
  Permutation (combine elements assem_op) (combine elements' assem_op') ->
  op_in_range elements mats nodes neq assem_op uel ->
  assembler elements mats nodes neq assem_op sparse uel = Ok KM ->
  assembler elements' mats nodes neq assem_op' sparse uel = Ok KM.
Proof. exact assembler_perm. Qed.
Print Assumptions C05_element_order.

Example C05_case : Permutation (combine ex_elements ex_op) (combine (rev ex_elements) (rev ex_op)).
Proof. cbn. apply perm_swap. Qed.

(** ** C06 (meshes of the built-in elements: C06_builtin in PropElem) *)
Theorem C06_inherited : forall elements mats nodes neq assem_op uel locs sparse gk gm,
  locals_of elements mats nodes assem_op uel locs -> Forall (local_ok neq) locs ->
  assembler elements mats nodes neq assem_op sparse uel = Ok (gk, gm) ->
  (Forall (fun l => symmetric (l_n l) (l_K l)) locs -> symmetric neq (fst (mats_of (gk, gm)))) /\
  (Forall (fun l => symmetric (l_n l) (l_M l)) locs -> symmetric neq (snd (mats_of (gk, gm)))) /\
  (Forall (fun l => psd (l_n l) (l_K l)) locs -> psd neq (fst (mats_of (gk, gm)))) /\
  (Forall (fun l => psd (l_n l) (l_M l)) locs -> psd neq (snd (mats_of (gk, gm)))).
Proof. exact assembled_sym_psd. Qed.
Print Assumptions C06_inherited.

Example C06_case : Forall (fun l => symmetric (l_n l) (l_K l) /\ psd (l_n l) (l_K l)) ex_locs.
Proof. exact ex_sym_psd. Qed.

(** ** C07 *)
Theorem C07_global_action : forall elements mats nodes neq assem_op uel locs sparse gk gm,
  locals_of elements mats nodes assem_op uel locs -> Forall (local_ok neq) locs ->
  assembler elements mats nodes neq assem_op sparse uel = Ok (gk, gm) ->
  (forall u p, (p < neq)%nat ->
     act neq (fst (mats_of (gk, gm))) u p =
     lsum (fun l => rsum (l_n l) (fun r => if (l_eq l r =? Z.of_nat p)%Z
                                          then act (l_n l) (l_K l) (gather l u) r else 0)) locs) /\
  (forall u v, form neq (fst (mats_of (gk, gm))) u v =
     lsum (fun l => form (l_n l) (l_K l) (gather l u) (gather l v)) locs) /\
  (forall u v, form neq (snd (mats_of (gk, gm))) u v =
     lsum (fun l => form (l_n l) (l_M l) (gather l u) (gather l v)) locs).
Proof. exact assembled_action. Qed.
Print Assumptions C07_global_action.

Example C07_case : exists gk gm,
  assembler ex_elements ex_mats ex_nodes 2 ex_op false (Some ex_uel) = Ok (gk, gm).
Proof. exact (ex_assembled false). Qed.

(** ** C08 *)
Theorem C08_loads : forall cons d bc neq loads,
  flags01 d cons -> numbering cons bc neq ->
  Forall (fun row => (d < length row)%nat /\ exists n, (n < length cons)%nat /\ nth 0 row 0 = INR n) loads ->
  exists rhs, loadasem loads bc neq d = Ok rhs /\ length rhs = neq /\
    forall i j, (i < length cons)%nat -> (j < d)%nat -> ent cons i j = 0 ->
      nth (Z.to_nat (zent bc i j)) rhs 0 = applied loads i j.
Proof. exact loadasem_applied. Qed.
Print Assumptions C08_loads.

(** what [applied] is: 0 without a row, the last row of the node otherwise *)
Theorem C08_no_row : forall loads i d,
  (forall r, In r loads -> nth 0 r 0 <> INR i) -> applied loads i d = 0.
Proof. exact applied_no_row. Qed.
Print Assumptions C08_no_row.

Theorem C08_last_row : forall l1 row l2 i d, nth 0 row 0 = INR i ->
  (forall r, In r l2 -> nth 0 r 0 <> INR i) -> applied (l1 ++ row :: l2) i d = nth (d + 1) row 0.
Proof. exact applied_last. Qed.
Print Assumptions C08_last_row.

Example C08_case :
  flags01 2 [[-1; 0]; [0; 0]] /\ numbering [[-1; 0]; [0; 0]] [[-1; 0]; [1; 2]]%Z 3 /\
  Forall (fun row => (2 < length row)%nat /\ exists n, (n < 2)%nat /\ nth 0 row 0 = INR n)
    [[0; 5; 6]; [1; 7; 8]].
Proof.
  split; [flags|]. split.
  - split; [|reflexivity]. repeat constructor; intros; lra || lia.
  - all_forall; (split; [cbn; lia|]).
    + exists 0%nat. split; [cbn; lia|reflexivity].
    + exists 1%nat. split; [cbn; lia|reflexivity].
Qed.

(** ** C09: false of the code.  Full statement: for all load tables, replacing a row
    (node, f + g) by the rows (node, f) and (node, g) leaves the right-hand side unchanged. *)
Theorem C09_loads_accumulate_refuted :
  exists (cons : list (list R)) bc neq,
    flags01 2 cons /\ numbering cons bc neq /\
    loadasem [[0; 1; 2]; [0; 3; 4]] bc neq 2 = Ok [3; 4] /\
    loadasem [[0; 1 + 3; 2 + 4]] bc neq 2 = Ok [1 + 3; 2 + 4] /\
    [3; 4] <> [1 + 3; 2 + 4].
Proof. exact loads_overwrite. Qed.
Print Assumptions C09_loads_accumulate_refuted.

(** what holds: tables on disjoint sets of nodes superpose (missing: rows for the same node) *)
Theorem C09_loads_accumulate_partial : forall cons d bc neq l1 l2 f1 f2 f,
  flags01 d cons -> numbering cons bc neq ->
  Forall (fun row => (d < length row)%nat /\ exists n, (n < length cons)%nat /\ nth 0 row 0 = INR n) (l1 ++ l2) ->
  (forall r1 r2, In r1 l1 -> In r2 l2 -> nth 0 r1 0 <> nth 0 r2 0) ->
  loadasem l1 bc neq d = Ok f1 -> loadasem l2 bc neq d = Ok f2 -> loadasem (l1 ++ l2) bc neq d = Ok f ->
  forall p, (p < neq)%nat -> nth p f 0 = nth p f1 0 + nth p f2 0.
Proof. exact loads_disjoint. Qed.
Print Assumptions C09_loads_accumulate_partial.

Example C09_case : forall r1 r2 : list R, In r1 [[0; 5; 6]] -> In r2 [[1; 7; 8]] -> nth 0 r1 0 <> nth 0 r2 0.
Proof. intros r1 r2 [<-|[]] [<-|[]]. cbn. lra. Qed.

(** ** C10 *)
Theorem C10_complete_disp : forall cons d bc neq (nodes : list (list R)) sol,
  flags01 d cons -> numbering cons bc neq -> length nodes = length cons -> length sol = neq ->
  exists U, complete_disp bc nodes sol d = Ok U /\ shape (length nodes) d U /\
    (forall i j, (i < length nodes)%nat -> (j < d)%nat ->
       (ent cons i j = -1 -> ent U i j = 0) /\
       (ent cons i j = 0 -> ent U i j = nth (Z.to_nat (zent bc i j)) sol 0)) /\
    (forall i j i' j', (i < length nodes)%nat -> (j < d)%nat -> (i' < length nodes)%nat -> (j' < d)%nat ->
       ent cons i j = 0 -> ent cons i' j' = 0 -> zent bc i j = zent bc i' j' -> i = i' /\ j = j').
Proof. exact complete_disp_cons. Qed.
Print Assumptions C10_complete_disp.

Example C10_case : numbering [[-1; 0]; [0; 0]] [[-1; 0]; [1; 2]]%Z 3 /\ length [10; 20; 30] = 3%nat.
Proof. split; [|reflexivity]. split; [|reflexivity]. repeat constructor; intros; lra || lia. Qed.

(** ** C11 *)
Theorem C11_types : forall t,
  ((1 <= t <= 8)%Z ->
     exists nd nn ng f, eletype t = Ok (nd, nn, ng) /\ @ele_fun R Num_R t = Ok f /\
       (nd = nn * (if (7 <=? t)%Z then 3 else 2))%nat) /\
  (~ (1 <= t <= 8)%Z ->
     (exists m, eletype t = Err (ValueError m)) /\ (exists m, @ele_fun R Num_R t = Err (ValueError m))).
Proof. exact types_table. Qed.
Print Assumptions C11_types.

Theorem C11_shapes : forall t f nd nn ng coord params k m,
  @ele_fun R Num_R t = Ok f -> eletype t = Ok (nd, nn, ng) -> f coord params = Ok (k, M2 m) ->
  shape nd nd k /\ shape nd nd m.
Proof. exact types_shape. Qed.
Print Assumptions C11_shapes.

(** the third entry is the number of points of the rule the stiffness routine uses; the bars integrate in closed form and say 3 *)
Theorem C11_points :
  (forall t rule, In (t, rule) [(1%Z, @gauss_nd R Num_R 2 2); (2%Z, gauss_tri 3); (3%Z, gauss_tri 2); (4%Z, gauss_nd 3 2)] ->
     exists nd nn pts wts, rule = Ok (pts, wts) /\ eletype t = Ok (nd, nn, length pts) /\ length wts = length pts) /\
  (forall t, (5 <= t <= 8)%Z -> exists nd, eletype t = Ok (nd, 2%nat, 3%nat)).
Proof. exact points_table. Qed.
Print Assumptions C11_points.

Example C11_case : exists k m, truss2D [[0; 0]; [1; 0]] [2; 3] = Ok (k, M2 m).
Proof. do 2 eexists. apply truss_unfold. apply axis_ok. left. lra. Qed.
