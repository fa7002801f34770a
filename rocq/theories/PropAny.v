(** * Properties C103, C104: assembly in any arithmetic; accuracy of trusses in rounded arithmetic *)
From Coq Require Import Reals List ZArith Arith Bool Lia Lra.
From Verif Require Import Num LinAlg Fem Uel Assem Post Spec SpecModel SpecTruss SpecAny LinR AnyProofs RoundProofs RoundProofs2 ExAny ExTruss.
Import ListNotations.

(** ** C103.  For every type of numbers, no law of arithmetic assumed *)
Theorem C103_entries : forall (T : Type) (N : Num T) elements mats nodes neq assem_op uel (locs : list (tlocal T)),
  t_mesh elements mats nodes assem_op uel locs -> Forall (t_ok neq) locs ->
  exists K M, dense_assem elements mats nodes neq assem_op uel = Ok (K, M) /\ tshape neq neq K /\ tshape neq neq M /\
    forall p q, (p < neq)%nat -> (q < neq)%nat -> tent K p q = running_sum (all_terms t_K p q locs) /\ tent M p q = running_sum (all_terms t_M p q locs).
Proof. exact @any_dense. Qed.
Print Assumptions C103_entries.
Theorem C103_storage : forall (T : Type) (N : Num T) elements mats nodes neq assem_op uel (locs : list (tlocal T)),
  t_mesh elements mats nodes assem_op uel locs -> Forall (t_ok neq) locs ->
  exists K M, dense_assem elements mats nodes neq assem_op uel = Ok (K, M) /\ sparse_assem elements mats nodes neq assem_op uel = Ok (K, M).
Proof. exact @any_storage. Qed.
Print Assumptions C103_storage.
Theorem C103_symmetric : forall (T : Type) (N : Num T) elements mats nodes neq assem_op uel (locs : list (tlocal T)),
  t_mesh elements mats nodes assem_op uel locs -> Forall (t_ok neq) locs ->
  Forall (fun l => eqs_once l /\ tsymmetric (t_n l) (t_K l) /\ tsymmetric (t_n l) (t_M l)) locs ->
  exists K M, dense_assem elements mats nodes neq assem_op uel = Ok (K, M) /\ tsymmetric neq K /\ tsymmetric neq M.
Proof. exact @any_symmetric. Qed.
Print Assumptions C103_symmetric.

Local Open Scope R_scope.
(** rounded arithmetic: distance to the exact sum of the element entries *)
Theorem C103_rounding : forall u rnd elements mats nodes neq assem_op uel (locs : list (tlocal R)),
  rounding u rnd -> @t_mesh R (Num_F rnd) elements mats nodes assem_op uel locs -> Forall (@t_ok R neq) locs ->
  exists K M, @dense_assem R (Num_F rnd) elements mats nodes neq assem_op uel = Ok (K, M) /\ forall p q, (p < neq)%nat -> (q < neq)%nat ->
    let ks := @all_terms R (Num_F rnd) (@t_K R) p q locs in let ms := @all_terms R (Num_F rnd) (@t_M R) p q locs in
    Rabs (ent K p q - lsum (fun x => x) ks) <= ((1 + u) ^ length ks - 1) * lsum Rabs ks /\
    Rabs (ent M p q - lsum (fun x => x) ms) <= ((1 + u) ^ length ms - 1) * lsum Rabs ms.
Proof. exact any_rounding. Qed.
Print Assumptions C103_rounding.
(** no error where the partial sums are representable *)
Theorem C103_exact : forall rnd elements mats nodes neq assem_op uel (locs : list (tlocal R)),
  @t_mesh R (Num_F rnd) elements mats nodes assem_op uel locs -> Forall (@t_ok R neq) locs ->
  exists K M, @dense_assem R (Num_F rnd) elements mats nodes neq assem_op uel = Ok (K, M) /\ forall p q, (p < neq)%nat -> (q < neq)%nat ->
    (forall k, let s := lsum (fun x => x) (firstn k (@all_terms R (Num_F rnd) (@t_K R) p q locs)) in rnd s = s) ->
    ent K p q = lsum (fun x => x) (@all_terms R (Num_F rnd) (@t_K R) p q locs).
Proof. exact any_exact. Qed.
Print Assumptions C103_exact.
(** numbering, loads and the table of displacements are not rounded *)
Theorem C103_copied : forall rnd, @DME R (Num_F rnd) = @DME R Num_R /\ @loadasem R (Num_F rnd) = @loadasem R Num_R /\ @complete_disp R (Num_F rnd) = @complete_disp R Num_R.
Proof. exact (fun rnd => conj eq_refl (conj (any_loads rnd) eq_refl)). Qed.
Print Assumptions C103_copied.
(** the hypotheses: binary numbers of p digits; two springs in a row *)
Example C103_binary : forall p, (0 < p)%nat -> rounding (/ 2 ^ p) (binary p).
Proof. exact binary_rounding. Qed.
Example C103_case : forall rnd, @t_mesh R (Num_F rnd) two_el [[1]] two_nodes two_op (Some two_uel) two_locs /\ Forall (@t_ok R 2) two_locs /\
  Forall (fun l => eqs_once l /\ @tsymmetric R (Num_F rnd) (t_n l) (t_K l) /\ @tsymmetric R (Num_F rnd) (t_n l) (t_M l)) two_locs /\
  @dense_assem R (Num_F rnd) two_el [[1]] two_nodes 2 two_op (Some two_uel) =
    Ok ([[rnd (rnd (0 + 3) + 3); rnd (0 + -3)]; [rnd (0 + -3); rnd (0 + 3)]], [[rnd (rnd (0 + 2) + 2); rnd (0 + 1)]; [rnd (0 + 1); rnd (0 + 2)]]).
Proof. exact (fun rnd => conj (two_mesh _) (conj two_ok (conj (two_once rnd) (two_run rnd)))). Qed.

(** ** C104.  Trusses in rounded arithmetic *)
Theorem C104_bar : forall u rnd, rounding u rnd -> forall x0 y0 x1 y1, x0 <> x1 \/ y0 <> y1 -> forall young area rest,
  exists K M K' M', @truss2D R (Num_F rnd) [[x0; y0]; [x1; y1]] (young :: area :: rest) = Ok (K, M2 M) /\
    @truss2D R Num_R [[x0; y0]; [x1; y1]] (young :: area :: rest) = Ok (K', M2 M') /\
    (INR 25 * u < 1 -> entries_close (gamma 25 u) 4 K K' /\ entries_close (gamma 10 u) 4 M M').
Proof. exact truss_close. Qed.
Print Assumptions C104_bar.
Theorem C104_truss : forall u rnd, rounding u rnd -> INR 25 * u < 1 -> forall md, wf_model md -> truss_model md -> exists op bc neq Kf Mf K M,
  @DME R (Num_F rnd) (md_cons md) (md_elements md) 2 18 None = Ok (op, bc, Z.of_nat neq) /\ @DME R Num_R (md_cons md) (md_elements md) 2 18 None = Ok (op, bc, Z.of_nat neq) /\
  @dense_assem R (Num_F rnd) (md_elements md) (md_mats md) (md_nodes md) neq op None = Ok (Kf, Mf) /\
  @dense_assem R Num_R (md_elements md) (md_mats md) (md_nodes md) neq op None = Ok (K, M) /\
  forall p q, (p < neq)%nat -> (q < neq)%nat ->
    Rabs (ent Kf p q - ent K p q) <= ((1 + u) ^ length (md_elements md) * (1 + gamma 25 u) - 1) * ((ent K p p + ent K q q) / 2).
Proof. exact truss_rounded. Qed.
Print Assumptions C104_truss.
Example C104_case : wf_model brm /\ truss_model brm /\ rounding (/ 2 ^ 53) (binary 53) /\ INR 25 * / 2 ^ 53 < 1.
Proof.
  split; [exact br_wf|]. split; [exact br_truss|]. split; [apply binary_rounding; lia|].
  apply Rle_lt_trans with (25 * / 2 ^ 5); [|lra]. replace (INR 25) with 25 by (cbn; ring). apply Rmult_le_compat_l; [lra|]. apply Rinv_le_contravar; [apply pow_lt; lra|]. apply Rle_pow; [lra|lia].
Qed.
(** the stiffness of a bar need not be symmetric after rounding *)
Theorem C104_symmetric_refuted : exists u rnd coord params K M, rounding u rnd /\ @truss2D R (Num_F rnd) coord params = Ok (K, M2 M) /\ ent K 0 1 <> ent K 1 0.
Proof.
  exists (1 / 8), bump, [[0; 0]; [3; 4]], [10; 1; 1]. destruct bump_unsymmetric as (K & M & E & E1 & E2). exists K, M. split; [exact bump_rounding|]. split; [exact E|]. rewrite E1, E2. lra.
Qed.
Print Assumptions C104_symmetric_refuted.
