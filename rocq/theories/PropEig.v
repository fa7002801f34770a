(** * Property C54 for arrays that are not symmetric: the entry [c] below the diagonal only takes part in the two tests *)
From Coq Require Import Reals List Lra.
From Verif Require Import Num LinAlg Fem Post Spec SpecPost EigAny.
Import ListNotations.
Local Open Scope R_scope.

Theorem C54_any : forall a b c d tol, 0 < tol -> let m := Rmax (largest a b d) (Rabs c) in
  (m < tol -> eigvals [[a; b]; [c; d]] tol = Ok (0, 0, None, None)) /\
  (tol <= m -> Rabs b / m < tol ->
     eigvals [[a; b]; [c; d]] tol = Ok (if Rlt_dec (Rabs a) (Rabs d) then (d, a, Some [0; 1], Some [1; 0]) else (a, d, Some [1; 0], Some [0; 1]))) /\
  (tol <= m -> tol <= Rabs b / m ->
     exists l1 l2 v1 v2, eigvals [[a; b]; [c; d]] tol = Ok (l1, l2, Some v1, Some v2) /\
       length v1 = 2%nat /\ length v2 = 2%nat /\
       tmul a b d v1 = (l1 * nth 0 v1 0, l1 * nth 1 v1 0) /\ tmul a b d v2 = (l2 * nth 0 v2 0, l2 * nth 1 v2 0) /\
       dot2 v1 v1 = 1 /\ dot2 v2 v2 = 1 /\ dot2 v1 v2 = 0 /\ Rabs l2 <= Rabs l1).
Proof. exact eig_any. Qed.
Print Assumptions C54_any.

(** [[1, 2], [3000000, -2]]: the large entry below the diagonal makes the 2 negligible *)
Example C54_case_any : let m := Rmax (largest 1 2 (-2)) (Rabs 3000000) in 1/1000000 <= m /\ Rabs 2 / m < 1/1000000 /\
  1/1000000 <= Rmax (largest 1 2 (-2)) (Rabs 5) /\ 1/1000000 <= Rabs 2 / Rmax (largest 1 2 (-2)) (Rabs 5).
Proof.
  assert (A : largest 1 2 (-2) = 2) by (unfold largest, Rabs, Rmax; repeat destruct (Rcase_abs _); repeat destruct (Rle_dec _ _); lra).
  cbv zeta. rewrite A, !Rabs_pos_eq by lra. rewrite !Rmax_right by lra. lra.
Qed.
