(** * Property C102: the Bloch matrix describes all waves of a wave vector *)
From Coq Require Import Reals List ZArith Arith Lra Lia.
From Verif Require Import Num LinAlg Bloch Spec SpecBloch SpecWave BlochProofs WaveProofs.
Import ListNotations.
Local Open Scope R_scope.

(** the displacements T q are the ones that satisfy the Bloch conditions, each from a single q *)
Theorem C102_solutions : forall k coords n nref nima dref dima rd id new T, lattice (length k) coords n nref nima dref dima rd id ->
  reassign_dof_bloch n dima dref = Ok new -> bloch_transform_mat cis k coords n nref nima dref dima rd id new = Ok T ->
  forall u, bloch_wave k coords (pairing nref nima rd id) u <-> exists q, forall i, (i < n)%nat -> cact (n - length dref) T q i = u i.
Proof. exact wave_solutions. Qed.
Print Assumptions C102_solutions.
Theorem C102_unique : forall k coords n nref nima dref dima rd id new T, lattice (length k) coords n nref nima dref dima rd id ->
  reassign_dof_bloch n dima dref = Ok new -> bloch_transform_mat cis k coords n nref nima dref dima rd id new = Ok T ->
  forall q q', (forall i, (i < n)%nat -> cact (n - length dref) T q i = cact (n - length dref) T q' i) -> forall j, (j < n - length dref)%nat -> q j = q' j.
Proof. exact wave_unique. Qed.
Print Assumptions C102_unique.

(** T^H T is diagonal: each reduced dof counts once for itself and once for each of its images *)
Theorem C102_norm : forall k coords n nref nima dref dima rd id new T, lattice (length k) coords n nref nima dref dima rd id ->
  reassign_dof_bloch n dima dref = Ok new -> bloch_transform_mat cis k coords n nref nima dref dima rd id new = Ok T ->
  forall q, rsum n (fun i => cnorm2 (cact (n - length dref) T q i)) =
    rsum (n - length dref) (fun j => (1 + INR (images_of new (pairing nref nima rd id) j)) * cnorm2 (q j)).
Proof. exact wave_norm. Qed.
Print Assumptions C102_norm.

(** the opposite wave is the conjugate *)
Theorem C102_opposite : forall k coords n nref nima dref dima rd id new T T', lattice (length k) coords n nref nima dref dima rd id ->
  bloch_transform_mat cis k coords n nref nima dref dima rd id new = Ok T ->
  bloch_transform_mat cis (map Ropp k) coords n nref nima dref dima rd id new = Ok T' ->
  forall q i, (i < n)%nat -> cact (n - length dref) T' (fun j => cconj (q j)) i = cconj (cact (n - length dref) T q i).
Proof. exact wave_opposite. Qed.
Print Assumptions C102_opposite.

(** a vector of the reciprocal lattice (whole turns over every pair) added to the wave vector changes nothing *)
Theorem C102_reciprocal : forall k g coords n nref nima dref dima rd id new, length g = length k ->
  Forall (fun z => (0 <= z)%Z) nima -> Forall (fun z => (0 <= z)%Z) nref ->
  (forall a b, In (a, b) (combine nima nref) -> exists z, node_shift g coords a b = 2 * IZR z * PI) ->
  bloch_transform_mat cis (map (fun xy => fst xy + snd xy) (combine k g)) coords n nref nima dref dima rd id new =
  bloch_transform_mat cis k coords n nref nima dref dima rd id new.
Proof. exact wave_reciprocal. Qed.
Print Assumptions C102_reciprocal.

(** nor does moving the cell *)
Theorem C102_moved : forall k t coords coords' n nref nima dref dima rd id new, length coords' = length coords ->
  (forall i, length (nth i coords' []) = length (nth i coords [])) -> Forall (fun z => (0 <= z < Z.of_nat (length coords))%Z) nima -> Forall (fun z => (0 <= z < Z.of_nat (length coords))%Z) nref ->
  (forall i c, (i < length coords)%nat -> (c < length k)%nat -> ent coords' i c = ent coords i c + t c) ->
  bloch_transform_mat cis k coords' n nref nima dref dima rd id new = bloch_transform_mat cis k coords n nref nima dref dima rd id new.
Proof. exact wave_moved. Qed.
Print Assumptions C102_moved.

(** complete tables give a matrix *)
Theorem C102_runs : forall k coords n nref nima dref dima rd id, lattice (length k) coords n nref nima dref dima rd id ->
  exists new T, reassign_dof_bloch n dima dref = Ok new /\ bloch_transform_mat cis k coords n nref nima dref dima rd id new = Ok T.
Proof. exact wave_runs. Qed.
Print Assumptions C102_runs.

(** the lattice of the documentation; wave vectors that differ by (pi, 3 pi) *)
Example C102_case : lattice 2 cell_nodes 9 [0; 0; 0; 1; 3]%Z [2; 6; 8; 7; 5]%Z [0; 0; 0; 1; 3]%Z [2; 6; 8; 7; 5]%Z
    [(0, [0]); (1, [1]); (3, [3])]%Z [(2, [2]); (6, [6]); (8, [8]); (7, [7]); (5, [5])]%Z /\
  map (images_of [0; 1; 0; 2; 3; 3; 0; 1; 0]%Z (pairing [0; 0; 0; 1; 3] [2; 6; 8; 7; 5] [(0, [0]); (1, [1]); (3, [3])] [(2, [2]); (6, [6]); (8, [8]); (7, [7]); (5, [5])])%Z) (seq 0 4) = [3; 1; 1; 0]%nat /\
  forall a b, In (a, b) (combine [2; 6; 8; 7; 5] [0; 0; 0; 1; 3])%Z -> exists z, node_shift [PI; 3 * PI] cell_nodes a b = 2 * IZR z * PI.
Proof. exact (conj cell_lattice (conj eq_refl cell_reciprocal)). Qed.
