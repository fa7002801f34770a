(** * Properties C67-C69: Bloch periodicity *)
From Coq Require Import Reals List ZArith Arith Lra Lia.
From Verif Require Import Num LinAlg Bloch Spec SpecBloch BlochProofs.
Import ListNotations.
Local Open Scope R_scope.

(** ** C67 *)
Theorem C67_rank : forall n ima ref new, reassign_dof_bloch n ima ref = Ok new ->
  length new = n /\ forall k, (k < n)%nat -> ~ In (Z.of_nat k) ima -> nth k new 0%Z = Z.of_nat (length (independent ima k)).
Proof. exact reassign_rank. Qed.
Print Assumptions C67_rank.
Theorem C67_consecutive : forall n ima ref new, reassign_dof_bloch n ima ref = Ok new ->
  map (fun k => nth k new 0%Z) (independent ima n) = map Z.of_nat (seq 0 (length (independent ima n))).
Proof. exact reassign_consecutive. Qed.
Print Assumptions C67_consecutive.
Theorem C67_runs : forall n ima ref, (length ima <= length ref)%nat -> exists new, reassign_dof_bloch n ima ref = Ok new.
Proof. exact reassign_runs. Qed.
Print Assumptions C67_runs.

Example C67_case : reassign_dof_bloch 9 [2; 6; 8; 7; 5]%Z [0; 0; 0; 1; 3]%Z = Ok [0; 1; 0; 2; 3; 3; 0; 1; 0]%Z /\ independent [2; 6; 8; 7; 5]%Z 9 = [0; 1; 3; 4]%nat.
Proof. split; reflexivity. Qed.

(** ** C68 *)
Theorem C68_refuted : exists n ima ref new d r, reassign_dof_bloch n ima ref = Ok new /\ (d < n)%nat /\ (r < n)%nat /\ In (Z.of_nat d) ima /\
  reference_of ima ref (Z.of_nat d) (Z.of_nat r) /\ ~ In (Z.of_nat r) ima /\ nth d new 0%Z <> nth r new 0%Z.
Proof. exact reassign_refuted. Qed.
Print Assumptions C68_refuted.

(** an image gets the number of its reference exactly when no image lies below an earlier
    reference, or between the image and a later reference.
    Missing for the full claim: the other cases, where it is false (C68_refuted). *)
Theorem C68_exact_partial : forall n ima ref new d r, reassign_dof_bloch n ima ref = Ok new -> (d < n)%nat -> (r < n)%nat -> In (Z.of_nat d) ima ->
  reference_of ima ref (Z.of_nat d) (Z.of_nat r) -> ~ In (Z.of_nat r) ima ->
  (nth d new 0%Z = nth r new 0%Z <->
   if (r <? d)%nat then forall m, (m < r)%nat -> ~ In (Z.of_nat m) ima else forall m, (d < m < r)%nat -> ~ In (Z.of_nat m) ima).
Proof. exact reassign_image. Qed.
Print Assumptions C68_exact_partial.

(** in the documentation example dof 7 gets the number of dof 1, dof 5 does not get that of dof 3 *)
Example C68_case : reassign_dof_bloch 9 [2; 6; 8; 7; 5]%Z [0; 0; 0; 1; 3]%Z = Ok [0; 1; 0; 2; 3; 3; 0; 1; 0]%Z /\
  reference_of [2; 6; 8; 7; 5]%Z [0; 0; 0; 1; 3]%Z 7 1 /\ reference_of [2; 6; 8; 7; 5]%Z [0; 0; 0; 1; 3]%Z 5 3.
Proof.
  split; [reflexivity|]. split.
  - exists 3%nat. split; [reflexivity|]. split; [reflexivity|]. intros m Hm. do 3 (destruct m as [|m]; [discriminate|]). lia.
  - exists 4%nat. split; [reflexivity|]. split; [reflexivity|]. intros m Hm. do 4 (destruct m as [|m]; [discriminate|]). lia.
Qed.

(** ** C69 *)
Theorem C69_periodicity : forall k coords n nref nima dref dima rd id new T,
  bloch_transform_mat cis k coords n nref nima dref dima rd id new = Ok T ->
  Forall (fun z => (0 <= z)%Z) nima -> Forall (fun z => (0 <= z)%Z) nref ->
  (forall m, In m nref -> Forall (fun z => (0 <= z)%Z) (lookup rd m)) ->
  NoDup (map b_ima (pairing nref nima rd id)) ->
  (forall p, In p (pairing nref nima rd id) -> In (b_ima p) dima) ->
  forall q, let u := cact (n - length dref) T q in
  (forall i, (i < n)%nat -> ~ In (Z.of_nat i) dima -> u i = q (Z.to_nat (nth i new 0%Z))) /\
  (forall p, In p (pairing nref nima rd id) -> (0 <= b_ima p < Z.of_nat n)%Z ->
     u (Z.to_nat (b_ima p)) = cmul (cis (shift k coords p)) (q (Z.to_nat (nth (Z.to_nat (b_ref p)) new 0%Z)))) /\
  (forall p, In p (pairing nref nima rd id) -> (0 <= b_ima p < Z.of_nat n)%Z -> (0 <= b_ref p < Z.of_nat n)%Z -> ~ In (b_ref p) dima ->
     u (Z.to_nat (b_ima p)) = cmul (cis (shift k coords p)) (u (Z.to_nat (b_ref p)))).
Proof. exact bloch_periodic. Qed.
Print Assumptions C69_periodicity.

Theorem C69_modulus : forall x z, cnorm2 (cis x) = 1 /\ cnorm2 (cmul (cis x) z) = cnorm2 z.
Proof. exact (fun x z => conj (phase_modulus x) (phase_product x z)). Qed.
Print Assumptions C69_modulus.
Theorem C69_zero : forall k coords p, (forall a, nth a k 0 = 0) -> cis (shift k coords p) = (1, 0).
Proof. exact phase_zero. Qed.
Print Assumptions C69_zero.

(** both routines run on complete tables *)
Theorem C69_runs : forall k coords n nref nima dref dima rd id,
  NoDup dima -> Forall (fun z => (0 <= z < Z.of_nat n)%Z) dima -> length dref = length dima ->
  Forall (fun z => (0 <= z < Z.of_nat (length coords))%Z) nima -> Forall (fun z => (0 <= z < Z.of_nat (length coords))%Z) nref ->
  Forall (fun row => length row = length k) coords ->
  (forall m, In m nref -> In m (map fst rd)) -> (forall m, In m nima -> In m (map fst id)) ->
  (forall p, In p (pairing nref nima rd id) -> (0 <= b_ima p < Z.of_nat n)%Z /\ (0 <= b_ref p < Z.of_nat n)%Z /\ ~ In (b_ref p) dima) ->
  exists new T, reassign_dof_bloch n dima dref = Ok new /\ bloch_transform_mat cis k coords n nref nima dref dima rd id new = Ok T /\
    length T = n /\ Forall (fun row => length row = (n - length dima)%nat) T.
Proof. exact bloch_runs. Qed.
Print Assumptions C69_runs.

(** the 3 x 3 lattice of the documentation, one dof per node: node 8 is the image of node 0 *)
Example C69_case : forall kx ky, exists new T,
  reassign_dof_bloch 9 [2; 6; 8; 7; 5]%Z [0; 0; 0; 1; 3]%Z = Ok new /\
  bloch_transform_mat cis [kx; ky] cell_nodes 9 [0; 0; 0; 1; 3]%Z [2; 6; 8; 7; 5]%Z [0; 0; 0; 1; 3]%Z [2; 6; 8; 7; 5]%Z
    [(0, [0]); (1, [1]); (3, [3])]%Z [(2, [2]); (6, [6]); (8, [8]); (7, [7]); (5, [5])]%Z new = Ok T /\
  forall q, cact 4 T q 8 = cmul (cis (2 * kx + 2 * ky)) (cact 4 T q 0) /\ cact 4 T q 5 = cmul (cis (2 * kx)) (cact 4 T q 3).
Proof.
  intros kx ky.
  assert (P : forall p, In p (pairing [0; 0; 0; 1; 3] [2; 6; 8; 7; 5] [(0, [0]); (1, [1]); (3, [3])] [(2, [2]); (6, [6]); (8, [8]); (7, [7]); (5, [5])])%Z ->
    (0 <= b_ima p < 9)%Z /\ (0 <= b_ref p < 9)%Z /\ ~ In (b_ref p) [2; 6; 8; 7; 5]%Z).
  { cbn. intros p Hp. repeat (destruct Hp as [<-|Hp]; [cbn; lia|]). destruct Hp. }
  destruct (bloch_runs [kx; ky]%R cell_nodes 9%nat [0; 0; 0; 1; 3] [2; 6; 8; 7; 5] [0; 0; 0; 1; 3] [2; 6; 8; 7; 5]
    [(0, [0]); (1, [1]); (3, [3])] [(2, [2]); (6, [6]); (8, [8]); (7, [7]); (5, [5])])%Z as [new [T [H1 [H2 _]]]].
  - repeat constructor; cbn; lia.
  - repeat constructor; lia.
  - reflexivity.
  - repeat constructor; cbn; lia.
  - repeat constructor; cbn; lia.
  - repeat constructor.
  - cbn. tauto.
  - cbn. tauto.
  - exact P.
  - exists new, T. split; [exact H1|]. split; [exact H2|]. intros q.
    destruct (bloch_periodic _ _ _ _ _ _ _ _ _ _ _ H2) with (q := q) as [_ [_ K]].
    + repeat constructor; lia.
    + repeat constructor; lia.
    + intros m [<-|[<-|[<-|[<-|[<-|[]]]]]]; repeat constructor; cbn; lia.
    + cbn. repeat constructor; cbn; lia.
    + cbn. intros p Hp. repeat (destruct Hp as [<-|Hp]; [cbn; tauto|]). destruct Hp.
    + split.
      * etransitivity; [apply (K (BP 8 0 8 0)%Z); [cbn; tauto|cbn; lia|cbn; lia|cbn; lia]|]. f_equal. f_equal. cbv -[Rplus Rminus Rmult IZR]. lra.
      * etransitivity; [apply (K (BP 5 3 5 3)%Z); [cbn; tauto|cbn; lia|cbn; lia|cbn; lia]|]. f_equal. f_equal. cbv -[Rplus Rminus Rmult IZR]. lra.
Qed.
