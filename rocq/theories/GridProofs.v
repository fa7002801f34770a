(** * Proofs about rect_grid *)
From Coq Require Import String QArith Reals List ZArith Arith Lra Lia.
From Verif Require Import Num LinAlg Fem Uel Pre Spec SpecElem SpecModel SpecPost SpecPre LinR Base ShapeProofs ElemCore Elem2 Elem2Props ElemFinal3 PostProofs.
Import ListNotations.
Local Open Scope R_scope.

Lemma flat_map_const_length {A B} (f : A -> list B) l n : (forall a, In a l -> length (f a) = n) -> length (flat_map f l) = (length l * n)%nat.
Proof.
  induction l as [|a l IH]; intros H; [reflexivity|]. cbn [flat_map length]. rewrite app_length, IH by (intros; apply H; now right).
  rewrite (H a) by now left. reflexivity.
Qed.

Lemma flat_map_nth {A B} (f : A -> list B) l n (da : A) (db : B) : (forall a, In a l -> length (f a) = n) ->
  forall j i, (j < length l)%nat -> (i < n)%nat -> nth (j * n + i) (flat_map f l) db = nth i (f (nth j l da)) db.
Proof.
  induction l as [|a l IH]; intros H j i Hj Hi; [cbn in Hj; lia|]. cbn [flat_map].
  assert (La : length (f a) = n) by (apply H; now left).
  destruct j as [|j].
  - cbn [Nat.mul Nat.add nth]. rewrite app_nth1 by lia. reflexivity.
  - rewrite app_nth2 by (cbn [Nat.mul]; lia). cbn [nth]. rewrite <- (IH (fun b h => H b (or_intror h)) j i) by (cbn in Hj; lia).
    f_equal. cbn [Nat.mul]. lia.
Qed.

Lemma mgrid_length (len : R) n : length (mgrid_axis len n) = S n.
Proof. unfold mgrid_axis. now rewrite map_length, seq_length. Qed.

Lemma mgrid_nth (len : R) n i : (1 <= n)%nat -> (i <= n)%nat -> nth i (mgrid_axis len n) 0 = - len / 2 + INR i * (len / INR n).
Proof.
  intros Hn Hi. unfold mgrid_axis. rewrite (map_nth_def _ _ _ 0%nat) by (rewrite seq_length; lia). rewrite seq_nth by lia.
  cbn [Nat.add]. destruct n as [|n]; [lia|]. numR. rewrite <- !INR_IZR_INZ.
  assert (INR (S n) <> 0) by (apply not_0_INR; lia). field. assumption.
Qed.

Section Grid.
  Variables (L H : R) (nx ny : nat).
  Hypothesis Hx : (1 <= nx)%nat.
  Hypothesis Hy : (1 <= ny)%nat.
  Let x := fst (fst (rect_grid L H nx ny)).
  Let y := snd (fst (rect_grid L H nx ny)).
  Let els := snd (rect_grid L H nx ny).

  Lemma grid_sizes : length x = ((nx + 1) * (ny + 1))%nat /\ length y = ((nx + 1) * (ny + 1))%nat /\ length els = (nx * ny)%nat.
  Proof.
    unfold x, y, els, rect_grid. cbn [fst snd]. repeat split.
    - rewrite (flat_map_const_length _ _ (S nx)) by (intros; apply mgrid_length). rewrite mgrid_length. lia.
    - rewrite (flat_map_const_length _ _ (S nx)) by (intros; rewrite map_length; apply mgrid_length). rewrite mgrid_length. lia.
    - rewrite (flat_map_const_length _ _ nx) by (intros; now rewrite map_length, seq_length). rewrite seq_length. lia.
  Qed.

  Lemma grid_nodes i j : (i <= nx)%nat -> (j <= ny)%nat ->
    nth (Z.to_nat (lattice nx i j)) x 0 = - L / 2 + INR i * (L / INR nx) /\
    nth (Z.to_nat (lattice nx i j)) y 0 = - H / 2 + INR j * (H / INR ny).
  Proof.
    intros Hi Hj. unfold lattice. rewrite Nat2Z.id. replace (nx + 1)%nat with (S nx) by lia. unfold x, y, rect_grid. cbn [fst snd]. split.
    - rewrite (flat_map_nth _ _ (S nx) 0) by (try (intros; apply mgrid_length); rewrite ?mgrid_length; lia).
      apply mgrid_nth; assumption.
    - rewrite (flat_map_nth _ _ (S nx) 0) by (try (intros; rewrite map_length; apply mgrid_length); rewrite ?mgrid_length; lia).
      rewrite (map_nth_def _ _ _ 0) by (rewrite mgrid_length; lia). apply mgrid_nth; assumption.
  Qed.

  Lemma grid_cells c r : (c < nx)%nat -> (r < ny)%nat ->
    nth (r * nx + c) els [] = [Z.of_nat (r * nx + c); 1; 0]%Z ++ corners nx c r.
  Proof.
    intros Hc Hr. unfold els, rect_grid. cbn [snd].
    rewrite (flat_map_nth _ _ nx 0%nat) by (try (intros; now rewrite map_length, seq_length); rewrite ?seq_length; lia).
    rewrite seq_nth by lia. cbn [Nat.add].
    rewrite (map_nth_def _ _ _ 0%nat) by (rewrite seq_length; lia).
    rewrite seq_nth by lia. cbn [Nat.add app corners]. unfold corners, lattice.
    repeat (f_equal; try lia).
  Qed.
End Grid.

Lemma lattice_inj nx i j i' j' : (i <= nx)%nat -> (i' <= nx)%nat -> lattice nx i j = lattice nx i' j' -> i = i' /\ j = j'.
Proof.
  unfold lattice. intros Hi Hi' E. apply Nat2Z.inj in E.
  assert (j = j') by nia. subst. split; [lia|reflexivity].
Qed.

Lemma corners_nodup nx c r : (c < nx)%nat -> NoDup (corners nx c r).
Proof.
  intros Hc. unfold corners.
  assert (D : forall i j i' j', (i <= nx)%nat -> (i' <= nx)%nat -> (i <> i' \/ j <> j') -> lattice nx i j <> lattice nx i' j').
  { intros i j i' j' Hi Hi' Hd E. apply lattice_inj in E; [|assumption..]. lia. }
  repeat (constructor; [cbn [In]; intros K; repeat (destruct K as [K|K]; [symmetry in K; revert K; apply D; lia|]); exact K|]). constructor.
Qed.

Lemma corners_in nx c r z : In z (corners nx c r) <-> exists i j, (c <= i <= c + 1)%nat /\ (r <= j <= r + 1)%nat /\ z = lattice nx i j.
Proof.
  unfold corners. cbn [In]. split.
  - intros [<-|[<-|[<-|[<-|[]]]]]; [exists c, r|exists (c + 1)%nat, r|exists (c + 1)%nat, (r + 1)%nat|exists c, (r + 1)%nat]; repeat split; lia.
  - intros [i [j [Hi [Hj ->]]]].
    assert (i = c \/ i = c + 1)%nat as [-> | ->] by lia; assert (j = r \/ j = r + 1)%nat as [-> | ->] by lia; tauto.
Qed.

Lemma corners_range nx ny c r z : (c < nx)%nat -> (r < ny)%nat -> In z (corners nx c r) -> (0 <= z < Z.of_nat ((nx + 1) * (ny + 1)))%Z.
Proof. intros Hc Hr Hz. apply corners_in in Hz as [i [j [Hi [Hj ->]]]]. unfold lattice. nia. Qed.

(** nodes common to two cells *)
Lemma corners_common nx c r c' r' z : (c < nx)%nat -> (c' < nx)%nat ->
  (In z (corners nx c r) /\ In z (corners nx c' r')) <->
  exists i j, z = lattice nx i j /\ (Nat.max c c' <= i <= Nat.min c c' + 1)%nat /\ (Nat.max r r' <= j <= Nat.min r r' + 1)%nat.
Proof.
  intros Hc Hc'. rewrite !corners_in. split.
  - intros [[i [j [Hi [Hj ->]]]] [i' [j' [Hi' [Hj' E]]]]]. apply lattice_inj in E as [-> ->]; [|lia..].
    exists i', j'. repeat split; lia.
  - intros [i [j [-> [Hi Hj]]]]. split; exists i, j; repeat split; lia.
Qed.

Lemma INR_succ n : INR (n + 1) = INR n + 1.
Proof. rewrite plus_INR. reflexivity. Qed.

Lemma cell_coords L H nx ny c r : (c < nx)%nat -> (r < ny)%nat ->
  let dx := L / INR nx in let dy := H / INR ny in
  let x0 := - L / 2 + INR c * dx in let y0 := - H / 2 + INR r * dy in
  at_nodes (fst (fst (rect_grid L H nx ny))) (snd (fst (rect_grid L H nx ny))) (corners nx c r) =
  [[x0; y0]; [x0 + dx; y0]; [x0 + dx; y0 + dy]; [x0; y0 + dy]].
Proof.
  intros Hc Hr. cbv zeta. unfold at_nodes, corners. cbn [map].
  destruct (grid_nodes L H nx ny ltac:(lia) ltac:(lia) c r ltac:(lia) ltac:(lia)) as [-> ->].
  destruct (grid_nodes L H nx ny ltac:(lia) ltac:(lia) (c + 1) r ltac:(lia) ltac:(lia)) as [-> ->].
  destruct (grid_nodes L H nx ny ltac:(lia) ltac:(lia) (c + 1) (r + 1) ltac:(lia) ltac:(lia)) as [-> ->].
  destruct (grid_nodes L H nx ny ltac:(lia) ltac:(lia) c (r + 1) ltac:(lia) ltac:(lia)) as [-> ->].
  rewrite !INR_succ. repeat (f_equal; try ring).
Qed.

Lemma cell_area L H nx ny c r : (c < nx)%nat -> (r < ny)%nat ->
  shoelace (at_nodes (fst (fst (rect_grid L H nx ny))) (snd (fst (rect_grid L H nx ny))) (corners nx c r)) = L * H / (INR nx * INR ny).
Proof.
  intros Hc Hr. rewrite cell_coords by assumption. unfold shoelace, lsum. cbn.
  assert (INR nx <> 0) by (apply not_0_INR; lia). assert (INR ny <> 0) by (apply not_0_INR; lia). field. split; assumption.
Qed.

Lemma rect_J2det x0 y0 dx dy r s :
  J2det (Jac 4 (snd (shape_quad4 r s)) [[x0; y0]; [x0 + dx; y0]; [x0 + dx; y0 + dy]; [x0; y0 + dy]]) = dx * dy / 4.
Proof. unfold J2det, Jac, ent; shp; cbn [rsum nth]; field. Qed.

Lemma cell_jacobian L H nx ny c r xi eta : (c < nx)%nat -> (r < ny)%nat ->
  J2det (Jac 4 (snd (shape_quad4 xi eta)) (at_nodes (fst (fst (rect_grid L H nx ny))) (snd (fst (rect_grid L H nx ny))) (corners nx c r)))
  = L * H / (4 * INR nx * INR ny).
Proof.
  intros Hc Hr. rewrite cell_coords by assumption. cbv zeta. rewrite rect_J2det.
  assert (INR nx <> 0) by (apply not_0_INR; lia). assert (INR ny <> 0) by (apply not_0_INR; lia). field. split; assumption.
Qed.

Lemma cell_accepted L H nx ny c r E nu rho : (c < nx)%nat -> (r < ny)%nat -> 1 / 100000000 < L * H / (4 * INR nx * INR ny) -> 1 - nu * nu <> 0 ->
  exists K M, elast_quad4 (at_nodes (fst (fst (rect_grid L H nx ny))) (snd (fst (rect_grid L H nx ny))) (corners nx c r)) [E; nu; rho] = Ok (K, M2 M).
Proof.
  intros Hc Hr Hd Hnu.
  apply (plane_runs pl_quad4 _ [E; nu; rho] E nu rho ltac:(cbn; tauto) eq_refl Hnu).
  split; [reflexivity|]. split; [reflexivity|]. intros xi eta w _. unfold det_at.
  apply (Rlt_le_trans _ (L * H / (4 * INR nx * INR ny))); [exact Hd|]. apply Req_le. symmetry. apply cell_jacobian; assumption.
Qed.

(** ** as stated *)
Section Stated.
  Variables (L H : R) (nx ny : nat) (x y : list R) (els : list (list Z)).
  Hypothesis (Hx : (1 <= nx)%nat) (Hy : (1 <= ny)%nat) (G : rect_grid L H nx ny = (x, y, els)).
  Theorem st_nodes : length x = ((nx + 1) * (ny + 1))%nat /\ length y = ((nx + 1) * (ny + 1))%nat /\
    forall i j, (i <= nx)%nat -> (j <= ny)%nat ->
      nth (Z.to_nat (lattice nx i j)) x 0 = - L / 2 + INR i * (L / INR nx) /\
      nth (Z.to_nat (lattice nx i j)) y 0 = - H / 2 + INR j * (H / INR ny).
  Proof.
    pose proof (grid_sizes L H nx ny Hx Hy) as S. pose proof (grid_nodes L H nx ny Hx Hy) as N. rewrite G in S, N. cbn [fst snd] in S, N.
    split; [apply S|]. split; [apply S|]. exact N.
  Qed.
  Theorem st_elements : length els = (nx * ny)%nat /\
    forall c r, (c < nx)%nat -> (r < ny)%nat ->
      nth (r * nx + c) els [] = [Z.of_nat (r * nx + c); 1; 0]%Z ++ corners nx c r /\ NoDup (corners nx c r) /\
      Forall (fun z => (0 <= z < Z.of_nat (length x))%Z) (corners nx c r) /\
      shoelace (at_nodes x y (corners nx c r)) = L * H / (INR nx * INR ny).
  Proof.
    pose proof (grid_sizes L H nx ny Hx Hy) as S. rewrite G in S. cbn [fst snd] in S. split; [apply S|]. intros c r Hc Hr.
    pose proof (grid_cells L H nx ny Hx Hy c r Hc Hr) as C. rewrite G in C. cbn [snd] in C. split; [exact C|]. split; [apply corners_nodup, Hc|]. split.
    - apply Forall_forall. intros z Hz. rewrite (proj1 S). apply (corners_range nx ny c r); assumption.
    - pose proof (cell_area L H nx ny c r Hc Hr) as A. rewrite G in A. exact A.
  Qed.
  Theorem st_jacobian : forall c r xi eta, (c < nx)%nat -> (r < ny)%nat ->
    J2det (Jac 4 (snd (shape_quad4 xi eta)) (at_nodes x y (corners nx c r))) = L * H / (4 * INR nx * INR ny).
  Proof. intros c r xi eta Hc Hr. pose proof (cell_jacobian L H nx ny c r xi eta Hc Hr) as A. rewrite G in A. exact A. Qed.
  Theorem st_accepted : forall c r E nu rho, (c < nx)%nat -> (r < ny)%nat -> 1 / 100000000 < L * H / (4 * INR nx * INR ny) -> 1 - nu * nu <> 0 ->
    exists K M, elast_quad4 (at_nodes x y (corners nx c r)) [E; nu; rho] = Ok (K, M2 M).
  Proof. intros c r E nu rho Hc Hr H1 H2. pose proof (cell_accepted L H nx ny c r E nu rho Hc Hr H1 H2) as A. rewrite G in A. exact A. Qed.
End Stated.
