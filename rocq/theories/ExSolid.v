(** * Concrete solid meshes *)
From Coq Require Import Reals List Arith Lia Lra Bool ZArith Relations Permutation.
From Verif Require Import Num LinAlg Gauss Fem Uel Assem Post Main Script Spec LinR Base SpecAssem SpecModel SpecElem SpecShape SpecModes SpecScript SpecSolid
  ShapeProofs ElemCore ElemShape Elem3 Elem3Props ElemFinal2 ScriptProofs ScriptProofs2 Hex8Modes SolidProofs TetPatch ExModel ExSolver ExModes ScriptFinal.
Import ListNotations.
Local Open Scope R_scope.

(** ** a brick with a tetrahedron glued to its top; the bottom rests on three corners *)
Definition by_nodes : uel_fun R := fun coord params => if (length coord =? 4)%nat then elast_tet4 coord params else elast_hex8 coord params.
Definition mx : problem := {|
  p_dofs := 3; p_max := 24; p_ndof := Some (fun t => if (t =? 9)%Z then Ok 24%nat else Ok 12%nat); p_uel := Some by_nodes;
  p_nodes := [[0; -1; -1; -1]; [1; 1; -1; -1]; [2; 1; 1; -1]; [3; -1; 1; -1]; [4; -1; -1; 1]; [5; 1; -1; 1]; [6; 1; 1; 1]; [7; -1; 1; 1]; [8; 0; 0; 3]];
  p_cons := [[-1; -1; -1]; [-1; -1; -1]; [-1; -1; -1]; [0; 0; 0]; [0; 0; 0]; [0; 0; 0]; [0; 0; 0]; [0; 0; 0]; [0; 0; 0]];
  p_elements := [[0; 9; 0; 0; 1; 2; 3; 4; 5; 6; 7]; [1; 10; 0; 4; 5; 6; 8]]%Z;
  p_mats := [[1; 1 / 4; 2]]; p_loads := [[8; 1; 2; 3]] |}.
Definition mx_box : list (list R) := [[-1; -1; -1]; [1; -1; -1]; [1; 1; -1]; [-1; 1; -1]; [-1; -1; 1]; [1; -1; 1]; [1; 1; 1]; [-1; 1; 1]].
Definition mx_tip : list (list R) := [[-1; -1; 1]; [1; -1; 1]; [1; 1; 1]; [0; 0; 3]].
Lemma mx_box_runs : exists K M, elast_hex8 mx_box [1; 1/4; 2] = Ok (K, M2 M).
Proof.
  apply (solid_runs so_hex8 mx_box 1 (1/4) 2 ltac:(cbn; tauto)); [lra|lra|]. split; [reflexivity|split; [reflexivity|]]. intros r s t w Hin. clear Hin.
  assert (E : det_at3 8 shape_hex8 mx_box r s t = 1). { unfold det_at3, J3det, Jac, ent, mx_box. shp. cbn [rsum nth]. field. }
  cbn [so_n so_sh so_hex8]. rewrite E. lra.
Qed.
Lemma mx_tip_runs : exists K M, elast_tet4 mx_tip [1; 1/4; 2] = Ok (K, M2 M).
Proof.
  apply (solid_runs so_tet4 mx_tip 1 (1/4) 2 ltac:(cbn; tauto)); [lra|lra|]. split; [reflexivity|split; [reflexivity|]]. intros r s t w Hin. clear Hin.
  assert (E : det_at3 4 shape_tet4 mx_tip r s t = 8). { unfold det_at3, J3det, Jac, ent, mx_tip. shp. cbn [rsum nth]. field. }
  cbn [so_n so_sh so_tet4]. rewrite E. lra.
Qed.
Lemma mx_regular : regular_brick mx_box.
Proof.
  intros r s t _ _ _. assert (E : J3det (brick_edge mx_box r s t) = 1) by (unfold J3det, brick_edge, corner8, ent, mx_box; cbn [rsum nth]; field).
  rewrite E. lra.
Qed.
Lemma mx_mesh : solid_mesh mx.
Proof.
  split; [reflexivity|]. split; [cbn [p_nodes mx]; all_forall; reflexivity|]. split; [cbn [p_cons mx]; flags|]. split; [reflexivity|]. split.
  - destruct mx_box_runs as (K & M & H8). destruct mx_tip_runs as (K' & M' & H4). cbn [p_elements mx]. all_forall.
    + split.
      * exists 9%Z. split; [reflexivity|]. split; [reflexivity|]. split; [cbn; lia|]. cbn [skipn]. all_forall; cbn; lia.
      * exists 0%Z, by_nodes, 1, (1/4), 2, K, (M2 M). split; [reflexivity|]. split; [reflexivity|]. split; [lra|]. split; [lra|]. split; [reflexivity|].
        split; [exact H8|]. right. split; [reflexivity|]. split; [reflexivity|]. exact mx_regular.
    + split.
      * exists 10%Z. split; [reflexivity|]. split; [reflexivity|]. split; [cbn; lia|]. cbn [skipn]. all_forall; cbn; lia.
      * exists 0%Z, by_nodes, 1, (1/4), 2, K', (M2 M'). split; [reflexivity|]. split; [reflexivity|]. split; [lra|]. split; [lra|]. split; [reflexivity|].
        split; [exact H4|]. left. split; reflexivity.
  - cbn [p_loads mx]. all_forall. split; [cbn; lia|]. exists 8%nat. split; [cbn; lia|]. cbn; lra.
Qed.
Lemma mx_linked e e' : In e (p_elements mx) -> In e' (p_elements mx) -> e = e' \/ linked3 mx e e'.
Proof.
  assert (N : not_collinear (p_nodes mx) 4 5 6) by (exists 2%nat; split; [lia|]; cbv -[IZR Rminus Rmult]; intro N; lra).
  assert (H8 : forall a, (a < 8)%nat -> has_node [0; 9; 0; 0; 1; 2; 3; 4; 5; 6; 7]%Z a).
  { intros a Ha. exists a. split; [cbn; lia|]. do 8 (destruct a as [|a]; [reflexivity|]). lia. }
  assert (H4 : forall a, (4 <= a < 7)%nat -> has_node [1; 10; 0; 4; 5; 6; 8]%Z a).
  { intros a Ha. exists (a - 4)%nat. split; [cbn; lia|]. do 7 (destruct a as [|a]; [try lia; reflexivity|]). lia. }
  intros [<-|[<-|[]]] [<-|[<-|[]]]; [left; reflexivity| | |left; reflexivity]; right; exists 4%nat, 5%nat, 6%nat;
    (repeat split; try (apply H8; lia); try (apply H4; lia)); exact N.
Qed.
Lemma mx_connected : connected3 mx.
Proof.
  split.
  - intros e e' He He'. destruct (mx_linked e e' He He') as [->|H]; [apply rt_refl|apply rt_step; split; assumption].
  - intros i Hi. cbn in Hi. destruct (Nat.eq_dec i 8) as [->|N].
    + exists [1; 10; 0; 4; 5; 6; 8]%Z. split; [right; left; reflexivity|]. exists 3%nat. split; [cbn; lia|reflexivity].
    + exists [0; 9; 0; 0; 1; 2; 3; 4; 5; 6; 7]%Z. split; [left; reflexivity|]. exists i. split; [cbn; lia|]. do 8 (destruct i as [|i]; [reflexivity|]). lia.
Qed.
Lemma mx_corners : not_collinear (p_nodes mx) 0 1 2 /\ forall d, (d < 3)%nat -> ent (p_cons mx) 0 d = -1 /\ ent (p_cons mx) 1 d = -1 /\ ent (p_cons mx) 2 d = -1.
Proof.
  split; [exists 2%nat; split; [lia|]; cbv -[IZR Rminus Rmult]; intro N; lra|]. intros d Hd. destruct d as [|[|[|]]]; [| | |lia]; repeat split.
Qed.
Lemma mx_supported : supported3 mx.
Proof. exact (solid_pinned mx mx_mesh 0%nat 1%nat 2%nat ltac:(cbn; lia) ltac:(cbn; lia) ltac:(cbn; lia) (proj1 mx_corners) (proj2 mx_corners)). Qed.

(** ** four tetrahedra around a node, pulled along x *)
Definition tq : problem := {|
  p_dofs := 3; p_max := 12; p_ndof := Some (fun _ => Ok 12%nat); p_uel := Some elast_tet4;
  p_nodes := [[0; 0; 0; 0]; [1; 4; 0; 0]; [2; 0; 4; 0]; [3; 0; 0; 4]; [4; 1; 1; 1]];
  p_cons := [[-1; -1; -1]; [0; -1; -1]; [0; 0; -1]; [0; 0; 0]; [0; 0; 0]];
  p_elements := [[0; 10; 0; 4; 1; 2; 3]; [1; 10; 0; 0; 4; 2; 3]; [2; 10; 0; 0; 1; 4; 3]; [3; 10; 0; 0; 1; 2; 4]]%Z;
  p_mats := [[1; 1 / 4; 2]]; p_loads := [[1; 8 / 3; 0; 0]] |}.
Lemma tq_runs e : In e (p_elements tq) -> exists K M, elast_tet4 (p_coords tq e) [1; 1/4; 2] = Ok (K, M2 M).
Proof.
  intros He. apply (solid_runs so_tet4 (p_coords tq e) 1 (1/4) 2 ltac:(cbn; tauto)); [lra|lra|]. cbn [so_n so_sh so_tet4].
  assert (G : exists D, 1 / 100000000 < D /\ forall r s t, det_at3 4 shape_tet4 (p_coords tq e) r s t = D).
  { destruct He as [<-|[<-|[<-|[<-|[]]]]].
    - exists 16. split; [lra|]. intros r s t. change (p_coords tq [0; 10; 0; 4; 1; 2; 3]%Z) with [[1; 1; 1]; [4; 0; 0]; [0; 4; 0]; [0; 0; 4]]. unfold det_at3, J3det, Jac, ent. shp. cbn [rsum nth]. field.
    - exists 16. split; [lra|]. intros r s t. change (p_coords tq [1; 10; 0; 0; 4; 2; 3]%Z) with [[0; 0; 0]; [1; 1; 1]; [0; 4; 0]; [0; 0; 4]]. unfold det_at3, J3det, Jac, ent. shp. cbn [rsum nth]. field.
    - exists 16. split; [lra|]. intros r s t. change (p_coords tq [2; 10; 0; 0; 1; 4; 3]%Z) with [[0; 0; 0]; [4; 0; 0]; [1; 1; 1]; [0; 0; 4]]. unfold det_at3, J3det, Jac, ent. shp. cbn [rsum nth]. field.
    - exists 16. split; [lra|]. intros r s t. change (p_coords tq [3; 10; 0; 0; 1; 2; 4]%Z) with [[0; 0; 0]; [4; 0; 0]; [0; 4; 0]; [1; 1; 1]]. unfold det_at3, J3det, Jac, ent. shp. cbn [rsum nth]. field. }
  destruct G as (D & HD & G). split; [destruct He as [<-|[<-|[<-|[<-|[]]]]]; reflexivity|]. split; [destruct He as [<-|[<-|[<-|[<-|[]]]]]; reflexivity|].
  intros r s t w _. rewrite G. exact HD.
Qed.
Lemma tq_tets : tets tq 1 (1/4).
Proof.
  split.
  - split; [reflexivity|]. split; [cbn [p_nodes tq]; all_forall; reflexivity|]. split; [cbn [p_cons tq]; flags|]. split; [reflexivity|]. split.
    + apply Forall_forall. intros e He. destruct (tq_runs e He) as (K & M & H). split.
      * exists 10%Z. destruct He as [<-|[<-|[<-|[<-|[]]]]]; (split; [reflexivity|]; split; [reflexivity|]; split; [cbn; lia|]; cbn [skipn]; all_forall; cbn; lia).
      * exists 0%Z, elast_tet4, 1, (1/4), 2, K, (M2 M).
        split; [destruct He as [<-|[<-|[<-|[<-|[]]]]]; reflexivity|]. split; [reflexivity|]. split; [lra|]. split; [lra|]. split; [reflexivity|]. split; [exact H|].
        left. split; [destruct He as [<-|[<-|[<-|[<-|[]]]]]; reflexivity|reflexivity].
    + cbn [p_loads tq]. all_forall. split; [cbn; lia|]. exists 1%nat. split; [cbn; lia|]. cbn; lra.
  - apply Forall_forall. intros e [<-|[<-|[<-|[<-|[]]]]]; (split; [reflexivity|]; exists 0%Z, 2; split; reflexivity).
Qed.
Ltac at_node := first [exists 0%nat; split; [cbn; lia|reflexivity]|exists 1%nat; split; [cbn; lia|reflexivity]|exists 2%nat; split; [cbn; lia|reflexivity]|exists 3%nat; split; [cbn; lia|reflexivity]].
Ltac share a b N := solve [exists a, b, 4%nat; do 6 (split; [at_node|]); apply N; lia].
Lemma tq_connected : connected3 tq.
Proof.
  assert (N : forall a b, (a < b < 4)%nat -> not_collinear (p_nodes tq) a b 4).
  { intros a b Hab. assert (C : (a = 0 /\ b = 1 \/ a = 0 /\ b = 2 \/ a = 0 /\ b = 3 \/ a = 1 /\ b = 2 \/ a = 1 /\ b = 3 \/ a = 2 /\ b = 3)%nat) by lia.
    destruct C as [[-> ->]|[[-> ->]|[[-> ->]|[[-> ->]|[[-> ->]|[-> ->]]]]]].
    - exists 2%nat; split; [lia|]; cbv -[IZR Rminus Rmult]; intro N; lra.
    - exists 2%nat; split; [lia|]; cbv -[IZR Rminus Rmult]; intro N; lra.
    - exists 1%nat; split; [lia|]; cbv -[IZR Rminus Rmult]; intro N; lra.
    - exists 0%nat; split; [lia|]; cbv -[IZR Rminus Rmult]; intro N; lra.
    - exists 0%nat; split; [lia|]; cbv -[IZR Rminus Rmult]; intro N; lra.
    - exists 0%nat; split; [lia|]; cbv -[IZR Rminus Rmult]; intro N; lra. }
  split.
  - intros e e' He He'. assert (C : e = e' \/ linked3 tq e e').
    { destruct He as [<-|[<-|[<-|[<-|[]]]]]; destruct He' as [<-|[<-|[<-|[<-|[]]]]]; try (left; reflexivity); right;
      first [share 2%nat 3%nat N|share 1%nat 3%nat N|share 1%nat 2%nat N|share 0%nat 3%nat N|share 0%nat 2%nat N|share 0%nat 1%nat N]. }
    destruct C as [->|C]; [apply rt_refl|apply rt_step; split; assumption].
  - intros i Hi. cbn in Hi. destruct (Nat.eq_dec i 0) as [->|Ni].
    + exists [1; 10; 0; 0; 4; 2; 3]%Z. split; [right; left; reflexivity|]. exists 0%nat. split; [cbn; lia|reflexivity].
    + exists [0; 10; 0; 4; 1; 2; 3]%Z. split; [left; reflexivity|]. exists (i mod 4)%nat. destruct i as [|[|[|[|[|]]]]]; try lia; (split; [cbn; lia|reflexivity]).
Qed.
Lemma tq_supported : supported3 tq.
Proof.
  intros t w H.
  assert (G : forall i d, (i < 5)%nat -> (d < 3)%nat -> ent (p_cons tq) i d = -1 -> solid_motion (p_nodes tq) t w i d = 0) by (intros i d Hi Hd C; apply H; [split; assumption|exact C]).
  pose proof (G 0%nat 0%nat ltac:(lia) ltac:(lia) eq_refl) as A0. pose proof (G 0%nat 1%nat ltac:(lia) ltac:(lia) eq_refl) as A1. pose proof (G 0%nat 2%nat ltac:(lia) ltac:(lia) eq_refl) as A2.
  pose proof (G 1%nat 1%nat ltac:(lia) ltac:(lia) eq_refl) as B1. pose proof (G 1%nat 2%nat ltac:(lia) ltac:(lia) eq_refl) as B2. pose proof (G 2%nat 2%nat ltac:(lia) ltac:(lia) eq_refl) as C2.
  unfold solid_motion, ent in *. cbn in *. intros d Hd. destruct d as [|[|[|]]]; [| | |lia]; split; lra.
Qed.
Lemma tq_surrounded : surrounded3 (p_elements tq) 4.
Proof.
  unfold surrounded3. let x := eval vm_compute in (faces_at (p_elements tq) 4) in change (faces_at (p_elements tq) 4) with x. cbn [map fst snd].
  apply NoDup_Permutation; [repeat (constructor; [cbn; intuition congruence|]); constructor|repeat (constructor; [cbn; intuition congruence|]); constructor|].
  intros x. cbn. intuition congruence.
Qed.
Definition tq_grad (a b : nat) : R := match a, b with 0%nat, 0%nat => 1 | 1%nat, 1%nat => - (1/4) | 2%nat, 2%nat => - (1/4) | _, _ => 0 end.
Lemma tq_admissible : p_admissible tq (affine_at (p_nodes tq) (fun _ => 0) tq_grad).
Proof.
  intros i d [Hi Hd] C. cbn in Hi, Hd. unfold affine_at, ent in *. destruct d as [|[|[|]]]; [| | |lia]; destruct i as [|[|[|[|[|]]]]]; try lia; cbn in *; lra.
Qed.
Lemma tq_loads i d : p_dof tq i d -> ent (p_cons tq) i d = 0 -> applied (p_loads tq) i d = faces_force (p_nodes tq) (p_elements tq) (stress3 1 (1/4) tq_grad) i d.
Proof.
  intros [Hi Hd] C. cbn in Hi, Hd.
  assert (S : forall a c, (a < 3)%nat -> (c < 3)%nat -> stress3 1 (1/4) tq_grad a c = if (a =? 0)%nat && (c =? 0)%nat then 1 else 0).
  { intros a c Ha Hc. unfold stress3, lam, mu, tq_grad. destruct a as [|[|[|]]]; [| | |lia]; destruct c as [|[|[|]]]; try lia; cbn; field. }
  assert (Q : faces_force (p_nodes tq) (p_elements tq) (stress3 1 (1/4) tq_grad) i d =
    lsum (fun jl => (if (d =? 0)%nat then area3 (p_nodes tq) i (fst jl) (snd jl) 0 else 0) / 6) (faces_at (p_elements tq) i)).
  { unfold faces_force. apply lsum_ext. intros jl _. unfold face_force. cbn [rsum]. rewrite !S by lia. f_equal. destruct d as [|d]; cbn; ring. }
  rewrite Q. clear Q S. unfold applied. cbn [p_loads tq fold_left nth].
  destruct i as [|[|[|[|[|]]]]]; [| | | | |lia]; (destruct (Req_EM_T 1 _) as [E|N]; [|]).
  all: try (cbn in E; lra). all: try (exfalso; apply N; cbn; lra).
  all: destruct d as [|[|[|]]]; try lia; try (unfold ent in C; cbn in C; lra).
  all: match goal with |- context [faces_at (p_elements tq) ?k] => let x := eval vm_compute in (faces_at (p_elements tq) k) in change (faces_at (p_elements tq) k) with x end.
  all: cbn [nth Nat.add Nat.eqb]; unfold lsum, area3, ent; cbn; lra.
Qed.
Lemma tq_run : exists U, p_script elim_solver tq false = Ok U.
Proof. destruct elim_both as [H1 H2]. exact (p_runs elim_solver tq false (solid_wf tq (proj1 tq_tets)) H1 H2 (solid_stable tq (proj1 tq_tets) tq_connected tq_supported)). Qed.
