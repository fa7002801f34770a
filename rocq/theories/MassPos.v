(** * Proofs: element mass matrices are positive definite *)
From Coq Require Import String Reals List Arith Lia Lra Bool ZArith QArith Qreals.
From Verif Require Import Num LinAlg Gauss Fem Uel Spec LinR Base ElemShape BarProofs SpecElem SpecShape ShapeProofs ElemCore Sampled Elem2 Elem2Props Elem3 Elem3Props ElemFinal2.
Import ListNotations.
Local Open Scope R_scope.

(** the interpolated field is known from its values at the Gauss points *)
Definition unisolvent2 (p : plane) : Prop :=
  forall v, (forall r s w, In (r, s, w) (pl_gq p) -> rsum (pl_n p) (fun k => nth k (fst (pl_sh p r s)) 0 * v k) = 0) ->
  forall k, (k < pl_n p)%nat -> v k = 0.


Ltac split_points P :=
  cbn -[Q2R] in P;
  repeat match goal with P : Forall _ (_ :: _) |- _ => let P1 := fresh "P" in inversion P as [|? ? P1 ?]; subst; clear P end;
  unfold Q2R in *; cbn in *.
Ltac uni p :=
  intros v H;
  assert (P : Forall (fun q => let '(r, s, w) := q in rsum (pl_n p) (fun k => nth k (fst (pl_sh p r s)) 0 * v k) = 0) (pl_gq p))
    by (apply Forall_forall; intros [[r s] w] Hin; exact (H r s w Hin));
  clear H; cbn [pl_n p] in *; split_points P;
  intros k Hk; repeat (destruct k as [|k]; [lra|]); lia.
Lemma uni_tri3 : unisolvent2 pl_tri3.
Proof. uni pl_tri3. Qed.
Lemma uni_quad4 : unisolvent2 pl_quad4.
Proof. uni pl_quad4. Qed.
Lemma uni_tri6 : unisolvent2 pl_tri6.
Proof. uni pl_tri6. Qed.

(** polynomials of degree 2 and 1 with two and three variables *)
Definition lag (i : nat) (r : R) : R := match i with 0%nat => r * (r - 1) / 2 | 1%nat => 1 - r * r | _ => r * (r + 1) / 2 end.
Definition lag3 (r : R) (c : nat -> R) : R := lag 0 r * c 0%nat + lag 1 r * c 1%nat + lag 2 r * c 2%nat.
Lemma lag_zero a c : a <> 0 -> lag3 (- a) c = 0 -> lag3 0 c = 0 -> lag3 a c = 0 -> forall i, (i < 3)%nat -> c i = 0.
Proof.
  unfold lag3, lag. intros Ha H1 H2 H3.
  assert (B : c 1%nat = 0) by lra. rewrite B in *.
  assert (D : a * (c 2%nat - c 0%nat) = 0) by lra. assert (S : a * (a * (c 2%nat + c 0%nat)) = 0) by lra.
  apply Rmult_integral in D as [D|D]; [contradiction|]. apply Rmult_integral in S as [S|S]; [contradiction|].
  apply Rmult_integral in S as [S|S]; [contradiction|].
  intros i Hi. destruct i as [|[|[|]]]; [lra|exact B|lra|lia].
Qed.
Lemma lag_grid a (f : R -> R -> R) (F : nat -> nat -> R) : a <> 0 ->
  (forall r s, f r s = lag3 r (fun i => lag3 s (fun j => F i j))) ->
  (forall r s, In r [- a; 0; a] -> In s [- a; 0; a] -> f r s = 0) -> forall i j, (i < 3)%nat -> (j < 3)%nat -> F i j = 0.
Proof.
  intros Ha Hf Hz i j Hi Hj. apply (lag_zero a (fun j => F i j) Ha); [| | |exact Hj].
  all: match goal with |- lag3 ?s _ = 0 => apply (lag_zero a (fun i => lag3 s (fun j => F i j)) Ha); [| | |exact Hi]; rewrite <- Hf; apply Hz; cbn; auto end.
Qed.
Definition gp3 : R := Q2R 0.774596669241483377.
Lemma gp3_pos : gp3 <> 0.
Proof. unfold gp3, Q2R. cbn. lra. Qed.
Lemma gp3_opp : - gp3 = Q2R (- 0.774596669241483377).
Proof. unfold gp3. rewrite <- Q2R_opp. reflexivity. Qed.
Lemma gp3_zero : 0 = Q2R 0.
Proof. unfold Q2R. cbn. lra. Qed.
Lemma grid_points r s : In r [- gp3; 0; gp3] -> In s [- gp3; 0; gp3] -> exists w, In (r, s, w) (triples (gauss_nd 3 2)).
Proof.
  rewrite gp3_opp, gp3_zero. intros [<-|[<-|[<-|[]]]] [<-|[<-|[<-|[]]]]; eexists; cbn -[Q2R]; unfold gp3; tauto.
Qed.
Lemma uni_grid p : pl_gq p = triples (gauss_nd 3 2) -> (forall v, exists F : nat -> nat -> R,
   (forall r s, rsum (pl_n p) (fun k => nth k (fst (pl_sh p r s)) 0 * v k) = lag3 r (fun i => lag3 s (fun j => F i j))) /\
   forall k, (k < pl_n p)%nat -> exists i j, (i < 3)%nat /\ (j < 3)%nat /\ v k = F i j) -> unisolvent2 p.
Proof.
  intros Hg HF v H k Hk. destruct (HF v) as (F & E & HN). destruct (HN k Hk) as (i & j & Hi & Hj & ->).
  apply (lag_grid gp3 _ F gp3_pos E); [|exact Hi|exact Hj]. intros r s Hr Hs.
  destruct (grid_points r s Hr Hs) as [w Hw]. apply (H r s w). rewrite Hg. exact Hw.
Qed.
(** values at the nine points (-1, 0, 1) x (-1, 0, 1) *)
Definition at_grid p (v : nat -> R) (i j : nat) : R :=
  rsum (pl_n p) (fun k => nth k (fst (pl_sh p (INR i - 1) (INR j - 1))) 0 * v k).
Ltac grid_node i j := exists i, j; split; [lia|split; [lia|unfold at_grid; cbn; q2r; lra]].
Lemma uni_quad9 : unisolvent2 pl_quad9.
Proof.
  apply uni_grid; [reflexivity|]. intros v. exists (at_grid pl_quad9 v). split.
  - intros r s. unfold lag3, lag, at_grid. cbn. q2r. field.
  - intros k Hk. cbn in Hk. do 9 (destruct k as [|k]; [first [solve [grid_node 0%nat 0%nat]|solve [grid_node 0%nat 1%nat]|solve [grid_node 0%nat 2%nat]
     |solve [grid_node 1%nat 0%nat]|solve [grid_node 1%nat 1%nat]|solve [grid_node 1%nat 2%nat]
     |solve [grid_node 2%nat 0%nat]|solve [grid_node 2%nat 1%nat]|solve [grid_node 2%nat 2%nat]]|]). lia.
Qed.
Lemma uni_quad8 : unisolvent2 pl_quad8.
Proof.
  apply uni_grid; [reflexivity|]. intros v. exists (at_grid pl_quad8 v). split.
  - intros r s. unfold lag3, lag, at_grid. cbn. q2r. field.
  - intros k Hk. cbn in Hk. do 8 (destruct k as [|k]; [first [solve [grid_node 0%nat 0%nat]|solve [grid_node 0%nat 1%nat]|solve [grid_node 0%nat 2%nat]
     |solve [grid_node 1%nat 0%nat]|solve [grid_node 1%nat 2%nat]
     |solve [grid_node 2%nat 0%nat]|solve [grid_node 2%nat 1%nat]|solve [grid_node 2%nat 2%nat]]|]). lia.
Qed.

(** ** solids *)
Definition unisolvent3 (p : solid) : Prop :=
  forall v, (forall r s t w, In (r, s, t, w) (so_gq p) -> rsum (so_n p) (fun k => nth k (fst (so_sh p r s t)) 0 * v k) = 0) ->
  forall k, (k < so_n p)%nat -> v k = 0.
Lemma uni_tet4 : unisolvent3 so_tet4.
Proof.
  intros v H.
  assert (P : Forall (fun q => let '(r, s, t, w) := q in rsum (so_n so_tet4) (fun k => nth k (fst (so_sh so_tet4 r s t)) 0 * v k) = 0) (so_gq so_tet4))
    by (apply Forall_forall; intros [[[r s] t] w] Hin; exact (H r s t w Hin)).
  clear H; cbn [so_n so_tet4] in *; split_points P.
  intros k Hk; repeat (destruct k as [|k]; [lra|]); lia.
Qed.
Definition lin2 (r : R) (c : nat -> R) : R := (1 - r) / 2 * c 0%nat + (1 + r) / 2 * c 1%nat.
Lemma lin_zero a c : a <> 0 -> lin2 (- a) c = 0 -> lin2 a c = 0 -> forall i, (i < 2)%nat -> c i = 0.
Proof.
  unfold lin2. intros Ha H1 H2. assert (D : a * (c 1%nat - c 0%nat) = 0) by lra. apply Rmult_integral in D as [D|D]; [contradiction|].
  intros i Hi. destruct i as [|[|]]; [lra|lra|lia].
Qed.
Lemma lin_grid a (F : nat -> nat -> nat -> R) : a <> 0 ->
  (forall r s t, In r [- a; a] -> In s [- a; a] -> In t [- a; a] -> lin2 r (fun i => lin2 s (fun j => lin2 t (fun l => F i j l))) = 0) ->
  forall i j l, (i < 2)%nat -> (j < 2)%nat -> (l < 2)%nat -> F i j l = 0.
Proof.
  intros Ha Hz i j l Hi Hj Hl.
  assert (Z1 : forall s t, In s [- a; a] -> In t [- a; a] -> lin2 s (fun j => lin2 t (fun l => F i j l)) = 0)
    by (intros s t Hs Ht; apply (lin_zero a (fun i => lin2 s (fun j => lin2 t (fun l => F i j l))) Ha); [apply Hz; cbn; auto|apply Hz; cbn; auto|exact Hi]).
  assert (Z2 : forall t, In t [- a; a] -> lin2 t (fun l => F i j l) = 0)
    by (intros t Ht; apply (lin_zero a (fun j => lin2 t (fun l => F i j l)) Ha); [apply Z1; cbn; auto|apply Z1; cbn; auto|exact Hj]).
  apply (lin_zero a (fun l => F i j l) Ha); [apply Z2; cbn; auto|apply Z2; cbn; auto|exact Hl].
Qed.
Definition at_corner (v : nat -> R) (i j l : nat) : R :=
  rsum 8 (fun k => nth k (fst (shape_hex8 (2 * INR i - 1) (2 * INR j - 1) (2 * INR l - 1))) 0 * v k).
Ltac corner_node i j l := exists i, j, l; split; [lia|split; [lia|split; [lia|unfold at_corner; cbn; q2r; lra]]].
Lemma uni_hex8 : unisolvent3 so_hex8.
Proof.
  intros v H k Hk. pose proof (H : forall r s t w, In (r, s, t, w) (quads (gauss_nd 2 3)) -> rsum 8 (fun k => nth k (fst (shape_hex8 r s t)) 0 * v k) = 0) as H'. clear H. 
  assert (E : forall r s t, rsum 8 (fun k => nth k (fst (shape_hex8 r s t)) 0 * v k) = lin2 r (fun i => lin2 s (fun j => lin2 t (fun l => at_corner v i j l)))).
  { intros r s t. unfold lin2, at_corner. cbn. q2r. field. }
  assert (G : exists a, a <> 0 /\ forall r s t, In r [- a; a] -> In s [- a; a] -> In t [- a; a] -> exists w, In (r, s, t, w) (quads (gauss_nd 2 3))).
  { exists (Q2R 0.577350269189625764). split; [unfold Q2R; cbn; lra|].
    replace (- Q2R 0.577350269189625764) with (Q2R (- 0.577350269189625764)) by (rewrite <- Q2R_opp; reflexivity).
    intros r s t [<-|[<-|[]]] [<-|[<-|[]]] [<-|[<-|[]]]; eexists; cbn -[Q2R]; tauto. }
  destruct G as (a & Ha & G).
  assert (N : exists i j l, (i < 2)%nat /\ (j < 2)%nat /\ (l < 2)%nat /\ v k = at_corner v i j l).
  { cbn in Hk. do 8 (destruct k as [|k]; [first [solve [corner_node 0%nat 0%nat 0%nat]|solve [corner_node 0%nat 0%nat 1%nat]|solve [corner_node 0%nat 1%nat 0%nat]|solve [corner_node 0%nat 1%nat 1%nat]
     |solve [corner_node 1%nat 0%nat 0%nat]|solve [corner_node 1%nat 0%nat 1%nat]|solve [corner_node 1%nat 1%nat 0%nat]|solve [corner_node 1%nat 1%nat 1%nat]]|]). lia. }
  destruct N as (i & j & l & Hi & Hj & Hl & ->). apply (lin_grid a (at_corner v) Ha); [|exact Hi|exact Hj|exact Hl].
  intros r s t Hr Hs Ht. rewrite <- E. destruct (G r s t Hr Hs Ht) as [w Hw]. exact (H' r s t w Hw).
Qed.
