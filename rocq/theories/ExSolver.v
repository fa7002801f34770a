(** * A solver that satisfies the hypotheses made on scipy's solver: elimination over the reals *)
From Coq Require Import String Reals List Arith Lia Lra ZArith.
From Verif Require Import Num LinAlg Assem Main Spec LinR SpecAssem SpecModel SpecStatic.
Import ListNotations.
Local Open Scope R_scope.

(* first p < n with g p <> 0 *)
Fixpoint find_row (n : nat) (g : nat -> R) : option nat :=
  match n with
  | O => None
  | S m => match find_row m g with
           | Some p => Some p
           | None => if Req_EM_T (g m) 0 then None else Some m
           end
  end.
Definition skip (p i : nat) : nat := if (i <? p)%nat then i else S i.
(* eliminate the last unknown with a row where it appears *)
Fixpoint gsolve (n : nat) (A : nat -> nat -> R) (f : nat -> R) : option (nat -> R) :=
  match n with
  | O => Some (fun _ => 0)
  | S m =>
    match find_row n (fun i => A i m) with
    | None => None
    | Some p =>
      match gsolve m (fun i j => A (skip p i) j - A (skip p i) m / A p m * A p j)
                     (fun i => f (skip p i) - A (skip p i) m / A p m * f p) with
      | None => None
      | Some x => Some (fun j => if (j =? m)%nat then (f p - rsum m (fun k => A p k * x k)) / A p m else x j)
      end
    end
  end.
Definition elim_solver : solvers R :=
  let s := fun A f => match gsolve (length f) (ent A) (fun i => nth i f 0) with
                      | Some x => Ok (mk_vec (length f) x)
                      | None => Err LinAlgError
                      end in
  {| spsolve := s; npsolve := s |}.

Lemma find_row_some n g p : find_row n g = Some p -> (p < n)%nat /\ g p <> 0.
Proof.
  induction n as [|m IH]; cbn; [discriminate|]. destruct (find_row m g) as [q|].
  - intros E. injection E as ->. destruct (IH eq_refl). split; [lia|assumption].
  - destruct (Req_EM_T (g m) 0); [discriminate|]. intros E. injection E as <-. split; [lia|assumption].
Qed.
Lemma find_row_none n g : find_row n g = None -> forall i, (i < n)%nat -> g i = 0.
Proof.
  induction n as [|m IH]; cbn; [intros; lia|]. destruct (find_row m g) as [q|]; [discriminate|].
  destruct (Req_EM_T (g m) 0) as [E|]; [|discriminate]. intros _ i Hi. destruct (Nat.eq_dec i m) as [->|]; [exact E|]. apply IH; [reflexivity|lia].
Qed.
Lemma skip_inv p m i : (p < S m)%nat -> (i < S m)%nat -> i <> p -> exists k, (k < m)%nat /\ skip p k = i.
Proof.
  intros Hp Hi Hne. unfold skip. destruct (Nat.lt_ge_cases i p) as [H|H].
  - exists i. split; [lia|]. apply Nat.ltb_lt in H. rewrite H. reflexivity.
  - exists (i - 1)%nat. split; [lia|]. replace (i - 1 <? p)%nat with false by (symmetry; apply Nat.ltb_ge; lia). lia.
Qed.
Lemma skip_lt p m i : (i < m)%nat -> (skip p i < S m)%nat.
Proof. intros Hi. unfold skip. destruct (i <? p)%nat; lia. Qed.

(* the row combination used by the elimination *)
Lemma row_comb m (A : nat -> nat -> R) p i (x : nat -> R) c : A p m <> 0 ->
  let X := fun j => if (j =? m)%nat then (c - rsum m (fun k => A p k * x k)) / A p m else x j in
  rsum (S m) (fun j => A i j * X j) =
  rsum m (fun j => (A i j - A i m / A p m * A p j) * x j) + A i m / A p m * c.
Proof.
  intros Hp X. cbn [rsum]. unfold X at 2. rewrite Nat.eqb_refl.
  rewrite (rsum_ext m (fun j => A i j * X j) (fun j => (A i j - A i m / A p m * A p j) * x j + A i m / A p m * (A p j * x j))).
  - rewrite rsum_plus, rsum_scal. field. exact Hp.
  - intros j Hj. unfold X. replace (j =? m)%nat with false by (symmetry; apply Nat.eqb_neq; lia). ring.
Qed.

Lemma gsolve_sound n : forall A f x, gsolve n A f = Some x -> forall i, (i < n)%nat -> rsum n (fun j => A i j * x j) = f i.
Proof.
  induction n as [|m IH]; intros A f x H i Hi; [lia|]. cbn [gsolve] in H.
  destruct (find_row (S m) (fun i => A i m)) as [p|] eqn:Ep; [|discriminate]. apply find_row_some in Ep. destruct Ep as [Hp Hne].
  destruct (gsolve m _ _) as [y|] eqn:Ey in H; [|discriminate]. injection H as <-. cbn beta in Hne.
  rewrite (row_comb m A p i y (f p) Hne).
  destruct (Nat.eq_dec i p) as [->|Hip].
  - rewrite (rsum_zero m); [field; exact Hne|]. intros j _. field. exact Hne.
  - destruct (skip_inv p m i Hp Hi Hip) as (k & Hk & <-). rewrite (IH _ _ _ Ey k Hk). ring.
Qed.

Lemma gsolve_total n : forall A f,
  (forall u, (forall i, (i < n)%nat -> rsum n (fun j => A i j * u j) = 0) -> forall i, (i < n)%nat -> u i = 0) ->
  exists x, gsolve n A f = Some x.
Proof.
  induction n as [|m IH]; intros A f Hreg; [eexists; reflexivity|]. cbn [gsolve].
  destruct (find_row (S m) (fun i => A i m)) as [p|] eqn:Ep.
  - apply find_row_some in Ep. destruct Ep as [Hp Hne]. cbn beta in Hne.
    destruct (IH (fun i j => A (skip p i) j - A (skip p i) m / A p m * A p j) (fun i => f (skip p i) - A (skip p i) m / A p m * f p)) as [x Hx].
    + intros y Hy i Hi.
      assert (HX := Hreg (fun j => if (j =? m)%nat then (0 - rsum m (fun k => A p k * y k)) / A p m else y j)).
      assert (E : (fun j => if (j =? m)%nat then (0 - rsum m (fun k => A p k * y k)) / A p m else y j) i = 0).
      { apply HX; [|lia]. intros q Hq. rewrite (row_comb m A p q y 0 Hne).
        destruct (Nat.eq_dec q p) as [->|Hqp].
        - rewrite (rsum_zero m); [field; exact Hne|]. intros j _. field. exact Hne.
        - destruct (skip_inv p m q Hp Hq Hqp) as (k & Hk & <-). rewrite (Hy k Hk). ring. }
      cbn beta in E. replace (i =? m)%nat with false in E by (symmetry; apply Nat.eqb_neq; lia). exact E.
    + rewrite Hx. eexists. reflexivity.
  - pose proof (find_row_none _ _ Ep) as H0. exfalso.
    enough (H1 : (fun j => if (j =? m)%nat then 1 else 0) m = 0) by (cbn beta in H1; rewrite Nat.eqb_refl in H1; lra).
    apply (Hreg (fun j => if (j =? m)%nat then 1 else 0)); [|lia]. intros i Hi. apply rsum_zero. intros j _.
    destruct (Nat.eqb_spec j m) as [->|]; [rewrite (H0 i Hi); ring|ring].
Qed.

Lemma elim_ok : solver_ok elim_solver.
Proof.
  intros A f x H. cbn [spsolve elim_solver] in H. destruct (gsolve _ _ _) as [y|] eqn:E; [|discriminate]. injection H as <-.
  rewrite mk_vec_length. split; [reflexivity|]. intros p Hp. rewrite <- (gsolve_sound _ _ _ _ E p Hp).
  unfold act. apply rsum_ext. intros j Hj. rewrite mk_vec_nth by exact Hj. reflexivity.
Qed.
Lemma elim_total : solver_total elim_solver.
Proof.
  intros n A f _ Lf Hreg. cbn [spsolve elim_solver]. rewrite Lf.
  destruct (gsolve_total n (ent A) (fun i => nth i f 0)) as [x Hx]; [exact Hreg|]. rewrite Hx. eexists. reflexivity.
Qed.
