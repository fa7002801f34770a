(** * Shapes of the local matrices (proof support) *)
From Coq Require Import Reals List Arith Lia Lra Bool ZArith.
From Verif Require Import Num LinAlg Gauss Fem Uel Assem Spec LinR Base.
Import ListNotations.
Local Open Scope R_scope.

Lemma integrate_shape nst nd ndof diff C sK sM (gps : list (list R * R)) K M :
  integrate nst nd ndof diff C sK sM gps = Ok (K, M) ->
  shape ndof ndof K /\ shape ndof ndof M.
Proof.
  unfold integrate.
  enough (Hgen : forall K0 M0, shape ndof ndof K0 -> shape ndof ndof M0 -> forall K M,
    foldM
      (fun KM pw =>
         let (K, M) := (KM : list (list R) * list (list R)) in
         let (p, w) := (pw : list R * R) in
         '(Hm, B, det) <- diff p ;;
         let K' := madd ndof ndof K
                     (mscale (sK det w)
                        (mmul ndof nst ndof (mmul ndof nst nst (mtr nst ndof B) C) B)) in
         let M' := madd ndof ndof M
                     (mscale (sM det w) (mmul ndof nd ndof (mtr nd ndof Hm) Hm)) in
         Ok (K', M')) gps (K0, M0) = Ok (K, M) -> shape ndof ndof K /\ shape ndof ndof M).
  { apply Hgen; apply shape_mk_mat. }
  clear K M. induction gps as [|[p w] gps IH]; intros K0 M0 SK SM K M Hf; cbn [foldM] in Hf.
  - injection Hf as <- <-. split; assumption.
  - destruct (diff p) as [[[Hm B] det]|e]; [|discriminate]. cbn [bind] in Hf.
    apply IH in Hf; auto; apply shape_mk_mat.
Qed.

Lemma congr_shape p q Qm A : shape q q (congr p q Qm A).
Proof. apply shape_mk_mat. Qed.

Lemma wrap_integrate nst nd ndof diff C sK sM (gps : list (list R * R)) k m :
  bind (integrate nst nd ndof diff C sK sM gps) (fun KM => Ok (wrap KM)) = Ok (k, m) ->
  exists M, integrate nst nd ndof diff C sK sM gps = Ok (k, M) /\ m = M2 M.
Proof.
  intros Hb. apply bind_ok in Hb. destruct Hb as [[K M] [Hi Hw]]. injection Hw as <- <-.
  exists M. split; [exact Hi|reflexivity].
Qed.

Ltac cont_shape Hf :=
  repeat (apply bind_ok in Hf; let a := fresh "a" in let Ha := fresh "Ha" in
          destruct Hf as [a [Ha Hf]]; cbv beta in Hf;
          repeat match type of Hf with
                 | (let '(_, _) := ?x in _) = _ => destruct x
                 end);
  idtac.

Lemma ele_fun_shape t f nd nn ng coord params k m :
  @ele_fun R Num_R t = Ok f -> eletype t = Ok (nd, nn, ng) -> f coord params = Ok (k, m) ->
  shape nd nd k /\ (t = 5%Z /\ m = M1 (vzeros 4) \/ t <> 5%Z /\ exists M, m = M2 M /\ shape nd nd M).
Proof.
  intros He Ht Hf.
  assert (HT : (t = 1 \/ t = 2 \/ t = 3 \/ t = 4 \/ t = 5 \/ t = 6 \/ t = 7 \/ t = 8)%Z).
  { unfold eletype in Ht.
    repeat (match type of Ht with context [match ?z with _ => _ end] => destruct z end);
      try discriminate; lia. }
  destruct HT as [->|[->|[->|[->|[->|[->|[->| ->]]]]]]]; cbn in He, Ht;
    injection He as <-; injection Ht as <- <- <-.
  - unfold elast_quad4 in Hf. inv_ok Hf. inv_ok Hf. destruct r0 as [gp gw].
    apply wrap_integrate in Hf. destruct Hf as [M [Hi ->]]. apply integrate_shape in Hi.
    split; [apply Hi|]. right. split; [discriminate|]. exists M. split; [reflexivity|apply Hi].
  - unfold elast_tri6 in Hf. inv_ok Hf. inv_ok Hf. destruct r0 as [gp gw].
    apply wrap_integrate in Hf. destruct Hf as [M [Hi ->]]. apply integrate_shape in Hi.
    split; [apply Hi|]. right. split; [discriminate|]. exists M. split; [reflexivity|apply Hi].
  - unfold elast_tri3 in Hf. inv_ok Hf. inv_ok Hf. destruct r0 as [gp gw].
    apply wrap_integrate in Hf. destruct Hf as [M [Hi ->]]. apply integrate_shape in Hi.
    split; [apply Hi|]. right. split; [discriminate|]. exists M. split; [reflexivity|apply Hi].
  - unfold elast_quad9 in Hf. inv_ok Hf. inv_ok Hf. destruct r0 as [gp gw].
    apply wrap_integrate in Hf. destruct Hf as [M [Hi ->]]. apply integrate_shape in Hi.
    split; [apply Hi|]. right. split; [discriminate|]. exists M. split; [reflexivity|apply Hi].
  - unfold spring in Hf. inv_ok Hf. destruct r as [[nx ny] L]. inv_ok Hf.
    apply Ok_pair_inj in Hf; destruct Hf as [<- <-]. split; [apply congr_shape|]. left. split; reflexivity.
  - unfold truss2D in Hf. inv_ok Hf. destruct r as [[nx ny] L].
    destruct params as [|young [|area rest]]; try discriminate.
    apply Ok_pair_inj in Hf; destruct Hf as [<- <-]. split; [apply congr_shape|]. right. split; [discriminate|].
    eexists; split; [reflexivity|]. apply shape_mscale. split; [reflexivity|repeat constructor].
  - unfold beam2DU in Hf. inv_ok Hf. destruct r as [[nx ny] L].
    destruct params as [|young [|am rest]]; try discriminate. inv_ok Hf. destruct r as [dens area].
    apply Ok_pair_inj in Hf; destruct Hf as [<- <-]. split; [apply congr_shape|]. right. split; [discriminate|].
    eexists; split; [reflexivity|]. apply congr_shape.
  - unfold beam2D in Hf. inv_ok Hf. destruct r as [[nx ny] L].
    destruct params as [|young [|am [|area rest]]]; try discriminate. inv_ok Hf. inv_ok Hf.
    apply Ok_pair_inj in Hf; destruct Hf as [<- <-]. split; [apply congr_shape|]. right. split; [discriminate|].
    eexists; split; [reflexivity|]. apply congr_shape.
Qed.

Lemma retriever_builtin elem mats nodes k m :
  @retriever R Num_R elem mats nodes None = Ok (k, m) ->
  exists t im params rows f, np_get elem 1 = Ok t /\ np_get elem 2 = Ok im /\
    np_get mats im = Ok params /\ mapM (np_get nodes) (skipn 3 elem) = Ok rows /\
    ele_fun t = Ok f /\ f (map (@tl R) rows) params = Ok (k, m).
Proof.
  unfold retriever. intros Hr. inv_ok Hr. inv_ok Hr. inv_ok Hr. inv_ok Hr. inv_ok Hr.
  exists r, r0, r1, r2, r3. repeat split; assumption.
Qed.
