(** * Proofs: bars and beams *)
From Coq Require Import String Reals List Arith Lia Lra Bool ZArith QArith Qreals.
From Verif Require Import Num LinAlg Gauss Fem Uel Assem Post Spec LinR Base SpecElem.
Import ListNotations.
Local Open Scope R_scope.

Ltac lt4 i H :=
  let E := fresh in
  assert (E : (i = 0 \/ i = 1 \/ i = 2 \/ i = 3)%nat) by lia; clear H;
  destruct E as [E|[E|[E|E]]]; subst i.

(** ** Q' A Q *)
Lemma act_congr p q Qm A u i : (i < q)%nat ->
  act q (congr p q Qm A) u i = rsum p (fun a => ent Qm a i * act p A (act q Qm u) a).
Proof.
  intros Hi. unfold act at 1, congr.
  transitivity (rsum q (fun j => rsum p (fun b => rsum p (fun a => ent Qm a i * (ent A a b * (ent Qm b j * u j)))))).
  { apply rsum_ext; intros j Hj. rewrite ent_mmul by assumption. rewrite <- rsum_scal_r.
    apply rsum_ext; intros b Hb. rewrite ent_mmul by assumption. rewrite <- !rsum_scal_r.
    apply rsum_ext; intros a Ha. rewrite ent_mtr by assumption. ring. }
  rewrite rsum_swap.
  transitivity (rsum p (fun b => rsum p (fun a => ent Qm a i * (ent A a b * act q Qm u b)))).
  { apply rsum_ext; intros b Hb. rewrite rsum_swap. apply rsum_ext; intros a Ha.
    unfold act. rewrite <- !rsum_scal. reflexivity. }
  rewrite rsum_swap. apply rsum_ext; intros a Ha. unfold act at 2. rewrite <- rsum_scal. reflexivity.
Qed.

Lemma form_congr p q Qm A u v :
  form q (congr p q Qm A) u v = form p A (act q Qm u) (act q Qm v).
Proof.
  unfold form at 1.
  transitivity (rsum q (fun i => rsum p (fun a => (u i * ent Qm a i) * act p A (act q Qm v) a))).
  { apply rsum_ext; intros i Hi. rewrite act_congr by exact Hi. rewrite <- rsum_scal.
    apply rsum_ext; intros a Ha. ring. }
  rewrite rsum_swap. unfold form. apply rsum_ext; intros a Ha. rewrite rsum_scal_r.
  unfold act at 3. f_equal. apply rsum_ext; intros i Hi. ring.
Qed.

Lemma sym_of_form n K : (forall u v, form n K u v = form n K v u) -> symmetric n K.
Proof.
  intros Hf i j Hi Hj. specialize (Hf (unitv i) (unitv j)). rewrite !form_unit, !act_unit in Hf by assumption.
  exact Hf.
Qed.

Lemma sym_congr p q Qm A : symmetric p A -> symmetric q (congr p q Qm A).
Proof. intros HS. apply sym_of_form. intros u v. rewrite !form_congr. apply form_sym. exact HS. Qed.

Lemma psd_congr p q Qm A : psd p A -> psd q (congr p q Qm A).
Proof. intros HS u. rewrite form_congr. apply HS. Qed.

(** ** the axis of a bar *)
Lemma nis0_spec (x : R) : nis0 x = true <-> x = 0.
Proof.
  unfold nis0. cbn [nleb n0 Num_R]. destruct (Rle_dec x 0), (Rle_dec 0 x); cbn; split; intros; try lra; try discriminate; reflexivity.
Qed.
Lemma nis0_false (x : R) : nis0 x = false <-> x <> 0.
Proof. rewrite <- nis0_spec. destruct (nis0 x); split; intros; try congruence. Qed.

Lemma bar_len_pos xa ya xb yb : (xa <> xb \/ ya <> yb) -> 0 < bar_len xa ya xb yb.
Proof.
  intros Hne. unfold bar_len. apply sqrt_lt_R0.
  assert (Hp : forall a b : R, a <> b -> 0 < (b - a) * (b - a)).
  { intros a b H. apply Rsqr_pos_lt. lra. }
  assert (Hq : forall a b : R, 0 <= (b - a) * (b - a)) by (intros; apply Rle_0_sqr).
  destruct Hne as [H|H]; pose proof (Hp _ _ H); pose proof (Hq xa xb); pose proof (Hq ya yb); lra.
Qed.

Lemma bar_len_sqr xa ya xb yb :
  bar_len xa ya xb yb * bar_len xa ya xb yb = (xb - xa) * (xb - xa) + (yb - ya) * (yb - ya).
Proof. unfold bar_len. apply sqrt_sqrt. apply Rplus_le_le_0_compat; apply Rle_0_sqr. Qed.

Lemma bar_len_zero xa ya xb yb : xa = xb -> ya = yb -> bar_len xa ya xb yb = 0.
Proof.
  intros -> ->. unfold bar_len. replace ((xb - xb) * (xb - xb) + (yb - yb) * (yb - yb)) with 0 by ring.
  apply sqrt_0.
Qed.

Lemma axis_unfold xa ya xb yb :
  axis [[xa; ya]; [xb; yb]] =
  if nis0 (bar_len xa ya xb yb) then Err NonFinite
  else Ok ((xb - xa) / bar_len xa ya xb yb, (yb - ya) / bar_len xa ya xb yb, bar_len xa ya xb yb).
Proof.
  unfold axis.
  change (np_get [[xa; ya]; [xb; yb]] 1) with (Ok [xb; yb]).
  change (np_get [[xa; ya]; [xb; yb]] 0) with (Ok [xa; ya]).
  cbn [bind length Nat.eqb guard combine map fold_right fst snd]. numR.
  change (np_get [xb - xa; yb - ya] 0) with (Ok (xb - xa)).
  change (np_get [xb - xa; yb - ya] 1) with (Ok (yb - ya)). cbn [bind].
  rewrite Rplus_0_r. fold (bar_len xa ya xb yb).
  destruct (nis0 (bar_len xa ya xb yb)); reflexivity.
Qed.

Lemma axis_ok xa ya xb yb : (xa <> xb \/ ya <> yb) ->
  axis [[xa; ya]; [xb; yb]] =
  Ok ((xb - xa) / bar_len xa ya xb yb, (yb - ya) / bar_len xa ya xb yb, bar_len xa ya xb yb).
Proof.
  intros Hne. rewrite axis_unfold.
  replace (nis0 (bar_len xa ya xb yb)) with false; [reflexivity|].
  symmetry. apply nis0_false. pose proof (bar_len_pos _ _ _ _ Hne). lra.
Qed.

Lemma axis_zero x y : axis [[x; y]; [x; y]] = Err NonFinite.
Proof.
  rewrite axis_unfold. replace (nis0 (bar_len x y x y)) with true; [reflexivity|].
  symmetry. apply nis0_spec. apply bar_len_zero; reflexivity.
Qed.

(** what every axis looks like *)
Lemma axis_inv coord nx ny L : @axis R Num_R coord = Ok (nx, ny, L) -> L <> 0.
Proof.
  unfold axis. intros Ha. repeat inv_ok Ha. injection Ha as <- <- <-.
  apply guard_ok in Hr4. apply negb_true_iff, nis0_false in Hr4. exact Hr4.
Qed.

(** ** axial stiffness *)
Definition axial_q (nx ny : R) (i : nat) : R :=
  match i with 0%nat => - nx | 1%nat => - ny | 2%nat => nx | 3%nat => ny | _ => 0 end.

Lemma axial_ent c nx ny i j : (i < 4)%nat -> (j < 4)%nat ->
  ent (congr 2 4 (axial_Q nx ny) (mscale c axial_K)) i j = c * axial_q nx ny i * axial_q nx ny j.
Proof.
  intros Hi Hj. unfold congr. rewrite ent_mmul by assumption. cbn [rsum].
  rewrite !ent_mmul by (assumption || lia). cbn [rsum]. rewrite !ent_mtr by lia.
  rewrite !ent_mscale.
  lt4 i Hi; lt4 j Hj;
    unfold ent, axial_Q, axial_K, axial_q; cbn [nth]; numR; ring.
Qed.

Lemma axial_act c nx ny u i : (i < 4)%nat ->
  act 4 (congr 2 4 (axial_Q nx ny) (mscale c axial_K)) u i =
  c * (nx * (u 2%nat - u 0%nat) + ny * (u 3%nat - u 1%nat)) * axial_q nx ny i.
Proof.
  intros Hi. unfold act. cbn [rsum]. rewrite !axial_ent by (assumption || lia). cbn [axial_q]. ring.
Qed.

Lemma axial_form c nx ny u v :
  form 4 (congr 2 4 (axial_Q nx ny) (mscale c axial_K)) u v =
  c * (nx * (u 2%nat - u 0%nat) + ny * (u 3%nat - u 1%nat)) *
      (nx * (v 2%nat - v 0%nat) + ny * (v 3%nat - v 1%nat)).
Proof.
  unfold form. cbn [rsum]. rewrite !axial_act by lia. cbn [axial_q]. ring.
Qed.

Lemma truss_unfold coord young area rest nx ny L :
  axis coord = Ok (nx, ny, L) ->
  truss2D coord (young :: area :: rest) =
  Ok (congr 2 4 (axial_Q nx ny) (mscale (area * young / L) axial_K),
      M2 (mscale (area * L * opt_dens (young :: area :: rest) / 6)
            [[2; 0; 1; 0]; [0; 2; 0; 1]; [1; 0; 2; 0]; [0; 1; 0; 2]])).
Proof. intros Ha. unfold truss2D. rewrite Ha. reflexivity. Qed.

Lemma spring_unfold coord c nx ny L :
  axis coord = Ok (nx, ny, L) ->
  spring coord [c] = Ok (congr 2 4 (axial_Q nx ny) (mscale c axial_K), M1 (vzeros 4)).
Proof. intros Ha. unfold spring. rewrite Ha. reflexivity. Qed.

Lemma bars_closed_form xa ya xb yb :
  (xa <> xb \/ ya <> yb) ->
  (forall young area rest, exists K M,
     truss2D [[xa; ya]; [xb; yb]] (young :: area :: rest) = Ok (K, M2 M) /\
     forall u i, (i < 4)%nat ->
       act 4 K u i = bar_force (young * area / bar_len xa ya xb yb) xa ya xb yb u i) /\
  (forall c, exists K m,
     spring [[xa; ya]; [xb; yb]] [c] = Ok (K, m) /\
     forall u i, (i < 4)%nat -> act 4 K u i = bar_force c xa ya xb yb u i).
Proof.
  intros Hne. pose proof (bar_len_pos _ _ _ _ Hne) as HL. split.
  - intros young area rest. do 2 eexists. split; [apply truss_unfold; apply axis_ok; exact Hne|].
    intros u i Hi. rewrite axial_act by exact Hi. unfold bar_force, bar_elong, axial_q.
    do 4 (destruct i as [|i]; [field; lra|]). lia.
  - intros c. do 2 eexists. split; [eapply spring_unfold; apply axis_ok; exact Hne|].
    intros u i Hi. rewrite axial_act by exact Hi. unfold bar_force, bar_elong, axial_q.
    do 4 (destruct i as [|i]; [field; lra|]). lia.
Qed.

Lemma bars_zero_length x y young area rest c :
  truss2D [[x; y]; [x; y]] (young :: area :: rest) = Err NonFinite /\
  spring [[x; y]; [x; y]] [c] = Err NonFinite.
Proof. unfold truss2D, spring. rewrite axis_zero. split; reflexivity. Qed.

(** ** matrices of truss and spring for any accepted geometry *)
Lemma truss_inv coord params K m :
  truss2D coord params = Ok (K, m) ->
  exists nx ny L young area rest, axis coord = Ok (nx, ny, L) /\ params = young :: area :: rest /\
    K = congr 2 4 (axial_Q nx ny) (mscale (area * young / L) axial_K) /\
    m = M2 (mscale (area * L * opt_dens params / 6)
            [[2; 0; 1; 0]; [0; 2; 0; 1]; [1; 0; 2; 0]; [0; 1; 0; 2]]).
Proof.
  unfold truss2D. intros Ht. inv_ok Ht. destruct r as [[nx ny] L].
  destruct params as [|young [|area rest]]; try discriminate.
  apply Ok_pair_inj in Ht. destruct Ht as [<- <-]. exists nx, ny, L, young, area, rest. repeat split; auto.
Qed.

Lemma axial_sym c nx ny : symmetric 4 (congr 2 4 (axial_Q nx ny) (mscale c axial_K)).
Proof. apply sym_of_form. intros u v. rewrite !axial_form. ring. Qed.

Lemma axial_psd c nx ny : 0 <= c -> psd 4 (congr 2 4 (axial_Q nx ny) (mscale c axial_K)).
Proof. intros Hc u. rewrite axial_form. rewrite Rmult_assoc. apply Rmult_le_pos; [exact Hc|apply Rle_0_sqr]. Qed.

Lemma truss_mass_ent c i j : (i < 4)%nat -> (j < 4)%nat ->
  ent (mscale c [[2; 0; 1; 0]; [0; 2; 0; 1]; [1; 0; 2; 0]; [0; 1; 0; 2]]) i j =
  c * (if (i =? j)%nat then 2 else if (i mod 2 =? j mod 2)%nat then 1 else 0).
Proof.
  intros Hi Hj. rewrite ent_mscale. f_equal.
  lt4 i Hi; lt4 j Hj; reflexivity.
Qed.

Lemma truss_mass_form c u v :
  form 4 (mscale c [[2; 0; 1; 0]; [0; 2; 0; 1]; [1; 0; 2; 0]; [0; 1; 0; 2]]) u v =
  c * (2 * u 0%nat * v 0%nat + 2 * u 2%nat * v 2%nat + u 0%nat * v 2%nat + u 2%nat * v 0%nat +
       2 * u 1%nat * v 1%nat + 2 * u 3%nat * v 3%nat + u 1%nat * v 3%nat + u 3%nat * v 1%nat).
Proof.
  unfold form, act. cbn [rsum]. rewrite !truss_mass_ent by lia. cbn. ring.
Qed.

(** ** beams *)
Definition beam_bend (b L : R) : list (list R) :=
  mscale b [[12; 6 * L; - (12); 6 * L];
            [6 * L; 4 * (L * L); - (6) * L; 2 * (L * L)];
            [- (12); - (6) * L; 12; - (6) * L];
            [6 * L; 2 * (L * L); - (6) * L; 4 * (L * L)]].

Lemma beam_bend_form b L u v :
  form 4 (beam_bend b L) u v =
  b * (3 * (2 * (u 0%nat - u 2%nat) + L * (u 1%nat + u 3%nat)) * (2 * (v 0%nat - v 2%nat) + L * (v 1%nat + v 3%nat)) +
       L * L * (u 1%nat - u 3%nat) * (v 1%nat - v 3%nat)).
Proof.
  unfold form, act, beam_bend. cbn [rsum]. rewrite !ent_mscale. unfold ent. cbn [nth]. ring.
Qed.
