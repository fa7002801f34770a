(** * Proofs: no spurious modes of the axisymmetric element on straight-sided quadrilaterals *)
From Coq Require Import String Reals List Arith Lia Lra Bool ZArith QArith Qreals.
From Verif Require Import Num LinAlg Gauss Fem Uel Spec LinR Base ElemShape BarProofs SpecElem SpecShape ShapeProofs ElemCore Sampled Elem2 MatProofs Elem2Props Elem2Mass Elem2Modes ElemAxi Areas SpecModes Rigid2D Elem2Modes2.
Import ListNotations.
Local Open Scope R_scope.

Lemma axi_pd E nu e : 0 < E -> -1 < nu < 1 / 2 -> form 4 (axi_R E nu) e e = 0 -> forall a, (a < 4)%nat -> e a = 0.
Proof.
  intros HE Hn H. rewrite axi_diag in H. pose proof (bulk_pos E nu HE Hn) as Hb. pose proof (mu_pos E nu HE (proj1 Hn)) as Hm.
  pose proof (sq_nonneg (e 0%nat + e 1%nat)) as S0. pose proof (sq_nonneg (e 0%nat - e 1%nat)) as S1. pose proof (sq_nonneg (e 2%nat)) as S2. pose proof (sq_nonneg (e 3%nat)) as S3.
  set (p := lam E nu + mu E nu) in *. set (q := lam E nu + 2 * mu E nu) in *. set (m := mu E nu) in *.
  assert (Hp : 0 < p) by (unfold p, m in *; lra). assert (Hq : 0 < q) by (unfold q, m in *; lra).
  pose proof (Rmult_le_pos _ _ (Rlt_le _ _ Hp) S0) as T0. pose proof (Rmult_le_pos _ _ (Rlt_le _ _ Hm) S1) as T1.
  pose proof (Rmult_le_pos _ _ (Rlt_le _ _ Hm) S2) as T2. pose proof (Rmult_le_pos _ _ (Rlt_le _ _ Hq) S3) as T3.
  assert (Z : forall c x, 0 < c -> c * (x * x) = 0 -> x = 0).
  { intros c x Hc Hx. apply Rmult_integral in Hx. destruct Hx as [Hx|Hx]; [lra|]. apply sq_zero. exact Hx. }
  assert (E0 : e 0%nat + e 1%nat = 0) by (apply (Z p); [exact Hp|lra]). assert (E1 : e 0%nat - e 1%nat = 0) by (apply (Z m); [exact Hm|lra]).
  assert (E2 : e 2%nat = 0) by (apply (Z m); [exact Hm|lra]). assert (E3 : e 3%nat = 0) by (apply (Z q); [exact Hq|lra]).
  intros a Ha. destruct a as [|[|[|[|]]]]; [lra|lra|exact E2|exact E3|lia].
Qed.

Lemma c9_value r s v : rsum 9 (fun k => nth k (fst (shape_quad9 r s)) 0 * v k) = bq (c9 v) r s.
Proof. unfold bq, c9, n22, e20, q10, q01, q11, q21, q12, n20, n02. shp. cbn [rsum nth]. field. Qed.

Lemma axi_modes coord E nu rho K m u : elast_axi_quad9 coord [E; nu; rho] = Ok (K, m) ->
  0 < E -> -1 < nu < 1 / 2 -> straight9 coord -> form 18 K u u = 0 ->
  exists b, forall j, (j < 18)%nat -> u j = trans2 0 b j.
Proof.
  intros Hrun HE Hnu Hst H0. apply axi_sampled in Hrun. destruct Hrun as [E' [nu' [rho' [M [Hp [_ [_ [Ha [_ HS]]]]]]]]].
  injection Hp as <- <- <-.
  assert (HZ : forall r s w, In (r, s, w) gqA -> det_at 9 shape_quad9 coord r s <> 0 /\ radius 9 (fst (shape_quad9 r s)) coord <> 0 /\
    forall a, (a < 4)%nat -> strainA 9 (fst (shape_quad9 r s)) (snd (shape_quad9 r s)) coord u a = 0).
  { intros r s w Hin. split; [|split].
    - destruct Ha as [[_ [_ Ha]] _]. specialize (Ha r s w Hin). lra.
    - destruct Ha as [_ Ha]. specialize (Ha r s w Hin). lra.
    - pose proof (sampled_zero_energy _ _ _ _ _ _ _ _ HS u (fun g Hg => gsA_weights coord g Ha Hg) (axi_psd E nu HE Hnu) H0
        (gdatA coord (r, s, w)) (in_map _ _ _ Hin)) as Z. cbn [gdatA g_eps] in Z. exact (axi_pd E nu _ HE Hnu Z). }
  destruct (straight9_bilin coord Hst) as [BX BY].
  destruct (quad_modes 9 shape_quad9 c9 c9_r c9_s c9_n coord u BX BY) as (a & b & w & Hr).
  { intros r s w Hin. destruct (HZ r s w Hin) as (Hd & _ & Hs). split; [exact Hd|]. intros c Hc.
    pose proof (Hs c ltac:(lia)) as X. destruct c as [|[|[|]]]; [exact X|exact X|exact X|lia]. }
  assert (U : forall r s, bq (c9 (ux u)) r s = 0).
  { apply grid_zero. intros r s w' Hin. destruct (HZ r s w' Hin) as (_ & Hrad & Hs). specialize (Hs 3%nat ltac:(lia)). cbn [strainA] in Hs.
    rewrite <- c9_value. unfold Rdiv in Hs. apply Rmult_integral in Hs. destruct Hs as [Hs|Hs]; [exact Hs|]. exfalso. exact (Rinv_neq_0_compat _ Hrad Hs). }
  assert (U0 : forall k, (k < 9)%nat -> u (2 * k)%nat = 0).
  { intros k Hk. destruct (c9_n k Hk) as (r & s & Ek). specialize (Ek (ux u)). rewrite U in Ek. symmetry. exact Ek. }
  assert (W : w = 0).
  { destruct (Req_EM_T w 0) as [W|W]; [exact W|exfalso].
    assert (Y0 : forall k, (k < 9)%nat -> ent coord k 1 = a / w).
    { intros k Hk. pose proof (Hr (2 * k)%nat ltac:(lia)) as X. rewrite rigid2_even, U0 in X by exact Hk. unfold node_y in X.
      apply (Rmult_eq_reg_l w); [|exact W]. transitivity a; [lra|]. field. exact W. }
    assert (G : exists r s w', In (r, s, w') gqA) by (do 3 eexists; left; reflexivity). destruct G as (r & s & w' & Hin).
    destruct (HZ r s w' Hin) as (Hd & _). apply Hd. unfold det_at, J2det, Jac.
    assert (Dr : forall d, (d = 0 \/ d = 1)%nat -> rsum 9 (fun k => ent (snd (shape_quad9 r s)) d k * ent coord k 1) = 0).
    { intros d Hd'. destruct Hd' as [-> | ->]; [rewrite (c9_r r s (fun k => ent coord k 1))|rewrite (c9_s r s (fun k => ent coord k 1))];
        unfold bq_r, bq_s, c9, n22, e20, q10, q01, q11, q21, q12, n20, n02; rewrite !Y0 by lia; field; exact W. }
    pose proof (Dr 0%nat ltac:(lia)) as D0. pose proof (Dr 1%nat ltac:(lia)) as D1.
    etransitivity; [apply (f_equal2 Rminus (f_equal2 Rmult eq_refl D1) (f_equal2 Rmult D0 eq_refl))|]. ring. }
  exists b. intros j Hj. destruct (Nat.Even_or_Odd j) as [[k ->]|[k ->]].
  - rewrite U0 by lia. unfold trans2. rewrite field2_even. reflexivity.
  - rewrite Hr by lia. rewrite rigid2_odd, W. unfold trans2. rewrite field2_odd. ring.
Qed.
