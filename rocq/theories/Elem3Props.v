(** * Proofs: properties of the solid elements *)
From Coq Require Import String Reals List Arith Lia Lra Bool ZArith QArith Qreals.
From Verif Require Import Num LinAlg Gauss Fem Uel Spec LinR Base ElemShape BarProofs SpecElem SpecShape ShapeProofs ElemCore Sampled Elem2 MatProofs Elem2Props Elem3.
Import ListNotations.
Local Open Scope R_scope.

Lemma solids_shapes p : In p solids -> In (so_sh p) shapes3.
Proof. intros Hin. repeat (destruct Hin as [<-|Hin]; [cbn; tauto|]). destruct Hin. Qed.

Lemma solid_D0 p r s t a : In p solids -> (a < 3)%nat -> rsum (so_n p) (ent (snd (so_sh p r s t)) a) = 0.
Proof.
  intros Hp Ha. destruct (unity3 (so_sh p) (solids_shapes p Hp) r s t) as [_ [HL HF]].
  destruct (good3_all p Hp r s t) as [HN HD].
  rewrite Forall_forall in HF. destruct (HF (nth a (snd (so_sh p r s t)) [])) as [H0 H1]; [apply nth_In; lia|].
  rewrite total_rsum, H1, HN in H0. exact H0.
Qed.
Lemma solid_N1 p r s t : In p solids -> rsum (so_n p) (fun k => nth k (fst (so_sh p r s t)) 0) = 1.
Proof.
  intros Hp. destruct (unity3 (so_sh p) (solids_shapes p Hp) r s t) as [H1 _].
  destruct (good3_all p Hp r s t) as [HN HD]. rewrite total_rsum, HN in H1. exact H1.
Qed.

Lemma so_pos p : In p solids -> 0 < so_c p /\ forall r s t w, In (r, s, t, w) (so_gq p) -> 0 < w.
Proof.
  intros Hin.
  repeat (destruct Hin as [<-|Hin];
    [split; [cbn; lra|];
     intros r s t w HH; cbn in HH; repeat (destruct HH as [HH|HH]; [injection HH as _ _ _ <-; unfold Q2R; cbn; lra|]); destruct HH|]).
  destruct Hin.
Qed.
Lemma so_ne p : In p solids -> so_gq p <> [].
Proof. intros Hin. repeat (destruct Hin as [<-|Hin]; [discriminate|]). destruct Hin. Qed.

Definition gs3 (p : solid) (coord : list (list R)) : list gdat := map (gdat3 (so_n p) (so_sh p) coord (so_c p)) (so_gq p).

Lemma solid_summary p coord params K m : In p solids -> so_f p coord params = Ok (K, m) ->
  exists E nu rho M, params = [E; nu; rho] /\ 1 + nu <> 0 /\ 1 - 2 * nu <> 0 /\
    accepted3 (so_n p) (so_sh p) (so_gq p) coord /\ m = M2 M /\
    sampled 6 3 (3 * so_n p) (hooke E nu) rho (gs3 p coord) K M.
Proof.
  intros Hp Hf. apply solid_eq in Hf; [|exact Hp].
  destruct Hf as [E [nu [rho [C [sK [sM [M [H1 [H2 [H3 [H4 [H5 H6]]]]]]]]]]]].
  apply hooke_inv in H2. destruct H2 as [H2 [H2' ->]].
  apply (solid_inv (so_n p) (so_sh p) (so_gq p) coord _ (so_c p) sK sM rho) in H5; auto using good3_all, so_ne.
  destruct H5 as [H5 H7]. exists E, nu, rho, M. repeat (split; [assumption|]). exact H7.
Qed.

Lemma solid_runs p coord E nu rho : In p solids ->
  1 + nu <> 0 -> 1 - 2 * nu <> 0 ->
  accepted3 (so_n p) (so_sh p) (so_gq p) coord ->
  exists K M, so_f p coord [E; nu; rho] = Ok (K, M2 M).
Proof.
  intros Hin Hnu Hnu' Hacc.
  assert (Hu : elast_mat [E; nu] = Ok (hooke E nu)).
  { rewrite elast_mat_eq. destruct (Req_EM_T _ _); [contradiction|]. destruct (Req_EM_T _ _); [contradiction|reflexivity]. }
  pose proof (good3_all p Hin) as Hg.
  repeat (destruct Hin as [<-|Hin]).
  - cbn [so_f so_tet4]. unfold elast_tet4. cbn [params3 bind]. rewrite Hu. cbn [bind].
    change (gauss_tet 3) with (Ok (match @gauss_tet R Num_R 3 with Ok x => x | Err _ => ([], []) end)).
    cbn [bind]. apply bind_wrap_total. apply (solid_total 4 shape_tet4 (so_gq so_tet4)); assumption.
  - cbn [so_f so_hex8]. unfold elast_hex8. cbn [params3 bind]. rewrite Hu. cbn [bind].
    change (gauss_nd 2 3) with (Ok (match @gauss_nd R Num_R 2 3 with Ok x => x | Err _ => ([], []) end)).
    cbn [bind]. apply bind_wrap_total. apply (solid_total 8 shape_hex8 (so_gq so_hex8)); assumption.
  - destruct Hin.
Qed.

Lemma gs3_weights p coord g : In p solids -> accepted3 (so_n p) (so_sh p) (so_gq p) coord ->
  In g (gs3 p coord) -> 0 < g_w g.
Proof.
  intros Hp [_ [_ Ha]] Hg. apply in_map_iff in Hg. destruct Hg as [[[[r s] t] w] [<- Hin]]. cbn [gdat3 g_w].
  destruct (so_pos p Hp) as [Hc Hw]. specialize (Hw r s t w Hin). specialize (Ha r s t w Hin).
  apply Rmult_lt_0_compat; [exact Hc|]. apply Rmult_lt_0_compat; lra.
Qed.

(** ** affine fields *)
Lemma mod3 k b : (b < 3)%nat -> ((3 * k + b) mod 3 = b)%nat.
Proof. intros. symmetry. apply (Nat.mod_unique _ 3 k b); lia. Qed.
Lemma div3 k b : (b < 3)%nat -> ((3 * k + b) / 3 = k)%nat.
Proof. intros. symmetry. apply (Nat.div_unique _ 3 k b); lia. Qed.

Lemma G3_affine n D coord t A a b : (a < 3)%nat -> (b < 3)%nat ->
  (forall b, (b < 3)%nat -> rsum n (ent D b) = 0) -> J3det (Jac n D coord) <> 0 ->
  G3 n D coord (affine3 coord t A) a b = A b a.
Proof.
  intros Ha Hb H0 Hd. unfold G3, affine3.
  transitivity (t b * rsum n (grad3g n D coord a) + rsum 3 (fun i => A b i * rsum n (fun k => grad3g n D coord a k * ent coord k i))).
  { cbn [rsum]. rewrite <- !rsum_scal, Rplus_0_l, <- !rsum_plus. apply rsum_ext; intros k _. rewrite mod3, div3 by exact Hb. cbn [rsum]. ring. }
  rewrite grad3_one by exact H0. rewrite Rmult_0_r, Rplus_0_l.
  rewrite (rsum_single 3 a); [|exact Ha|].
  - rewrite grad3_coord by assumption. rewrite Nat.eqb_refl. ring.
  - intros i Hi Hne. rewrite grad3_coord by assumption. replace (a =? i)%nat with false; [ring|].
    symmetry. apply Nat.eqb_neq. congruence.
Qed.

Lemma strain3_affine n D coord t A a : (a < 6)%nat ->
  (forall b, (b < 3)%nat -> rsum n (ent D b) = 0) -> J3det (Jac n D coord) <> 0 ->
  strain3 n D coord (affine3 coord t A) a = voigt3 A a.
Proof.
  intros Ha H0 Hd. unfold strain3, strain_of, voigt3.
  do 6 (destruct a as [|a]; [rewrite !G3_affine by (assumption || lia); reflexivity|]). lia.
Qed.

Lemma solid_strain_affine p coord t A g a : In p solids ->
  accepted3 (so_n p) (so_sh p) (so_gq p) coord -> In g (gs3 p coord) -> (a < 6)%nat ->
  g_eps g (affine3 coord t A) a = voigt3 A a.
Proof.
  intros Hp [_ [_ Hacc]] Hg Ha. apply in_map_iff in Hg. destruct Hg as [[[[r s] t'] w] [<- Hin]]. cbn [gdat3 g_eps].
  apply strain3_affine; auto; try (intros; apply solid_D0; auto).
  specialize (Hacc r s t' w Hin). unfold det_at3 in Hacc. lra.
Qed.

Lemma value3_trans p r s t c k : In p solids -> (k < 3)%nat ->
  value3 (so_n p) (fst (so_sh p r s t)) (trans3 c) k = c k.
Proof.
  intros Hp Hk. unfold value3, trans3. erewrite rsum_ext; [|intros; rewrite mod3 by exact Hk; reflexivity].
  rewrite rsum_scal_r, solid_N1 by exact Hp. ring.
Qed.

Lemma value3_other n N u k : (forall j, (j < n)%nat -> u (3 * j + k)%nat = 0) -> value3 n N u k = 0.
Proof. intros Hu. unfold value3. apply rsum_zero; intros j Hj. rewrite Hu by exact Hj. ring. Qed.

Definition wdet3 (p : solid) (coord : list (list R)) : R :=
  so_c p * lsum (fun q => let '(r, s, t, w) := q in det_at3 (so_n p) (so_sh p) coord r s t * w) (so_gq p).
Lemma wdet3_sum p coord : lsum g_w (gs3 p coord) = wdet3 p coord.
Proof.
  unfold gs3, wdet3. rewrite lsum_map, <- lsum_scal. apply lsum_ext. intros [[[r s] t] w] _. reflexivity.
Qed.

Section OneElement.
  Variables (p : solid) (coord : list (list R)) (E nu rho : R) (K : list (list R)) (m : massmat R).
  Hypothesis Hp : In p solids.
  Hypothesis Hrun : so_f p coord [E; nu; rho] = Ok (K, m).

  Lemma solid_sampled : accepted3 (so_n p) (so_sh p) (so_gq p) coord /\
    exists M, m = M2 M /\ sampled 6 3 (3 * so_n p) (hooke E nu) rho (gs3 p coord) K M.
  Proof.
    destruct (solid_summary p coord _ K m Hp Hrun) as [E' [nu' [rho' [M [Hpar [_ [_ [Ha [Hm HS]]]]]]]]].
    injection Hpar as <- <- <-. split; [exact Ha|]. exists M. split; assumption.
  Qed.

  Lemma solid_sym : symmetric (3 * so_n p) K.
  Proof. destruct solid_sampled as [_ [M [_ HS]]]. eapply sampled_sym; [exact HS|apply hooke_sym]. Qed.

  Lemma solid_psd : 0 < E -> -1 < nu < 1/2 -> psd (3 * so_n p) K.
  Proof.
    intros HE Hnu. destruct solid_sampled as [Ha [M [_ HS]]].
    eapply sampled_psd; [exact HS|apply hooke_psd; assumption|].
    intros g Hg. apply Rlt_le. eapply gs3_weights; eassumption.
  Qed.

  Lemma solid_rigid t w i : (i < 3 * so_n p)%nat -> act (3 * so_n p) K (rigid3 coord t w) i = 0.
  Proof.
    intros Hi. destruct solid_sampled as [Ha [M [_ HS]]].
    eapply sampled_null; [exact HS| |exact Hi]. intros g k Hg Hk. unfold rigid3.
    rewrite (solid_strain_affine p) by assumption. do 6 (destruct k as [|k]; [cbn; ring|]). lia.
  Qed.

  Lemma solid_uniform t A t' A' :
    form (3 * so_n p) K (affine3 coord t A) (affine3 coord t' A') =
    wdet3 p coord * energy3 E nu (voigt3 A) (voigt3 A').
  Proof.
    destruct solid_sampled as [Ha [M [_ HS]]].
    rewrite (sampled_uniform _ _ _ _ _ _ _ _ HS _ _ (voigt3 A) (voigt3 A')).
    - rewrite hooke_form, wdet3_sum. reflexivity.
    - intros. apply (solid_strain_affine p); assumption.
    - intros. apply (solid_strain_affine p); assumption.
  Qed.

  Lemma solid_mass : exists M, m = M2 M /\ symmetric (3 * so_n p) M /\ (0 <= rho -> psd (3 * so_n p) M) /\
    (forall i j, (i < 3 * so_n p)%nat -> (j < 3 * so_n p)%nat -> (i mod 3 <> j mod 3)%nat -> ent M i j = 0) /\
    (forall c c', form (3 * so_n p) M (trans3 c) (trans3 c') = rho * wdet3 p coord * rsum 3 (fun a => c a * c' a)).
  Proof.
    destruct solid_sampled as [Ha [M [Hm HS]]]. exists M. split; [exact Hm|].
    split; [eapply sampled_mass_sym; exact HS|].
    split; [intros Hr; eapply sampled_mass_psd; [exact HS|exact Hr|intros; apply Rlt_le; eapply gs3_weights; eassumption]|].
    split.
    - intros i j Hi Hj Hne. rewrite <- (act_unit (3 * so_n p) M i j Hj), act_of_form by exact Hi.
      eapply sampled_mass_zero; [exact HS|]. intros g a Hg Hk. apply in_map_iff in Hg.
      destruct Hg as [[[[r s] t] w] [<- _]]. cbn [gdat3 g_val].
      assert (Hz : forall x, (x mod 3 <> a)%nat -> forall l, unitv x (3 * l + a)%nat = 0).
      { intros x Hx l. unfold unitv. replace (3 * l + a =? x)%nat with false; [reflexivity|].
        symmetry. apply Nat.eqb_neq. intros Heq. subst x. rewrite mod3 in Hx by exact Hk. congruence. }
      destruct (Nat.eq_dec (i mod 3) a) as [Hia|Hia].
      + rewrite (value3_other _ _ (unitv j) a); [ring|]. intros; apply Hz. congruence.
      + rewrite (value3_other _ _ (unitv i) a); [ring|]. intros; apply Hz. exact Hia.
    - intros c c'. rewrite (sampled_mass_uniform _ _ _ _ _ _ _ _ HS _ _ c c').
      + rewrite wdet3_sum. reflexivity.
      + intros g k Hg Hk. apply in_map_iff in Hg. destruct Hg as [[[[r s] t] w] [<- _]]. cbn [gdat3 g_val]. apply value3_trans; assumption.
      + intros g k Hg Hk. apply in_map_iff in Hg. destruct Hg as [[[[r s] t] w] [<- _]]. cbn [gdat3 g_val]. apply value3_trans; assumption.
  Qed.
End OneElement.

(** ** scaling *)
Lemma hooke_scale E nu t e e' : form 6 (hooke (t * E) nu) e e' = t * form 6 (hooke E nu) e e'.
Proof. rewrite !hooke_form. unfold lam, mu, Rdiv. ring. Qed.

Lemma solid_scaling p coord E nu rho K M t u : In p solids ->
  so_f p coord [E; nu; rho] = Ok (K, M2 M) ->
  so_f p coord [t * E; nu; u * rho] = Ok (mscale t K, M2 (mscale u M)).
Proof.
  intros Hp Hrun.
  destruct (solid_summary p coord _ K _ Hp Hrun) as [E1 [nu1 [rho1 [M1 [Hp1 [Hnu [Hnu' [Ha [Hm HS]]]]]]]]].
  injection Hp1 as <- <- <-. injection Hm as <-.
  destruct (solid_runs p coord (t * E) nu (u * rho) Hp Hnu Hnu' Ha) as [K' [M' Hrun']].
  destruct (solid_summary p coord _ K' _ Hp Hrun') as [E2 [nu2 [rho2 [M2' [Hp2 [_ [_ [_ [Hm2 HS2]]]]]]]]].
  injection Hp2 as <- <- <-. injection Hm2 as <-.
  rewrite Hrun'. repeat f_equal.
  - apply (form_matrix_unique (3 * so_n p)); [apply HS2|apply shape_mscale; apply HS|].
    intros. rewrite form_mscale, (sa_K _ _ _ _ _ _ _ _ HS), (sa_K _ _ _ _ _ _ _ _ HS2).
    rewrite <- lsum_scal. apply lsum_ext. intros g _. unfold vK. rewrite hooke_scale. ring.
  - apply (form_matrix_unique (3 * so_n p)); [apply HS2|apply shape_mscale; apply HS|].
    intros. rewrite form_mscale, (sa_M _ _ _ _ _ _ _ _ HS), (sa_M _ _ _ _ _ _ _ _ HS2). ring.
Qed.

Lemma solid_mass_indep p coord E nu rho K M E' nu' K' M' : In p solids ->
  so_f p coord [E; nu; rho] = Ok (K, M2 M) -> so_f p coord [E'; nu'; rho] = Ok (K', M2 M') -> M = M'.
Proof.
  intros Hp Hrun Hrun'.
  destruct (solid_sampled p coord E nu rho K _ Hp Hrun) as [Ha [M1 [Hm HS]]]. injection Hm as <-.
  destruct (solid_sampled p coord E' nu' rho K' _ Hp Hrun') as [_ [M1 [Hm HS']]]. injection Hm as <-.
  apply (form_matrix_unique (3 * so_n p)); [apply HS|apply HS'|].
  intros. rewrite (sa_M _ _ _ _ _ _ _ _ HS), (sa_M _ _ _ _ _ _ _ _ HS'). reflexivity.
Qed.

(** ** frame indifference *)
Lemma ortho_contract Q x y : orthogonal Q ->
  rsum 3 (fun a => rsum 3 (fun c => Q a c * x c) * rsum 3 (fun c => Q a c * y c)) = rsum 3 (fun c => x c * y c).
Proof.
  intros HQ.
  transitivity (rsum 3 (fun c => rsum 3 (fun d => rsum 3 (fun a => Q a c * Q a d) * (x c * y d)))).
  { cbn [rsum]. ring. }
  apply rsum_ext; intros c Hc. rewrite (rsum_single 3 c); [|exact Hc|].
  - rewrite HQ, Nat.eqb_refl by assumption. ring.
  - intros d Hd Hne. rewrite HQ by assumption. replace (c =? d)%nat with false; [ring|].
    symmetry. apply Nat.eqb_neq. congruence.
Qed.

Definition conjT (Q G : nat -> nat -> R) (a b : nat) : R :=
  rsum 3 (fun c => Q a c * rsum 3 (fun d => Q b d * G c d)).
Definition tr (G : nat -> nat -> R) : R := rsum 3 (fun a => G a a).
Definition dot2 (G G' : nat -> nat -> R) : R := rsum 3 (fun a => rsum 3 (fun b => G a b * G' a b)).
Definition dotT (G G' : nat -> nat -> R) : R := rsum 3 (fun a => rsum 3 (fun b => G a b * G' b a)).

Lemma hooke_G E nu G G' :
  form 6 (hooke E nu) (strain_of G) (strain_of G') = lam E nu * (tr G * tr G') + mu E nu * (dot2 G G' + dotT G G').
Proof. rewrite hooke_form. unfold tr3, strain_of, tr, dot2, dotT. cbn [rsum]. ring. Qed.

Lemma tr_conj Q G : orthogonal Q -> tr (conjT Q G) = tr G.
Proof.
  intros HQ. unfold tr, conjT.
  transitivity (rsum 3 (fun c => rsum 3 (fun d => rsum 3 (fun a => Q a c * Q a d) * G c d))).
  { cbn [rsum]. ring. }
  apply rsum_ext; intros c Hc. rewrite (rsum_single 3 c); [|exact Hc|].
  - rewrite HQ, Nat.eqb_refl by assumption. ring.
  - intros d Hd Hne. rewrite HQ by assumption. replace (c =? d)%nat with false; [ring|].
    symmetry. apply Nat.eqb_neq. congruence.
Qed.
Lemma dot2_conj Q G G' : orthogonal Q -> dot2 (conjT Q G) (conjT Q G') = dot2 G G'.
Proof.
  intros HQ. unfold dot2. rewrite rsum_swap.
  transitivity (rsum 3 (fun b => rsum 3 (fun c => rsum 3 (fun d => Q b d * G c d) * rsum 3 (fun d => Q b d * G' c d)))).
  { apply rsum_ext; intros b Hb. unfold conjT. rewrite ortho_contract by exact HQ. reflexivity. }
  rewrite rsum_swap. apply rsum_ext; intros c Hc. rewrite ortho_contract by exact HQ. reflexivity.
Qed.
Lemma dotT_conj Q G G' : orthogonal Q -> dotT (conjT Q G) (conjT Q G') = dotT G G'.
Proof.
  intros HQ. transitivity (dot2 (conjT Q G) (conjT Q (fun a b => G' b a))).
  - unfold dotT, dot2. apply rsum_ext; intros a _. apply rsum_ext; intros b _. f_equal. unfold conjT. cbn [rsum]. ring.
  - rewrite dot2_conj by exact HQ. reflexivity.
Qed.

Lemma move3_ent Q t coord k a : (k < length coord)%nat -> (a < 3)%nat ->
  ent (move3 Q t coord) k a = rsum 3 (fun i => Q a i * ent coord k i) + t a.
Proof.
  intros Hk Ha. unfold move3, ent.
  set (f := fun x : list R => map (fun a => rsum 3 (fun i => Q a i * nth i x 0) + t a) [0%nat; 1%nat; 2%nat]).
  rewrite (nth_indep (map f coord) [] (f [])) by (rewrite map_length; exact Hk). rewrite map_nth.
  do 3 (destruct a as [|a]; [reflexivity|]). lia.
Qed.

Lemma Jac_move3 n D coord Q t a b : length coord = n -> (b < 3)%nat -> rsum n (ent D a) = 0 ->
  Jac n D (move3 Q t coord) a b = rsum 3 (fun i => Q b i * Jac n D coord a i).
Proof.
  intros Hl Hb H0. unfold Jac.
  transitivity (rsum n (fun k => rsum 3 (fun i => Q b i * (ent D a k * ent coord k i)) + t b * ent D a k)).
  { apply rsum_ext; intros k Hk. rewrite move3_ent by (assumption || lia). cbn [rsum]. ring. }
  rewrite rsum_plus, rsum_scal, H0, Rmult_0_r, Rplus_0_r, rsum_swap. apply rsum_ext; intros i _.
  rewrite rsum_scal. reflexivity.
Qed.

Section Move3.
  Variables (n : nat) (D coord : list (list R)) (Q : nat -> nat -> R) (t : nat -> R).
  Hypothesis Hlen : length coord = n.
  Hypothesis HD0 : forall a, (a < 3)%nat -> rsum n (ent D a) = 0.
  Hypothesis HQ : orthogonal Q.
  Hypothesis Hdet : J3det Q = 1.

  Lemma det_move3 : J3det (Jac n D (move3 Q t coord)) = J3det (Jac n D coord).
  Proof.
    transitivity (J3det (Jac n D coord) * J3det Q); [|rewrite Hdet; ring].
    unfold J3det. rewrite !Jac_move3 by (auto; lia). cbn [rsum]. ring.
  Qed.

  Lemma grad_move3 a k : (a < 3)%nat -> (k < n)%nat -> J3det (Jac n D coord) <> 0 ->
    grad3g n D (move3 Q t coord) a k = rsum 3 (fun c => Q a c * grad3g n D coord c k).
  Proof.
    intros Ha Hk Hd.
    assert (H1 : forall i, (i < 3)%nat -> rsum 3 (fun c => Jac n D coord i c * grad3g n D coord c k) = ent D i k).
    { intros i Hi. unfold grad3g.
      transitivity (rsum 3 (fun b => rsum 3 (fun c => Jac n D coord i c * (cof3 (Jac n D coord) c b / J3det (Jac n D coord))) * ent D b k)).
      { cbn [rsum]. ring. }
      rewrite (rsum_single 3 i); [|exact Hi|].
      - rewrite cof3_right, Nat.eqb_refl by assumption. ring.
      - intros b Hb Hne. rewrite cof3_right by assumption. replace (i =? b)%nat with false; [ring|].
        symmetry. apply Nat.eqb_neq. congruence. }
    assert (H2 : forall i, (i < 3)%nat ->
      rsum 3 (fun b => Jac n D (move3 Q t coord) i b * rsum 3 (fun c => Q b c * grad3g n D coord c k)) = ent D i k).
    { intros i Hi. rewrite <- (H1 i Hi).
      rewrite <- (ortho_contract Q (fun c => Jac n D coord i c) (fun c => grad3g n D coord c k) HQ).
      apply rsum_ext; intros b Hb. rewrite Jac_move3 by auto. reflexivity. }
    unfold grad3g at 1.
    set (J' := Jac n D (move3 Q t coord)) in *. assert (Hd' : J3det J' <> 0) by (unfold J'; rewrite det_move3; exact Hd).
    transitivity (rsum 3 (fun b => rsum 3 (fun i => cof3 J' a i / J3det J' * J' i b) * rsum 3 (fun c => Q b c * grad3g n D coord c k))).
    { transitivity (rsum 3 (fun i => cof3 J' a i / J3det J' * rsum 3 (fun b => J' i b * rsum 3 (fun c => Q b c * grad3g n D coord c k)))).
      - apply rsum_ext; intros i Hi. rewrite H2 by exact Hi. reflexivity.
      - generalize (fun b => rsum 3 (fun c => Q b c * grad3g n D coord c k)). intros f. cbn [rsum]. ring. }
    rewrite (rsum_single 3 a); [|exact Ha|].
    - rewrite cof3_left, Nat.eqb_refl by assumption. ring.
    - intros b Hb Hne. rewrite cof3_left by assumption. replace (a =? b)%nat with false; [ring|].
      symmetry. apply Nat.eqb_neq. congruence.
  Qed.

  Lemma G_move3 u a b : (a < 3)%nat -> (b < 3)%nat -> J3det (Jac n D coord) <> 0 ->
    G3 n D (move3 Q t coord) (turn3 Q u) a b = conjT Q (G3 n D coord u) a b.
  Proof.
    intros Ha Hb Hd. unfold G3 at 1.
    transitivity (rsum n (fun k => rsum 3 (fun c => Q a c * rsum 3 (fun d => Q b d * (grad3g n D coord c k * u (3 * k + d)%nat))))).
    { apply rsum_ext; intros k Hk. rewrite grad_move3 by assumption. unfold turn3. rewrite mod3, div3 by exact Hb. cbn [rsum]. ring. }
    rewrite rsum_swap. unfold conjT. apply rsum_ext; intros c _. rewrite rsum_scal. f_equal.
    rewrite rsum_swap. apply rsum_ext; intros d _. rewrite rsum_scal. reflexivity.
  Qed.

  Lemma energy_move3 E nu u v : J3det (Jac n D coord) <> 0 ->
    form 6 (hooke E nu) (strain3 n D (move3 Q t coord) (turn3 Q u)) (strain3 n D (move3 Q t coord) (turn3 Q v)) =
    form 6 (hooke E nu) (strain3 n D coord u) (strain3 n D coord v).
  Proof.
    intros Hd. unfold strain3.
    transitivity (form 6 (hooke E nu) (strain_of (conjT Q (G3 n D coord u))) (strain_of (conjT Q (G3 n D coord v)))).
    { apply form_ext; intros j Hj; unfold strain_of;
      do 6 (destruct j as [|j]; [rewrite !G_move3 by (assumption || lia); reflexivity|]); lia. }
    rewrite !hooke_G, !tr_conj, dot2_conj, dotT_conj by exact HQ. reflexivity.
  Qed.
End Move3.

Lemma value3_turn n N Q u k : (k < 3)%nat ->
  value3 n N (turn3 Q u) k = rsum 3 (fun d => Q k d * value3 n N u d).
Proof.
  intros Hk. unfold value3.
  transitivity (rsum n (fun j => rsum 3 (fun d => Q k d * (nth j N 0 * u (3 * j + d)%nat)))).
  { apply rsum_ext; intros j _. unfold turn3. rewrite mod3, div3 by exact Hk. cbn [rsum]. ring. }
  rewrite rsum_swap. apply rsum_ext; intros d _. rewrite rsum_scal. reflexivity.
Qed.

Lemma accepted_move3 p coord Q t : In p solids -> J3det Q = 1 ->
  accepted3 (so_n p) (so_sh p) (so_gq p) coord -> accepted3 (so_n p) (so_sh p) (so_gq p) (move3 Q t coord).
Proof.
  intros Hp HQ1 [H1 [H2 H3]]. split; [|split].
  - unfold move3. rewrite map_length. exact H1.
  - assert (so_n p <> 0)%nat by (repeat (destruct Hp as [<-|Hp]; [discriminate|]); destruct Hp).
    destruct coord; [cbn in H1; lia|]. reflexivity.
  - intros r s t' w Hin. unfold det_at3. rewrite det_move3; [exact (H3 r s t' w Hin)|exact H1|intros; apply solid_D0; auto|exact HQ1].
Qed.

Lemma solid_frame p coord E nu rho K m Q t : In p solids -> orthogonal Q -> J3det Q = 1 ->
  so_f p coord [E; nu; rho] = Ok (K, m) ->
  exists K' M', so_f p (move3 Q t coord) [E; nu; rho] = Ok (K', M2 M') /\
    (forall u v, form (3 * so_n p) K' (turn3 Q u) (turn3 Q v) = form (3 * so_n p) K u v) /\
    (forall M, m = M2 M -> forall u v, form (3 * so_n p) M' (turn3 Q u) (turn3 Q v) = form (3 * so_n p) M u v).
Proof.
  intros Hp HQ HQ1 Hrun.
  destruct (solid_summary p coord _ K m Hp Hrun) as [E1 [nu1 [rho1 [M [Hp1 [Hnu [Hnu' [Ha [Hm HS]]]]]]]]].
  injection Hp1 as <- <- <-.
  destruct (solid_runs p (move3 Q t coord) E nu rho Hp Hnu Hnu' (accepted_move3 p coord Q t Hp HQ1 Ha)) as [K' [M' Hrun']].
  exists K', M'. split; [exact Hrun'|].
  destruct (solid_sampled p _ E nu rho K' _ Hp Hrun') as [_ [M1 [Hm' HS']]]. injection Hm' as <-.
  destruct Ha as [Hlen [_ Hacc]].
  split.
  - intros u v. rewrite (sa_K _ _ _ _ _ _ _ _ HS), (sa_K _ _ _ _ _ _ _ _ HS'). unfold gs3. rewrite !lsum_map.
    apply lsum_ext. intros [[[r s] t'] w] Hin. unfold vK. cbn [gdat3 g_w g_eps]. unfold det_at3.
    assert (HD : forall a, (a < 3)%nat -> rsum (so_n p) (ent (snd (so_sh p r s t')) a) = 0) by (intros; apply solid_D0; auto).
    rewrite det_move3 by auto. f_equal. apply energy_move3; auto.
    specialize (Hacc r s t' w Hin). unfold det_at3 in Hacc. lra.
  - intros M0 Hm0 u v. rewrite Hm in Hm0. injection Hm0 as <-.
    rewrite (sa_M _ _ _ _ _ _ _ _ HS), (sa_M _ _ _ _ _ _ _ _ HS'). f_equal. unfold gs3. rewrite !lsum_map.
    apply lsum_ext. intros [[[r s] t'] w] Hin. unfold vM. cbn [gdat3 g_w g_val]. unfold det_at3.
    assert (HD : forall a, (a < 3)%nat -> rsum (so_n p) (ent (snd (so_sh p r s t')) a) = 0) by (intros; apply solid_D0; auto).
    rewrite det_move3 by auto. f_equal.
    etransitivity; [|exact (ortho_contract Q (value3 (so_n p) (fst (so_sh p r s t')) u) (value3 (so_n p) (fst (so_sh p r s t')) v) HQ)].
    apply rsum_ext; intros a Ha. rewrite !value3_turn by exact Ha. reflexivity.
Qed.

(** ** volume of the tetrahedron *)
Lemma tet4_volume coord : wdet3 so_tet4 coord = vol4 coord.
Proof.
  assert (HJ : forall r s t a b, (a < 3)%nat -> (b < 3)%nat ->
     Jac 4 (snd (shape_tet4 r s t)) coord a b = ent coord (S a) b - ent coord 0 b).
  { intros r s t a b Ha Hb. unfold Jac.
    do 3 (destruct a as [|a]; [unfold ent; shp; cbn [rsum nth]; ring|]). lia. }
  assert (Hd : forall r s t, det_at3 4 shape_tet4 coord r s t = J3det (fun a b => ent coord (S a) b - ent coord 0 b)).
  { intros. unfold det_at3, J3det. rewrite !HJ by lia. reflexivity. }
  unfold wdet3, vol4. cbn [so_c so_n so_sh so_gq so_tet4]. set (d := J3det _) in *.
  transitivity (1 / 6 * (d * lsum (fun q : R * R * R * R => snd q) (quads (gauss_tet 3)))).
  { f_equal. rewrite <- lsum_scal. apply lsum_ext. intros [[[r s] t] w] _. rewrite Hd. reflexivity. }
  cbn. q2r. field.
Qed.
