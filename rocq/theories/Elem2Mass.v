(** * Proofs: mass, scaling and frame indifference of the plane elements *)
From Coq Require Import String Reals List Arith Lia Lra Bool ZArith QArith Qreals.
From Verif Require Import Num LinAlg Gauss Fem Uel Spec LinR Base ElemShape BarProofs SpecElem SpecShape ShapeProofs ElemCore Sampled Elem2 MatProofs Elem2Props.
Import ListNotations.
Local Open Scope R_scope.

Definition wdet (p : plane) (coord : list (list R)) : R :=
  pl_c p * lsum (fun q => let '(r, s, w) := q in det_at (pl_n p) (pl_sh p) coord r s * w) (pl_gq p).

Lemma wdet_sum p coord : lsum g_w (gs_of p coord) = wdet p coord.
Proof.
  unfold gs_of, wdet. rewrite lsum_map, <- lsum_scal. apply lsum_ext. intros [[r s] w] _. reflexivity.
Qed.

Lemma value2_trans p r s a b k : In p planes -> (k < 2)%nat ->
  value2 (pl_n p) (fst (pl_sh p r s)) (trans2 a b) k = nth k [a; b] 0.
Proof.
  intros Hp Hk. unfold value2, trans2. pose proof (plane_N1 p r s Hp) as H1.
  destruct k as [|[|]]; [| |lia]; cbn [nth].
  - erewrite rsum_ext; [|intros; rewrite field2_even; reflexivity]. rewrite rsum_scal_r, H1. ring.
  - erewrite rsum_ext; [|intros; rewrite field2_odd; reflexivity]. rewrite rsum_scal_r, H1. ring.
Qed.

Lemma value2_parity n N u k : (forall j, (j < n)%nat -> u (2 * j + k)%nat = 0) -> (k < 2)%nat -> value2 n N u k = 0.
Proof.
  intros Hu Hk. unfold value2. destruct k as [|[|]]; [| |lia]; apply rsum_zero; intros j Hj.
  - specialize (Hu j Hj). rewrite Nat.add_0_r in Hu. rewrite Hu. ring.
  - rewrite (Hu j Hj). ring.
Qed.

Section OneElement.
  Variables (p : plane) (coord : list (list R)) (params : list R) (K : list (list R)) (m : massmat R) (E nu rho : R).
  Hypothesis Hp : In p planes.
  Hypothesis Hrun : pl_f p coord params = Ok (K, m).
  Hypothesis Hpar : pl_par p params = Some (E, nu, rho).

  Lemma plane_mass : exists M, m = M2 M /\ symmetric (2 * pl_n p) M /\ (0 <= rho -> psd (2 * pl_n p) M) /\
    (forall i j, (i < 2 * pl_n p)%nat -> (j < 2 * pl_n p)%nat -> Nat.even i <> Nat.even j -> ent M i j = 0) /\
    (forall a b a' b', form (2 * pl_n p) M (trans2 a b) (trans2 a' b') = rho * wdet p coord * (a * a' + b * b')).
  Proof.
    destruct (plane_summary p coord params K m Hp Hrun) as [E' [nu' [rho' [M [Hpar' [_ [Ha [Hm HS]]]]]]]].
    rewrite Hpar in Hpar'. injection Hpar' as <- <- <-. exists M. split; [exact Hm|].
    split; [eapply sampled_mass_sym; exact HS|].
    split; [intros Hr; eapply sampled_mass_psd; [exact HS|exact Hr|intros; apply Rlt_le; eapply gs_weights; eassumption]|].
    split.
    - intros i j Hi Hj Hpar2. rewrite <- (act_unit (2 * pl_n p) M i j Hj), act_of_form by exact Hi.
      eapply sampled_mass_zero; [exact HS|]. intros g a Hg Hk. apply in_map_iff in Hg.
      destruct Hg as [[[r s] w] [<- _]]. cbn [gdat2 g_val].
      assert (Hz : forall x b, Nat.even x = negb (Nat.even b) -> forall l, unitv x (2 * l + b)%nat = 0).
      { intros x b Hx l. unfold unitv. replace (2 * l + b =? x)%nat with false; [reflexivity|].
        symmetry. apply Nat.eqb_neq. intros Heq. subst x. rewrite Nat.even_add, Nat.even_mul in Hx. cbn [Nat.even orb] in Hx.
        destruct (Nat.even b); discriminate. }
      destruct (Bool.bool_dec (Nat.even i) (negb (Nat.even a))) as [Hia|Hia].
      + rewrite (value2_parity _ _ (unitv i) a); [ring| |exact Hk]. intros; apply Hz; exact Hia.
      + rewrite (value2_parity _ _ (unitv j) a); [ring| |exact Hk]. intros; apply Hz.
        destruct (Nat.even i), (Nat.even j), (Nat.even a); cbn in *; congruence.
    - intros a b a' b'. rewrite (sampled_mass_uniform _ _ _ _ _ _ _ _ HS _ _ (fun k => nth k [a; b] 0) (fun k => nth k [a'; b'] 0)).
      + rewrite wdet_sum. cbn [rsum nth]. ring.
      + intros g k Hg Hk. apply in_map_iff in Hg. destruct Hg as [[[r s] w] [<- _]]. cbn [gdat2 g_val]. apply value2_trans; assumption.
      + intros g k Hg Hk. apply in_map_iff in Hg. destruct Hg as [[[r s] w] [<- _]]. cbn [gdat2 g_val]. apply value2_trans; assumption.
  Qed.
End OneElement.

(** ** scaling *)
Lemma umat_scale E nu t e e' : form 3 (umat_R (t * E) nu) e e' = t * form 3 (umat_R E nu) e e'.
Proof. rewrite !umat_form. unfold Rdiv. ring. Qed.

Lemma plane_scaling p coord E nu rho K M E' nu' rho' t u : In p planes ->
  pl_f p coord [E; nu; rho] = Ok (K, M2 M) ->
  E' = t * E -> nu' = nu -> rho' = u * rho ->
  pl_f p coord [E'; nu'; rho'] = Ok (mscale t K, M2 (mscale u M)).
Proof.
  intros Hp Hrun -> -> ->.
  assert (Hpar : forall a b c, pl_par p [a; b; c] = Some (a, b, c)).
  { intros a b c. repeat (destruct Hp as [<-|Hp]; [reflexivity|]). destruct Hp. }
  destruct (plane_summary p coord _ K _ Hp Hrun) as [E1 [nu1 [rho1 [M1 [Hp1 [Hnu [Ha [Hm HS]]]]]]]].
  rewrite Hpar in Hp1. injection Hp1 as <- <- <-. injection Hm as <-.
  destruct (plane_runs p coord [t * E; nu; u * rho] (t * E) nu (u * rho) Hp (Hpar _ _ _) Hnu Ha) as [K' [M' Hrun']].
  destruct (plane_summary p coord _ K' _ Hp Hrun') as [E2 [nu2 [rho2 [M2' [Hp2 [_ [_ [Hm2 HS2]]]]]]]].
  rewrite Hpar in Hp2. injection Hp2 as <- <- <-. injection Hm2 as <-.
  rewrite Hrun'. repeat f_equal.
  - apply (form_matrix_unique (2 * pl_n p)); [apply HS2|apply shape_mscale; apply HS|].
    intros. rewrite form_mscale, (sa_K _ _ _ _ _ _ _ _ HS), (sa_K _ _ _ _ _ _ _ _ HS2).
    rewrite <- lsum_scal. apply lsum_ext. intros g _. unfold vK. rewrite umat_scale. ring.
  - apply (form_matrix_unique (2 * pl_n p)); [apply HS2|apply shape_mscale; apply HS|].
    intros. rewrite form_mscale, (sa_M _ _ _ _ _ _ _ _ HS), (sa_M _ _ _ _ _ _ _ _ HS2). ring.
Qed.

Lemma plane_mass_indep p coord E nu rho K M E' nu' K' M' : In p planes ->
  pl_f p coord [E; nu; rho] = Ok (K, M2 M) -> pl_f p coord [E'; nu'; rho] = Ok (K', M2 M') -> M = M'.
Proof.
  intros Hp Hrun Hrun'.
  assert (Hpar : forall a b c, pl_par p [a; b; c] = Some (a, b, c)).
  { intros a b c. repeat (destruct Hp as [<-|Hp]; [reflexivity|]). destruct Hp. }
  destruct (plane_summary p coord _ K _ Hp Hrun) as [E1 [nu1 [rho1 [M1 [Hp1 [Hnu [Ha [Hm HS]]]]]]]].
  rewrite Hpar in Hp1. injection Hp1 as <- <- <-. injection Hm as <-.
  destruct (plane_summary p coord _ K' _ Hp Hrun') as [E2 [nu2 [rho2 [M2' [Hp2 [_ [_ [Hm2 HS2]]]]]]]].
  rewrite Hpar in Hp2. injection Hp2 as <- <- <-. injection Hm2 as <-.
  apply (form_matrix_unique (2 * pl_n p)); [apply HS|apply HS2|].
  intros. rewrite (sa_M _ _ _ _ _ _ _ _ HS), (sa_M _ _ _ _ _ _ _ _ HS2). reflexivity.
Qed.

(** ** frame indifference *)
Lemma rsum_bilin n a b c d x y z t :
  rsum n (fun k => (a * x k + b * y k) * (c * z k + d * t k)) =
  a * c * rsum n (fun k => x k * z k) + a * d * rsum n (fun k => x k * t k)
  + b * c * rsum n (fun k => y k * z k) + b * d * rsum n (fun k => y k * t k).
Proof. rewrite <- !rsum_scal, <- !rsum_plus. apply rsum_ext; intros. ring. Qed.

Lemma move2_ent c s tx ty coord k : (k < length coord)%nat ->
  ent (move2 c s tx ty coord) k 0 = c * ent coord k 0 - s * ent coord k 1 + tx /\
  ent (move2 c s tx ty coord) k 1 = s * ent coord k 0 + c * ent coord k 1 + ty.
Proof.
  intros Hk. unfold move2, ent.
  set (f := fun x : list R => [c * nth 0 x 0 - s * nth 1 x 0 + tx; s * nth 0 x 0 + c * nth 1 x 0 + ty]).
  rewrite (nth_indep (map f coord) [] (f [])) by (rewrite map_length; exact Hk). rewrite map_nth. split; reflexivity.
Qed.

Lemma Jac_move n D coord c s tx ty a : length coord = n -> rsum n (ent D a) = 0 ->
  Jac n D (move2 c s tx ty coord) a 0 = c * Jac n D coord a 0 - s * Jac n D coord a 1 /\
  Jac n D (move2 c s tx ty coord) a 1 = s * Jac n D coord a 0 + c * Jac n D coord a 1.
Proof.
  intros Hl H0. unfold Jac. split.
  - transitivity (rsum n (fun k => c * (ent D a k * ent coord k 0) - s * (ent D a k * ent coord k 1) + tx * ent D a k)).
    + apply rsum_ext; intros k Hk. destruct (move2_ent c s tx ty coord k) as [E _]; [lia|]. rewrite E. ring.
    + rewrite rsum_plus, rsum_minus, !rsum_scal. rewrite H0. ring.
  - transitivity (rsum n (fun k => s * (ent D a k * ent coord k 0) + c * (ent D a k * ent coord k 1) + ty * ent D a k)).
    + apply rsum_ext; intros k Hk. destruct (move2_ent c s tx ty coord k) as [_ E]; [lia|]. rewrite E. ring.
    + rewrite !rsum_plus, !rsum_scal. rewrite H0. ring.
Qed.

Section Move.
  Variables (n : nat) (D coord : list (list R)) (c s tx ty : R).
  Hypothesis Hlen : length coord = n.
  Hypothesis HD0 : rsum n (ent D 0) = 0.
  Hypothesis HD1 : rsum n (ent D 1) = 0.
  Hypothesis Hcs : c * c + s * s = 1.

  Lemma det_move : J2det (Jac n D (move2 c s tx ty coord)) = J2det (Jac n D coord).
  Proof.
    unfold J2det. destruct (Jac_move n D coord c s tx ty 0 Hlen HD0) as [-> ->].
    destruct (Jac_move n D coord c s tx ty 1 Hlen HD1) as [-> ->].
    set (J := Jac n D coord).
    replace (J 0%nat 0%nat * J 1%nat 1%nat - J 0%nat 1%nat * J 1%nat 0%nat)
      with ((c * c + s * s) * (J 0%nat 0%nat * J 1%nat 1%nat - J 0%nat 1%nat * J 1%nat 0%nat)) by (rewrite Hcs; ring).
    ring.
  Qed.

  Lemma grad_move k :
    grad2 n D (move2 c s tx ty coord) 0 k = c * grad2 n D coord 0 k + (- s) * grad2 n D coord 1 k /\
    grad2 n D (move2 c s tx ty coord) 1 k = s * grad2 n D coord 0 k + c * grad2 n D coord 1 k.
  Proof.
    unfold grad2. rewrite det_move.
    destruct (Jac_move n D coord c s tx ty 0 Hlen HD0) as [-> ->].
    destruct (Jac_move n D coord c s tx ty 1 Hlen HD1) as [-> ->].
    split; unfold Rdiv; ring.
  Qed.

  Definition Gu (u : nat -> R) (a b : nat) : R := rsum n (fun k => grad2 n D coord a k * u (2 * k + b)%nat).

  Lemma strain_Gu u a : (a < 3)%nat ->
    strain2 n D coord u a = nth a [Gu u 0 0; Gu u 1 1; Gu u 1 0 + Gu u 0 1] 0.
  Proof.
    intros Ha. unfold strain2, Gu. destruct a as [|[|[|]]]; [| | |lia]; cbn [nth].
    - apply rsum_ext; intros. rewrite Nat.add_0_r. reflexivity.
    - reflexivity.
    - rewrite rsum_plus. f_equal. apply rsum_ext; intros. rewrite Nat.add_0_r. reflexivity.
  Qed.

  Lemma strain_move u a : (a < 3)%nat ->
    strain2 n D (move2 c s tx ty coord) (turn2 c s u) a =
    (let e := strain2 n D coord u in
     nth a [c * c * e 0%nat + s * s * e 1%nat - c * s * e 2%nat;
            s * s * e 0%nat + c * c * e 1%nat + c * s * e 2%nat;
            2 * c * s * (e 0%nat - e 1%nat) + (c * c - s * s) * e 2%nat] 0).
  Proof.
    intros Ha. cbv zeta. rewrite !strain_Gu by lia. cbn [nth].
    assert (Hu : forall k, u (2 * k)%nat = u (2 * k + 0)%nat) by (intros; rewrite Nat.add_0_r; reflexivity).
    destruct a as [|[|[|]]]; [| | |lia]; cbn [nth].
    - unfold strain2 at 1, turn2.
      transitivity (rsum n (fun k => (c * grad2 n D coord 0 k + (- s) * grad2 n D coord 1 k) *
                                     (c * u (2 * k + 0)%nat + (- s) * u (2 * k + 1)%nat))).
      { apply rsum_ext; intros k _. rewrite field2_even, Hu. destruct (grad_move k) as [-> _]. ring. }
      rewrite rsum_bilin. unfold Gu. ring.
    - unfold strain2 at 1, turn2.
      transitivity (rsum n (fun k => (s * grad2 n D coord 0 k + c * grad2 n D coord 1 k) *
                                     (s * u (2 * k + 0)%nat + c * u (2 * k + 1)%nat))).
      { apply rsum_ext; intros k _. rewrite field2_odd, Hu. destruct (grad_move k) as [_ ->]. ring. }
      rewrite rsum_bilin. unfold Gu. ring.
    - unfold strain2 at 1, turn2. rewrite rsum_plus.
      transitivity (rsum n (fun k => (s * grad2 n D coord 0 k + c * grad2 n D coord 1 k) *
                                     (c * u (2 * k + 0)%nat + (- s) * u (2 * k + 1)%nat)) +
                    rsum n (fun k => (c * grad2 n D coord 0 k + (- s) * grad2 n D coord 1 k) *
                                     (s * u (2 * k + 0)%nat + c * u (2 * k + 1)%nat))).
      { f_equal; apply rsum_ext; intros k _; [rewrite field2_even|rewrite field2_odd]; rewrite Hu;
          destruct (grad_move k) as [E1 E2]; [rewrite E2|rewrite E1]; ring. }
      rewrite !rsum_bilin. unfold Gu. ring.
  Qed.

  Lemma umat_isotropic E nu e e' :
    let rot (e : nat -> R) (a : nat) :=
      nth a [c * c * e 0%nat + s * s * e 1%nat - c * s * e 2%nat;
             s * s * e 0%nat + c * c * e 1%nat + c * s * e 2%nat;
             2 * c * s * (e 0%nat - e 1%nat) + (c * c - s * s) * e 2%nat] 0 in
    form 3 (umat_R E nu) (rot e) (rot e') = form 3 (umat_R E nu) e e'.
  Proof.
    cbv zeta. rewrite !umat_form. cbn [nth]. f_equal.
    transitivity ((c * c + s * s) * (c * c + s * s) * (e 0%nat * e' 0%nat + nu * (e 0%nat * e' 1%nat + e 1%nat * e' 0%nat) + e 1%nat * e' 1%nat
                      + (1 - nu) / 2 * (e 2%nat * e' 2%nat))); [field|rewrite Hcs; ring].
  Qed.
End Move.

Lemma value2_turn n N c s u k : (k < 2)%nat ->
  value2 n N (turn2 c s u) k =
  nth k [c * value2 n N u 0 - s * value2 n N u 1; s * value2 n N u 0 + c * value2 n N u 1] 0.
Proof.
  intros Hk. unfold value2, turn2. destruct k as [|[|]]; [| |lia]; cbn [nth].
  - rewrite <- !rsum_scal, <- rsum_minus. apply rsum_ext; intros k _. rewrite field2_even. ring.
  - rewrite <- !rsum_scal, <- rsum_plus. apply rsum_ext; intros k _. rewrite field2_odd. ring.
Qed.

Lemma accepted_move p coord c s tx ty : In p planes -> c * c + s * s = 1 ->
  accepted2 (pl_n p) (pl_sh p) (pl_gq p) coord -> accepted2 (pl_n p) (pl_sh p) (pl_gq p) (move2 c s tx ty coord).
Proof.
  intros Hp Hcs [H1 [H2 H3]]. split; [|split].
  - unfold move2. rewrite map_length. exact H1.
  - assert (pl_n p <> 0)%nat by (repeat (destruct Hp as [<-|Hp]; [discriminate|]); destruct Hp).
    destruct coord; [cbn in H1; lia|]. reflexivity.
  - intros r s' w Hin. unfold det_at. rewrite det_move; auto; try (apply plane_D0; auto). apply (H3 r s' w Hin).
Qed.

Lemma plane_frame p coord params K m c s tx ty : In p planes -> c * c + s * s = 1 ->
  pl_f p coord params = Ok (K, m) ->
  exists K' M', pl_f p (move2 c s tx ty coord) params = Ok (K', M2 M') /\
    (forall u v, form (2 * pl_n p) K' (turn2 c s u) (turn2 c s v) = form (2 * pl_n p) K u v) /\
    (forall M, m = M2 M -> forall u v, form (2 * pl_n p) M' (turn2 c s u) (turn2 c s v) = form (2 * pl_n p) M u v).
Proof.
  intros Hp Hcs Hrun.
  destruct (plane_summary p coord params K m Hp Hrun) as [E [nu [rho [M [Hpar [Hnu [Ha [Hm HS]]]]]]]].
  destruct (plane_runs p (move2 c s tx ty coord) params E nu rho Hp Hpar Hnu (accepted_move p coord c s tx ty Hp Hcs Ha)) as [K' [M' Hrun']].
  exists K', M'. split; [exact Hrun'|].
  destruct (plane_summary p _ params K' _ Hp Hrun') as [E' [nu' [rho' [M1 [Hpar' [_ [_ [Hm' HS']]]]]]]].
  rewrite Hpar in Hpar'. injection Hpar' as <- <- <-. injection Hm' as <-.
  destruct Ha as [Hlen _].
  split.
  - intros u v. rewrite (sa_K _ _ _ _ _ _ _ _ HS), (sa_K _ _ _ _ _ _ _ _ HS'). unfold gs_of. rewrite !lsum_map.
    apply lsum_ext. intros [[r s'] w] Hin. unfold vK. cbn [gdat2 g_w g_eps]. unfold det_at.
    rewrite det_move by (auto; apply plane_D0; auto). f_equal.
    etransitivity; [|apply (umat_isotropic c s Hcs E nu)]. cbv zeta.
    apply form_ext; intros j Hj; rewrite (strain_move (pl_n p)) by (auto; apply plane_D0; auto); reflexivity.
  - intros M0 Hm0 u v. rewrite Hm in Hm0. injection Hm0 as <-.
    rewrite (sa_M _ _ _ _ _ _ _ _ HS), (sa_M _ _ _ _ _ _ _ _ HS'). f_equal. unfold gs_of. rewrite !lsum_map.
    apply lsum_ext. intros [[r s'] w] Hin. unfold vM. cbn [gdat2 g_w g_val]. unfold det_at.
    rewrite det_move by (auto; apply plane_D0; auto). f_equal. cbn [rsum].
    rewrite !value2_turn by lia. cbn [nth].
    set (x := value2 _ _ u 0). set (y := value2 _ _ u 1). set (x' := value2 _ _ v 0). set (y' := value2 _ _ v 1).
    transitivity ((c * c + s * s) * (x * x' + y * y')); [ring|rewrite Hcs; ring].
Qed.

(** ** areas *)
Lemma quad4_area coord : wdet pl_quad4 coord = area4 coord.
Proof.
  unfold wdet, pl_quad4, area4, node_x, node_y. cbn [pl_c pl_gq pl_n pl_sh].
  unfold det_at, J2det, Jac. cbn [triples gauss_nd gauss_1d GaussTab.gauss_1d_tab bind].
  unfold lsum. cbn -[ent Rmult Rplus Rminus Q2R]. unfold ent at 1 3 5 7 9 11 13 15.
  unfold ent. cbn [nth]. numR. q2r. field.
Qed.
