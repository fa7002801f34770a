(** * Proofs: no spurious modes of hex8 on bricks of any shape *)
From Coq Require Import String Reals List Arith Lia Lra Bool ZArith QArith Qreals.
From Verif Require Import Num LinAlg Gauss Fem Uel Spec LinR Base ElemShape BarProofs SpecElem SpecShape ShapeProofs ElemCore Sampled Elem2 MatProofs Elem2Props Elem3 Elem3Props SpecModes Elem3Modes.
Import ListNotations.
Local Open Scope R_scope.

(** ** vectors of three components *)
Definition crs (a b : nat -> R) (c : nat) : R :=
  match c with
  | 0%nat => a 1%nat * b 2%nat - a 2%nat * b 1%nat
  | 1%nat => a 2%nat * b 0%nat - a 0%nat * b 2%nat
  | _ => a 0%nat * b 1%nat - a 1%nat * b 0%nat
  end.
Definition dot3 (a b : nat -> R) : R := a 0%nat * b 0%nat + a 1%nat * b 1%nat + a 2%nat * b 2%nat.
Definition eq3 (a b : nat -> R) : Prop := forall c, (c < 3)%nat -> a c = b c.

Lemma parallel d e : dot3 e e <> 0 -> eq3 (crs d e) (fun _ => 0) -> eq3 d (fun c => dot3 d e / dot3 e e * e c).
Proof.
  intros Hn H. pose proof (H 0%nat ltac:(lia)) as H0. pose proof (H 1%nat ltac:(lia)) as H1. pose proof (H 2%nat ltac:(lia)) as H2. cbn [crs] in *.
  set (d0 := d 0%nat) in *. set (d1 := d 1%nat) in *. set (d2 := d 2%nat) in *. set (e0 := e 0%nat) in *. set (e1 := e 1%nat) in *. set (e2 := e 2%nat) in *.
  assert (K : forall c, (c < 3)%nat -> d c * dot3 e e = dot3 d e * e c).
  { intros c Hc. unfold dot3. fold d0 d1 d2 e0 e1 e2. destruct c as [|[|[|]]]; [| | |lia].
    - fold d0 e0. apply Rminus_diag_uniq. replace (d0 * (e0 * e0 + e1 * e1 + e2 * e2) - (d0 * e0 + d1 * e1 + d2 * e2) * e0) with (e1 * (d0 * e1 - d1 * e0) - e2 * (d2 * e0 - d0 * e2)) by ring. rewrite H1, H2. ring.
    - fold d1 e1. apply Rminus_diag_uniq. replace (d1 * (e0 * e0 + e1 * e1 + e2 * e2) - (d0 * e0 + d1 * e1 + d2 * e2) * e1) with (e2 * (d1 * e2 - d2 * e1) - e0 * (d0 * e1 - d1 * e0)) by ring. rewrite H0, H2. ring.
    - fold d2 e2. apply Rminus_diag_uniq. replace (d2 * (e0 * e0 + e1 * e1 + e2 * e2) - (d0 * e0 + d1 * e1 + d2 * e2) * e2) with (e0 * (d2 * e0 - d0 * e2) - e1 * (d1 * e2 - d2 * e1)) by ring. rewrite H0, H1. ring. }
  intros c Hc. unfold Rdiv. apply (Rmult_eq_reg_r (dot3 e e)); [|exact Hn]. rewrite (K c Hc). field. exact Hn.
Qed.

(** the four corners of a face turn by wB, wA, wC, wD; B-A and C-D are along E, E' ; B-C and A-D along F, F' *)
Lemma face_eq r s la lb (wA wB wC wD E E' F F' : nat -> R) : r <> 0 -> s <> 0 ->
  (forall c, (c < 3)%nat -> r * E c - s * F c - r * E' c + s * F' c = 0) ->
  (forall c, (c < 3)%nat -> r * crs wA E c - s * crs wB F c - r * crs wC E' c + s * crs wA F' c = 0) ->
  (forall c, (c < 3)%nat -> wB c - wA c = la * (2 * r * E c)) ->
  (forall c, (c < 3)%nat -> wB c - wC c = lb * (2 * s * F c)) ->
  forall c, (c < 3)%nat -> la * crs E F' c + lb * crs E' F c = 0.
Proof.
  intros Hr Hs HX HU Ha Hb c Hc.
  assert (GE : forall c, (c < 3)%nat -> E c = (s * F c + r * E' c - s * F' c) / r).
  { intros c' Hc'. specialize (HX c' Hc'). apply (Rmult_eq_reg_r r); [|exact Hr]. unfold Rdiv. rewrite Rmult_assoc, Rinv_l by exact Hr. lra. }
  assert (GB : forall c, (c < 3)%nat -> wB c = wA c + la * (2 * r * E c)) by (intros c' Hc'; specialize (Ha c' Hc'); lra).
  assert (GC : forall c, (c < 3)%nat -> wC c = wA c + la * (2 * r * E c) - lb * (2 * s * F c)) by (intros c' Hc'; specialize (Ha c' Hc'); specialize (Hb c' Hc'); lra).
  apply (Rmult_eq_reg_l (-2 * r * s)); [|intros Z; apply Rmult_integral in Z; destruct Z as [Z|Z]; [lra|tauto]]. rewrite Rmult_0_r.
  rewrite <- (HU c Hc).
  do 3 (destruct c as [|c]; [cbn [crs]; rewrite !GB, !GC, !GE by lia; field; exact Hr|]). lia.
Qed.

(** either the two twists are opposite, or both vanish, or the face is degenerate at a point of its diagonal *)
Lemma face_case r s la lb (E E' F F' : nat -> R) : r <> 0 ->
  (forall c, (c < 3)%nat -> r * E c - s * F c - r * E' c + s * F' c = 0) ->
  (forall c, (c < 3)%nat -> la * crs E F' c + lb * crs E' F c = 0) ->
  la * lb < 0 \/ (la = 0 /\ lb = 0) \/
  exists k, -1 <= k <= 1 /\ forall c, (c < 3)%nat -> crs (fun a => ((1 + k) * E a + (1 - k) * E' a) / 2) (fun a => ((1 - k) * F a + (1 + k) * F' a) / 2) c = 0.
Proof.
  intros Hr HX H. destruct (Rlt_dec (la * lb) 0) as [N|N]; [left; exact N|]. right. apply Rnot_lt_le in N.
  destruct (Req_dec (la + lb) 0) as [Z|Z].
  - left. assert (lb = - la) by lra. subst lb. assert (Q : la * la = 0) by nra. apply Rmult_integral in Q. destruct Q; lra.
  - right. exists ((la - lb) / (la + lb)).
    assert (P : 0 < (la + lb) * (la + lb)) by nra. split.
    + assert (B : ((la - lb) / (la + lb)) * ((la - lb) / (la + lb)) <= 1).
      { apply (Rmult_le_reg_r ((la + lb) * (la + lb))); [exact P|]. replace ((la - lb) / (la + lb) * ((la - lb) / (la + lb)) * ((la + lb) * (la + lb))) with ((la - lb) * (la - lb)) by (field; exact Z). nra. }
      split; nra.
    + assert (GE : forall c, (c < 3)%nat -> E c = (s * F c + r * E' c - s * F' c) / r).
      { intros c' Hc'. specialize (HX c' Hc'). apply (Rmult_eq_reg_r r); [|exact Hr]. unfold Rdiv. rewrite Rmult_assoc, Rinv_l by exact Hr. lra. }
      intros c Hc. apply (Rmult_eq_reg_l (la + lb)); [|exact Z]. rewrite Rmult_0_r, <- (H c Hc).
      do 3 (destruct c as [|c]; [cbn [crs]; rewrite !GE by lia; field; tauto|]). lia.
Qed.

Lemma three_signs a b c : (a * b < 0 \/ (a = 0 /\ b = 0)) -> (a * c < 0 \/ (a = 0 /\ c = 0)) -> (b * c < 0 \/ (b = 0 /\ c = 0)) -> a = 0 /\ b = 0 /\ c = 0.
Proof.
  intros [H1|[-> ->]] [H2|[Ea Ec]] [H3|[Eb Ec']]; subst; try lra; try (exfalso; nra).
Qed.

(** ** derivatives of trilinear fields *)
Definition dvh (r s t : R) (i : nat) (f : nat -> R) : R :=
  match i with
  | 0%nat => hr f + hrs f * s + hrt f * t + hrst f * s * t
  | 1%nat => hs f + hrs f * r + hst f * t + hrst f * r * t
  | _ => ht f + hrt f * r + hst f * s + hrst f * r * s
  end.
Lemma dvh_D r s t i f : (i < 3)%nat -> rsum 8 (fun k => ent (snd (shape_hex8 r s t)) i k * f k) = dvh r s t i f.
Proof. intros Hi. destruct i as [|[|[|]]]; [apply hex8_D0|apply hex8_D1|apply hex8_D2|lia]. Qed.
Lemma brick_dvh coord r s t i a : brick_edge coord r s t i a = dvh r s t i (fun k => ent coord k a).
Proof.
  unfold brick_edge, dvh. destruct i as [|[|i]]; unh; unfold corner8; cbn [nth]; field.
Qed.
Lemma hex8_points1 : exists g, g <> 0 /\ -1 <= g <= 1 /\
  forall r s t, (r = g \/ r = - g) -> (s = g \/ s = - g) -> (t = g \/ t = - g) -> exists w, In (r, s, t, w) (so_gq so_hex8).
Proof.
  exists (Q2R 0.577350269189625764). split; [q2r; lra|]. split; [q2r; lra|].
  assert (E : Q2R (-0.577350269189625764) = - Q2R 0.577350269189625764) by (q2r; lra).
  intros r s t Hr Hs Ht. cbn. rewrite E. set (g := Q2R 0.577350269189625764).
  destruct Hr as [Er|Er], Hs as [Es|Es], Ht as [Et|Et]; rewrite Er, Es, Et; eexists; tauto.
Qed.
Lemma edge_nonzero (X : nat -> nat -> R) i : (i < 3)%nat -> J3det X <> 0 -> dot3 (X i) (X i) <> 0.
Proof.
  intros Hi Hd Z. unfold dot3 in Z.
  assert (Z0 : X i 0%nat = 0) by nra. assert (Z1 : X i 1%nat = 0) by nra. assert (Z2 : X i 2%nat = 0) by nra.
  apply Hd. unfold J3det. destruct i as [|[|[|]]]; [| | |lia]; rewrite Z0, Z1, Z2; ring.
Qed.
Lemma flat_det (X : nat -> nat -> R) i j : (i < j < 3)%nat -> (forall c, (c < 3)%nat -> crs (X i) (X j) c = 0) -> J3det X = 0.
Proof.
  intros Hij H. pose proof (H 0%nat ltac:(lia)) as H0. pose proof (H 1%nat ltac:(lia)) as H1. pose proof (H 2%nat ltac:(lia)) as H2. cbn [crs] in *.
  assert (C : (i = 0 /\ j = 1)%nat \/ (i = 0 /\ j = 2)%nat \/ (i = 1 /\ j = 2)%nat) by lia. unfold J3det.
  destruct C as [[-> ->]|[[-> ->]|[-> ->]]].
  - transitivity (X 2%nat 0%nat * 0 + X 2%nat 1%nat * 0 + X 2%nat 2%nat * 0); [|ring]. rewrite <- H0 at 1. rewrite <- H1 at 1. rewrite <- H2. ring.
  - transitivity (- X 1%nat 0%nat * 0 - X 1%nat 1%nat * 0 - X 1%nat 2%nat * 0); [|ring]. rewrite <- H0 at 1. rewrite <- H1 at 1. rewrite <- H2. ring.
  - transitivity (X 0%nat 0%nat * 0 + X 0%nat 1%nat * 0 + X 0%nat 2%nat * 0); [|ring]. rewrite <- H0 at 1. rewrite <- H1 at 1. rewrite <- H2. ring.
Qed.

Section Brick.
  Variables (coord : list (list R)) (u : nat -> R) (g : R) (W : R -> R -> R -> nat -> R).
  Let X (r s t : R) (i a : nat) : R := dvh r s t i (fun k => ent coord k a).
  Let V (r s t : R) (i b : nat) : R := dvh r s t i (fun k => u (3 * k + b)%nat).
  Hypothesis Hg : g <> 0.
  Hypothesis Hg1 : -1 <= g <= 1.
  Hypothesis Hreg : forall r s t, -1 <= r <= 1 -> -1 <= s <= 1 -> -1 <= t <= 1 -> J3det (X r s t) <> 0.
  Hypothesis HW : forall r s t, (r = g \/ r = - g) -> (s = g \/ s = - g) -> (t = g \/ t = - g) ->
    forall i c, (i < 3)%nat -> (c < 3)%nat -> V r s t i c = crs (W r s t) (X r s t i) c.

  Let pm (r : R) := r = g \/ r = - g.
  Let pm_opp r : pm r -> pm (- r).
  Proof. intros [-> | ->]; [right; reflexivity|left; ring]. Qed.
  Let pm_nz r : pm r -> r <> 0.
  Proof. intros [-> | ->]; lra. Qed.
  Let pm_in r : pm r -> -1 <= r <= 1.
  Proof. intros [-> | ->]; lra. Qed.
  Let pm_k r k : pm r -> -1 <= k <= 1 -> -1 <= k * r <= 1.
  Proof. intros H Hk. apply pm_in in H. split; nra. Qed.

  Ltac side := first [assumption | lia | (apply pm_opp; assumption)].
  (** twist between two neighbouring points *)
  Let tw (d e : nat -> R) (h : R) : R := dot3 d e / dot3 e e / (2 * h).
  Let tw_ok (wA wB e : nat -> R) h : h <> 0 -> dot3 e e <> 0 -> (forall c, (c < 3)%nat -> crs wB e c = crs wA e c) ->
    forall c, (c < 3)%nat -> wB c - wA c = tw (fun c => wB c - wA c) e h * (2 * h * e c).
  Proof.
    intros Hh He H c Hc. etransitivity; [apply (parallel (fun c => wB c - wA c) e He)|].
    - intros a Ha. pose proof (H a Ha) as E. do 3 (destruct a as [|a]; [cbn [crs] in *; lra|]). lia.
    - exact Hc.
    - unfold tw. field. split; assumption.
  Qed.
  Let L0 r s t := tw (fun c => W r s t c - W (- r) s t c) (X r s t 0%nat) r.
  Let L1 r s t := tw (fun c => W r s t c - W r (- s) t c) (X r s t 1%nat) s.
  Let L2 r s t := tw (fun c => W r s t c - W r s (- t) c) (X r s t 2%nat) t.
  Let nz r s t i : pm r -> pm s -> pm t -> (i < 3)%nat -> dot3 (X r s t i) (X r s t i) <> 0.
  Proof. intros Hr Hs Ht Hi. apply edge_nonzero; [exact Hi|]. apply Hreg; apply pm_in; assumption. Qed.
  Let K0 r s t : pm r -> pm s -> pm t -> forall c, (c < 3)%nat -> W r s t c - W (- r) s t c = L0 r s t * (2 * r * X r s t 0%nat c).
  Proof.
    intros Hr Hs Ht. apply tw_ok; [exact (pm_nz r Hr)|apply nz; [assumption..|lia]|].
    intros c Hc. change (X r s t 0%nat) with (X (- r) s t 0%nat) at 2. rewrite <- (HW r s t), <- (HW (- r) s t) by side. reflexivity.
  Qed.
  Let K1 r s t : pm r -> pm s -> pm t -> forall c, (c < 3)%nat -> W r s t c - W r (- s) t c = L1 r s t * (2 * s * X r s t 1%nat c).
  Proof.
    intros Hr Hs Ht. apply tw_ok; [exact (pm_nz s Hs)|apply nz; [assumption..|lia]|].
    intros c Hc. change (X r s t 1%nat) with (X r (- s) t 1%nat) at 2. rewrite <- (HW r s t), <- (HW r (- s) t) by side. reflexivity.
  Qed.
  Let K2 r s t : pm r -> pm s -> pm t -> forall c, (c < 3)%nat -> W r s t c - W r s (- t) c = L2 r s t * (2 * t * X r s t 2%nat c).
  Proof.
    intros Hr Hs Ht. apply tw_ok; [exact (pm_nz t Ht)|apply nz; [assumption..|lia]|].
    intros c Hc. change (X r s t 2%nat) with (X r s (- t) 2%nat) at 2. rewrite <- (HW r s t), <- (HW r s (- t)) by side. reflexivity.
  Qed.

  Let F01 r s t : pm r -> pm s -> pm t -> L0 r s t * L1 r s t < 0 \/ (L0 r s t = 0 /\ L1 r s t = 0).
  Proof.
    intros Hr Hs Ht. assert (HX : forall c, (c < 3)%nat -> r * X r s t 0%nat c - s * X r s t 1%nat c - r * X r (- s) t 0%nat c + s * X (- r) s t 1%nat c = 0) by (intros c _; unfold X, dvh; ring).
    destruct (face_case r s (L0 r s t) (L1 r s t) _ _ _ _ (pm_nz r Hr) HX) as [H|[H|(k & Hk & H)]]; [|left; exact H|right; exact H|].
    - apply (face_eq r s _ _ (W (- r) s t) (W r s t) (W r (- s) t) (fun _ => 0) _ _ _ _ (pm_nz r Hr) (pm_nz s Hs) HX).
      + intros c Hc. change (X r s t 0%nat) with (X (- r) s t 0%nat). rewrite <- !(HW (- r) s t), <- (HW r s t), <- (HW r (- s) t) by side. unfold V, dvh. ring.
      + apply K0; assumption.
      + apply K1; assumption.
    - exfalso. apply (Hreg (- (k * r)) (k * s) t); [pose proof (pm_k r k Hr Hk); lra|apply pm_k; assumption|apply pm_in; assumption|].
      apply (flat_det _ 0 1 ltac:(lia)). intros c Hc. rewrite <- (H c Hc). do 3 (destruct c as [|c]; [cbn [crs]; unfold X, dvh; field|]). lia.
  Qed.
  Let F02 r s t : pm r -> pm s -> pm t -> L0 r s t * L2 r s t < 0 \/ (L0 r s t = 0 /\ L2 r s t = 0).
  Proof.
    intros Hr Hs Ht. assert (HX : forall c, (c < 3)%nat -> r * X r s t 0%nat c - t * X r s t 2%nat c - r * X r s (- t) 0%nat c + t * X (- r) s t 2%nat c = 0) by (intros c _; unfold X, dvh; ring).
    destruct (face_case r t (L0 r s t) (L2 r s t) _ _ _ _ (pm_nz r Hr) HX) as [H|[H|(k & Hk & H)]]; [|left; exact H|right; exact H|].
    - apply (face_eq r t _ _ (W (- r) s t) (W r s t) (W r s (- t)) (fun _ => 0) _ _ _ _ (pm_nz r Hr) (pm_nz t Ht) HX).
      + intros c Hc. change (X r s t 0%nat) with (X (- r) s t 0%nat). rewrite <- !(HW (- r) s t), <- (HW r s t), <- (HW r s (- t)) by side. unfold V, dvh. ring.
      + apply K0; assumption.
      + apply K2; assumption.
    - exfalso. apply (Hreg (- (k * r)) s (k * t)); [pose proof (pm_k r k Hr Hk); lra|apply pm_in; assumption|apply pm_k; assumption|].
      apply (flat_det _ 0 2 ltac:(lia)). intros c Hc. rewrite <- (H c Hc). do 3 (destruct c as [|c]; [cbn [crs]; unfold X, dvh; field|]). lia.
  Qed.
  Let F12 r s t : pm r -> pm s -> pm t -> L1 r s t * L2 r s t < 0 \/ (L1 r s t = 0 /\ L2 r s t = 0).
  Proof.
    intros Hr Hs Ht. assert (HX : forall c, (c < 3)%nat -> s * X r s t 1%nat c - t * X r s t 2%nat c - s * X r s (- t) 1%nat c + t * X r (- s) t 2%nat c = 0) by (intros c _; unfold X, dvh; ring).
    destruct (face_case s t (L1 r s t) (L2 r s t) _ _ _ _ (pm_nz s Hs) HX) as [H|[H|(k & Hk & H)]]; [|left; exact H|right; exact H|].
    - apply (face_eq s t _ _ (W r (- s) t) (W r s t) (W r s (- t)) (fun _ => 0) _ _ _ _ (pm_nz s Hs) (pm_nz t Ht) HX).
      + intros c Hc. change (X r s t 1%nat) with (X r (- s) t 1%nat). rewrite <- !(HW r (- s) t), <- (HW r s t), <- (HW r s (- t)) by side. unfold V, dvh. ring.
      + apply K1; assumption.
      + apply K2; assumption.
    - exfalso. apply (Hreg r (- (k * s)) (k * t)); [apply pm_in; assumption|pose proof (pm_k s k Hs Hk); lra|apply pm_k; assumption|].
      apply (flat_det _ 1 2 ltac:(lia)). intros c Hc. rewrite <- (H c Hc). do 3 (destruct c as [|c]; [cbn [crs]; unfold X, dvh; field|]). lia.
  Qed.
  Let same r s t : pm r -> pm s -> pm t -> forall c, (c < 3)%nat -> W r s t c = W (- r) s t c /\ W r s t c = W r (- s) t c /\ W r s t c = W r s (- t) c.
  Proof.
    intros Hr Hs Ht c Hc. destruct (three_signs _ _ _ (F01 r s t Hr Hs Ht) (F02 r s t Hr Hs Ht) (F12 r s t Hr Hs Ht)) as (Z0 & Z1 & Z2).
    pose proof (K0 r s t Hr Hs Ht c Hc) as E0. pose proof (K1 r s t Hr Hs Ht c Hc) as E1. pose proof (K2 r s t Hr Hs Ht c Hc) as E2.
    rewrite Z0 in E0. rewrite Z1 in E1. rewrite Z2 in E2. repeat split; lra.
  Qed.
  Let all_same r s t c : pm r -> pm s -> pm t -> (c < 3)%nat -> W r s t c = W g g g c.
  Proof.
    intros Hr Hs Ht Hc. assert (P : pm g) by (left; reflexivity).
    transitivity (W g s t c); [destruct Hr as [-> | ->]; [reflexivity|symmetry; apply same; assumption]|].
    transitivity (W g g t c); [destruct Hs as [-> | ->]; [reflexivity|symmetry; apply same; assumption]|].
    destruct Ht as [-> | ->]; [reflexivity|symmetry; apply same; assumption].
  Qed.

  Lemma brick_rigid : exists t w, forall j, (j < 24)%nat -> u j = rigid3 coord t w j.
  Proof.
    set (w := W g g g).
    set (f := fun b k => u (3 * k + b)%nat - crs w (fun a => ent coord k a) b).
    assert (Z : forall r s t i b, pm r -> pm s -> pm t -> (i < 3)%nat -> (b < 3)%nat -> dvh r s t i (f b) = 0).
    { intros r s t i b Hr Hs Ht Hi Hb. pose proof (HW r s t Hr Hs Ht i b Hi Hb) as E.
      assert (E' : V r s t i b = crs w (X r s t i) b).
      { rewrite E. do 3 (destruct b as [|b]; [cbn [crs]; rewrite !(all_same r s t) by (assumption || lia); reflexivity|]). lia. }
      rewrite <- (Rminus_diag_eq _ _ E'). unfold V, X. rewrite <- !dvh_D by exact Hi.
      do 3 (destruct b as [|b]; [cbn [crs]; rewrite <- !dvh_D by exact Hi; unfold f; cbn [crs rsum]; ring|]). lia. }
    assert (Pg : pm g) by (left; reflexivity).
    assert (R0 : forall k b, (k < 8)%nat -> (b < 3)%nat -> f b k = h0 (f b)).
    { intros k b Hk Hb.
      assert (P0 : hr (f b) = 0 /\ hrs (f b) = 0 /\ hrt (f b) = 0 /\ hrst (f b) = 0) by (apply (bil_zero g _ _ _ _ Hg); intros s t Hs Ht; exact (Z g s t 0%nat b Pg Hs Ht ltac:(lia) Hb)).
      assert (P1 : hs (f b) = 0 /\ hrs (f b) = 0 /\ hst (f b) = 0 /\ hrst (f b) = 0) by (apply (bil_zero g _ _ _ _ Hg); intros r t Hr Ht; exact (Z r g t 1%nat b Hr Pg Ht ltac:(lia) Hb)).
      assert (P2 : ht (f b) = 0 /\ hrt (f b) = 0 /\ hst (f b) = 0 /\ hrst (f b) = 0) by (apply (bil_zero g _ _ _ _ Hg); intros r s Hr Hs; exact (Z r s g 2%nat b Hr Hs Pg ltac:(lia) Hb)).
      rewrite (hex8_value k (f b) Hk). destruct P0 as (A1 & A2 & A3 & A4). destruct P1 as (A5 & _ & A6 & _). destruct P2 as (A7 & _).
      rewrite A1, A2, A3, A4, A5, A6, A7. ring. }
    exists (fun b => h0 (f b)), w. intros j Hj. set (k := (j / 3)%nat). set (b := (j mod 3)%nat).
    assert (Ej : j = (3 * k + b)%nat) by (unfold k, b; apply Nat.div_mod; lia). assert (Hb : (b < 3)%nat) by (unfold b; apply Nat.mod_upper_bound; lia).
    assert (Hk : (k < 8)%nat) by lia. clearbody k b. subst j. unfold rigid3, affine3. rewrite mod3, div3 by assumption.
    rewrite <- (R0 k b Hk Hb). unfold f. cbn [rsum]. do 3 (destruct b as [|b]; [cbn [skew3 crs]; ring|]). lia.
  Qed.
End Brick.

Lemma hex8_modes_any coord E nu rho K m u : elast_hex8 coord [E; nu; rho] = Ok (K, m) -> 0 < E -> -1 < nu < 1 / 2 -> regular_brick coord -> form 24 K u u = 0 ->
  exists t w, forall j, (j < 24)%nat -> u j = rigid3 coord t w j.
Proof.
  intros Hrun HE Hnu Hreg H0. assert (Hp : In so_hex8 solids) by (right; left; reflexivity).
  pose proof (solid_strain_zero so_hex8 coord E nu rho K m u Hp Hrun HE Hnu H0) as HZ. destruct hex8_points1 as (g & Hg & Hg1 & Hpts).
  cbn [so_n so_sh so_hex8] in HZ. clear Hrun H0 Hp HE Hnu.
  apply (brick_rigid coord u g (fun r s t c => match c with 0%nat => G3 8 (snd (shape_hex8 r s t)) coord u 1 2 | 1%nat => G3 8 (snd (shape_hex8 r s t)) coord u 2 0 | _ => G3 8 (snd (shape_hex8 r s t)) coord u 0 1 end) Hg Hg1).
  - intros r s t Hr Hs Ht. intros Z. apply (Hreg r s t Hr Hs Ht). rewrite <- Z. unfold J3det. rewrite !brick_dvh. reflexivity.
  - intros r s t Hr Hs Ht i c Hi Hc. destruct (Hpts r s t Hr Hs Ht) as [w Hin]. destruct (HZ r s t w Hin) as [Hd Hst]. unfold det_at3 in Hd.
    assert (A : anti (G3 8 (snd (shape_hex8 r s t)) coord u)) by exact (strain_anti _ Hst). clear Hst HZ Hpts. rewrite <- !(dvh_D r s t i) by exact Hi. etransitivity; [exact (H3_G 8 _ coord u i c Hi Hd)|].
    assert (EX : forall a, dvh r s t i (fun k => ent coord k a) = Jac 8 (snd (shape_hex8 r s t)) coord i a) by (intros a; symmetry; exact (dvh_D r s t i _ Hi)).
    set (G := G3 8 (snd (shape_hex8 r s t)) coord u) in *.
    pose proof (A 0%nat 0%nat ltac:(lia) ltac:(lia)) as A00. pose proof (A 1%nat 1%nat ltac:(lia) ltac:(lia)) as A11. pose proof (A 2%nat 2%nat ltac:(lia) ltac:(lia)) as A22.
    pose proof (A 0%nat 1%nat ltac:(lia) ltac:(lia)) as A01. pose proof (A 0%nat 2%nat ltac:(lia) ltac:(lia)) as A02. pose proof (A 1%nat 2%nat ltac:(lia) ltac:(lia)) as A12.
    assert (E00 : G 0%nat 0%nat = 0) by lra. assert (E11 : G 1%nat 1%nat = 0) by lra. assert (E22 : G 2%nat 2%nat = 0) by lra.
    assert (E10 : G 1%nat 0%nat = - G 0%nat 1%nat) by lra. assert (E02 : G 0%nat 2%nat = - G 2%nat 0%nat) by lra.
    assert (E21 : G 2%nat 1%nat = - G 1%nat 2%nat) by lra.
    cbn [rsum]. destruct c as [|[|[|]]]; [| | |lia]; cbn [crs]; rewrite !EX; repeat match goal with |- context [G3 ?n ?D coord u ?a ?b] => change (G3 n D coord u a b) with (G a b) end; set (J := Jac 8 (snd (shape_hex8 r s t)) coord i); repeat match goal with |- context [Jac ?n ?D coord i ?a] => change (Jac n D coord i a) with (J a) end; rewrite ?E00, ?E11, ?E22, ?E10, ?E02, ?E21; ring.
Qed.

(** a parallelepiped that is accepted is regular *)
Lemma box_regular coord E nu rho K m : elast_hex8 coord [E; nu; rho] = Ok (K, m) -> parallelepiped coord -> regular_brick coord.
Proof.
  intros Hrun Hpar r s t _ _ _. destruct (solid_summary so_hex8 coord _ K m ltac:(right; left; reflexivity) Hrun) as [E' [nu' [rho' [M [Hpar' [_ [_ [Ha _]]]]]]]].
  destruct hex8_points1 as (g & _ & _ & Hpts). destruct (Hpts g g g ltac:(tauto) ltac:(tauto) ltac:(tauto)) as [w Hin].
  destruct Ha as [_ [_ Ha]]. specialize (Ha g g g w Hin). cbn [so_n so_sh so_hex8] in Ha. unfold det_at3 in Ha.
  assert (EQ : J3det (brick_edge coord r s t) = J3det (Jac 8 (snd (shape_hex8 g g g)) coord)).
  { assert (EJ : forall i a, (i < 3)%nat -> (a < 3)%nat -> brick_edge coord r s t i a = Jac 8 (snd (shape_hex8 g g g)) coord i a).
    { intros i a Hi Hai. rewrite brick_dvh. etransitivity; [|symmetry; exact (dvh_D g g g i (fun k => ent coord k a) Hi)].
      destruct (brick_flat coord a Hpar Hai) as (F1 & F2 & F3 & F4). unfold dvh. destruct i as [|[|i]]; rewrite ?F1, ?F2, ?F3, ?F4; ring. }
    unfold J3det. rewrite !EJ by lia. reflexivity. }
  rewrite EQ. apply Rgt_not_eq. apply (Rlt_trans _ (1 / 100000000)); [lra|exact Ha].
Qed.
