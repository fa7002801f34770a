(** * Lemmas: orders of the nodes of quadrilaterals, triangles, bricks and tetrahedra *)
From Coq Require Import String Reals List Arith Lia Lra Bool ZArith QArith Qreals.
From Verif Require Import Num LinAlg Gauss Fem Uel Spec LinR Base ElemShape BarProofs SpecElem SpecShape ShapeProofs ElemCore Sampled Elem2 Elem2Props Elem2Mass
  Elem3 Elem3Props MatProofs ElemAxi Assem Main Script SpecAssem SpecModel SpecScript SpecOrder OrderProofs.
Import ListNotations.
Local Open Scope R_scope.

Lemma order_list n s : length s = n -> NoDup s -> Forall (fun k => (k < n)%nat) s -> order n s.
Proof. intros HL HN HF. split; [exact HL|]. split; [exact HN|]. intros k Hk. rewrite Forall_forall in HF. apply HF, nth_In. lia. Qed.
Ltac is_order := apply order_list; [reflexivity|repeat (apply NoDup_cons; [cbn; lia|]); apply NoDup_nil|repeat (apply Forall_cons; [lia|]); apply Forall_nil].

(** ** the rules *)
Lemma triple_eq (a b c a' b' c' : R) (l l' : list (R * R * R)) : a = a' -> b = b' -> c = c' -> l = l' -> (a, b, c) :: l = (a', b', c') :: l'.
Proof. congruence. Qed.
Lemma quadruple_eq (a b c d a' b' c' d' : R) (l l' : list (R * R * R * R)) : a = a' -> b = b' -> c = c' -> d = d' -> l = l' -> (a, b, c, d) :: l = (a', b', c', d') :: l'.
Proof. congruence. Qed.
Definition quarter (r t : R) : R * R := (- t, r).
Lemma gq_two : exists b, pl_gq pl_quad4 = [(- b, - b, 1); (- b, b, 1); (b, - b, 1); (b, b, 1)].
Proof.
  exists (Q2R 0.577350269189625764). cbn. q2r. repeat (apply triple_eq; [lra|lra|lra|]). reflexivity.
Qed.
Lemma gq_three : exists b v w, pl_gq pl_quad9 =
  [(- b, - b, v * v); (- b, 0, v * w); (- b, b, v * v); (0, - b, w * v); (0, 0, w * w); (0, b, w * v); (b, - b, v * v); (b, 0, v * w); (b, b, v * v)].
Proof.
  exists (Q2R 0.774596669241483377), (Q2R 0.555555555555555556), (Q2R 0.888888888888888889). cbn.
  q2r. repeat (apply triple_eq; [lra|lra|lra|]). reflexivity.
Qed.
Lemma quarter_two : invariant quarter (pl_gq pl_quad4).
Proof.
  destruct gq_two as (b & ->). split.
  - intros q Hq. repeat (destruct Hq as [<-|Hq]; [cbn; rewrite ?Ropp_involutive; tauto|]). destruct Hq.
  - intros f. cbn. rewrite ?Ropp_involutive. ring.
Qed.
Lemma quarter_three : invariant quarter (pl_gq pl_quad9).
Proof.
  destruct gq_three as (b & v & w & ->). split.
  - intros q Hq. repeat (destruct Hq as [<-|Hq]; [cbn; rewrite ?Ropp_involutive, ?Ropp_0, ?(Rmult_comm w v); tauto|]). destruct Hq.
  - intros f. cbn. rewrite ?Ropp_involutive, ?Ropp_0, ?(Rmult_comm w v). ring.
Qed.
Lemma still gq : invariant pair gq.
Proof. split; [intros [[r t] w] H; exact H|]. intros f. apply lsum_ext. intros [[r t] w] _. reflexivity. Qed.

(** ** shape functions *)
Ltac small k Hk := repeat (destruct k as [|k]; [clear Hk|]); [..|exfalso; lia].
Ltac turned_tac := split; [is_order|split; [ring|]]; intros r t k Hk; cbv zeta;
  do 9 (try (destruct k as [|k]; [first [exfalso; lia|clear Hk]|])); try (exfalso; lia); unfold quarter; cbn [fst snd nth]; shp; unfold ent; cbn [nth]; split; field.
Lemma quad4_turned : turned_shape 4 shape_quad4 [1; 2; 3; 0]%nat quarter 0 (-1) 1 0.
Proof. turned_tac. Qed.
Lemma quad8_turned : turned_shape 8 shape_quad8 [1; 2; 3; 0; 5; 6; 7; 4]%nat quarter 0 (-1) 1 0.
Proof. turned_tac. Qed.
Lemma quad9_turned : turned_shape 9 shape_quad9 [1; 2; 3; 0; 5; 6; 7; 4; 8]%nat quarter 0 (-1) 1 0.
Proof. turned_tac. Qed.
Lemma tri3_turned : turned_shape 3 shape_tri3 [1; 2; 0]%nat pair (-1) (-1) 1 0.
Proof. turned_tac. Qed.
Ltac values_tac := intros r t k Hk; do 9 (try (destruct k as [|k]; [first [exfalso; lia|clear Hk]|])); try (exfalso; lia); unfold quarter; cbn [fst snd nth]; shp; cbn [nth]; field.
Lemma quad4_values : turned_values 4 shape_quad4 [1; 2; 3; 0]%nat quarter.
Proof. values_tac. Qed.
Lemma quad8_values : turned_values 8 shape_quad8 [1; 2; 3; 0; 5; 6; 7; 4]%nat quarter.
Proof. values_tac. Qed.
Lemma quad9_values : turned_values 9 shape_quad9 [1; 2; 3; 0; 5; 6; 7; 4; 8]%nat quarter.
Proof. values_tac. Qed.

(** ** solids *)
Definition rotation := R -> R -> R -> R * R * R.
Definition sh_at (sh : shape3) (q : R * R * R) : list R * list (list R) := let '(r, t, z) := q in sh r t z.
Definition det33 (A : nat -> nat -> R) : R := J3det A.
Definition turned_shape3 (n : nat) (sh : shape3) (s : list nat) (rot : rotation) (A : nat -> nat -> R) : Prop :=
  order n s /\ J3det A = 1 /\
  forall r t z k a, (k < n)%nat -> (a < 3)%nat -> let D' := snd (sh_at sh (rot r t z)) in
    ent (snd (sh r t z)) a k = A 0%nat a * ent D' 0 (nth k s 0%nat) + A 1%nat a * ent D' 1 (nth k s 0%nat) + A 2%nat a * ent D' 2 (nth k s 0%nat).
Definition turned_values3 (n : nat) (sh : shape3) (s : list nat) (rot : rotation) : Prop :=
  forall r t z k, (k < n)%nat -> nth k (fst (sh r t z)) 0 = nth (nth k s 0%nat) (fst (sh_at sh (rot r t z))) 0.

Section Solid.
  Variables (n : nat) (sh : shape3) (s : list nat) (rot : rotation) (A : nat -> nat -> R).
  Hypothesis HO : order n s.
  Hypothesis HA : J3det A = 1.
  Hypothesis HD : forall r t z k a, (k < n)%nat -> (a < 3)%nat -> let D' := snd (sh_at sh (rot r t z)) in
    ent (snd (sh r t z)) a k = A 0%nat a * ent D' 0 (nth k s 0%nat) + A 1%nat a * ent D' 1 (nth k s 0%nat) + A 2%nat a * ent D' 2 (nth k s 0%nat).
  Variable coord : list (list R).

  Lemma turn_jac3 r t z a b : (a < 3)%nat -> let J := Jac n (snd (sh_at sh (rot r t z))) coord in
    Jac n (snd (sh r t z)) (pick [] s coord) a b = A 0%nat a * J 0%nat b + A 1%nat a * J 1%nat b + A 2%nat a * J 2%nat b.
  Proof.
    intros Ha. cbv zeta. unfold Jac. set (D := snd (sh_at sh (rot r t z))). assert (HL : length s = n) by apply HO.
    rewrite <- (rsum_order n s (fun k => ent D 0 k * ent coord k b) HO), <- (rsum_order n s (fun k => ent D 1 k * ent coord k b) HO),
      <- (rsum_order n s (fun k => ent D 2 k * ent coord k b) HO).
    rewrite <- !rsum_scal, <- !rsum_plus. apply rsum_ext; intros k Hk; rewrite pick_ent by lia.
    pose proof (HD r t z k a Hk Ha) as E0; cbv zeta in E0; fold D in E0; rewrite E0; ring.
  Qed.
  Lemma turn_det3' r t z : J3det (Jac n (snd (sh r t z)) (pick [] s coord)) = J3det (Jac n (snd (sh_at sh (rot r t z))) coord).
  Proof.
    set (J := Jac n (snd (sh_at sh (rot r t z))) coord). transitivity (J3det A * J3det J); [|rewrite HA; ring].
    unfold J3det. rewrite !turn_jac3 by lia. fold J. ring.
  Qed.
  Lemma turn_grad3 r t z a k : (k < n)%nat -> (a < 3)%nat ->
    grad3g n (snd (sh r t z)) (pick [] s coord) a k = grad3g n (snd (sh_at sh (rot r t z))) coord a (nth k s 0%nat).
  Proof.
    intros Hk Ha. unfold grad3g. rewrite turn_det3'. cbn [rsum]. rewrite !HD by (assumption || lia).
    set (J := Jac n (snd (sh_at sh (rot r t z))) coord). set (D := snd (sh_at sh (rot r t z))). set (q := nth k s 0%nat).
    transitivity ((J3det A * (cof3 J a 0 * ent D 0 q + cof3 J a 1 * ent D 1 q + cof3 J a 2 * ent D 2 q)) / J3det J); [|rewrite HA; unfold Rdiv; ring].
    unfold Rdiv. set (i := / J3det J). clearbody i.
    destruct a as [|[|[|]]]; try lia; unfold cof3, J3det; rewrite !turn_jac3 by lia; fold J; ring.
  Qed.
  Lemma pf3 u k a : (a < 3)%nat -> pf 3 s u (3 * k + a) = u (3 * nth k s 0 + a)%nat.
  Proof. apply pf_at. Qed.
  Lemma turn_G3 r t z u a b : (a < 3)%nat -> (b < 3)%nat ->
    G3 n (snd (sh r t z)) (pick [] s coord) (pf 3 s u) a b = G3 n (snd (sh_at sh (rot r t z))) coord u a b.
  Proof.
    intros Ha Hb. unfold G3. rewrite <- (rsum_order n s (fun k => grad3g n (snd (sh_at sh (rot r t z))) coord a k * u (3 * k + b)%nat) HO).
    apply rsum_ext. intros k Hk. rewrite turn_grad3, pf3 by assumption. reflexivity.
  Qed.
  Lemma turn_strain3 r t z u a : strain3 n (snd (sh r t z)) (pick [] s coord) (pf 3 s u) a = strain3 n (snd (sh_at sh (rot r t z))) coord u a.
  Proof. unfold strain3, strain_of. do 6 (try destruct a as [|a]); rewrite !turn_G3 by lia; reflexivity. Qed.
  Hypothesis HN : forall r t z k, (k < n)%nat -> nth k (fst (sh r t z)) 0 = nth (nth k s 0%nat) (fst (sh_at sh (rot r t z))) 0.
  Lemma turn_value3 r t z u a : (a < 3)%nat -> value3 n (fst (sh r t z)) (pf 3 s u) a = value3 n (fst (sh_at sh (rot r t z))) u a.
  Proof.
    intros Ha. unfold value3. rewrite <- (rsum_order n s (fun k => nth k (fst (sh_at sh (rot r t z))) 0 * u (3 * k + a)%nat) HO).
    apply rsum_ext. intros k Hk. rewrite HN, pf3 by assumption. reflexivity.
  Qed.
End Solid.

Definition rot4 (rot : rotation) (q : R * R * R * R) : R * R * R * R := let '(r, t, z, w) := q in (rot r t z, w).
Definition invariant3 (rot : rotation) (gq : list (R * R * R * R)) : Prop :=
  (forall q, In q gq -> In (rot4 rot q) gq) /\ forall f, lsum (fun q => f (rot4 rot q)) gq = lsum f gq.

Lemma turn_solid p s rot A coord params K M : In p solids -> turned_shape3 (so_n p) (so_sh p) s rot A ->
  invariant3 rot (so_gq p) -> rectangular coord -> so_f p coord params = Ok (K, M2 M) ->
  exists K' M', so_f p (pick [] s coord) params = Ok (K', M2 M') /\
    (forall u v, form (3 * so_n p) K' (pf 3 s u) (pf 3 s v) = form (3 * so_n p) K u v) /\
    (turned_values3 (so_n p) (so_sh p) s rot -> forall u v, form (3 * so_n p) M' (pf 3 s u) (pf 3 s v) = form (3 * so_n p) M u v).
Proof.
  intros Hp (HO & HA & HD) HI Hr Hf. destruct (solid_summary p coord params K _ Hp Hf) as (E & nu & rho & M0 & -> & Hn1 & Hn2 & Ha & Hm & HS).
  injection Hm as ->.
  assert (Hn : (0 < so_n p)%nat) by (clear - Hp; repeat (destruct Hp as [<-|Hp]; [cbn; lia|]); destruct Hp).
  assert (Hdet : forall c r t z, det_at3 (so_n p) (so_sh p) c r t z = J3det (Jac (so_n p) (snd (sh_at (so_sh p) (r, t, z))) c)) by reflexivity.
  assert (Ha' : accepted3 (so_n p) (so_sh p) (so_gq p) (pick [] s coord)).
  { destruct Ha as (H1 & H2 & H3). split; [rewrite pick_length; apply HO|]. split; [rewrite (pick_ncols (so_n p)); assumption|].
    intros r t z w Hin. unfold det_at3. rewrite (turn_det3' _ _ s rot A HO HA HD). pose proof (proj1 HI _ Hin) as Hin'. unfold rot4 in Hin'.
    destruct (rot r t z) as [[r' t'] z']. apply (H3 _ _ _ w). exact Hin'. }
  destruct (solid_runs p _ E nu rho Hp Hn1 Hn2 Ha') as (K' & M' & Hf').
  destruct (solid_summary p _ _ K' _ Hp Hf') as (E' & nu' & rho' & M1 & Hpar' & _ & _ & _ & Hm' & HS'). injection Hm' as ->. injection Hpar' as <- <- <-.
  exists K', M1. split; [exact Hf'|]. split.
  - intros u v. rewrite (sa_K _ _ _ _ _ _ _ _ HS'), (sa_K _ _ _ _ _ _ _ _ HS). unfold gs3. rewrite !lsum_map.
    rewrite <- (proj2 HI (fun q => vK 6 (hooke E nu) u v (gdat3 (so_n p) (so_sh p) coord (so_c p) q))). apply lsum_ext. intros [[[r t] z] w] _.
    unfold rot4. pose proof (turn_det3' _ _ s rot A HO HA HD coord r t z) as ED.
    pose proof (fun u => turn_strain3 _ _ s rot A HO HA HD coord r t z u) as ES. destruct (rot r t z) as [[r' t'] z'].
    unfold vK, gdat3. cbn [g_w g_eps]. unfold det_at3. rewrite ED. cbn [sh_at]. f_equal. apply form_ext; intros j _; apply ES.
  - intros HN u v. rewrite (sa_M _ _ _ _ _ _ _ _ HS'), (sa_M _ _ _ _ _ _ _ _ HS). f_equal. unfold gs3. rewrite !lsum_map.
    rewrite <- (proj2 HI (fun q => vM 3 u v (gdat3 (so_n p) (so_sh p) coord (so_c p) q))). apply lsum_ext. intros [[[r t] z] w] _.
    unfold rot4. pose proof (turn_det3' _ _ s rot A HO HA HD coord r t z) as ED.
    pose proof (fun u a => turn_value3 _ _ s rot HO HN r t z u a) as EV. destruct (rot r t z) as [[r' t'] z'].
    unfold vM, gdat3. cbn [g_w g_val]. unfold det_at3. rewrite ED. cbn [sh_at] in *. f_equal. apply rsum_ext. intros j Hj. rewrite !EV by exact Hj. reflexivity.
Qed.

Definition rot_z (r t z : R) : R * R * R := (- t, r, z).
Definition rot_x (r t z : R) : R * R * R := (r, - z, t).
Definition still3 (r t z : R) : R * R * R := (r, t, z).
Definition mat3 (l : list (list R)) (a b : nat) : R := ent l a b.

Lemma gq_brick : exists b, so_gq so_hex8 =
  [(- b, - b, - b, 1); (- b, - b, b, 1); (- b, b, - b, 1); (- b, b, b, 1); (b, - b, - b, 1); (b, - b, b, 1); (b, b, - b, 1); (b, b, b, 1)].
Proof.
  exists (Q2R 0.577350269189625764). cbn. q2r. repeat (apply quadruple_eq; [lra|lra|lra|lra|]). reflexivity.
Qed.
Ltac brick_tac := destruct gq_brick as (b & ->); split;
  [intros q Hq; repeat (destruct Hq as [<-|Hq]; [cbn; unfold rot_z, rot_x; rewrite ?Ropp_involutive; tauto|]); destruct Hq
  |intros f; cbn; unfold rot_z, rot_x; rewrite ?Ropp_involutive; ring].
Lemma brick_z : invariant3 rot_z (so_gq so_hex8).
Proof. brick_tac. Qed.
Lemma brick_x : invariant3 rot_x (so_gq so_hex8).
Proof. brick_tac. Qed.
Lemma rest3 gq : invariant3 still3 gq.
Proof. split; [intros [[[r t] z] w] H; exact H|]. intros f. apply lsum_ext. intros [[[r t] z] w] _. reflexivity. Qed.
Ltac solid_tac := split; [is_order|split; [unfold J3det, mat3, ent; cbn [nth]; ring|]]; intros r t z k a Hk Ha; cbv zeta;
  do 8 (try (destruct k as [|k]; [first [exfalso; lia|clear Hk]|])); try (exfalso; lia); (destruct a as [|[|[|]]]; [| | |exfalso; lia]); clear Ha;
  unfold rot_z, rot_x, still3, sh_at; cbn [fst snd nth]; shp; unfold mat3, ent; cbn [nth]; field.
Lemma hex8_z : turned_shape3 8 shape_hex8 [1; 2; 3; 0; 5; 6; 7; 4]%nat rot_z (mat3 [[0; -1; 0]; [1; 0; 0]; [0; 0; 1]]).
Proof. solid_tac. Qed.
Lemma hex8_x : turned_shape3 8 shape_hex8 [3; 2; 6; 7; 0; 1; 5; 4]%nat rot_x (mat3 [[1; 0; 0]; [0; 0; -1]; [0; 1; 0]]).
Proof. solid_tac. Qed.
Ltac values3_tac := intros r t z k Hk; do 8 (try (destruct k as [|k]; [first [exfalso; lia|clear Hk]|])); try (exfalso; lia);
  unfold rot_z, rot_x, sh_at; cbn [fst snd nth]; shp; cbn [nth]; field.
Lemma hex8_z_values : turned_values3 8 shape_hex8 [1; 2; 3; 0; 5; 6; 7; 4]%nat rot_z.
Proof. values3_tac. Qed.
Lemma hex8_x_values : turned_values3 8 shape_hex8 [3; 2; 6; 7; 0; 1; 5; 4]%nat rot_x.
Proof. values3_tac. Qed.
(** corners 1, 2, 0, 3: (r, s, t) -> (1 - r - s - t, r, t); corners 0, 2, 3, 1: (r, s, t) -> (t, r, s) *)
Lemma tet4_a : turned_shape3 4 shape_tet4 [1; 2; 0; 3]%nat still3 (mat3 [[-1; -1; -1]; [1; 0; 0]; [0; 0; 1]]).
Proof. solid_tac. Qed.
Lemma tet4_b : turned_shape3 4 shape_tet4 [0; 2; 3; 1]%nat still3 (mat3 [[0; 0; 1]; [1; 0; 0]; [0; 1; 0]]).
Proof. solid_tac. Qed.
