(** * Lemmas: the nodes of one element listed in another order *)
From Coq Require Import String Reals List Arith Lia Lra Bool ZArith QArith Qreals.
From Verif Require Import Num LinAlg Gauss Fem Uel Spec LinR Base ElemShape BarProofs SpecElem SpecShape ShapeProofs ElemCore Sampled Elem2 Elem2Props Elem2Mass
  Elem3 Elem3Props MatProofs ElemAxi Assem Main Script SpecAssem SpecModel SpecScript SpecOrder.
Import ListNotations.
Local Open Scope R_scope.

(** fields in the new order *)
Definition pf (d : nat) (s : list nat) (u : nat -> R) (j : nat) : R := u (d * nth (j / d) s 0%nat + j mod d)%nat.
(** an order of all nodes of the element *)
Definition order (n : nat) (s : list nat) : Prop :=
  length s = n /\ NoDup s /\ forall k, (k < n)%nat -> (nth k s 0 < n)%nat.

Lemma pf_at d s u k a : (a < d)%nat -> pf d s u (d * k + a) = u (d * nth k s 0%nat + a)%nat.
Proof.
  intros Ha. unfold pf. rewrite (Nat.mul_comm d k), Nat.div_add_l by lia. rewrite Nat.div_small by lia.
  rewrite (Nat.add_comm (k * d)), Nat.mod_add by lia. rewrite Nat.mod_small by lia. rewrite Nat.add_0_r. reflexivity.
Qed.
Lemma order_inj n s i j : order n s -> (i < n)%nat -> (j < n)%nat -> nth i s 0%nat = nth j s 0%nat -> i = j.
Proof. intros (HL & HN & _) Hi Hj E. apply (proj1 (NoDup_nth s 0%nat) HN); rewrite ?HL; assumption. Qed.

Lemma dof_lt d n k a : (k < n)%nat -> (a < d)%nat -> (d * k + a < d * n)%nat.
Proof. intros Hk Ha. apply Nat.lt_le_trans with (d * k + d)%nat; [lia|]. rewrite <- Nat.mul_succ_r. apply Nat.mul_le_mono_l. lia. Qed.
Lemma dof_eq d i j a b : (a < d)%nat -> (b < d)%nat -> (d * i + a = d * j + b)%nat -> i = j /\ a = b.
Proof.
  intros Ha Hb E. assert (E1 : ((d * i + a) / d = (d * j + b) / d)%nat) by (rewrite E; reflexivity).
  rewrite !(Nat.mul_comm d) in E1. rewrite !Nat.div_add_l, !Nat.div_small in E1 by lia. rewrite !Nat.add_0_r in E1. subst. split; [reflexivity|lia].
Qed.

(** equal forms: the same entries in the new order *)
Lemma forms_permuted d n s K K' : order n s -> (forall u v, form (d * n) K' (pf d s u) (pf d s v) = form (d * n) K u v) -> permuted d s K K'.
Proof.
  intros HO HF i j a b Hi Hj Ha Hb. pose proof HO as (HL & _ & HR). rewrite HL in Hi, Hj.
  assert (G : forall k c, (k < n)%nat -> (c < d)%nat -> forall m, (m < d * n)%nat -> pf d s (unitv (d * nth k s 0%nat + c)) m = unitv (d * k + c) m).
  { intros k c Hk Hc m Hm. pose proof (Nat.div_mod m d ltac:(lia)) as E. pose proof (Nat.mod_upper_bound m d ltac:(lia)) as Hb'.
    assert (Hq : (m / d < n)%nat) by (apply Nat.div_lt_upper_bound; lia).
    set (q := (m / d)%nat) in *. set (r := (m mod d)%nat) in *. clearbody q r. subst m. rewrite pf_at by exact Hb'. unfold unitv.
    destruct (Nat.eqb_spec (d * nth q s 0%nat + r) (d * nth k s 0%nat + c)) as [X|X]; destruct (Nat.eqb_spec (d * q + r) (d * k + c)) as [Y|Y]; try reflexivity; exfalso.
    - apply dof_eq in X; [|assumption|assumption]. destruct X as [X ->]. apply (order_inj n s q k HO Hq Hk) in X. subst. lia.
    - apply dof_eq in Y; [|assumption|assumption]. destruct Y as [-> ->]. lia. }
  specialize (HF (unitv (d * nth i s 0%nat + a)) (unitv (d * nth j s 0%nat + b))).
  rewrite (form_ext (d * n) K' _ (unitv (d * i + a)) _ (unitv (d * j + b))) in HF by (intros; apply G; assumption).
  rewrite !form_unit, !act_unit in HF by (apply dof_lt; auto). exact HF.
Qed.

Lemma rsum_order n s f : order n s -> rsum n (fun k => f (nth k s 0%nat)) = rsum n f.
Proof.
  intros (HL & HN & HR).
  assert (HP : Permutation.Permutation s (seq 0 n)).
  { apply Permutation.NoDup_Permutation_bis; [exact HN|rewrite seq_length; lia|].
    intros x Hx. apply In_nth with (d := 0%nat) in Hx. destruct Hx as (k & Hk & <-). apply in_seq. rewrite HL in Hk. specialize (HR k Hk). lia. }
  assert (E : forall l, lsum f l = rsum (length l) (fun k => f (nth k l 0%nat))).
  { clear. intros l. induction l as [|x l IH] using rev_ind; [reflexivity|].
    rewrite lsum_app. rewrite app_length. cbn [length]. rewrite Nat.add_1_r. cbn [rsum].
    rewrite IH. f_equal; [apply rsum_ext; intros; rewrite app_nth1 by assumption; reflexivity|].
    rewrite app_nth2, Nat.sub_diag by lia. cbn. ring. }
  rewrite <- HL at 1. rewrite <- E. transitivity (lsum f (seq 0 n)).
  - clear - HP. unfold lsum. induction HP; cbn [fold_right]; lra.
  - rewrite E, seq_length. apply rsum_ext. intros k Hk. rewrite seq_nth by exact Hk. reflexivity.
Qed.

Lemma pick_length {A} (d : A) s l : length (pick d s l) = length s.
Proof. apply map_length. Qed.
Lemma pick_nth {A} (d : A) s l k : (k < length s)%nat -> nth k (pick d s l) d = nth (nth k s 0%nat) l d.
Proof.
  intros Hk. unfold pick. rewrite (nth_indep _ d ((fun k => nth k l d) 0%nat)) by (rewrite map_length; exact Hk).
  rewrite (map_nth (fun k => nth k l d)). reflexivity.
Qed.
Lemma pick_ent s coord k b : (k < length s)%nat -> ent (pick [] s coord) k b = ent coord (nth k s 0%nat) b.
Proof. intros Hk. unfold ent. rewrite pick_nth by exact Hk. reflexivity. Qed.
Lemma pick_ncols n s coord : order n s -> (0 < n)%nat -> length coord = n -> rectangular coord -> ncols (pick [] s coord) = ncols coord.
Proof.
  intros (HL & _ & HR) Hn Hc (c & Hr). rewrite Forall_forall in Hr.
  assert (G : forall k, (k < n)%nat -> length (nth k coord []) = c) by (intros k Hk; apply Hr, nth_In; lia).
  assert (E : forall m : list (list R), ncols m = length (nth 0 m [])) by (intros [|r m]; reflexivity).
  rewrite !E, pick_nth by lia. rewrite !G; [reflexivity|lia|apply HR; exact Hn].
Qed.

(** ** plane elements *)
Section Plane.
  Variables (n : nat) (sh : shape2) (s : list nat) (rot : R -> R -> R * R) (a00 a01 a10 a11 : R).
  Hypothesis HO : order n s.
  Hypothesis HA : a00 * a11 - a01 * a10 = 1.
  Hypothesis HD : forall r t k, (k < n)%nat -> let D' := snd (sh (fst (rot r t)) (snd (rot r t))) in
    ent (snd (sh r t)) 0 k = a00 * ent D' 0 (nth k s 0%nat) + a10 * ent D' 1 (nth k s 0%nat) /\
    ent (snd (sh r t)) 1 k = a01 * ent D' 0 (nth k s 0%nat) + a11 * ent D' 1 (nth k s 0%nat).
  Variable coord : list (list R).

  Lemma turn_jac r t b : let J := Jac n (snd (sh (fst (rot r t)) (snd (rot r t)))) coord in
    let J' := Jac n (snd (sh r t)) (pick [] s coord) in
    J' 0%nat b = a00 * J 0%nat b + a10 * J 1%nat b /\ J' 1%nat b = a01 * J 0%nat b + a11 * J 1%nat b.
  Proof.
    cbv zeta. unfold Jac. set (D := snd (sh (fst (rot r t)) (snd (rot r t)))).
    assert (HL : length s = n) by apply HO.
    rewrite <- (rsum_order n s (fun k => ent D 0 k * ent coord k b) HO), <- (rsum_order n s (fun k => ent D 1 k * ent coord k b) HO).
    rewrite <- !rsum_scal, <- !rsum_plus. split; apply rsum_ext; intros k Hk; rewrite pick_ent by lia;
      destruct (HD r t k Hk) as [E0 E1]; fold D in E0, E1; rewrite ?E0, ?E1; ring.
  Qed.
  Lemma turn_det r t : det_at n sh (pick [] s coord) r t = det_at n sh coord (fst (rot r t)) (snd (rot r t)).
  Proof.
    unfold det_at, J2det. destruct (turn_jac r t 0) as [-> ->]. destruct (turn_jac r t 1) as [-> ->].
    set (J := Jac n _ coord). transitivity ((a00 * a11 - a01 * a10) * (J 0%nat 0%nat * J 1%nat 1%nat - J 0%nat 1%nat * J 1%nat 0%nat)); [ring|rewrite HA; ring].
  Qed.
  Lemma turn_grad r t a k : (k < n)%nat ->
    grad2 n (snd (sh r t)) (pick [] s coord) a k = grad2 n (snd (sh (fst (rot r t)) (snd (rot r t)))) coord a (nth k s 0%nat).
  Proof.
    intros Hk. unfold grad2. pose proof (turn_det r t) as E. unfold det_at in E. cbv zeta. rewrite E. clear E.
    destruct (turn_jac r t 0) as [-> ->]. destruct (turn_jac r t 1) as [-> ->]. destruct (HD r t k Hk) as [-> ->].
    set (J := Jac n _ coord). set (D := snd _). set (q := nth k s 0%nat). unfold Rdiv. destruct a; f_equal.
    - transitivity ((a00 * a11 - a01 * a10) * (J 1%nat 1%nat * ent D 0 q - J 0%nat 1%nat * ent D 1 q)); [ring|rewrite HA; ring].
    - transitivity ((a00 * a11 - a01 * a10) * (J 0%nat 0%nat * ent D 1 q - J 1%nat 0%nat * ent D 0 q)); [ring|rewrite HA; ring].
  Qed.
  Lemma turn_strain r t u a :
    strain2 n (snd (sh r t)) (pick [] s coord) (pf 2 s u) a = strain2 n (snd (sh (fst (rot r t)) (snd (rot r t)))) coord u a.
  Proof.
    set (G := grad2 n (snd (sh (fst (rot r t)) (snd (rot r t)))) coord).
    assert (E0 : forall k, pf 2 s u (2 * k) = u (2 * nth k s 0)%nat) by (intros k; rewrite <- (Nat.add_0_r (2 * k)), pf_at by lia; f_equal; lia).
    assert (E1 : forall k, pf 2 s u (2 * k + 1) = u (2 * nth k s 0 + 1)%nat) by (intros k; apply pf_at; lia).
    unfold strain2. fold G. destruct a as [|[|a]].
    - rewrite <- (rsum_order n s (fun k => G 0%nat k * u (2 * k)%nat) HO). apply rsum_ext. intros k Hk. rewrite turn_grad, E0 by exact Hk. reflexivity.
    - rewrite <- (rsum_order n s (fun k => G 1%nat k * u (2 * k + 1)%nat) HO). apply rsum_ext. intros k Hk. rewrite turn_grad, E1 by exact Hk. reflexivity.
    - rewrite <- (rsum_order n s (fun k => G 1%nat k * u (2 * k)%nat + G 0%nat k * u (2 * k + 1)%nat) HO). apply rsum_ext. intros k Hk.
      rewrite !turn_grad, E0, E1 by exact Hk. reflexivity.
  Qed.
  Hypothesis HN : forall r t k, (k < n)%nat -> nth k (fst (sh r t)) 0 = nth (nth k s 0%nat) (fst (sh (fst (rot r t)) (snd (rot r t)))) 0.
  Lemma turn_value r t u a : value2 n (fst (sh r t)) (pf 2 s u) a = value2 n (fst (sh (fst (rot r t)) (snd (rot r t)))) u a.
  Proof.
    set (N := fst (sh (fst (rot r t)) (snd (rot r t)))).
    assert (E0 : forall k, pf 2 s u (2 * k) = u (2 * nth k s 0)%nat) by (intros k; rewrite <- (Nat.add_0_r (2 * k)), pf_at by lia; f_equal; lia).
    assert (E1 : forall k, pf 2 s u (2 * k + 1) = u (2 * nth k s 0 + 1)%nat) by (intros k; apply pf_at; lia).
    unfold value2. destruct a as [|a].
    - rewrite <- (rsum_order n s (fun k => nth k N 0 * u (2 * k)%nat) HO). apply rsum_ext. intros k Hk. rewrite HN, E0 by exact Hk. reflexivity.
    - rewrite <- (rsum_order n s (fun k => nth k N 0 * u (2 * k + 1)%nat) HO). apply rsum_ext. intros k Hk. rewrite HN, E1 by exact Hk. reflexivity.
  Qed.
  Lemma turn_radius r t : radius n (fst (sh r t)) (pick [] s coord) = radius n (fst (sh (fst (rot r t)) (snd (rot r t)))) coord.
  Proof.
    set (N := fst (sh (fst (rot r t)) (snd (rot r t)))). unfold radius. assert (HL : length s = n) by apply HO.
    rewrite <- (rsum_order n s (fun k => nth k N 0 * ent coord k 0) HO). apply rsum_ext. intros k Hk. rewrite HN, pick_ent by lia. reflexivity.
  Qed.
End Plane.

(** points of a rule turned *)
Definition rot3 (rot : R -> R -> R * R) (q : R * R * R) : R * R * R := let '(r, t, w) := q in (fst (rot r t), snd (rot r t), w).
Definition invariant (rot : R -> R -> R * R) (gq : list (R * R * R)) : Prop :=
  (forall q, In q gq -> In (rot3 rot q) gq) /\ forall f, lsum (fun q => f (rot3 rot q)) gq = lsum f gq.
Definition turned_shape (n : nat) (sh : shape2) (s : list nat) (rot : R -> R -> R * R) (a00 a01 a10 a11 : R) : Prop :=
  order n s /\ a00 * a11 - a01 * a10 = 1 /\
  forall r t k, (k < n)%nat -> let D' := snd (sh (fst (rot r t)) (snd (rot r t))) in
    ent (snd (sh r t)) 0 k = a00 * ent D' 0 (nth k s 0%nat) + a10 * ent D' 1 (nth k s 0%nat) /\
    ent (snd (sh r t)) 1 k = a01 * ent D' 0 (nth k s 0%nat) + a11 * ent D' 1 (nth k s 0%nat).
Definition turned_values (n : nat) (sh : shape2) (s : list nat) (rot : R -> R -> R * R) : Prop :=
  forall r t k, (k < n)%nat -> nth k (fst (sh r t)) 0 = nth (nth k s 0%nat) (fst (sh (fst (rot r t)) (snd (rot r t)))) 0.

Lemma turn_accepted n sh gq s rot a00 a01 a10 a11 coord : (0 < n)%nat -> turned_shape n sh s rot a00 a01 a10 a11 -> invariant rot gq ->
  rectangular coord -> accepted2 n sh gq coord -> accepted2 n sh gq (pick [] s coord).
Proof.
  intros Hn (HO & HA & HD) (HI & _) Hr (H1 & H2 & H3). split; [rewrite pick_length; apply HO|]. split; [rewrite (pick_ncols n); assumption|].
  intros r t w Hin. rewrite (turn_det n sh s rot a00 a01 a10 a11 HO HA HD). apply (H3 _ _ w). apply (HI (r, t, w) Hin).
Qed.

Lemma turn_plane p s rot a00 a01 a10 a11 coord params K M : In p planes -> turned_shape (pl_n p) (pl_sh p) s rot a00 a01 a10 a11 ->
  invariant rot (pl_gq p) -> rectangular coord -> pl_f p coord params = Ok (K, M2 M) ->
  exists K' M', pl_f p (pick [] s coord) params = Ok (K', M2 M') /\
    (forall u v, form (2 * pl_n p) K' (pf 2 s u) (pf 2 s v) = form (2 * pl_n p) K u v) /\
    (turned_values (pl_n p) (pl_sh p) s rot -> forall u v, form (2 * pl_n p) M' (pf 2 s u) (pf 2 s v) = form (2 * pl_n p) M u v).
Proof.
  intros Hp HT HI Hr Hf. pose proof HT as (HO & HA & HD). destruct (plane_summary p coord params K _ Hp Hf) as (E & nu & rho & M0 & Hpar & Hnu & Ha & Hm & HS).
  injection Hm as ->.
  assert (Hn : (0 < pl_n p)%nat) by (clear - Hp; repeat (destruct Hp as [<-|Hp]; [cbn; lia|]); destruct Hp).
  pose proof (turn_accepted _ _ _ s rot _ _ _ _ coord Hn HT HI Hr Ha) as Ha'.
  destruct (plane_runs p _ params E nu rho Hp Hpar Hnu Ha') as (K' & M' & Hf').
  destruct (plane_summary p _ params K' _ Hp Hf') as (E' & nu' & rho' & M1 & Hpar' & _ & _ & Hm' & HS'). injection Hm' as ->.
  rewrite Hpar in Hpar'. injection Hpar' as <- <- <-. exists K', M1. split; [exact Hf'|]. split.
  - intros u v. rewrite (sa_K _ _ _ _ _ _ _ _ HS'), (sa_K _ _ _ _ _ _ _ _ HS). unfold gs_of. rewrite !lsum_map.
    rewrite <- (proj2 HI (fun q => vK 3 (umat_R E nu) u v (gdat2 (pl_n p) (pl_sh p) coord (pl_c p) q))). apply lsum_ext. intros [[r t] w] _.
    unfold vK, gdat2, rot3. cbn [g_w g_eps]. rewrite (turn_det _ _ s rot _ _ _ _ HO HA HD). f_equal.
    apply form_ext; intros j _; apply (turn_strain _ _ s rot _ _ _ _ HO HA HD).
  - intros HN u v. rewrite (sa_M _ _ _ _ _ _ _ _ HS'), (sa_M _ _ _ _ _ _ _ _ HS). f_equal. unfold gs_of. rewrite !lsum_map.
    rewrite <- (proj2 HI (fun q => vM 2 u v (gdat2 (pl_n p) (pl_sh p) coord (pl_c p) q))). apply lsum_ext. intros [[r t] w] _.
    unfold vM, gdat2, rot3. cbn [g_w g_val]. rewrite (turn_det _ _ s rot _ _ _ _ HO HA HD). f_equal.
    apply rsum_ext. intros j _. rewrite !(turn_value _ _ s rot HO HN). reflexivity.
Qed.

Lemma turn_axi s rot a00 a01 a10 a11 coord params K M : turned_shape 9 shape_quad9 s rot a00 a01 a10 a11 -> turned_values 9 shape_quad9 s rot ->
  invariant rot gqA -> rectangular coord -> elast_axi_quad9 coord params = Ok (K, M2 M) ->
  exists K' M', elast_axi_quad9 (pick [] s coord) params = Ok (K', M2 M') /\
    (forall u v, form 18 K' (pf 2 s u) (pf 2 s v) = form 18 K u v) /\ forall u v, form 18 M' (pf 2 s u) (pf 2 s v) = form 18 M u v.
Proof.
  intros HT HN HI Hr Hf. pose proof HT as (HO & HA & HD). destruct (axi_sampled coord params K _ Hf) as (E & nu & rho & M0 & -> & Hn1 & Hn2 & Ha & Hm & HS).
  injection Hm as ->.
  assert (Ha' : acceptedA (pick [] s coord)).
  { destruct Ha as [Ha Hx]. split; [apply (turn_accepted _ _ _ s rot _ _ _ _ coord (Nat.lt_0_succ 8) HT HI Hr Ha)|].
    intros r t w Hin. rewrite (turn_radius _ _ s rot HO _ HN). apply (Hx _ _ w). apply (proj1 HI (r, t, w) Hin). }
  destruct (axi_runs _ E nu rho Hn1 Hn2 Ha') as (K' & M' & Hf').
  destruct (axi_sampled _ _ K' _ Hf') as (E' & nu' & rho' & M1 & Hpar' & _ & _ & _ & Hm' & HS'). injection Hm' as ->. injection Hpar' as <- <- <-.
  exists K', M1. split; [exact Hf'|]. split; intros u v.
  - rewrite (sa_K _ _ _ _ _ _ _ _ HS'), (sa_K _ _ _ _ _ _ _ _ HS). rewrite !lsum_map.
    rewrite <- (proj2 HI (fun q => vK 4 (axi_R E nu) u v (gdatA coord q))). apply lsum_ext. intros [[r t] w] _.
    unfold vK, gdatA, rot3. cbn [g_w g_eps]. rewrite (turn_det _ _ s rot _ _ _ _ HO HA HD). f_equal.
    apply form_ext; intros j Hj; (destruct j as [|[|[|[|]]]]; [| | | |lia]); unfold strainA;
      try apply (turn_strain _ _ s rot _ _ _ _ HO HA HD); rewrite (turn_value _ _ s rot HO HN), (turn_radius _ _ s rot HO _ HN); reflexivity.
  - rewrite (sa_M _ _ _ _ _ _ _ _ HS'), (sa_M _ _ _ _ _ _ _ _ HS). f_equal. rewrite !lsum_map.
    rewrite <- (proj2 HI (fun q => vM 2 u v (gdatA coord q))). apply lsum_ext. intros [[r t] w] _.
    unfold vM, gdatA, rot3. cbn [g_w g_val]. rewrite (turn_det _ _ s rot _ _ _ _ HO HA HD). f_equal.
    apply rsum_ext. intros j _. rewrite !(turn_value _ _ s rot HO HN). reflexivity.
Qed.
