(** * Proofs about the beam example *)
From Coq Require Import String QArith Reals List ZArith Arith Lra Lia Bool.
From Verif Require Import Num LinAlg Gauss Fem Uel Assem Post Pre Main Template Example Spec SpecAssem SpecModel SpecElem SpecPost SpecPre SpecStatic SpecGrid SpecExample LinR Base
  AssemProofs AssemProofs3 ModelProofs GridProofs GridModel MeshProofs ExGrid Rigid2D PostProofs.
Import ListNotations.
Local Open Scope R_scope.

(** ** the closed form *)
Lemma pydiv_ok (a b : R) : b <> 0 -> pydiv a b = Ok (a / b).
Proof.
  intros Hb. unfold pydiv, nis0. cbn [nleb n0 Num_R ndiv]. destruct (Rle_dec b 0), (Rle_dec 0 b); cbn [andb]; try reflexivity. exfalso. apply Hb. lra.
Qed.
Lemma same_spec (a b : R) : same a b = if Req_EM_T a b then true else false.
Proof. unfold same. cbn [nleb Num_R]. destruct (Rle_dec a b), (Rle_dec b a), (Req_EM_T a b); cbn [andb]; try reflexivity; exfalso; lra. Qed.

Ltac nzp := repeat apply Rmult_integral_contrapositive_currified; assumption || lra.

Lemma cubic f a0 a1 a2 a3 x l : (forall t, f t = a0 + a1 * t + a2 * (t * t) + a3 * (t * (t * t))) -> l = a1 + 2 * a2 * x + 3 * a3 * (x * x) -> derivable_pt_lim f x l.
Proof.
  intros Hf ->. apply (dpl_ext (fun t => a0 + a1 * t + a2 * (t * t) + a3 * (t * (t * t)))); [intros; symmetry; apply Hf|].
  pose proof (derivable_pt_lim_id x) as D1. pose proof (dpl_mult _ _ _ _ _ D1 D1) as D2. pose proof (dpl_mult _ _ _ _ _ D1 D2) as D3. unfold id in *.
  eapply dpl_eq.
  - apply (derivable_pt_lim_plus (fun t => a0 + a1 * t + a2 * (t * t)) (fun t => a3 * (t * (t * t)))); [|apply (derivable_pt_lim_scal (fun t => t * (t * t))); exact D3].
    apply (derivable_pt_lim_plus (fun t => a0 + a1 * t) (fun t => a2 * (t * t))); [|apply (derivable_pt_lim_scal (fun t => t * t)); exact D2].
    apply (derivable_pt_lim_plus (fun t => a0) (fun t => a1 * t)); [apply derivable_pt_lim_const|apply (derivable_pt_lim_scal (fun t => t)); exact D1].
  - ring.
Qed.

Section Sln.
  Variables nu P E I L h : R.
  Hypothesis (HE : E <> 0) (HI : I <> 0) (Hn : 1 + nu <> 0).
  Let G := E / (2 * (1 + nu)).
  Let c := h / 2.
  Definition sln_u x y := - P / (2 * E * I) * y * (x * x) + - (nu * P) / (6 * E * I) * (y * (y * y)) + P / (2 * I * G) * (y * (y * y))
    + (- (P * (c * c)) / (2 * I * G) + (P * (L * L) / (2 * E * I) + - (P * (c * c)) / (2 * I * G))) * y.
  Definition sln_v x y := nu * P / (2 * E * I) * x * (y * y) + P / (6 * E * I) * (x * (x * x)) + - (P * (L * L)) / (2 * E * I) * x + P * (L * (L * L)) / (3 * E * I).
  Definition sln_g (y : R) := P / (2 * I * G) * (y * y - c * c).

  Lemma G_nz : G <> 0.
  Proof. unfold G. apply Rmult_integral_contrapositive_currified; [exact HE|]. apply Rinv_neq_0_compat. nzp. Qed.

  Lemma sln_ok x y : beam_sln x y nu P E I L h = Ok (sln_u x y, sln_v x y, - P / (E * I) * x * y, nu * P / (E * I) * x * y, sln_g y).
  Proof.
    pose proof G_nz as HG. unfold beam_sln. numR.
    rewrite (pydiv_ok E) by nzp. cbn [bind]. fold G.
    assert (D1 : 2 * E * I <> 0) by nzp.
    assert (D2 : 6 * E * I <> 0) by nzp.
    assert (D3 : 2 * I * G <> 0) by (apply Rmult_integral_contrapositive_currified; [nzp|exact HG]).
    assert (D4 : 3 * E * I <> 0) by nzp.
    assert (D5 : E * I <> 0) by nzp.
    rewrite !pydiv_ok by assumption. cbn [bind npow]. numR. reflexivity.
  Qed.

  Definition sln_uy (x y : R) := - P / (2 * E * I) * (x * x) + (- (P * (c * c)) / (2 * I * G) + (P * (L * L) / (2 * E * I) + - (P * (c * c)) / (2 * I * G)))
    + 3 * (- (nu * P) / (6 * E * I) + P / (2 * I * G)) * (y * y).
  Definition sln_vx (x y : R) := nu * P / (2 * E * I) * (y * y) + - (P * (L * L)) / (2 * E * I) + 3 * (P / (6 * E * I)) * (x * x).
  Lemma sln_strains x y : dx sln_u x y (- P / (E * I) * x * y) /\ dy sln_v x y (nu * P / (E * I) * x * y) /\
    dy sln_u x y (sln_uy x y) /\ dx sln_v x y (sln_vx x y) /\ sln_uy x y + sln_vx x y = sln_g y + P / (2 * I * G) * (2 * (y * y) - c * c).
  Proof.
    pose proof G_nz as HG. clearbody G. split; [|split; [|split; [|split]]].
    - unfold dx. apply (cubic _ (sln_u 0 y) 0 (- P / (2 * E * I) * y) 0); [intros t; unfold sln_u; ring|]. field. tauto.
    - unfold dy. apply (cubic _ (sln_v x 0) 0 (nu * P / (2 * E * I) * x) 0); [intros t; unfold sln_v; ring|]. field. tauto.
    - unfold dy. apply (cubic _ 0 (- P / (2 * E * I) * (x * x) + (- (P * (c * c)) / (2 * I * G) + (P * (L * L) / (2 * E * I) + - (P * (c * c)) / (2 * I * G)))) 0
        (- (nu * P) / (6 * E * I) + P / (2 * I * G))); [intros t; unfold sln_u; ring|]. unfold sln_uy. ring.
    - unfold dx. apply (cubic _ (sln_v 0 y) (nu * P / (2 * E * I) * (y * y) + - (P * (L * L)) / (2 * E * I)) 0 (P / (6 * E * I))); [intros t; unfold sln_v; ring|]. unfold sln_vx. ring.
    - unfold sln_uy, sln_vx, sln_g. clearbody c. field. tauto.
  Qed.
End Sln.

Theorem sln_partial nu P E I L h : E <> 0 -> I <> 0 -> 1 + nu <> 0 ->
  exists u v exx eyy gxy : R -> R -> R, (forall x y, beam_sln x y nu P E I L h = Ok (u x y, v x y, exx x y, eyy x y, gxy x y)) /\
    forall x y, strain_of u v x y (exx x y) (eyy x y) (gxy x y + P * (1 + nu) / (I * E) * (2 * y * y - h * h / 4)).
Proof.
  intros HE HI Hn. exists (sln_u nu P E I L h), (sln_v nu P E I L), (fun x y => - P / (E * I) * x * y), (fun x y => nu * P / (E * I) * x * y), (fun _ y => sln_g nu P E I h y).
  split; [intros x y; apply sln_ok; assumption|]. intros x y. destruct (sln_strains nu P E I L h HE HI Hn x y) as (A & B & C & D & F).
  split; [exact A|]. split; [exact B|]. do 2 eexists. split; [exact C|]. split; [exact D|]. rewrite F. f_equal. field. tauto.
Qed.

Lemma strain_unique u v x y a b g a' b' g' : strain_of u v x y a b g -> strain_of u v x y a' b' g' -> a = a' /\ b = b' /\ g = g'.
Proof.
  intros (A & B & p & q & C & D & ->) (A' & B' & p' & q' & C' & D' & ->). unfold dx, dy in *.
  split; [exact (uniqueness_limite _ _ _ _ A A')|]. split; [exact (uniqueness_limite _ _ _ _ B B')|].
  rewrite (uniqueness_limite _ _ _ _ C C'), (uniqueness_limite _ _ _ _ D D'). reflexivity.
Qed.
Lemma strain_ext u v u' v' x y a b g : (forall x y, u x y = u' x y) -> (forall x y, v x y = v' x y) -> strain_of u v x y a b g -> strain_of u' v' x y a b g.
Proof.
  intros Hu Hv (A & B & p & q & C & D & ->). unfold strain_of, dx, dy in *.
  split; [apply (dpl_ext (fun t => u t y)); [intros; apply Hu|exact A]|]. split; [apply (dpl_ext (fun t => v x t)); [intros; apply Hv|exact B]|].
  exists p, q. split; [apply (dpl_ext (fun t => u x t)); [intros; apply Hu|exact C]|]. split; [apply (dpl_ext (fun t => v t y)); [intros; apply Hv|exact D]|]. reflexivity.
Qed.

Theorem sln_wrong nu P E I L h : E <> 0 -> I <> 0 -> 1 + nu <> 0 -> P <> 0 ->
  forall u v exx eyy gxy : R -> R -> R, (forall x y, beam_sln x y nu P E I L h = Ok (u x y, v x y, exx x y, eyy x y, gxy x y)) ->
  forall x y, strain_of u v x y (exx x y) (eyy x y) (gxy x y) <-> 8 * y * y = h * h.
Proof.
  intros HE HI Hn HP u v exx eyy gxy HS x y. destruct (sln_partial nu P E I L h HE HI Hn) as (u' & v' & e1 & e2 & g & HS' & HD).
  assert (EQ : forall x y, u' x y = u x y /\ v' x y = v x y /\ e1 x y = exx x y /\ e2 x y = eyy x y /\ g x y = gxy x y).
  { intros x0 y0. pose proof (HS' x0 y0) as Q. rewrite HS in Q. injection Q as -> -> -> -> ->. tauto. }
  specialize (HD x y). apply (strain_ext _ _ u v) in HD; [|intros; apply EQ..]. destruct (EQ x y) as (_ & _ & E1 & E2 & E3). rewrite E1, E2, E3 in HD.
  assert (NZ : P * (1 + nu) / (I * E) <> 0) by (apply Rmult_integral_contrapositive_currified; [nzp|apply Rinv_neq_0_compat; nzp]).
  split.
  - intros HC. destruct (strain_unique _ _ _ _ _ _ _ _ _ _ HC HD) as (_ & _ & Q).
    assert (Q' : P * (1 + nu) / (I * E) * (2 * y * y - h * h / 4) = 0) by lra. apply Rmult_integral in Q' as [Q'|Q']; [contradiction|lra].
  - intros HC. replace (2 * y * y - h * h / 4) with 0 in HD by lra. rewrite Rmult_0_r, Rplus_0_r in HD. exact HD.
Qed.

(** ** the stresses *)
Theorem sln_stress nu P E I L h : E <> 0 -> I <> 0 -> 1 - nu * nu <> 0 ->
  forall u v exx eyy gxy : R -> R -> R, (forall x y, beam_sln x y nu P E I L h = Ok (u x y, v x y, exx x y, eyy x y, gxy x y)) ->
  let s k x y := hooke2 E nu (fun c => nth c [exx x y; eyy x y; gxy x y] 0) k in
  (forall x y, stress_balanced (s 0%nat) (s 1%nat) (s 2%nat) x y) /\
  (forall x y, s 1%nat x y = 0) /\ (forall x, s 2%nat x (h / 2) = 0 /\ s 2%nat x (- h / 2) = 0) /\
  (forall y, s 0%nat 0 y = 0) /\
  (I = h * h * h / 12 -> forall x, exists F, (forall y, derivable_pt_lim F y (s 2%nat x y)) /\ F (h / 2) - F (- h / 2) = - P).
Proof.
  intros HE HI Hn u v exx eyy gxy HS s. assert (Hn' : 1 + nu <> 0) by (intros Q; apply Hn; replace (1 - nu * nu) with ((1 + nu) * (1 - nu)) by ring; rewrite Q; ring).
  assert (EQ : forall x y, s 0%nat x y = - P / I * x * y /\ s 1%nat x y = 0 /\ s 2%nat x y = P / (2 * I) * (y * y - h * h / 4)).
  { intros x y. pose proof (sln_ok nu P E I L h HE HI Hn' x y) as Q. rewrite HS in Q. injection Q as _ _ Q1 Q2 Q3.
    unfold s. cbn [hooke2 nth]. rewrite Q1, Q2, Q3. unfold sln_g. repeat split; field; tauto. }
  assert (D : forall x y, derivable_pt_lim (fun t => s 0%nat t y) x (- P / I * y) /\ derivable_pt_lim (fun t => s 2%nat x t) y (P / I * y) /\
    derivable_pt_lim (fun t => s 2%nat t y) x 0 /\ derivable_pt_lim (fun t => s 1%nat x t) y 0).
  { intros x y. split; [|split; [|split]].
    - apply (cubic _ 0 (- P / I * y) 0 0); [intros t; rewrite (proj1 (EQ t y)); ring|ring].
    - apply (cubic _ (P / (2 * I) * (- (h * h / 4))) 0 (P / (2 * I)) 0); [intros t; rewrite (proj2 (proj2 (EQ x t))); ring|field; exact HI].
    - apply (cubic _ (P / (2 * I) * (y * y - h * h / 4)) 0 0 0); [intros t; rewrite (proj2 (proj2 (EQ t y))); ring|ring].
    - apply (cubic _ 0 0 0 0); [intros t; rewrite (proj1 (proj2 (EQ x t))); ring|ring]. }
  split; [|split; [|split; [|split]]].
  - intros x y. destruct (D x y) as (D1 & D2 & D3 & D4). do 4 eexists. split; [exact D1|]. split; [exact D2|]. split; [exact D3|]. split; [exact D4|]. split; [field; exact HI|ring].
  - intros x y. apply EQ.
  - intros x. rewrite !(proj2 (proj2 (EQ x _))). split; field; exact HI.
  - intros y. rewrite (proj1 (EQ 0 y)). ring.
  - intros HI' x. exists (fun t => P / (2 * I) * (t * (t * t) / 3 - h * h / 4 * t)). split.
    + intros y. apply (cubic _ 0 (- (P / (2 * I) * (h * h / 4))) 0 (P / (2 * I) / 3)); [intros t; field; exact HI|]. rewrite (proj2 (proj2 (EQ x y))). field. exact HI.
    + assert (Hh : h <> 0) by (intros ->; apply HI; rewrite HI'; field). rewrite HI'. field. exact Hh.
Qed.

(** ** the tables *)
Lemma same_eq (a b : R) : a = b -> same a b = true.
Proof. intros ->. rewrite same_spec. destruct (Req_EM_T b b); [reflexivity|contradiction]. Qed.
Lemma same_neq (a b : R) : a <> b -> same a b = false.
Proof. intros H. rewrite same_spec. destruct (Req_EM_T a b); [contradiction|reflexivity]. Qed.

  Lemma combine3 (x y : list R) n : length x = n -> length y = n ->
    combine (seq 0 n) (combine x y) = map (fun k => (k, (nth k x 0, nth k y 0))) (seq 0 n).
  Proof.
    intros E1 E2. apply (nth_ext _ _ (0%nat, (0, 0)) (0%nat, (0, 0))).
    - rewrite map_length, !combine_length, seq_length, E1, E2, !Nat.min_id. reflexivity.
    - intros k Hk. rewrite combine_length, seq_length, combine_length, E1, E2, !Nat.min_id in Hk.
      rewrite combine_nth by (rewrite combine_length, seq_length, E1, E2, Nat.min_id; reflexivity). rewrite combine_nth by congruence.
      rewrite (map_nth_def _ _ _ 0%nat) by (rewrite seq_length; exact Hk). rewrite !seq_nth by exact Hk. reflexivity.
  Qed.

  Lemma multiples w m : (1 <= w)%nat -> filter (fun k => (k mod w =? 0)%nat) (seq 0 (w * m)) = map (fun j => (j * w)%nat) (seq 0 m).
  Proof.
    intros Hw. induction m as [|m IH]; [rewrite Nat.mul_0_r; reflexivity|]. replace (w * S m)%nat with (w * m + w)%nat by lia.
    rewrite seq_app, filter_app, IH, seq_S, map_app. f_equal. cbn [Nat.add map].
    destruct w as [|w]; [lia|]. cbn [seq filter]. replace ((S w * m) mod S w)%nat with 0%nat by (rewrite Nat.mul_comm, Nat.mod_mul by lia; reflexivity).
    cbn [Nat.eqb]. rewrite Nat.mul_comm. f_equal.
    assert (Q : forall l, (forall k, In k l -> (k mod S w <> 0)%nat) -> filter (fun k => (k mod S w =? 0)%nat) l = []).
    { induction l as [|a l IHl]; intros HQ; [reflexivity|]. cbn [filter]. destruct (Nat.eqb_spec (a mod S w) 0) as [Z|Z]; [exfalso; apply (HQ a); [now left|exact Z]|].
      apply IHl. intros k Hk. apply HQ. now right. }
    apply Q. intros k Hk. apply in_seq in Hk. replace k with ((k - m * S w) + m * S w)%nat by lia. rewrite Nat.mod_add by lia. rewrite Nat.mod_small by lia. lia.
  Qed.

Section Tables.
  Variables (P L h : R) (nx ny : nat).
  Hypothesis (Hx : (1 <= nx)%nat) (Hy : (1 <= ny)%nat) (HL : L <> 0).
  Let N := ((nx + 1) * (ny + 1))%nat.
  Definition held_node : nat := (nx * (ny / 2 + 1) - 1)%nat.
  Definition beam_row (k : nat) : list R :=
    [INR k; - L / 2 + INR (k mod (nx + 1)) * (L / INR nx); - h / 2 + INR (k / (nx + 1)) * (h / INR ny);
     if (k mod (nx + 1) =? nx)%nat then -1 else 0; if (k =? held_node)%nat then -1 else 0].

  Lemma held_bound : (held_node < N)%nat.
  Proof. unfold held_node, N. pose proof (Nat.div_le_upper_bound ny 2 ny ltac:(lia) ltac:(lia)). nia. Qed.

  Lemma INRx : INR nx <> 0. Proof. apply not_0_INR. lia. Qed.
  Lemma INRy : INR ny <> 0. Proof. apply not_0_INR. lia. Qed.

  Lemma on_right i : (i <= nx)%nat -> same (- L / 2 + INR i * (L / INR nx)) (L / 2) = (i =? nx)%nat.
  Proof.
    intros Hi. pose proof INRx as Hn. destruct (Nat.eqb_spec i nx) as [->|Ne].
    - apply same_eq. field. exact Hn.
    - apply same_neq. intros Q. apply Ne. apply INR_eq. apply (Rmult_eq_reg_r L); [|exact HL].
      replace (INR i * L) with ((- L / 2 + INR i * (L / INR nx) + L / 2) * INR nx) by (field; exact Hn). rewrite Q. field.
  Qed.
  Lemma on_left i : (i <= nx)%nat -> same (- L / 2 + INR i * (L / INR nx)) (- L / 2) = (i =? 0)%nat.
  Proof.
    intros Hi. pose proof INRx as Hn. destruct (Nat.eqb_spec i 0) as [->|Ne].
    - apply same_eq. cbn [INR]. ring.
    - apply same_neq. intros Q. apply Ne. apply INR_eq. apply (Rmult_eq_reg_r L); [|exact HL].
      replace (INR i * L) with ((- L / 2 + INR i * (L / INR nx) + L / 2) * INR nx) by (field; exact Hn). rewrite Q. cbn [INR]. field.
  Qed.

  Theorem tables_ok : exists els, snd (rect_grid L h nx ny) = els /\
    beam_tables P L h nx ny = Ok (map beam_row (seq 0 N), els, map (fun j => [INR (node nx 0 j); 0; P / INR ny]) (seq 0 (S ny))).
  Proof.
    unfold beam_tables. destruct (rect_grid L h nx ny) as [[x y] els] eqn:G. cbn [snd]. exists els. split; [reflexivity|].
    destruct (st_nodes L h nx ny x y els Hx Hy G) as (Lx & Ly & HC). fold N in Lx, Ly. rewrite Lx, (combine3 x y N Lx Ly), map_map. cbn [fst snd].
    assert (XY : forall k, (k < N)%nat -> (k mod (nx + 1) <= nx)%nat /\ nth k x 0 = - L / 2 + INR (k mod (nx + 1)) * (L / INR nx) /\ nth k y 0 = - h / 2 + INR (k / (nx + 1)) * (h / INR ny)).
    { intros k Hk. pose proof (Nat.mod_upper_bound k (nx + 1) ltac:(lia)) as B1. assert (B2 : (k / (nx + 1) < ny + 1)%nat) by (apply Nat.div_lt_upper_bound; unfold N in Hk; lia).
      specialize (HC (k mod (nx + 1))%nat (k / (nx + 1))%nat ltac:(lia) ltac:(lia)). unfold lattice in HC. rewrite Nat2Z.id in HC.
      rewrite Nat.mul_comm, <- Nat.div_mod in HC by lia. split; [lia|exact HC]. }
    set (f0 := fun k => _).
    assert (UP : np_upd (map f0 (seq 0 N)) (Z.of_nat nx * (Z.of_nat ny / 2 + 1) - 1) (fun row => (firstn 4 row ++ [- n1]%num)%list) = Ok (map beam_row (seq 0 N))).
    { replace (Z.of_nat nx * (Z.of_nat ny / 2 + 1) - 1)%Z with (Z.of_nat held_node).
      2: { unfold held_node. rewrite Nat2Z.inj_sub by nia. rewrite Nat2Z.inj_mul, Nat2Z.inj_add, Nat2Z.inj_div. reflexivity. }
      pose proof held_bound as HB. fold N in HB. rewrite np_upd_nonneg by (rewrite map_length, seq_length; lia). rewrite Nat2Z.id. f_equal.
      apply (nth_ext _ _ [] []); [rewrite upd_length, !map_length; reflexivity|]. intros k Hk. rewrite upd_length, map_length, seq_length in Hk.
      rewrite upd_nth by (rewrite map_length, seq_length; exact HB).
      assert (RK : forall k, (k < N)%nat -> f0 k = firstn 4 (beam_row k) ++ [0]).
      { intros q Hq. unfold f0, beam_row. destruct (XY q Hq) as (B & X & Y). rewrite X, Y. numR. rewrite on_right by exact B. rewrite <- INR_IZR_INZ.
        cbn [firstn app]. destruct (q mod (nx + 1) =? nx)%nat; reflexivity. }
      rewrite (map_nth_def beam_row _ _ 0%nat) by (rewrite seq_length; exact Hk). rewrite !(map_nth_def f0 _ _ 0%nat) by (rewrite seq_length; assumption).
      rewrite !seq_nth by assumption. cbn [Nat.add]. rewrite !RK by assumption. unfold beam_row.
      destruct (Nat.eqb_spec k held_node) as [->|Ne]; reflexivity. }
    change (@n1 R Num_R) with 1. change (@nopp R Num_R) with Ropp. cbn [n1 nopp Num_R] in UP. rewrite UP. cbn [bind].
    assert (FL : filter (fun row => same (vget row 1) (- L / 2)) (map beam_row (seq 0 N)) = map beam_row (map (fun j => (j * (nx + 1))%nat) (seq 0 (S ny)))).
    { rewrite <- (multiples (nx + 1)) by lia. replace ((nx + 1) * S ny)%nat with N by (unfold N; lia).
      assert (Q : forall l, (forall k, In k l -> (k < N)%nat) -> filter (fun row => same (vget row 1) (- L / 2)) (map beam_row l) = map beam_row (filter (fun k => (k mod (nx + 1) =? 0)%nat) l)).
      { induction l as [|a l IHl]; intros HQ; [reflexivity|]. cbn [map filter]. change (vget (beam_row a) 1) with (- L / 2 + INR (a mod (nx + 1)) * (L / INR nx)).
        rewrite on_left by (apply XY, HQ; now left). rewrite IHl by (intros; apply HQ; now right). destruct (a mod (nx + 1) =? 0)%nat; reflexivity. }
      apply Q. intros k Hk. apply in_seq in Hk. lia. }
    numR. rewrite FL, !map_map. unfold broadcast. rewrite map_length, seq_length, Nat.eqb_refl. cbn [bind].
    destruct (Nat.eqb_spec ny 0) as [|_]; [lia|]. cbn [negb guard bind]. rewrite map_map. do 2 f_equal. apply map_ext. intros j.
    rewrite <- INR_IZR_INZ. cbn [beam_row hd]. unfold node. rewrite Nat.add_0_r. reflexivity.
  Qed.
End Tables.
