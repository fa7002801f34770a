(** * Proofs: plane frames of beams *)
From Coq Require Import Reals List Arith Lia Lra Bool ZArith Relations.
From Verif Require Import Num LinAlg Gauss Fem Uel Assem Post Main Script Spec LinR Base SpecAssem SpecModel SpecElem SpecModes SpecScript
  AssemProofs AssemProofs2 AssemProofs3 AssemProofs4 ElemShape ElemCore BarProofs BeamProofs ModelProofs MeshProofs StaticProofs ScriptProofs ScriptProofs2.
Import ListNotations.
Local Open Scope R_scope.

(** ** one beam *)
Lemma sq0 x : 0 <= x * x.
Proof. exact (Rle_0_sqr x). Qed.
Lemma sq_pos x : x <> 0 -> 0 < x * x.
Proof. intros H. exact (Rsqr_pos_lt x H). Qed.
Lemma wsq_zero c x : 0 < c -> c * (x * x) = 0 -> x = 0.
Proof. intros Hc H. apply Rmult_integral in H. destruct H as [H|H]; [lra|]. apply Rmult_integral in H. destruct H; assumption. Qed.

Section Beam.
  Variables (xa ya xb yb : R).
  Hypothesis Hne : xa <> xb \/ ya <> yb.
  Let L := bar_len xa ya xb yb.
  Let nx := (xb - xa) / L.
  Let ny := (yb - ya) / L.
  Let coord := [[xa; ya]; [xb; yb]].

  (** no energy: the motion (a + w y, b + w x, w) *)
  Lemma beam_kernel E I A u : 0 < E -> 0 < I -> 0 < A ->
    E * A / L * (stretch nx ny u * stretch nx ny u) + bend_energy (I * E) nx ny L u u = 0 ->
    u 3%nat = u 0%nat + u 2%nat * (yb - ya) /\ u 4%nat = u 1%nat + u 2%nat * (xb - xa) /\ u 5%nat = u 2%nat.
  Proof.
    intros HE HI HA H. destruct (unit_axis xa ya xb yb Hne) as [HL H1]. fold L in HL, H1. fold nx ny in H1.
    assert (Ex : xb - xa = L * nx) by (unfold nx; field; lra). assert (Ey : yb - ya = L * ny) by (unfold ny; field; lra).
    unfold bend_energy in H. set (g := I * E / (L * (L * L))) in H. set (h := E * A / L) in H.
    assert (Hg : 0 < g) by (unfold g; apply Rdiv_lt_0_compat; repeat apply Rmult_lt_0_compat; assumption).
    assert (Hh : 0 < h) by (unfold h; apply Rdiv_lt_0_compat; [apply Rmult_lt_0_compat; assumption|exact HL]).
    pose proof (Rmult_le_pos h _ (Rlt_le _ _ Hh) (sq0 (stretch nx ny u))) as P1.
    pose proof (Rmult_le_pos g _ (Rlt_le _ _ Hg) (sq0 (bend1 nx ny L u))) as P2.
    pose proof (Rmult_le_pos g _ (Rlt_le _ _ Hg) (sq0 (bend2 L u))) as P3.
    assert (S0 : stretch nx ny u = 0) by (apply (wsq_zero h _ Hh); lra).
    assert (B1 : bend1 nx ny L u = 0) by (apply (wsq_zero g _ Hg); lra).
    assert (B2 : bend2 L u = 0) by (apply (wsq_zero g _ Hg); lra).
    unfold bend2 in B2. apply Rmult_integral in B2. destruct B2 as [B2|B2]; [lra|]. assert (E5 : u 5%nat = u 2%nat) by lra.
    unfold bend1, stretch, loc_tr, loc_ax in *. cbn [Nat.mul Nat.add] in *. rewrite E5 in B1.
    assert (T : ny * (u 3%nat - u 0%nat) + nx * (u 4%nat - u 1%nat) = L * u 2%nat) by lra.
    assert (X : nx * (u 3%nat - u 0%nat) - ny * (u 4%nat - u 1%nat) = 0) by lra.
    assert (D0 : u 3%nat - u 0%nat = ny * (L * u 2%nat)).
    { transitivity ((nx * nx + ny * ny) * (u 3%nat - u 0%nat)); [rewrite H1; ring|].
      transitivity (nx * (nx * (u 3%nat - u 0%nat) - ny * (u 4%nat - u 1%nat)) + ny * (ny * (u 3%nat - u 0%nat) + nx * (u 4%nat - u 1%nat))); [ring|]. rewrite X, T. ring. }
    assert (D1 : u 4%nat - u 1%nat = nx * (L * u 2%nat)).
    { transitivity ((nx * nx + ny * ny) * (u 4%nat - u 1%nat)); [rewrite H1; ring|].
      transitivity (nx * (ny * (u 3%nat - u 0%nat) + nx * (u 4%nat - u 1%nat)) - ny * (nx * (u 3%nat - u 0%nat) - ny * (u 4%nat - u 1%nat))); [ring|]. rewrite X, T. ring. }
    rewrite Ex, Ey. split; [|split]; [lra|lra|exact E5].
  Qed.

  (** kinetic energy *)
  Definition hermite (x y z w : R) : R :=
    let p := x + 11 / 78 * y + 9 / 26 * z - w / 12 in let q := y + 6 * z - 13 / 10 * w in let r := z - w / 10 in
    156 * (p * p) + 35 / 39 * (q * q) + 105 * (r * r) + 7 / 20 * (w * w).
  Lemma beam_mass young I area rest dens : I <> 0 -> (rest = [] /\ dens = 1 \/ rest = [dens]) ->
    exists K M, beam2D coord (young :: I :: area :: rest) = Ok (K, M2 M) /\
      forall u, form 6 M u u = area * L * dens / 420 *
        (70 * ((loc_ax nx ny u 0 + loc_ax nx ny u 1) * (loc_ax nx ny u 0 + loc_ax nx ny u 1)) + 70 * (loc_ax nx ny u 0 * loc_ax nx ny u 0) + 70 * (loc_ax nx ny u 1 * loc_ax nx ny u 1) +
         hermite (loc_tr nx ny u 0) (L * u 2%nat) (loc_tr nx ny u 1) (L * u 5%nat)).
  Proof.
    intros HI Hrest. pose proof (axis_ok xa ya xb yb Hne) as Ha. fold L in Ha. fold nx ny in Ha. fold coord in Ha.
    set (Q := [[nx; - ny; 0; 0; 0; 0]; [ny; nx; 0; 0; 0; 0]; [0; 0; 1; 0; 0; 0];
               [0; 0; 0; nx; - ny; 0]; [0; 0; 0; ny; nx; 0]; [0; 0; 0; 0; 0; 1]]).
    assert (E : exists K M, beam2D coord (young :: I :: area :: rest) = Ok (K, M2 M) /\
       M = congr 6 6 Q (mscale (area * L * dens / 420)
          [[140; 0; 0; 70; 0; 0];
           [0; 156; 22 * L; 0; 54; - (13) * L];
           [0; 22 * L; 4 * (L * L); 0; 13 * L; - (3) * (L * L)];
           [70; 0; 0; 140; 0; 0];
           [0; 54; 13 * L; 0; 156; - (22) * L];
           [0; - (13) * L; - (3) * (L * L); 0; - (22) * L; 4 * (L * L)]])).
    { unfold beam2D. rewrite Ha. cbn [bind].
      replace (nis0 I) with false by (symmetry; apply nis0_false; exact HI). cbn [negb guard bind].
      destruct Hrest as [[-> ->]| ->]; cbn [map bcast_mul bind]; do 2 eexists; (split; [reflexivity|reflexivity]). }
    destruct E as [K [M [E ->]]]. do 2 eexists. split; [exact E|]. intros u. unfold Q.
    rewrite form_congr, form_mscale; unfold form, act, hermite, loc_tr, loc_ax, ent; cbn [rsum nth Nat.mul Nat.add]. field.
  Qed.
  Lemma hermite_zero x y z w : 0 <= hermite x y z w /\ (hermite x y z w = 0 -> x = 0 /\ y = 0 /\ z = 0 /\ w = 0).
  Proof.
    unfold hermite. cbv zeta. set (p := x + 11 / 78 * y + 9 / 26 * z - w / 12). set (q := y + 6 * z - 13 / 10 * w). set (r := z - w / 10).
    pose proof (sq0 p) as P. pose proof (sq0 q) as Q. pose proof (sq0 r) as S. pose proof (sq0 w) as W. split; [lra|]. intros H.
    assert (w = 0) by (apply (wsq_zero (7/20)); lra). assert (Er : r = 0) by (apply (wsq_zero 105); lra).
    assert (Eq : q = 0) by (apply (wsq_zero (35/39)); lra). assert (Ep : p = 0) by (apply (wsq_zero 156); lra).
    unfold p, q, r in *. repeat split; lra.
  Qed.
  Lemma beam_mass_pos young I area rest dens : I <> 0 -> (rest = [] /\ dens = 1 \/ rest = [dens]) -> 0 < area -> 0 < dens ->
    exists K M, beam2D coord (young :: I :: area :: rest) = Ok (K, M2 M) /\
      forall u, (exists j, (j < 6)%nat /\ u j <> 0) -> 0 < form 6 M u u.
  Proof.
    intros HI Hrest HA Hd. destruct (beam_mass young I area rest dens HI Hrest) as (K & M & E & HM). exists K, M. split; [exact E|].
    intros u (j & Hj & Hu). rewrite HM. destruct (unit_axis xa ya xb yb Hne) as [HL H1]. fold L in HL, H1. fold nx ny in H1.
    apply Rmult_lt_0_compat; [apply Rdiv_lt_0_compat; [repeat apply Rmult_lt_0_compat; assumption|lra]|].
    set (a0 := loc_ax nx ny u 0). set (a1 := loc_ax nx ny u 1). set (t0 := loc_tr nx ny u 0). set (t1 := loc_tr nx ny u 1).
    destruct (hermite_zero t0 (L * u 2%nat) t1 (L * u 5%nat)) as [H0 HZ].
    pose proof (sq0 (a0 + a1)) as P. pose proof (sq0 a0) as P0. pose proof (sq0 a1) as P1.
    destruct (Rle_lt_or_eq_dec 0 (70 * ((a0 + a1) * (a0 + a1)) + 70 * (a0 * a0) + 70 * (a1 * a1) + hermite t0 (L * u 2%nat) t1 (L * u 5%nat))) as [G|G]; [lra|exact G|].
    exfalso. assert (Z0 : a0 = 0) by (apply (wsq_zero 70); lra). assert (Z1 : a1 = 0) by (apply (wsq_zero 70); lra).
    destruct HZ as (T0 & R0 & T1 & R1); [lra|]. apply Rmult_integral in R0. apply Rmult_integral in R1.
    assert (V2 : u 2%nat = 0) by (destruct R0; lra). assert (V5 : u 5%nat = 0) by (destruct R1; lra).
    assert (G2 : forall k, loc_ax nx ny u k = 0 -> loc_tr nx ny u k = 0 -> u (3 * k)%nat = 0 /\ u (3 * k + 1)%nat = 0).
    { intros k X Y. unfold loc_ax, loc_tr in *. split.
      - transitivity ((nx * nx + ny * ny) * u (3 * k)%nat); [rewrite H1; ring|].
        transitivity (nx * (nx * u (3 * k)%nat - ny * u (3 * k + 1)%nat) + ny * (ny * u (3 * k)%nat + nx * u (3 * k + 1)%nat)); [ring|]. rewrite X, Y. ring.
      - transitivity ((nx * nx + ny * ny) * u (3 * k + 1)%nat); [rewrite H1; ring|].
        transitivity (nx * (ny * u (3 * k)%nat + nx * u (3 * k + 1)%nat) - ny * (nx * u (3 * k)%nat - ny * u (3 * k + 1)%nat)); [ring|]. rewrite X, Y. ring. }
    destruct (G2 0%nat Z0 T0) as [V0 V1]. destruct (G2 1%nat Z1 T1) as [V3 V4]. cbn [Nat.mul Nat.add] in *.
    apply Hu. do 6 (destruct j as [|j]; [assumption|]). lia.
  Qed.
End Beam.

(** ** frames *)
Section Frame.
  Variable p : problem.
  Hypothesis Hf : frame p.

  Lemma frame_elem e : In e (p_elements p) -> exists E I A rest dens, 0 < E /\ 0 < I /\ 0 < A /\ 0 < dens /\ (rest = [] /\ dens = 1 \/ rest = [dens]) /\
    e_n e = 2%nat /\ good_row 3 (p_max p) None (p_cons p) e /\ (e_node e 0 < length (p_nodes p))%nat /\ (e_node e 1 < length (p_nodes p))%nat /\
    let xa := ent (p_nodes p) (e_node e 0) 1 in let ya := ent (p_nodes p) (e_node e 0) 2 in
    let xb := ent (p_nodes p) (e_node e 1) 1 in let yb := ent (p_nodes p) (e_node e 1) 2 in
    (xa <> xb \/ ya <> yb) /\ retriever e (p_mats p) (p_nodes p) (p_uel p) = beam2D [[xa; ya]; [xb; yb]] (E :: I :: A :: rest).
  Proof.
    destruct Hf as (Hd & Hmx & Hnd & Hu & Hrows & Hfl & HL & Hel & _). intros He. rewrite Forall_forall in Hel.
    destruct (Hel e He) as (id & im & a & b & E & I & A & rest & -> & Hm & HE & HI & HA & Hr & Ha & Hb & Hne).
    assert (Hr' : exists dens, 0 < dens /\ (rest = [] /\ dens = 1 \/ rest = [dens])).
    { destruct Hr as [->|(rho & -> & Hp)]; [exists 1; split; [lra|left; auto]|exists rho; split; [exact Hp|right; reflexivity]]. }
    destruct Hr' as (dens & Hp & Hr'). exists E, I, A, rest, dens. do 5 (split; [assumption|]). split; [reflexivity|].
    assert (Hids : Forall (fun z => (0 <= z < Z.of_nat (length (p_nodes p)))%Z) [a; b]) by (repeat constructor; assumption || lia).
    split. { exists 8%Z. split; [reflexivity|]. split; [reflexivity|]. split; [cbn; lia|]. rewrite HL. exact Hids. }
    assert (N0 : (Z.to_nat a < length (p_nodes p))%nat) by lia. assert (N1 : (Z.to_nat b < length (p_nodes p))%nat) by lia.
    split; [exact N0|]. split; [exact N1|]. cbv zeta. split; [exact Hne|].
    rewrite Hu. unfold retriever. change (np_get [id; 8%Z; im; a; b] 1) with (Ok 8%Z). change (np_get [id; 8%Z; im; a; b] 2) with (Ok im). cbn [bind].
    rewrite Hm. cbn [bind skipn]. rewrite (mapM_rows _ _ Hids). cbn [bind map]. change (@ele_fun R Num_R 8) with (Ok (@beam2D R Num_R)). cbn [bind].
    change (e_node [id; 8%Z; im; a; b] 0) with (Z.to_nat a). change (e_node [id; 8%Z; im; a; b] 1) with (Z.to_nat b).
    rewrite Forall_forall in Hrows.
    pose proof (Hrows _ (nth_In (p_nodes p) [] N0)) as L0. pose proof (Hrows _ (nth_In (p_nodes p) [] N1)) as L1.
    unfold ent. destruct (nth (Z.to_nat a) (p_nodes p) []) as [|? [|? [|? [|]]]]; try discriminate.
    destruct (nth (Z.to_nat b) (p_nodes p) []) as [|? [|? [|? [|]]]]; try discriminate. reflexivity.
  Qed.

  Lemma frame_wf : wf_problem p.
  Proof.
    pose proof Hf as (Hd & Hmx & Hnd & Hu & Hrows & Hfl & HL & Hel & Hld). unfold wf_problem. rewrite Hd, Hnd. split; [lia|]. split; [exact Hfl|]. split; [exact HL|]. split; [|exact Hld].
    apply Forall_forall. intros e He. destruct (frame_elem e He) as (E & I & A & rest & dens & HE & HI & HA & Hp & Hr & En & Hg & N0 & N1 & Hne & Er).
    split; [exact Hg|]. rewrite Er, En.
    destruct (beams_sym_psd _ _ _ _ Hne E I A rest ltac:(lra)) as (K & M & HK & _); [destruct Hr as [[-> _]| ->]; [left; reflexivity|right; exists dens; reflexivity]|].
    exists K, M. split; [exact HK|].
    destruct (ele_fun_shape 8 (@beam2D R Num_R) 6 2 _ _ _ K (M2 M) eq_refl eq_refl HK) as [S1 [[T _]|[_ (M' & EM & S2)]]]; [discriminate|].
    injection EM as <-. split; [exact S1|exact S2].
  Qed.

  Lemma frame_facts e : In e (p_elements p) -> exists E I A, 0 < E /\ 0 < I /\ 0 < A /\ e_n e = 2%nat /\
    (e_node e 0 < length (p_nodes p))%nat /\ (e_node e 1 < length (p_nodes p))%nat /\
    (ent (p_nodes p) (e_node e 0) 1 <> ent (p_nodes p) (e_node e 1) 1 \/ ent (p_nodes p) (e_node e 0) 2 <> ent (p_nodes p) (e_node e 1) 2) /\
    let l := bar_len (ent (p_nodes p) (e_node e 0) 1) (ent (p_nodes p) (e_node e 0) 2) (ent (p_nodes p) (e_node e 1) 1) (ent (p_nodes p) (e_node e 1) 2) in
    let nx := (ent (p_nodes p) (e_node e 1) 1 - ent (p_nodes p) (e_node e 0) 1) / l in
    let ny := (ent (p_nodes p) (e_node e 1) 2 - ent (p_nodes p) (e_node e 0) 2) / l in
    (forall u v, form 6 (p_stiff p e) u v = E * A / l * (stretch nx ny u * stretch nx ny v) + bend_energy (I * E) nx ny l u v) /\
    symmetric 6 (p_mass p e) /\ forall u, (exists j, (j < 6)%nat /\ u j <> 0) -> 0 < form 6 (p_mass p e) u u.
  Proof.
    intros He. destruct (frame_elem e He) as (E & I & A & rest & dens & HE & HI & HA & Hp & Hr & En & Hg & N0 & N1 & Hne & Er).
    exists E, I, A. do 6 (split; [assumption|]). split; [exact Hne|].
    destruct (beam2D_spec _ _ _ _ E I A rest (axis_ok _ _ _ _ Hne) ltac:(lra) dens Hr) as (K & M & HK & HF & _ & HS).
    destruct (beam_mass_pos _ _ _ _ Hne E I A rest dens ltac:(lra) Hr HA Hp) as (K' & M' & HK' & HM).
    rewrite HK in HK'. injection HK' as <- <-. rewrite HK in Er.
    unfold p_stiff, p_mass. rewrite Er. split; [exact HF|]. split; [exact HS|exact HM].
  Qed.

  Lemma frame_psd : p_psd p.
  Proof.
    intros e He. destruct (frame_facts e He) as (E & I & A & HE & HI & HA & En & N0 & N1 & Hne & HF & _). rewrite (proj1 Hf), En. change (3 * 2)%nat with 6%nat.
    split.
    - apply sym_of_form. intros. rewrite !HF. unfold bend_energy. ring.
    - intros u. rewrite HF. pose proof (bar_len_pos _ _ _ _ Hne) as HL. apply Rplus_le_le_0_compat.
      + apply Rmult_le_pos; [apply Rlt_le, Rdiv_lt_0_compat; [apply Rmult_lt_0_compat; assumption|exact HL]|apply Rle_0_sqr].
      + apply bend_energy_psd; [apply Rlt_le, Rmult_lt_0_compat; assumption|exact HL].
  Qed.

  (** a motion free of energy *)
  Definition mirrored (nodes : list (list R)) (a b w : R) (i d : nat) : R :=
    match d with 0%nat => a + w * ent nodes i 2 | 1%nat => b + w * ent nodes i 1 | _ => w end.
  Lemma frame_rigid_elem U e : In e (p_elements p) ->
    form (p_dofs p * e_n e) (p_stiff p e) (p_disp p U e) (p_disp p U e) = 0 ->
    forall a b w, ((forall d, (d < 3)%nat -> U (e_node e 0) d = mirrored (p_nodes p) a b w (e_node e 0) d) <->
                   (forall d, (d < 3)%nat -> U (e_node e 1) d = mirrored (p_nodes p) a b w (e_node e 1) d)).
  Proof.
    intros He H a b w. destruct (frame_facts e He) as (E & I & A & HE & HI & HA & En & N0 & N1 & Hne & HF & _).
    pose proof (proj1 Hf) as Hd3.
    assert (HP : forall k d, (d < 3)%nat -> p_disp p U e (3 * k + d) = U (e_node e k) d).
    { intros k d Hd. pose proof (p_disp_split p U e k d) as G. rewrite Hd3 in G. apply G; lia. }
    rewrite Hd3, En in H. change (3 * 2)%nat with 6%nat in H. rewrite HF in H.
    destruct (beam_kernel _ _ _ _ Hne E I A _ HE HI HA H) as (K0 & K1 & K2).
    pose proof (HP 0%nat 0%nat ltac:(lia)) as V0. pose proof (HP 0%nat 1%nat ltac:(lia)) as V1. pose proof (HP 0%nat 2%nat ltac:(lia)) as V2.
    pose proof (HP 1%nat 0%nat ltac:(lia)) as V3. pose proof (HP 1%nat 1%nat ltac:(lia)) as V4. pose proof (HP 1%nat 2%nat ltac:(lia)) as V5.
    cbn [Nat.mul Nat.add] in V0, V1, V2, V3, V4, V5. rewrite V0, V2, V3 in K0. rewrite V1, V2, V4 in K1. rewrite V2, V5 in K2. clear V0 V1 V2 V3 V4 V5.
    split; intros G.
    - pose proof (G 0%nat ltac:(lia)) as G0. pose proof (G 1%nat ltac:(lia)) as G1. pose proof (G 2%nat ltac:(lia)) as G2. cbn [mirrored] in *.
      rewrite G0, G2 in K0. rewrite G1, G2 in K1. rewrite G2 in K2.
      intros d Hd. destruct d as [|[|[|]]]; cbn [mirrored]; [lra|lra|exact K2|lia].
    - pose proof (G 0%nat ltac:(lia)) as G0. pose proof (G 1%nat ltac:(lia)) as G1. pose proof (G 2%nat ltac:(lia)) as G2. cbn [mirrored] in *.
      rewrite G2 in K2. rewrite G0, <- K2 in K0. rewrite G1, <- K2 in K1.
      intros d Hd. destruct d as [|[|[|]]]; cbn [mirrored]; [lra|lra|symmetry; exact K2|lia].
  Qed.

  Lemma frame_stable : frame_connected p -> frame_supported p -> p_stable p.
  Proof.
    intros Hc Hs. apply (p_stable_energy p frame_wf frame_psd). intros U HU HE i d Hdof. pose proof (proj1 Hf) as Hd3.
    destruct Hdof as [Hi Hd]. rewrite Hd3 in Hd.
    set (w := U i 2%nat). set (a := U i 0%nat - w * ent (p_nodes p) i 2). set (b := U i 1%nat - w * ent (p_nodes p) i 1).
    assert (All : forall j, (j < length (p_nodes p))%nat -> forall d, (d < 3)%nat -> U j d = mirrored (p_nodes p) a b w j d).
    { intros j Hj. pose proof (Hc i j Hi Hj) as Hp. clear Hj. apply clos_rt_rtn1 in Hp. induction Hp as [|x y (e & He & Hxy) Hp IH].
      - intros d' Hd'. destruct d' as [|[|[|]]]; cbn [mirrored]; unfold a, b, w; [ring|ring|reflexivity|lia].
      - pose proof (frame_rigid_elem U e He (HE e He) a b w) as G. destruct Hxy as [[<- <-]|[<- <-]]; apply G; exact IH. }
    destruct (Hs (- a) b w) as (Za & Zb & Zw).
    { intros j c [Hj Hcd] C. pose proof (HU j c (conj Hj Hcd) C) as Z. rewrite Hd3 in Hcd. rewrite (All j Hj c Hcd) in Z.
      destruct c as [|[|[|]]]; cbn [frame_rigid mirrored] in *; [lra|lra|exact Z|lia]. }
    rewrite (All i Hi d Hd). assert (Za' : a = 0) by lra. rewrite Za', Zb, Zw. destruct d as [|[|]]; cbn [mirrored]; ring.
  Qed.

  (** a clamped node is enough *)
  Lemma frame_clamped i : (i < length (p_nodes p))%nat -> (forall d, (d < 3)%nat -> ent (p_cons p) i d = -1) -> frame_supported p.
  Proof.
    intros Hi HC a b w H. pose proof (proj1 Hf) as Hd3.
    assert (G : forall d, (d < 3)%nat -> frame_rigid (p_nodes p) a b w i d = 0) by (intros d Hd; apply H; [split; [exact Hi|lia]|apply HC; exact Hd]).
    pose proof (G 0%nat ltac:(lia)) as G0. pose proof (G 1%nat ltac:(lia)) as G1. pose proof (G 2%nat ltac:(lia)) as G2. cbn [frame_rigid] in *.
    rewrite G2 in G0, G1. repeat split; lra.
  Qed.
End Frame.
