(** * Proofs: one clamped beam with loads at its tip *)
From Coq Require Import Reals List Arith Lia Lra Bool ZArith Relations.
From Verif Require Import Num LinAlg Gauss Fem Uel Assem Post Main Script Spec LinR Base SpecAssem SpecModel SpecElem SpecModes SpecScript SpecVib
  AssemProofs4 ElemShape ElemCore BarProofs BeamProofs ModelProofs MeshProofs StaticProofs ScriptProofs ScriptProofs2 BeamFrame.
Import ListNotations.
Local Open Scope R_scope.

Section Cantilever.
  Variables (x y E I A fx fy mz : R).
  Hypothesis Hne : x <> 0 \/ y <> 0.
  Hypothesis HE : 0 < E.
  Hypothesis HI : 0 < I.
  Hypothesis HA : 0 < A.
  Let p := cantilever x y E I A fx fy mz.

  Lemma ct_ne : 0 <> x \/ 0 <> y.
  Proof. destruct Hne as [H|H]; [left|right]; lra. Qed.
  Lemma ct_frame : frame p.
  Proof.
    unfold frame. do 4 (split; [cbn; lia || reflexivity|]). split; [repeat constructor|]. split.
    { repeat constructor; cbn; auto; lra. }
    split; [reflexivity|]. split.
    - constructor; [|constructor]. exists 0%Z, 0%Z, 0%Z, 1%Z, E, I, A, []. split; [reflexivity|]. split; [reflexivity|]. do 3 (split; [assumption|]).
      split; [left; reflexivity|]. split; [cbn; lia|]. split; [cbn; lia|]. exact ct_ne.
    - constructor; [|constructor]. split; [cbn; lia|]. exists 1%nat. split; [cbn; lia|reflexivity].
  Qed.
  Lemma ct_connected : frame_connected p.
  Proof.
    intros i j Hi Hj. cbn in Hi, Hj.
    assert (G : forall a b, (a < 2)%nat -> (b < 2)%nat -> a <> b ->
      clos_refl_trans nat (fun a b => exists e, In e (p_elements p) /\ (e_node e 0 = a /\ e_node e 1 = b \/ e_node e 0 = b /\ e_node e 1 = a)) a b).
    { intros a b Ha Hb Hab. apply rt_step. exists [0; 8; 0; 0; 1]%Z. split; [left; reflexivity|]. cbn. lia. }
    destruct (Nat.eq_dec i j) as [->|H]; [apply rt_refl|apply G; assumption].
  Qed.
  Lemma ct_supported : frame_supported p.
  Proof. apply (frame_clamped p ct_frame 0); [cbn; lia|]. intros d Hd. destruct d as [|[|[|]]]; cbn; lra || lia. Qed.
  Lemma ct_stable : p_stable p.
  Proof. exact (frame_stable p ct_frame ct_connected ct_supported). Qed.

  Definition ct_table (i d : nat) : R := match i with 0%nat => 0 | _ => tip x (- y) E I A fx fy mz d end.
  Lemma ct_equilibrium : p_equilibrium p ct_table.
  Proof.
    assert (He : In [0; 8; 0; 0; 1]%Z (p_elements p)) by (left; reflexivity).
    destruct (beam2D_spec [[0; 0]; [x; y]] _ _ _ E I A [] (axis_ok 0 0 x y ct_ne) ltac:(lra) 1 (or_introl (conj eq_refl eq_refl))) as (K & M & HK & HF & _).
    assert (HS : p_stiff p [0; 8; 0; 0; 1]%Z = K).
    { unfold p_stiff. change (retriever [0; 8; 0; 0; 1]%Z (p_mats p) (p_nodes p) (p_uel p)) with (beam2D [[0; 0]; [x; y]] [E; I; A]). rewrite HK. reflexivity. }
    pose proof (bar_len_pos _ _ _ _ ct_ne) as HL.
    assert (El : bar_len 0 0 x y = sqrt (x * x + y * y)) by (unfold bar_len; f_equal; ring). rewrite El in *.
    destruct (unit_axis 0 0 x y ct_ne) as [_ H1]. rewrite El in H1.
    set (l := sqrt (x * x + y * y)) in *. replace ((x - 0) / l) with (x / l) in * by (field; lra). replace ((y - 0) / l) with (y / l) in * by (field; lra).
    intros i d [Hi Hd]. cbn in Hi, Hd. destruct i as [|[|]]; [| |lia].
    - split; intros C; [reflexivity|]. exfalso. destruct d as [|[|[|]]]; cbn in C; lra || lia.
    - split; intros C; [exfalso; destruct d as [|[|[|]]]; cbn in C; lra || lia|].
      unfold p_internal. change (p_elements p) with [[0; 8; 0; 0; 1]%Z]. cbn [lsum fold_right]. change (e_n [0; 8; 0; 0; 1]%Z) with 2%nat. cbn [rsum].
      change (e_node [0; 8; 0; 0; 1]%Z 0) with 0%nat. change (e_node [0; 8; 0; 0; 1]%Z 1) with 1%nat. cbn [Nat.eqb]. rewrite HS.
      change (p_dofs p * 2)%nat with 6%nat. change (p_dofs p * 1 + d)%nat with (3 + d)%nat.
      rewrite (act_of_form 6) by lia. rewrite HF.
      set (u := p_disp p ct_table [0; 8; 0; 0; 1]%Z).
      assert (U0 : u 0%nat = 0 /\ u 1%nat = 0 /\ u 2%nat = 0) by (repeat split; reflexivity).
      assert (U3 : u 3%nat = tip x (- y) E I A fx fy mz 0 /\ u 4%nat = tip x (- y) E I A fx fy mz 1 /\ u 5%nat = tip x (- y) E I A fx fy mz 2) by (repeat split; reflexivity).
      destruct U0 as (U0 & U1 & U2). destruct U3 as (U3 & U4 & U5).
      unfold tip in U3, U4, U5. replace (sqrt (x * x + - y * - y)) with l in U3, U4, U5 by (unfold l; f_equal; ring).
      replace (- y / l) with (- (y / l)) in U3, U4, U5 by (field; lra).
      set (nx := x / l) in *. set (ny := y / l) in *.
      set (fa := nx * fx + - ny * fy) in *. set (ft := - - ny * fx + nx * fy) in *.
      set (ua := fa * l / (E * A)) in *. set (ut := ft * (l * l * l) / (3 * E * I) + mz * (l * l) / (2 * E * I)) in *.
      assert (ES : stretch nx ny u = ua).
      { unfold stretch, loc_ax. cbn [Nat.mul Nat.add]. rewrite U0, U1, U3, U4. transitivity (ua * (nx * nx + ny * ny)); [ring|rewrite H1; ring]. }
      assert (ET : loc_tr nx ny u 1 - loc_tr nx ny u 0 = ut).
      { unfold loc_tr. cbn [Nat.mul Nat.add]. rewrite U0, U1, U3, U4. transitivity (ut * (nx * nx + ny * ny)); [ring|rewrite H1; ring]. }
      assert (EB1 : bend1 nx ny l u = - 2 * ut + l * u 5%nat) by (unfold bend1; rewrite U2; lra).
      assert (EB2 : bend2 l u = - l * u 5%nat) by (unfold bend2; rewrite U2; ring).
      unfold bend_energy. rewrite ES, EB1, EB2, U5.
      assert (G : forall d, (d < 3)%nat -> E * A / l * (stretch nx ny (unitv (3 + d)) * ua) +
        I * E / (l * (l * l)) * (3 * (bend1 nx ny l (unitv (3 + d)) * (-2 * ut + l * (ft * (l * l) / (2 * E * I) + mz * l / (E * I)))) +
          bend2 l (unitv (3 + d)) * (- l * (ft * (l * l) / (2 * E * I) + mz * l / (E * I)))) =
        match d with 0%nat => fx | 1%nat => fy | _ => mz end).
      { intros c Hc. destruct c as [|[|[|]]]; [| | |lia]; unfold stretch, bend1, bend2, loc_ax, loc_tr, unitv; cbn [Nat.eqb Nat.mul Nat.add].
        - transitivity (nx * fa + ny * ft); [unfold ua, ut; field; repeat split; lra|]. transitivity ((nx * nx + ny * ny) * fx); [unfold fa, ft; ring|rewrite H1; ring].
        - transitivity (- ny * fa + nx * ft); [unfold ua, ut; field; repeat split; lra|]. transitivity ((nx * nx + ny * ny) * fy); [unfold fa, ft; ring|rewrite H1; ring].
        - unfold ua, ut; field; repeat split; lra. }
      rewrite (G d Hd). change (p_loads p) with [[1; fx; fy; mz]]. unfold applied. cbn [fold_left nth INR].
      destruct (Req_EM_T 1 1) as [_|N]; [|lra]. rewrite !Rplus_0_r, !Rplus_0_l. destruct d as [|[|[|]]]; [reflexivity|reflexivity|reflexivity|lia].
  Qed.

  Lemma ct_run sv sparse U : solvers_ok sv -> p_script sv p sparse = Ok U -> forall d, (d < 3)%nat -> ent U 1 d = tip x (- y) E I A fx fy mz d.
  Proof.
    intros Hs HU d Hd. destruct (p_equilibrium_run sv p sparse U (frame_wf p ct_frame) Hs HU) as [_ HQ].
    exact (p_unique p (ent U) ct_table ct_stable HQ ct_equilibrium 1%nat d (conj (le_n 2) Hd)).
  Qed.
End Cantilever.
