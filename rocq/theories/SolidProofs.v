(** * Stability of meshes of tetrahedra and bricks *)
From Coq Require Import Reals List Arith Lia Lra Bool ZArith Relations.
From Verif Require Import Num LinAlg Gauss Fem Uel Assem Post Main Script Spec LinR Base SpecAssem SpecModel SpecElem SpecShape SpecModes SpecScript SpecSolid
  ShapeProofs ElemCore ElemShape Elem3 Elem3Props ElemFinal ElemFinal2 ElemFinal3 Elem3Modes Hex8Modes AssemProofs AssemProofs4 ModelProofs MeshProofs ScriptProofs ScriptProofs2 BeamFrame.
Import ListNotations.
Local Open Scope R_scope.

Lemma solid_shapes f n coord params K m : In (f, n) [(elast_tet4, 4%nat); (elast_hex8, 8%nat)] -> f coord params = Ok (K, m) ->
  exists M, m = M2 M /\ shape (3 * n) (3 * n) K /\ shape (3 * n) (3 * n) M.
Proof.
  intros Hin Hf. assert (G : exists s, In s solids /\ so_f s = f /\ so_n s = n).
  { destruct Hin as [E|[E|[]]]; injection E as <- <-; [exists so_tet4|exists so_hex8]; (split; [cbn; tauto|split; reflexivity]). }
  destruct G as (s & Hs & <- & <-). apply solid_eq in Hf; [|exact Hs].
  destruct Hf as [E [nu [rho [C [sK [sM [M [H1 [H2 [H3 [H4 [H5 H6]]]]]]]]]]]]. apply integrate_shape in H5. exists M. tauto.
Qed.

Section Mesh.
  Variable p : problem.
  Hypothesis Hp : solid_mesh p.

  Lemma solid_coords e : In e (p_elements p) -> mapM (np_get (p_nodes p)) (skipn 3 e) = Ok (map (fun z => nth (Z.to_nat z) (p_nodes p) []) (skipn 3 e)).
  Proof.
    intros He. destruct Hp as (_ & _ & _ & Hl & Hel & _). rewrite Forall_forall in Hel. destruct (Hel e He) as [(t & _ & _ & _ & Hz) _].
    rewrite Forall_forall in Hz. induction (skipn 3 e) as [|z zs IH]; [reflexivity|]. cbn [mapM map].
    destruct (Hz z (or_introl eq_refl)) as [Hz1 Hz2].
    replace (np_get (p_nodes p) z) with (Ok (nth (Z.to_nat z) (p_nodes p) [])).
    - cbn [bind]. rewrite IH by (intros y Hy; apply Hz; right; exact Hy). reflexivity.
    - symmetry. rewrite <- (Z2Nat.id z Hz1) at 1. apply np_get_nth. lia.
  Qed.

  Lemma solid_ret e t im params f : In e (p_elements p) -> nth_error e 1 = Some t -> nth_error e 2 = Some im -> np_get (p_mats p) im = Ok params -> p_uel p = Some f ->
    retriever e (p_mats p) (p_nodes p) (p_uel p) = f (p_coords p e) params.
  Proof.
    intros He Et Ei Em Ef. unfold retriever. replace (np_get e 1) with (Ok t) by (symmetry; exact (np_get_error e 1 t Et)). cbn [bind].
    replace (np_get e 2) with (Ok im) by (symmetry; exact (np_get_error e 2 im Ei)). cbn [bind]. rewrite Em. cbn [bind].
    rewrite (solid_coords e He). cbn [bind]. rewrite Ef. cbn [bind]. rewrite map_map. reflexivity.
  Qed.

  Lemma solid_at e : In e (p_elements p) -> exists f n E nu rho k M, In (f, n) [(elast_tet4, 4%nat); (elast_hex8, 8%nat)] /\ e_n e = n /\ 0 < E /\ -1 < nu < 1 / 2 /\
    f (p_coords p e) [E; nu; rho] = Ok (k, M2 M) /\ (n = 8%nat -> regular_brick (p_coords p e)) /\
    retriever e (p_mats p) (p_nodes p) (p_uel p) = Ok (k, M2 M) /\ shape (3 * n) (3 * n) k /\ shape (3 * n) (3 * n) M.
  Proof.
    intros He. pose proof Hp as (_ & _ & _ & Hl & Hel & _). rewrite Forall_forall in Hel.
    destruct (Hel e He) as [(t & Et & _) (im & f & E & nu & rho & k & m & Ei & Em & HE & Hnu & Ef & Hrun & Hcase)].
    assert (G : exists g n, In (g, n) [(elast_tet4, 4%nat); (elast_hex8, 8%nat)] /\ e_n e = n /\ f (p_coords p e) [E; nu; rho] = g (p_coords p e) [E; nu; rho] /\ (n = 8%nat -> regular_brick (p_coords p e))).
    { destruct Hcase as [[H1 H2]|(H1 & H2 & H3)]; [exists elast_tet4, 4%nat|exists elast_hex8, 8%nat].
      - split; [left; reflexivity|]. split; [exact H1|]. split; [exact H2|discriminate].
      - split; [right; left; reflexivity|]. split; [exact H1|]. split; [exact H2|]. intros _. exact H3. }
    destruct G as (g & n & Hin & En & Hg & Hr). rewrite Hg in Hrun. destruct (solid_shapes g n _ _ k m Hin Hrun) as (M & -> & SK & SM).
    exists g, n, E, nu, rho, k, M. repeat (split; [assumption|]). split; [|split; assumption].
    rewrite (solid_ret e t im _ f He Et Ei Em Ef), Hg. exact Hrun.
  Qed.

  Lemma solid_wf : wf_problem p.
  Proof.
    pose proof Hp as (Hd & _ & Hf & Hl & Hel & Hld). unfold wf_problem. rewrite Hd. split; [lia|]. split; [exact Hf|]. split; [exact Hl|]. split; [|exact Hld].
    apply Forall_forall. intros e He. split; [rewrite Forall_forall in Hel; exact (proj1 (Hel e He))|].
    destruct (solid_at e He) as (f & n & E & nu & rho & k & M & _ & En & _ & _ & _ & _ & Hret & SK & SM). exists k, M. rewrite En. auto.
  Qed.

  Lemma solid_stiff e : In e (p_elements p) -> exists f n E nu rho M, In (f, n) [(elast_tet4, 4%nat); (elast_hex8, 8%nat)] /\ e_n e = n /\ 0 < E /\ -1 < nu < 1 / 2 /\
    f (p_coords p e) [E; nu; rho] = Ok (p_stiff p e, M2 M) /\ (n = 8%nat -> regular_brick (p_coords p e)) /\ p_mass p e = M.
  Proof.
    intros He. destruct (solid_at e He) as (f & n & E & nu & rho & k & M & Hin & En & HE & Hnu & Hrun & Hr & Hret & _).
    exists f, n, E, nu, rho, M. unfold p_stiff, p_mass. rewrite Hret. auto 10.
  Qed.

  Lemma solid_psd : p_psd p.
  Proof.
    intros e He. destruct (solid_stiff e He) as (f & n & E & nu & rho & M & Hin & En & HE & Hnu & Hrun & _). rewrite (proj1 Hp), En.
    destruct (solid_sym_psd f n Hin (p_coords p e) E nu rho _ _ Hrun) as [H1 H2]. split; [exact H1|exact (H2 HE Hnu)].
  Qed.

  Lemma ent_coords e k c : (k < e_n e)%nat -> ent (p_coords p e) k c = ent (p_nodes p) (e_node e k) (S c).
  Proof.
    intros Hk. unfold ent, p_coords, e_node, e_n in *.
    assert (L : (k < length (skipn 3 e))%nat) by (rewrite skipn_length; lia).
    rewrite (nth_indep _ [] (tl (nth (Z.to_nat 0%Z) (p_nodes p) []))) by (rewrite map_length; exact L).
    rewrite (map_nth (fun z => tl (nth (Z.to_nat z) (p_nodes p) []))).
    replace (nth k (skipn 3 e) 0%Z) with (nth (3 + k) e 0%Z).
    - destruct (nth (Z.to_nat (nth (3 + k) e 0%Z)) (p_nodes p) []) as [|x r]; [destruct c; reflexivity|reflexivity].
    - clear. destruct e as [|a [|b [|c e]]]; cbn; try reflexivity; destruct k; reflexivity.
  Qed.

  Definition moves3 (U : nat -> nat -> R) (t w : nat -> R) (e : list Z) : Prop :=
    forall a d, has_node e a -> (d < 3)%nat -> U a d = solid_motion (p_nodes p) t w a d.

  Lemma solid_moves e U : In e (p_elements p) -> form (3 * e_n e) (p_stiff p e) (p_disp p U e) (p_disp p U e) = 0 -> exists t w, moves3 U t w e.
  Proof.
    intros He H0. destruct (solid_stiff e He) as (f & n & E & nu & rho & M & Hin & En & HE & Hnu & Hrun & Hr & _).
    assert (G : exists t w, forall j, (j < 3 * e_n e)%nat -> p_disp p U e j = rigid3 (p_coords p e) t w j).
    { rewrite En in *. destruct Hin as [X|[X|[]]]; injection X as <- <-.
      - exact (tet4_modes (p_coords p e) E nu rho _ _ _ Hrun HE Hnu H0).
      - exact (hex8_modes_any (p_coords p e) E nu rho _ _ _ Hrun HE Hnu (Hr eq_refl) H0). }
    destruct G as (t & w & G). exists t, w. intros a d (k & Hk & <-) Hd. specialize (G (3 * k + d)%nat ltac:(lia)).
    unfold p_disp in G. rewrite (proj1 Hp) in G. unfold rigid3, affine3 in G.
    replace ((3 * k + d) / 3)%nat with k in G by (apply Nat.div_unique with d; lia).
    replace ((3 * k + d) mod 3)%nat with d in G by (apply Nat.mod_unique with k; lia).
    rewrite G. unfold solid_motion. f_equal. apply rsum_ext. intros c _. rewrite (ent_coords e k c Hk). reflexivity.
  Qed.

  (** a rigid motion is known by three points that are not collinear *)
  Lemma solid_motion_three nodes t w a b c : not_collinear nodes a b c ->
    (forall d, (d < 3)%nat -> solid_motion nodes t w a d = 0 /\ solid_motion nodes t w b d = 0 /\ solid_motion nodes t w c d = 0) ->
    forall d, (d < 3)%nat -> t d = 0 /\ w d = 0.
  Proof.
    intros (d0 & Hd0 & Hne) H. unfold solid_motion in H.
    pose proof (H 0%nat ltac:(lia)) as (A0 & B0 & C0). pose proof (H 1%nat ltac:(lia)) as (A1 & B1 & C1). pose proof (H 2%nat ltac:(lia)) as (A2 & B2 & C2). clear H.
    cbn [rsum skew3] in *. unfold area3 in Hne. cbv zeta in Hne.
    set (u0 := ent nodes b 1 - ent nodes a 1) in *. set (u1 := ent nodes b 2 - ent nodes a 2) in *. set (u2 := ent nodes b 3 - ent nodes a 3) in *.
    set (v0 := ent nodes c 1 - ent nodes a 1) in *. set (v1 := ent nodes c 2 - ent nodes a 2) in *. set (v2 := ent nodes c 3 - ent nodes a 3) in *.
    assert (E0 : w 1%nat * u2 = w 2%nat * u1) by (unfold u1, u2; lra). assert (E1 : w 2%nat * u0 = w 0%nat * u2) by (unfold u0, u2; lra). assert (E2 : w 0%nat * u1 = w 1%nat * u0) by (unfold u1, u0; lra).
    assert (F0 : w 1%nat * v2 = w 2%nat * v1) by (unfold v1, v2; lra). assert (F1 : w 2%nat * v0 = w 0%nat * v2) by (unfold v0, v2; lra). assert (F2 : w 0%nat * v1 = w 1%nat * v0) by (unfold v1, v0; lra).
    assert (W : w 0%nat = 0 /\ w 1%nat = 0 /\ w 2%nat = 0).
    { assert (P : forall i, (i < 3)%nat -> w i * (u1 * v2 - u2 * v1) = 0 /\ w i * (u2 * v0 - u0 * v2) = 0 /\ w i * (u0 * v1 - u1 * v0) = 0).
      { clear - E0 E1 E2 F0 F1 F2. clearbody u0 u1 u2 v0 v1 v2.
        intros i Hi. destruct i as [|[|[|]]]; [| | |lia]; repeat split.
        - transitivity (w 0%nat * u1 * v2 - w 0%nat * u2 * v1); [ring|]. rewrite E2, <- E1. transitivity (u0 * (w 1%nat * v2 - w 2%nat * v1)); [ring|rewrite F0; ring].
        - transitivity (w 0%nat * u2 * v0 - w 0%nat * v2 * u0); [ring|]. rewrite <- E1, <- F1. ring.
        - transitivity (w 0%nat * v1 * u0 - w 0%nat * u1 * v0); [ring|]. rewrite E2, F2. ring.
        - transitivity (w 1%nat * v2 * u1 - w 1%nat * u2 * v1); [ring|]. rewrite E0, F0. ring.
        - transitivity (w 1%nat * u2 * v0 - w 1%nat * u0 * v2); [ring|]. rewrite E0, <- E2. transitivity (u1 * (w 2%nat * v0 - w 0%nat * v2)); [ring|rewrite F1; ring].
        - transitivity (w 1%nat * u0 * v1 - w 1%nat * v0 * u1); [ring|]. rewrite <- E2, <- F2. ring.
        - transitivity (w 2%nat * u1 * v2 - w 2%nat * v1 * u2); [ring|]. rewrite <- E0, <- F0. ring.
        - transitivity (w 2%nat * v0 * u2 - w 2%nat * u0 * v2); [ring|]. rewrite E1, F1. ring.
        - transitivity (w 2%nat * u0 * v1 - w 2%nat * u1 * v0); [ring|]. rewrite E1, <- E0. transitivity (u2 * (w 0%nat * v1 - w 1%nat * v0)); [ring|rewrite F2; ring]. }
      assert (Q : forall i, (i < 3)%nat -> w i = 0).
      { intros i Hi. destruct (P i Hi) as (P0 & P1 & P2). destruct d0 as [|[|[|]]]; [| | |lia].
        - apply Rmult_integral in P0. destruct P0; [assumption|contradiction].
        - apply Rmult_integral in P1. destruct P1; [assumption|contradiction].
        - apply Rmult_integral in P2. destruct P2; [assumption|contradiction]. }
      split; [|split]; apply Q; lia. }
    destruct W as (W0 & W1 & W2). rewrite W0, W1, W2 in *. intros d Hd. destruct d as [|[|[|]]]; [| | |lia]; split; lra.
  Qed.

  Lemma solid_motion_minus nodes t w t' w' i d :
    solid_motion nodes (fun d => t d - t' d) (fun d => w d - w' d) i d = solid_motion nodes t w i d - solid_motion nodes t' w' i d.
  Proof. unfold solid_motion. cbn [rsum]. destruct d as [|[|[|d]]]; cbn [skew3]; ring. Qed.
  Lemma solid_motion_ext nodes t w t' w' i d : (forall d, (d < 3)%nat -> t d = t' d /\ w d = w' d) -> (d < 3)%nat -> solid_motion nodes t w i d = solid_motion nodes t' w' i d.
  Proof.
    intros H Hd. destruct (H 0%nat ltac:(lia)) as [T0 W0]. destruct (H 1%nat ltac:(lia)) as [T1 W1]. destruct (H 2%nat ltac:(lia)) as [T2 W2].
    unfold solid_motion. cbn [rsum]. destruct d as [|[|[|d]]]; [| | |lia]; cbn [skew3]; rewrite ?T0, ?T1, ?T2, ?W0, ?W1, ?W2; reflexivity.
  Qed.

  Lemma solid_stable : connected3 p -> supported3 p -> p_stable p.
  Proof.
    intros [Hc Hu] Hsup. apply (p_stable_energy p solid_wf solid_psd). intros U HU HE.
    rewrite (proj1 Hp) in HE.
    assert (M : forall e, In e (p_elements p) -> exists t w, moves3 U t w e) by (intros e He; exact (solid_moves e U He (HE e He))).
    intros i d [Hi Hd]. rewrite (proj1 Hp) in Hd. destruct (Hu i Hi) as (e0 & He0 & Hk0). destruct (M e0 He0) as (t & w & Ha).
    assert (All : forall e, In e (p_elements p) -> moves3 U t w e).
    { intros e He. pose proof (Hc e0 e He0 He) as Hpa. clear Hc He. apply clos_rt_rt1n in Hpa. clear Hk0.
      induction Hpa as [x|x y z [Hy Hl] Hpa IH]; [exact Ha|]. apply IH; [exact Hy|].
      destruct (M y Hy) as (t' & w' & Hb). destruct Hl as (a & b & c & A1 & A2 & A3 & B1 & B2 & B3 & Hne).
      assert (Heq : forall d, (d < 3)%nat -> t d = t' d /\ w d = w' d).
      { intros d' Hd'. destruct (solid_motion_three (p_nodes p) (fun d => t d - t' d) (fun d => w d - w' d) a b c Hne) with (d := d') as [Q1 Q2]; [|exact Hd'|cbv beta in Q1, Q2; lra].
        intros d'' Hd''. rewrite !solid_motion_minus.
        rewrite <- (Ha a d'' A1 Hd''), <- (Ha b d'' A2 Hd''), <- (Ha c d'' A3 Hd''), <- (Hb a d'' B1 Hd''), <- (Hb b d'' B2 Hd''), <- (Hb c d'' B3 Hd''). lra. }
      intros a' d' Hn Hd'. rewrite (Hb a' d' Hn Hd'). symmetry. apply solid_motion_ext; assumption. }
    assert (Node : forall i d, (i < length (p_nodes p))%nat -> (d < 3)%nat -> U i d = solid_motion (p_nodes p) t w i d).
    { intros i' d' Hi' Hd'. destruct (Hu i' Hi') as (e & He & Hk). exact (All e He i' d' Hk Hd'). }
    assert (Z : forall d, (d < 3)%nat -> t d = 0 /\ w d = 0).
    { apply Hsup. intros i' d' [Hi' Hd'] C. rewrite <- Node; [apply HU; [split; assumption|exact C]|exact Hi'|rewrite <- (proj1 Hp); exact Hd']. }
    rewrite (Node i d Hi Hd). rewrite (solid_motion_ext _ t w (fun _ => 0) (fun _ => 0) i d Z Hd).
    unfold solid_motion. cbn [rsum]. destruct d as [|[|[|]]]; cbn [skew3]; ring.
  Qed.

  (** three fixed nodes that are not collinear *)
  Lemma solid_pinned a b c : (a < length (p_nodes p))%nat -> (b < length (p_nodes p))%nat -> (c < length (p_nodes p))%nat -> not_collinear (p_nodes p) a b c ->
    (forall d, (d < 3)%nat -> ent (p_cons p) a d = -1 /\ ent (p_cons p) b d = -1 /\ ent (p_cons p) c d = -1) -> supported3 p.
  Proof.
    intros Ha Hb Hc Hn HC t w H. apply (solid_motion_three (p_nodes p) t w a b c Hn). intros d Hd. destruct (HC d Hd) as (C1 & C2 & C3).
    assert (Dof : forall i, (i < length (p_nodes p))%nat -> p_dof p i d) by (intros i Hi; split; [exact Hi|rewrite (proj1 Hp); exact Hd]).
    split; [|split]; apply H; auto.
  Qed.

  Lemma solid_mesh_runs sv sparse : connected3 p -> supported3 p -> solvers_ok sv -> solvers_total sv ->
    exists U, p_script sv p sparse = Ok U /\ p_equilibrium p (ent U).
  Proof.
    intros Hc Hs H1 H2. destruct (p_runs sv p sparse solid_wf H1 H2 (solid_stable Hc Hs)) as [U HU].
    exists U. split; [exact HU|]. exact (proj2 (p_equilibrium_run sv p sparse U solid_wf H1 HU)).
  Qed.
End Mesh.
