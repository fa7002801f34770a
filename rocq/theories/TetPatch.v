(** * The patch test for tetrahedra *)
From Coq Require Import Reals List Arith Lia Lra Bool ZArith Relations Permutation.
From Verif Require Import Num LinAlg Gauss Fem Uel Assem Post Main Script Spec LinR Base SpecAssem SpecModel SpecElem SpecShape SpecModes SpecScript SpecSolid
  ShapeProofs ElemCore ElemShape Elem3 Elem3Props ElemFinal ElemFinal2 ElemFinal3 AssemProofs AssemProofs2 AssemProofs4 ModelProofs MeshProofs BarProofs StaticProofs PatchProofs
  ScriptProofs ScriptProofs2 SolidProofs.
Import ListNotations.
Local Open Scope R_scope.

Section Tet.
  Variable x : nat -> nat -> R.
  Definition xa (i j l d : nat) : R :=
    let u := fun d => x j d - x i d in let v := fun d => x l d - x i d in
    match d with
    | 0%nat => u 1%nat * v 2%nat - u 2%nat * v 1%nat
    | 1%nat => u 2%nat * v 0%nat - u 0%nat * v 2%nat
    | _ => u 0%nat * v 1%nat - u 1%nat * v 0%nat
    end.
  Definition xS (k c : nat) : R := lsum (fun ab => xa k (fst ab) (snd ab) c) (faces4 k).
  Definition xD : R := J3det (fun a b => x (S a) b - x 0%nat b).
  (** the summed areas span the volume with the edges *)
  Lemma corner_volume k m : (k < 4)%nat -> (m < 4)%nat -> m <> k -> rsum 3 (fun c => xS k c * (x k c - x m c)) = xD.
  Proof.
    intros Hk Hm Hne. lt4 k Hk; lt4 m Hm; try contradiction; unfold xS, xD, faces4, J3det; cbn [nth lsum map fst snd rsum]; unfold xa; cbv zeta; cbn; ring.
  Qed.
End Tet.

Lemma energy_stress E nu A g d : (d < 3)%nat ->
  energy3 E nu (voigt3 (fun a c => if (a =? d)%nat then g c else 0)) (voigt3 A) = rsum 3 (fun c => stress3 E nu A d c * g c).
Proof. intros Hd. destruct d as [|[|[|]]]; [| | |lia]; unfold energy3, stress3; cbn [rsum voigt3 Nat.eqb]; ring. Qed.

(** a tetrahedron in uniform stress: nodal forces *)
Lemma tet_forces coord E nu rho K m t A k d : elast_tet4 coord [E; nu; rho] = Ok (K, m) -> (k < 4)%nat -> (d < 3)%nat ->
  act 12 K (affine3 coord t A) (3 * k + d) = rsum 3 (fun c => stress3 E nu A d c * xS (ent coord) k c) / 6.
Proof.
  intros Hrun Hk Hd. rewrite act_of_form by lia.
  assert (Hv : In (elast_tet4, 4%nat, fun (coord : list (list R)) W => W = vol4 coord) volume_list) by (left; reflexivity).
  destruct (solid_energy _ _ _ Hv coord E nu rho K m Hrun) as (W & HW & EW & HF). change (3 * 4)%nat with 12%nat in HF.
  set (x := ent coord) in *. assert (ED : xD x = 6 * W) by (rewrite EW; unfold vol4, xD, x; field).
  set (g := fun c => xS x k c / xD x). set (t' := fun a => if (a =? d)%nat then 1 - rsum 3 (fun c => g c * x k c) else 0).
  rewrite (form_ext 12 K (unitv (3 * k + d)) (affine3 coord t' (fun a c => if (a =? d)%nat then g c else 0)) _ (affine3 coord t A)); [| |reflexivity].
  - rewrite HF, (energy_stress E nu A g d Hd). unfold g. cbn [rsum]. rewrite ED. field. lra.
  - intros j Hj. unfold affine3, unitv. fold x. set (a := (j mod 3)%nat). set (q := (j / 3)%nat).
    assert (Ej : j = (3 * q + a)%nat) by (unfold q, a; apply Nat.div_mod; lia). assert (Ha : (a < 3)%nat) by (apply Nat.mod_upper_bound; lia).
    assert (Hq : (q < 4)%nat) by lia. clearbody q a. subst j. unfold t'.
    destruct (Nat.eqb_spec a d) as [->|Na].
    + destruct (Nat.eq_dec q k) as [->|Nq].
      * rewrite Nat.eqb_refl. ring.
      * replace (3 * q + d =? 3 * k + d)%nat with false by (symmetry; apply Nat.eqb_neq; lia).
        pose proof (corner_volume x k q Hk Hq Nq) as HV. unfold g. rewrite ED in *. cbn [rsum] in *.
        transitivity (1 - (0 + xS x k 0 * (x k 0%nat - x q 0%nat) + xS x k 1 * (x k 1%nat - x q 1%nat) + xS x k 2 * (x k 2%nat - x q 2%nat)) / (6 * W)).
        -- rewrite HV. field. lra.
        -- field. lra.
    + replace (3 * q + a =? 3 * k + d)%nat with false by (symmetry; apply Nat.eqb_neq; lia). cbn [rsum]. ring.
Qed.

Section Mesh.
  Variables (p : problem) (E nu : R).
  Hypothesis Hp : tets p E nu.

  Lemma tet_at e : In e (p_elements p) -> e_n e = 4%nat /\ exists rho m, elast_tet4 (p_coords p e) [E; nu; rho] = Ok (p_stiff p e, m).
  Proof.
    intros He. destruct Hp as [Hs Hel]. rewrite Forall_forall in Hel. destruct (Hel e He) as [En (im & rho & Ei & Em)]. split; [exact En|].
    pose proof Hs as (_ & _ & _ & _ & Hse & _). rewrite Forall_forall in Hse.
    destruct (Hse e He) as [(ty & Et & _) (im' & f & E' & nu' & rho' & k & m & Ei' & Em' & _ & _ & Ef & Hrun & Hcase)].
    assert (im' = im) by congruence. subst im'. rewrite Em in Em'. injection Em' as <- <- <-.
    destruct Hcase as [[_ Hc]|(H8 & _)]; [|lia]. exists rho, m. unfold p_stiff.
    rewrite (solid_ret p Hs e ty im _ f He Et Ei Em Ef), <- Hc, Hrun. destruct m; reflexivity.
  Qed.

  Lemma tets_forces t A i d : (d < 3)%nat -> p_internal p (affine_at (p_nodes p) t A) i d = faces_force (p_nodes p) (p_elements p) (stress3 E nu A) i d.
  Proof.
    intros Hd. unfold p_internal, faces_force, faces_at. rewrite (proj1 (proj1 Hp)), lsum_flat_map. apply lsum_ext. intros e He.
    destruct (tet_at e He) as [En (rho & m & Hrun)]. rewrite En, lsum_flat_map, lsum_filter, lsum_seq. apply rsum_ext. intros k Hk.
    destruct (Nat.eqb_spec (e_node e k) i) as [<-|]; [|reflexivity].
    rewrite (act_ext 12 _ _ (affine3 (p_coords p e) t A)).
    - rewrite (tet_forces (p_coords p e) E nu rho _ m t A k d Hrun Hk Hd), lsum_map.
      assert (EX : forall q c, (q < 4)%nat -> ent (p_coords p e) q c = ent (p_nodes p) (e_node e q) (S c)) by (intros q c Hq; apply ent_coords; lia).
      unfold face_force. rewrite (lsum_ext _ (fun ab => rsum 3 (fun c => stress3 E nu A d c * xa (ent (p_coords p e)) k (fst ab) (snd ab) c) / 6)).
      + unfold xS. lt4 k Hk; unfold faces4; cbn [nth]; unfold lsum; cbn [fold_right rsum fst snd]; field.
      + intros [a b] Hab. cbn [fst snd]. f_equal. apply rsum_ext. intros c Hc. f_equal. unfold area3, xa. cbv zeta.
        assert (Hq : (a < 4)%nat /\ (b < 4)%nat) by (lt4 k Hk; cbn in Hab; repeat (destruct Hab as [Hab|Hab]; [injection Hab as <- <-; lia|]); destruct Hab).
        destruct c as [|[|c]]; rewrite !EX by tauto; reflexivity.
    - intros j Hj. unfold p_disp. rewrite (proj1 (proj1 Hp)). unfold affine_at, affine3.
      f_equal. apply rsum_ext. intros c _. f_equal. rewrite ent_coords; [reflexivity|]. rewrite En. apply Nat.div_lt_upper_bound; lia.
  Qed.

  Lemma tets_interior t A i d : (d < 3)%nat -> surrounded3 (p_elements p) i -> p_internal p (affine_at (p_nodes p) t A) i d = 0.
  Proof.
    intros Hd HP. rewrite tets_forces by exact Hd. unfold faces_force. set (F := faces_at (p_elements p) i) in *.
    set (f := fun jl : nat * nat => face_force (p_nodes p) (stress3 E nu A) i (fst jl) (snd jl) d).
    assert (X : lsum f F = - lsum f F).
    { transitivity (lsum f (map (fun jl => (snd jl, fst jl)) F)); [exact (lsum_permutation f _ _ HP)|]. rewrite lsum_map. unfold f. cbn [fst snd].
      rewrite (lsum_ext (fun b => face_force (p_nodes p) (stress3 E nu A) i (snd b) (fst b) d) (fun b => -1 * face_force (p_nodes p) (stress3 E nu A) i (fst b) (snd b) d)).
      - rewrite lsum_scal. ring.
      - intros jl _. unfold face_force, area3. cbn [rsum]. cbv zeta. field. }
    lra.
  Qed.

  Lemma tets_run sv sparse U t A : solvers_ok sv -> p_stable p -> p_admissible p (affine_at (p_nodes p) t A) ->
    (forall i d, p_dof p i d -> ent (p_cons p) i d = 0 -> applied (p_loads p) i d = faces_force (p_nodes p) (p_elements p) (stress3 E nu A) i d) ->
    p_script sv p sparse = Ok U -> forall i d, p_dof p i d -> ent U i d = affine_at (p_nodes p) t A i d.
  Proof.
    intros Hsv Hst Ha Hl HU. destruct (p_equilibrium_run sv p sparse U (solid_wf p (proj1 Hp)) Hsv HU) as [_ HQ].
    apply (p_unique p _ _ Hst HQ). intros i d Hdof. split; [intros C; exact (Ha i d Hdof C)|]. intros C. rewrite (Hl i d Hdof C).
    apply tets_forces. rewrite <- (proj1 (proj1 Hp)). apply Hdof.
  Qed.
End Mesh.
