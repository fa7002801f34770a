(** * Proofs: the natural motions of a mesh *)
From Coq Require Import Reals List Arith Lia Lra Bool ZArith.
From Verif Require Import Num LinAlg Uel Assem Main Script Spec LinR Base SpecAssem SpecModel SpecElem SpecStatic SpecModes SpecScript SpecSolid SpecMass
  ElemCore BarProofs BeamFrame StaticProofs ScriptProofs ScriptProofs2 ScriptFinal SolidProofs MassPos2 Spectral.
Import ListNotations.
Local Open Scope R_scope.

Lemma mesh_basis p : wf_problem p -> p_psd p -> masses_ok p -> exists lam U, modal_basis p lam U.
Proof.
  intros Hwf HP Hm. destruct (p_system p Hwf) as (op & bc & K & M & F). set (n := count_free (p_cons p)).
  pose proof (mesh_mass_pd p false (Dense K) (Dense M) Hwf Hm (p_matrices_eq p op bc K M false F)) as PM. cbn [mats_of snd] in PM. fold n in PM.
  assert (FE : forall u v, form n K u v = p_energy p (spread_of bc u) (spread_of bc v) /\ form n M u v = p_kinetic p (spread_of bc u) (spread_of bc v)).
  { intros u v. exact (pf_energy _ _ _ _ _ F u _ v _ (spread_of_ok bc _ u) (spread_of_ok bc _ v)). }
  assert (SK : symmetric n K).
  { apply sym_of_form. intros u v. rewrite (proj1 (FE u v)), (proj1 (FE v u)). apply p_energy_sym. exact HP. }
  assert (SM : symmetric n M).
  { apply sym_of_form. intros u v. rewrite (proj2 (FE u v)), (proj2 (FE v u)). apply lsum_ext. intros e He. apply form_sym. exact (proj1 (proj1 Hm e He)). }
  destruct (modes_exist n K M SK SM (pf_M _ _ _ _ _ F) PM n (le_n n)) as (lam & x & H). pose proof H as [HE HO].
  exists lam, (fun k => spread_of bc (x k)). unfold modal_basis. fold n. split; [|split; [|split]].
  - intros k Hk. apply (p_eigen p op bc K M (lam k) (x k) _ Hwf F (spread_of_ok bc _ _)). fold n. split; [|intros a Ha; exact (HE k a Hk Ha)].
    apply Classical_Prop.NNPP. intros N. specialize (HO k k Hk Hk). unfold delta in HO. rewrite Nat.eqb_refl in HO.
    unfold form in HO. rewrite rsum_zero in HO; [lra|]. intros i Hi. destruct (Req_dec (x k i) 0) as [->|Z]; [ring|]. exfalso. apply N. exists i. auto.
  - intros k l Hk Hl. rewrite <- (proj2 (FE (x k) (x l))). exact (HO k l Hk Hl).
  - intros V HV. destruct (admissible_spread p op bc K M V Hwf F HV) as [v Hv].
    assert (Q : forall k, p_kinetic p (spread_of bc (x k)) V = form n M (x k) v).
    { intros k. symmetry. exact (proj2 (pf_energy _ _ _ _ _ F _ _ v V (spread_of_ok bc _ (x k)) Hv)). }
    assert (S : forall a, (a < n)%nat -> v a = rsum n (fun k => form n M (x k) v * x k a)) by exact (modes_span n K M SM PM lam x H v).
    split.
    + intros i d [Hi Hd]. rewrite <- (pf_len _ _ _ _ _ F) in Hi. rewrite (Hv i d Hi Hd).
      rewrite (rsum_ext n _ (fun k => if (zent bc i d =? -1)%Z then 0 else form n M (x k) v * x k (Z.to_nat (zent bc i d)))).
      * destruct (Z.eqb_spec (zent bc i d) (-1)) as [E|E]; [rewrite rsum_zero; auto|]. apply S.
        pose proof (pf_bc _ _ _ _ _ F) as (_ & Hrg & _). destruct (Hrg i d Hi Hd); lia.
      * intros k Hk. rewrite Q. unfold spread_of. destruct (zent bc i d =? -1)%Z; ring.
    + rewrite <- (proj1 (pf_energy _ _ _ _ _ F v V v V Hv Hv)). fold n.
      transitivity (form n K v (fun a => rsum n (fun k => form n M (x k) v * x k a))); [apply form_ext; [reflexivity|exact S]|].
      rewrite form_sum_r. apply rsum_ext. intros k Hk. rewrite Q.
      assert (E : form n K v (x k) = lam k * form n M v (x k)).
      { unfold form. rewrite <- rsum_scal. apply rsum_ext. intros a Ha. rewrite (HE k a Hk Ha). ring. }
      rewrite E, (form_sym n M v (x k) SM). ring.
  - intros l V HV. destruct (admissible_spread p op bc K M V Hwf F (proj1 HV)) as [v Hv].
    apply (p_eigen p op bc K M l v V Hwf F Hv) in HV. destruct HV as [Hne Hl].
    exact (modes_all n K M SK SM PM lam x l v H Hne Hl).
Qed.

Lemma plane_basis md : wf_model md -> accepted md -> heavy_model md -> exists lam U, modal_basis (plane_problem md) lam U.
Proof. intros A B C. exact (mesh_basis _ (plane_wf md A B) (plane_p_psd md B C) (plane_masses md B C)). Qed.
Lemma solids_basis p : solid_mesh p -> heavy_solids p -> (forall i, (i < length (p_nodes p))%nat -> exists e, In e (p_elements p) /\ has_node e i) ->
  exists lam U, modal_basis p lam U.
Proof. intros A B C. exact (mesh_basis _ (solid_wf p A) (solid_psd p A) (solid_masses p A B C)). Qed.
Lemma frame_masses p : frame p -> (forall i, (i < length (p_nodes p))%nat -> exists e k, In e (p_elements p) /\ (k < 2)%nat /\ e_node e k = i) -> masses_ok p.
Proof.
  intros Hf Hc. split.
  - intros e He. destruct (frame_facts p Hf e He) as (E & I & A & _ & _ & _ & En & _ & _ & _ & F). cbv zeta in F. destruct F as (_ & F1 & F2).
    rewrite (proj1 Hf), En in *. split; [exact F1|exact F2].
  - intros i Hi. destruct (Hc i Hi) as (e & k & He & Hk & E). exists e, k. split; [exact He|]. split; [|exact E].
    destruct (frame_facts p Hf e He) as (_ & _ & _ & _ & _ & _ & En & _). rewrite En. exact Hk.
Qed.
Lemma frame_basis p : frame p -> (forall i, (i < length (p_nodes p))%nat -> exists e k, In e (p_elements p) /\ (k < 2)%nat /\ e_node e k = i) ->
  exists lam U, modal_basis p lam U.
Proof. intros Hf Hc. exact (mesh_basis _ (frame_wf p Hf) (frame_psd p Hf) (frame_masses p Hf Hc)). Qed.
Lemma frame_mass_pd p : frame p -> (forall i, (i < length (p_nodes p))%nat -> exists e k, In e (p_elements p) /\ (k < 2)%nat /\ e_node e k = i) ->
  forall sparse gk gm, p_matrices p sparse = Ok (gk, gm) -> positive_definite (count_free (p_cons p)) (snd (mats_of (gk, gm))).
Proof. intros Hf Hc sparse gk gm. exact (mesh_mass_pd p sparse gk gm (frame_wf p Hf) (frame_masses p Hf Hc)). Qed.

(** ** the elements in their final form *)
Lemma plane_list_pd f n : In (f, n) ElemFinal2.plane_list -> forall coord E nu rho K M, f coord [E; nu; rho] = Ok (K, M2 M) -> 0 < rho ->
  positive_definite (2 * n) M.
Proof.
  intros H. destruct (ElemFinal2.plane_of f n H) as (p & Hp & <- & <-). intros coord E nu rho K M Hf Hr.
  exact (plane_pd p coord _ K M E nu rho Hp Hf (ElemFinal2.plane_par3 p E nu rho Hp) Hr).
Qed.
Lemma solid_list_pd f n : In (f, n) ElemFinal2.solid_list -> forall coord E nu rho K M, f coord [E; nu; rho] = Ok (K, M2 M) -> 0 < rho ->
  positive_definite (3 * n) M.
Proof. intros H. destruct (ElemFinal2.solid_of f n H) as (p & Hp & <- & <-). intros. eapply solid_pd; eassumption. Qed.
Lemma truss_list_pd coord E A rho K M : truss2D coord [E; A; rho] = Ok (K, M2 M) -> 0 < A -> 0 < rho -> positive_definite 4 M.
Proof. intros Hf HA Hr. exact (truss_pd coord _ K M E A [rho] Hf eq_refl HA Hr). Qed.
