(** * Proofs: positive kinetic energy and natural frequencies of meshes *)
From Coq Require Import String Reals List Arith Lia Lra Bool ZArith QArith Qreals.
From Verif Require Import Num LinAlg Gauss Fem Uel Assem Main Script Spec LinR Base ElemShape BarProofs SpecElem SpecShape ShapeProofs ElemCore Sampled Elem2 Elem2Props Elem3 Elem3Props ElemFinal2.
From Verif Require Import ElemAxi MassPos SpecAssem SpecModel SpecStatic SpecScript SpecSolid SpecMass ElemFinal3 ModelProofs StaticProofs ScriptProofs ScriptProofs2 SolidProofs.
Import ListNotations.
Local Open Scope R_scope.

Lemma sampled_pd nst nd ndof C dens gs K M : sampled nst nd ndof C dens gs K M -> 0 < dens -> (forall g, In g gs -> 0 < g_w g) ->
  (forall u, (forall g a, In g gs -> (a < nd)%nat -> g_val g u a = 0) -> forall j, (j < ndof)%nat -> u j = 0) ->
  positive_definite ndof M.
Proof.
  intros HS Hd Hw Hu u (j & Hj & Hne). rewrite (sa_M _ _ _ _ _ _ _ _ HS). apply Rmult_lt_0_compat; [exact Hd|].
  assert (G : forall g, In g gs -> 0 <= vM nd u u g).
  { intros g Hg. unfold vM. apply Rmult_le_pos; [apply Rlt_le, Hw, Hg|]. apply rsum_nonneg. intros a _. exact (Rle_0_sqr _). }
  destruct (lsum_nonneg0 _ _ G) as [H0 H1]. destruct H0 as [H0|H0]; [exact H0|]. exfalso. apply Hne. apply (Hu u); [|exact Hj].
  intros g a Hg Ha. specialize (H1 (eq_sym H0) g Hg). unfold vM in H1. apply Rmult_integral in H1.
  destruct H1 as [H1|H1]; [specialize (Hw g Hg); lra|].
  assert (Z : g_val g u a * g_val g u a = 0).
  { apply (rsum_eq_zero_nonneg nd (fun a => g_val g u a * g_val g u a)); [intros; exact (Rle_0_sqr _)|exact H1|exact Ha]. }
  apply Rmult_integral in Z. tauto.
Qed.

Lemma uni2_all p : In p planes -> unisolvent2 p.
Proof. intros [<-|[<-|[<-|[<-|[<-|[]]]]]]; auto using uni_quad4, uni_tri6, uni_tri3, uni_quad9, uni_quad8. Qed.
Lemma uni3_all p : In p solids -> unisolvent3 p.
Proof. intros [<-|[<-|[]]]; auto using uni_tet4, uni_hex8. Qed.

Lemma uni2_vanish p (G : R * R * R -> gdat) : unisolvent2 p ->
  (forall r s w, g_val (G (r, s, w)) = value2 (pl_n p) (fst (pl_sh p r s))) ->
  forall u, (forall g a, In g (map G (pl_gq p)) -> (a < 2)%nat -> g_val g u a = 0) -> forall j, (j < 2 * pl_n p)%nat -> u j = 0.
Proof.
  intros Hu HG u H j Hj.
  assert (E : forall a, (a < 2)%nat -> forall k, (k < pl_n p)%nat -> u (2 * k + a)%nat = 0).
  { intros a Ha. apply (Hu (fun k => u (2 * k + a)%nat)). intros r s w Hin.
    specialize (H (G (r, s, w)) a (in_map G _ _ Hin) Ha). rewrite HG in H.
    destruct a as [|[|a]]; [|exact H|lia]. rewrite (rsum_ext (pl_n p) _ (fun k => nth k (fst (pl_sh p r s)) 0 * u (2 * k)%nat)); [exact H|]. intros k _. rewrite Nat.add_0_r. reflexivity. }
  rewrite (Nat.div_mod j 2) by lia. apply E; [apply Nat.mod_upper_bound; lia|apply Nat.div_lt_upper_bound; lia].
Qed.

Lemma plane_pd p coord params K M E nu rho : In p planes -> pl_f p coord params = Ok (K, M2 M) ->
  pl_par p params = Some (E, nu, rho) -> 0 < rho -> positive_definite (2 * pl_n p) M.
Proof.
  intros Hp Hf Hpar Hr. destruct (plane_summary p coord params K (M2 M) Hp Hf) as (E' & nu' & rho' & M' & Hpar' & _ & Ha & HM & HS).
  rewrite Hpar in Hpar'. injection Hpar' as <- <- <-. injection HM as <-.
  apply (sampled_pd _ _ _ _ _ _ _ _ HS Hr).
  - intros g. apply gs_weights; assumption.
  - apply uni2_vanish; [exact (uni2_all p Hp)|reflexivity].
Qed.
Lemma axi_pd coord E nu rho K M : elast_axi_quad9 coord [E; nu; rho] = Ok (K, M2 M) -> 0 < rho -> positive_definite 18 M.
Proof.
  intros Hf Hr. apply axi_sampled in Hf. destruct Hf as (E' & nu' & rho' & M' & Hp & _ & _ & Ha & HM & HS).
  injection Hp as <- <- <-. injection HM as <-. apply (sampled_pd _ _ _ _ _ _ _ _ HS Hr).
  - intros g. apply gsA_weights. exact Ha.
  - apply (uni2_vanish pl_quad9); [exact uni_quad9|reflexivity].
Qed.
Lemma solid_pd p coord E nu rho K M : In p solids -> so_f p coord [E; nu; rho] = Ok (K, M2 M) -> 0 < rho -> positive_definite (3 * so_n p) M.
Proof.
  intros Hp Hf Hr. destruct (solid_summary p coord _ K (M2 M) Hp Hf) as (E' & nu' & rho' & M' & Hpar & _ & _ & Ha & HM & HS).
  injection Hpar as <- <- <-. injection HM as <-. apply (sampled_pd _ _ _ _ _ _ _ _ HS Hr).
  - intros g. apply gs3_weights; assumption.
  - intros u H j Hj.
    assert (E' : forall a, (a < 3)%nat -> forall k, (k < so_n p)%nat -> u (3 * k + a)%nat = 0).
    { intros a Ha'. apply (uni3_all p Hp (fun k => u (3 * k + a)%nat)). intros r s t w Hin.
      specialize (H (gdat3 (so_n p) (so_sh p) coord (so_c p) (r, s, t, w)) a (in_map _ _ _ Hin) Ha'). exact H. }
    rewrite (Nat.div_mod j 3) by lia. apply E'; [apply Nat.mod_upper_bound; lia|apply Nat.div_lt_upper_bound; lia].
Qed.
Lemma truss_pd coord params K M E A rest : truss2D coord params = Ok (K, M2 M) -> params = E :: A :: rest -> 0 < A -> 0 < opt_dens params ->
  positive_definite 4 M.
Proof.
  intros Hf Hp HA Hd u (j & Hj & Hne). apply truss_inv in Hf. destruct Hf as (nx & ny & L & y & a & r & Ha & Hp' & _ & HM).
  apply M2_inj in HM. subst M. rewrite Hp in Hp'. injection Hp' as <- <- <-. pose proof (axis_pos _ _ _ _ Ha) as HL.
  rewrite truss_mass_form. apply Rmult_lt_0_compat.
  - apply Rmult_lt_0_compat; [|lra]. apply Rmult_lt_0_compat; [|exact Hd]. apply Rmult_lt_0_compat; assumption.
  - set (a := u 0%nat). set (b := u 1%nat). set (c := u 2%nat). set (d := u 3%nat).
    assert (S : a * a + b * b + c * c + d * d > 0).
    { assert (N : forall x : R, x <> 0 -> 0 < x * x) by (intros x Hx; apply Rsqr_pos_lt; exact Hx).
      assert (P : forall x : R, 0 <= x * x) by (intros x; apply Rle_0_sqr).
      pose proof (P a). pose proof (P b). pose proof (P c). pose proof (P d).
      lt4 j Hj; pose proof (N _ Hne); subst a b c d; lra. }
    pose proof (Rle_0_sqr (a + c)). pose proof (Rle_0_sqr (b + d)). unfold Rsqr in *. lra.
Qed.

(** ** meshes *)
Definition masses_ok (p : problem) : Prop :=
  (forall e, In e (p_elements p) -> symmetric (p_dofs p * e_n e) (p_mass p e) /\ positive_definite (p_dofs p * e_n e) (p_mass p e)) /\
  forall i, (i < length (p_nodes p))%nat -> exists e k, In e (p_elements p) /\ (k < e_n e)%nat /\ e_node e k = i.

Lemma mesh_kinetic p U : wf_problem p -> masses_ok p -> (exists i d, p_dof p i d /\ U i d <> 0) -> 0 < p_kinetic p U U.
Proof. intros Hwf [H1 H2]. apply p_kinetic_pos; [exact Hwf| |exact H2]. intros e He. exact (proj2 (H1 e He)). Qed.
Lemma mesh_modes p lam U : wf_problem p -> p_psd p -> masses_ok p -> p_mode p lam U ->
  0 <= lam /\ lam = p_energy p U U / p_kinetic p U U /\ (p_stable p -> 0 < lam).
Proof. intros Hwf Hp Hm HU. apply p_mode_nonneg; auto. apply mesh_kinetic; auto. exact (proj1 (proj2 HU)). Qed.
Lemma mesh_orthogonal p lam mu U V : p_psd p -> masses_ok p -> p_mode p lam U -> p_mode p mu V -> lam <> mu ->
  p_kinetic p U V = 0 /\ p_energy p U V = 0.
Proof. intros Hp [Hm _]. apply p_modes_orthogonal; [exact Hp|]. intros e He. exact (proj1 (Hm e He)). Qed.
Lemma mesh_mass_pd p sparse gk gm : wf_problem p -> masses_ok p -> p_matrices p sparse = Ok (gk, gm) ->
  positive_definite (count_free (p_cons p)) (snd (mats_of (gk, gm))).
Proof.
  intros Hwf Hm H. destruct (p_system p Hwf) as (op & bc & K & M & F). rewrite (p_matrices_eq p op bc K M sparse F) in H.
  assert (E : snd (mats_of (gk, gm)) = M) by (destruct sparse; injection H as <- <-; reflexivity). rewrite E. clear H E.
  intros u (q & Hq & Hne). pose proof (spread_of_ok bc (p_dofs p) u) as Hs.
  rewrite (proj2 (pf_energy _ _ _ _ _ F u _ u _ Hs Hs)). apply mesh_kinetic; [exact Hwf|exact Hm|].
  pose proof (pf_bc _ _ _ _ _ F) as (_ & _ & _ & Hsur). destruct (Hsur q Hq) as (i & b & Hi & Hb & E).
  rewrite (pf_len _ _ _ _ _ F) in Hi. exists i, b. split; [split; assumption|]. unfold spread_of. rewrite E.
  replace (Z.of_nat q =? -1)%Z with false by (symmetry; apply Z.eqb_neq; lia). rewrite Nat2Z.id. exact Hne.
Qed.

(** one free dof: one mode *)
Lemma mesh_one p : wf_problem p -> masses_ok p -> count_free (p_cons p) = 1%nat -> exists lam U, p_mode p lam U.
Proof.
  intros Hwf Hm H1. destruct (p_system p Hwf) as (op & bc & K & M & F).
  pose proof (mesh_mass_pd p false (Dense K) (Dense M) Hwf Hm (p_matrices_eq p op bc K M false F)) as HM. cbn [mats_of snd] in HM.
  exists (act 1 K (fun _ => 1) 0 / act 1 M (fun _ => 1) 0), (spread_of bc (fun _ => 1)).
  apply (p_eigen p op bc K M _ (fun _ => 1) _ Hwf F (spread_of_ok bc _ _)). rewrite H1 in *. split; [exists 0%nat; split; [lia|lra]|].
  intros q Hq. assert (q = 0%nat) by lia. subst q. specialize (HM (fun _ => 1)). unfold form in HM. cbn [rsum] in HM.
  field. assert (0 < 0 + 1 * act 1 M (fun _ => 1) 0) by (apply HM; exists 0%nat; split; [lia|lra]). lra.
Qed.

(** *** plane models and trusses *)
Lemma heavy_cases t params : heavy t params ->
  (t = 1%Z \/ t = 2%Z \/ t = 3%Z \/ t = 4%Z) /\ (exists E nu rest, params = E :: nu :: rest /\ 0 <= E /\ -1 < nu < 1 /\ (rest = [] \/ 0 < last rest 0)) \/
  t = 6%Z /\ exists E A rest, params = E :: A :: rest /\ 0 <= E /\ 0 < A /\ (rest = [] \/ 0 < last rest 0).
Proof. unfold heavy. intros H. destruct t as [|q|q]; try contradiction. repeat (match goal with H : match ?q with _ => _ end |- _ => destruct q; try contradiction end); tauto. Qed.
Lemma heavy_material t params : heavy t params -> material_ok t params.
Proof.
  intros H. apply heavy_cases in H. destruct H as [[Ht (E & nu & rest & -> & HE & Hn & Hr)]|[-> (E & A & rest & -> & HE & HA & Hr)]].
  - assert (G : exists E' nu' rest', E :: nu :: rest = E' :: nu' :: rest' /\ 0 <= E' /\ -1 < nu' < 1 /\ (rest' = [] \/ 0 <= last rest' 0)).
    { exists E, nu, rest. split; [reflexivity|]. split; [exact HE|]. split; [exact Hn|]. destruct Hr as [Hr|Hr]; [left; exact Hr|right; lra]. }
    destruct Ht as [->|[->|[->| ->]]]; exact G.
  - exists E, A, rest. split; [reflexivity|]. split; [apply Rmult_le_pos; lra|].
    destruct rest as [|x rest]; [left; split; [reflexivity|lra]|]. destruct Hr as [Hr|Hr]; [discriminate|].
    right. split; [discriminate|]. apply Rmult_le_pos; lra.
Qed.
Lemma heavy_dens a b rest : rest = [] \/ 0 < last rest 0 -> 0 < @opt_dens R Num_R (a :: b :: rest).
Proof.
  intros [->|Hr]; [cbn; lra|]. destruct rest as [|x rest]; [cbn; lra|].
  assert (D : forall l (y : R) d d', last (y :: l) d = last (y :: l) d') by (induction l; intros; [reflexivity|apply IHl]).
  rewrite (D rest x 0 1) in Hr. exact Hr.
Qed.
Lemma heavy_pd t f nd nn ng coord params K M : @ele_fun R Num_R t = Ok f -> eletype t = Ok (nd, nn, ng) -> f coord params = Ok (K, M2 M) -> heavy t params ->
  positive_definite nd M.
Proof.
  intros Hf Ht Hk Hh. apply heavy_cases in Hh. destruct Hh as [[Ty (E & nu & rest & -> & HE & Hn & Hr)]|[-> (E & A & rest & -> & HE & HA & Hr)]].
  - pose proof (heavy_dens E nu rest Hr) as Hd.
    destruct Ty as [->|[->|[->| ->]]]; cbn in Hf, Ht; injection Hf as <-; injection Ht as <- _ _;
      [apply (plane_pd pl_quad4 coord (E :: nu :: rest) K M E nu (opt_dens (E :: nu :: rest)))
      |apply (plane_pd pl_tri6 coord (E :: nu :: rest) K M E nu (opt_dens (E :: nu :: rest)))
      |apply (plane_pd pl_tri3 coord (E :: nu :: rest) K M E nu (opt_dens (E :: nu :: rest)))
      |apply (plane_pd pl_quad9 coord (E :: nu :: rest) K M E nu (opt_dens (E :: nu :: rest)))]; try exact Hk; try exact Hd; try reflexivity; cbn; tauto.
  - cbn in Hf, Ht. injection Hf as <-. injection Ht as <- _ _.
    exact (truss_pd coord _ K M E A rest Hk eq_refl HA (heavy_dens E A rest Hr)).
Qed.

Section Plane.
  Variable md : model.
  Hypothesis Hwf : wf_model md.
  Hypothesis Hacc : accepted md.
  Let p := plane_problem md.

  Lemma plane_elem e : In e (md_elements md) -> exists t im params f nd nn ng coord K M, nth_error e 1 = Some t /\ nth_error e 2 = Some im /\
    np_get (md_mats md) im = Ok params /\ @ele_fun R Num_R t = Ok f /\ eletype t = Ok (nd, nn, ng) /\ f coord params = Ok (K, M2 M) /\
    nd = (2 * e_n e)%nat /\ retriever e (md_mats md) (md_nodes md) None = Ok (K, M2 M) /\ shape nd nd K /\ shape nd nd M.
  Proof.
    intros He. pose proof Hacc as HA. unfold accepted in HA. rewrite Forall_forall in HA. destruct (HA e He) as [(t & Et & Hd & _) (K & M & Hret)].
    pose proof Hret as Hret0. apply retriever_builtin in Hret. destruct Hret as (t' & im & pr & rs & f & Ht & Hi & Hp & _ & Hf & Hk).
    assert (G : forall (z : Z) (k : nat), np_get e (Z.of_nat k) = Ok z -> nth_error e k = Some z).
    { intros z k Hz. destruct (nth_error e k) eqn:E; [rewrite (np_get_error _ _ _ E) in Hz; congruence|].
      apply nth_error_None in E. rewrite np_get_overflow in Hz by lia. discriminate. }
    pose proof (G t' 1%nat Ht) as Ht'. pose proof (G im 2%nat Hi) as Hi'. rewrite Et in Ht'. injection Ht' as <-.
    unfold dofs_of in Hd. inv_ok Hd. destruct r as [[nd nn] ng]. injection Hd as Hd.
    exists t, im, pr, f, nd, nn, ng, (map (@tl R) rs), K, M. repeat (split; [assumption|]).
    split; [unfold e_n; lia|]. split; [exact Hret0|].
    destruct (ele_fun_shape t f nd nn ng _ _ _ _ Hf Hr Hk) as [S [[_ C]|[_ (M' & E & S')]]]; [discriminate|]. injection E as <-. split; assumption.
  Qed.
  Lemma plane_wf : wf_problem p.
  Proof.
    destruct Hwf as (Hf & HL & _ & Hld). split; [cbn; lia|]. split; [exact Hf|]. split; [exact HL|]. split; [|exact Hld].
    apply Forall_forall. intros e He. pose proof Hacc as HA. unfold accepted in HA. rewrite Forall_forall in HA. split; [exact (proj1 (HA e He))|].
    destruct (plane_elem e He) as (t & im & pr & f & nd & nn & ng & co & K & M & _ & _ & _ & _ & _ & _ & -> & Hret & SK & SM).
    exists K, M. auto.
  Qed.
  Hypothesis Hh : heavy_model md.
  Lemma plane_ok e : In e (md_elements md) -> symmetric (2 * e_n e) (p_stiff p e) /\ psd (2 * e_n e) (p_stiff p e) /\
    symmetric (2 * e_n e) (p_mass p e) /\ positive_definite (2 * e_n e) (p_mass p e).
  Proof.
    intros He. destruct (plane_elem e He) as (t & im & pr & f & nd & nn & ng & co & K & M & Et & Ei & Hp & Hf & Ht & Hk & En & Hret & SK & SM).
    pose proof (proj1 Hh e t im pr He Et Ei Hp) as Hm. destruct (builtin_sym_psd t f co pr K M Hf Hk (heavy_material _ _ Hm)) as (A & B & C & D).
    rewrite (proj1 SK), En in *. unfold p_stiff, p_mass. cbn [p_mats p_nodes p_uel p plane_problem]. rewrite Hret. repeat (split; [assumption|]).
    exact (heavy_pd t f _ nn ng co pr K M Hf Ht Hk Hm).
  Qed.
  Lemma plane_p_psd : p_psd p.
  Proof. intros e He. destruct (plane_ok e He) as (A & B & _). split; assumption. Qed.
  Lemma plane_masses : masses_ok p.
  Proof. split; [intros e He; destruct (plane_ok e He) as (_ & _ & A & B); split; assumption|exact (proj2 Hh)]. Qed.
  Lemma plane_kinetic U : (exists i d, p_dof p i d /\ U i d <> 0) -> 0 < p_kinetic p U U.
  Proof. apply mesh_kinetic; [exact plane_wf|exact plane_masses]. Qed.
  Lemma plane_modes lam U : p_mode p lam U -> 0 <= lam /\ lam = p_energy p U U / p_kinetic p U U /\ (stable md -> 0 < lam).
  Proof.
    intros HU. destruct (mesh_modes p lam U plane_wf plane_p_psd plane_masses HU) as (A & B & C). split; [exact A|]. split; [exact B|].
    intros Hs. apply C. intros V HV i d [Hi Hd]. apply (Hs V); [|exact Hi|exact Hd]. intros i' d' Hi' Hd'. exact (HV i' d' (conj Hi' Hd')).
  Qed.
  Lemma plane_orthogonal lam mu U V : p_mode p lam U -> p_mode p mu V -> lam <> mu -> p_kinetic p U V = 0 /\ p_energy p U V = 0.
  Proof. exact (mesh_orthogonal p lam mu U V plane_p_psd plane_masses). Qed.
  Lemma plane_mass_pd sparse gk gm : p_matrices p sparse = Ok (gk, gm) -> positive_definite (count_free (md_cons md)) (snd (mats_of (gk, gm))).
  Proof. exact (mesh_mass_pd p sparse gk gm plane_wf plane_masses). Qed.
End Plane.

(** *** solids *)
Section Solids.
  Variable p : problem.
  Hypothesis Hp : solid_mesh p.
  Hypothesis Hh : heavy_solids p.
  Hypothesis Hc : forall i, (i < length (p_nodes p))%nat -> exists e, In e (p_elements p) /\ has_node e i.
  Lemma solid_masses : masses_ok p.
  Proof.
    split.
    - intros e He. pose proof Hp as (Hd & _ & _ & Hl & Hel & _). rewrite Forall_forall in Hel. rewrite Hd.
      destruct (Hel e He) as [(t & Et & _) (im & f & E & nu & rho & k & m & Ei & Em & HE & Hnu & Ef & Hrun & Hcase)].
      pose proof (Hh e im E nu rho He Ei Em) as Hr. unfold p_mass. rewrite (solid_ret p Hp e t im _ f He Et Ei Em Ef).
      assert (G : exists s, In s solids /\ e_n e = so_n s /\ f (p_coords p e) [E; nu; rho] = so_f s (p_coords p e) [E; nu; rho]).
      { destruct Hcase as [[H1 H2]|(H1 & H2 & _)]; [exists so_tet4|exists so_hex8]; (split; [cbn; tauto|split; [exact H1|exact H2]]). }
      destruct G as (s & Hs & -> & Eq). rewrite Eq in *. clear Hcase.
      destruct (solid_summary s _ _ k m Hs Hrun) as (E' & nu' & rho' & M & Hpar & _ & _ & _ & -> & HS). injection Hpar as <- <- <-. rewrite Hrun.
      split; [|exact (solid_pd s _ E nu rho k M Hs Hrun Hr)].
      apply sym_of_form. intros u v. rewrite !(sa_M _ _ _ _ _ _ _ _ HS). f_equal. apply lsum_ext. intros g _. unfold vM. f_equal. apply rsum_ext. intros; ring.
    - intros i Hi. destruct (Hc i Hi) as (e & He & k & Hk & E). exists e, k. auto.
  Qed.
  Lemma solids_kinetic U : (exists i d, p_dof p i d /\ U i d <> 0) -> 0 < p_kinetic p U U.
  Proof. apply mesh_kinetic; [exact (solid_wf p Hp)|exact solid_masses]. Qed.
  Lemma solids_modes lam U : p_mode p lam U -> 0 <= lam /\ lam = p_energy p U U / p_kinetic p U U /\ (connected3 p -> supported3 p -> 0 < lam).
  Proof.
    intros HU. destruct (mesh_modes p lam U (solid_wf p Hp) (solid_psd p Hp) solid_masses HU) as (A & B & C).
    split; [exact A|]. split; [exact B|]. intros H1 H2. exact (C (solid_stable p Hp H1 H2)).
  Qed.
  Lemma solids_orthogonal lam mu U V : p_mode p lam U -> p_mode p mu V -> lam <> mu -> p_kinetic p U V = 0 /\ p_energy p U V = 0.
  Proof. exact (mesh_orthogonal p lam mu U V (solid_psd p Hp) solid_masses). Qed.
  Lemma solids_mass_pd sparse gk gm : p_matrices p sparse = Ok (gk, gm) -> positive_definite (count_free (p_cons p)) (snd (mats_of (gk, gm))).
  Proof. exact (mesh_mass_pd p sparse gk gm (solid_wf p Hp) solid_masses). Qed.
End Solids.
