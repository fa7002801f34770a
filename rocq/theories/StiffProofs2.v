(** * Lemmas: supports, materials and elements added to a structure *)
From Coq Require Import Reals List Arith Lia Lra Bool ZArith.
From Verif Require Import Num LinAlg Gauss Fem Uel Assem Main Script Spec LinR Base SpecAssem SpecModel SpecElem SpecStatic SpecModes SpecScript SpecSolid SpecMass SpecStiff
  ElemCore ElemShape Sampled Elem2 Elem2Props Elem2Mass Elem3 Elem3Props ElemAxi MatProofs BarProofs BeamFrame StaticProofs ModelProofs MeshProofs AssemProofs3 ElemFinal2 ElemFinal3 ScriptProofs ScriptProofs2 ScriptFinal QuadTables StiffProofs.
Import ListNotations.
Local Open Scope R_scope.

Lemma solid_proportional p : In p solids -> proportional (so_f p).
Proof.
  intros Hp coord E rest K M c H.
  destruct (solid_summary p coord _ K _ Hp H) as (E1 & nu & rho & M1 & Hpar & _ & _ & _ & Hm & _). injection Hm as <-. injection Hpar as -> ->.
  rewrite <- mscale_map. pose proof (solid_scaling p coord E1 nu rho K M c 1 Hp H) as G. rewrite Rmult_1_l in G. rewrite G. repeat f_equal.
  unfold mscale. rewrite (map_ext _ (fun r : list R => r)); [apply map_id|]. intros r. rewrite (map_ext _ (fun x : R => x)); [apply map_id|]. intros x. numR. ring.
Qed.
Lemma axi_proportional : proportional elast_axi_quad9.
Proof.
  intros coord E rest K M c H.
  destruct (axi_sampled coord _ K _ H) as (E1 & nu & rho & M1 & Hpar & Hn1 & Hn2 & Ha & Hm & HS). injection Hm as <-. injection Hpar as -> ->.
  destruct (axi_runs coord (c * E1) nu rho Hn1 Hn2 Ha) as (K' & M' & Hrun).
  destruct (axi_sampled coord _ K' _ Hrun) as (E2 & nu2 & rho2 & M2' & Hp2 & _ & _ & _ & Hm2 & HS2). injection Hp2 as <- <- <-. injection Hm2 as <-.
  rewrite Hrun, <- mscale_map. repeat f_equal.
  - apply (form_matrix_unique 18); [apply HS2|apply shape_mscale; apply HS|].
    intros. rewrite form_mscale, (sa_K _ _ _ _ _ _ _ _ HS), (sa_K _ _ _ _ _ _ _ _ HS2).
    rewrite <- lsum_scal. apply lsum_ext. intros g _. unfold vK, form, act, axi_R, lam, mu. cbv zeta. cbn [rsum]. unfold ent. cbn [nth]. unfold Rdiv. ring.
  - apply (form_matrix_unique 18); [apply HS2|apply HS|].
    intros. rewrite (sa_M _ _ _ _ _ _ _ _ HS), (sa_M _ _ _ _ _ _ _ _ HS2). reflexivity.
Qed.
Lemma truss_proportional : proportional truss2D.
Proof.
  intros coord E rest K M c H. unfold truss2D in *. inv_ok H. rewrite Hr. cbn [bind]. destruct r as [[nx ny] L].
  destruct rest as [|A rest]; [discriminate|]. injection H as <- <-.
  assert (Hc : ndiv (nmul A (c * E)) L = c * ndiv (nmul A E) L) by (numR; unfold Rdiv; ring).
  rewrite Hc, congr_mscale.
  assert (Hd : opt_dens (c * E :: A :: rest) = opt_dens (E :: A :: rest)) by (unfold opt_dens; destruct rest; reflexivity).
  rewrite Hd. reflexivity.
Qed.
Lemma beamU_proportional : proportional beam2DU.
Proof.
  intros coord E rest K M c H. unfold beam2DU in *. inv_ok H. rewrite Hr. cbn [bind]. destruct r as [[nx ny] L].
  destruct rest as [|I rest]; [discriminate|]. inv_ok H. rewrite Hr0. cbn [bind]. destruct r as [dens area]. injection H as <- <-.
  assert (Hc : forall x, ndiv (nmul I (c * E)) x = c * ndiv (nmul I E) x) by (intros; numR; unfold Rdiv; ring).
  rewrite Hc, congr_mscale. reflexivity.
Qed.
Lemma beam_proportional : proportional beam2D.
Proof.
  intros coord E rest K M c H. unfold beam2D in *. inv_ok H. rewrite Hr. cbn [bind]. destruct r as [[nx ny] L].
  destruct rest as [|I [|A rest]]; try discriminate. inv_ok H. rewrite Hr0. cbn [bind]. inv_ok H. rewrite Hr1. cbn [bind]. injection H as <- <-.
  assert (Hc : forall x, ndiv (nmul I (c * E)) x = c * ndiv (nmul I E) x) by (intros; numR; unfold Rdiv; ring).
  rewrite Hc, congr_mscale. reflexivity.
Qed.
Lemma spring_proportional : proportional spring.
Proof. intros coord E rest K M c H. unfold spring in H. inv_ok H. destruct r as [[nx ny] L]. inv_ok H. discriminate H. Qed.
Lemma ele_proportional t f : ele_fun t = Ok f -> proportional f.
Proof.
  intros H. unfold ele_fun in H.
  destruct (Z.eq_dec t 1) as [->|N1]; [injection H as <-; exact (plane_proportional pl_quad4 ltac:(cbn; tauto))|].
  destruct (Z.eq_dec t 2) as [->|N2]; [injection H as <-; exact (plane_proportional pl_tri6 ltac:(cbn; tauto))|].
  destruct (Z.eq_dec t 3) as [->|N3]; [injection H as <-; exact (plane_proportional pl_tri3 ltac:(cbn; tauto))|].
  destruct (Z.eq_dec t 4) as [->|N4]; [injection H as <-; exact (plane_proportional pl_quad9 ltac:(cbn; tauto))|].
  destruct (Z.eq_dec t 5) as [->|N5]; [injection H as <-; exact spring_proportional|].
  destruct (Z.eq_dec t 6) as [->|N6]; [injection H as <-; exact truss_proportional|].
  destruct (Z.eq_dec t 7) as [->|N7]; [injection H as <-; exact beamU_proportional|].
  destruct (Z.eq_dec t 8) as [->|N8]; [injection H as <-; exact beam_proportional|].
  destruct t as [|t|t]; try discriminate H. do 4 (try (destruct t; try discriminate H)); lia.
Qed.

(** ** the element list with harder materials *)
Lemma harder_get mats mats' im row : Forall2 harder mats mats' -> np_get mats im = Ok row -> exists row', np_get mats' im = Ok row' /\ harder row row'.
Proof.
  intros HF. assert (HL : length mats' = length mats) by (symmetry; clear - HF; induction HF; cbn; congruence).
  assert (G : forall k, nth_error mats k = Some row -> exists row', nth_error mats' k = Some row' /\ harder row row').
  { clear - HF. induction HF as [|a b l l' Hab _ IH]; intros [|k] Hk; try discriminate; [injection Hk as ->; exists b; split; [reflexivity|exact Hab]|exact (IH k Hk)]. }
  unfold np_get. rewrite HL. destruct (np_index (length mats) im) as [k|]; [|discriminate].
  destruct (nth_error mats k) as [r|] eqn:Ek; [|discriminate]. intros H. injection H as <-.
  destruct (G k Ek) as (row' & Hr & Hh). exists row'. rewrite Hr. split; [reflexivity|exact Hh].
Qed.
Lemma harder_retriever e mats mats' nodes uel k m :
  Forall2 harder mats mats' -> (forall f, uel = Some f -> proportional f) ->
  retriever e mats nodes uel = Ok (k, M2 m) -> exists c, 1 <= c /\ retriever e mats' nodes uel = Ok (mscale c k, M2 m).
Proof.
  intros HF Hu H. unfold retriever in *. inv_ok H. rewrite Hr. cbn [bind]. inv_ok H. rewrite Hr0. cbn [bind]. inv_ok H.
  destruct (harder_get _ _ _ _ HF Hr1) as (row' & Hg & Hh). rewrite Hg. cbn [bind]. inv_ok H. rewrite Hr2. cbn [bind]. inv_ok H. rewrite Hr3. cbn [bind].
  assert (Hp : proportional r3).
  { destruct uel as [f|]; [injection Hr3 as <-; exact (Hu f eq_refl)|exact (ele_proportional _ _ Hr3)]. }
  destruct Hh as [->|(c & E & rest & Hc & -> & ->)].
  - exists 1. split; [lra|]. rewrite H. f_equal. f_equal. unfold mscale.
    rewrite (map_ext _ (fun r : list R => r)); [rewrite map_id; reflexivity|]. intros x. rewrite (map_ext _ (fun x : R => x)); [apply map_id|]. intros y. numR. ring.
  - exists c. split; [exact Hc|]. rewrite mscale_map. exact (Hp _ _ _ _ _ c H).
Qed.

Section Reinforced.
Variables (p : problem) (cons mats : list (list R)) (extra : list (list Z)).
Let q := reinforced p cons mats extra.
Hypothesis Hwf : wf_problem p.
Hypothesis Hpsd : p_psd p.
Hypothesis Hu : forall f, p_uel p = Some f -> proportional f.
Hypothesis Hfl : flags01 (p_dofs p) cons.
Hypothesis Hlen : length cons = length (p_nodes p).
Hypothesis Hsup : forall i d, p_dof p i d -> ent (p_cons p) i d = -1 -> ent cons i d = -1.
Hypothesis Hmats : Forall2 harder (p_mats p) mats.
Hypothesis Hextra : Forall (fun e => good_row (p_dofs p) (p_max p) (p_ndof p) cons e /\
     exists k m, retriever e mats (p_nodes p) (p_uel p) = Ok (k, M2 m) /\
       shape (p_dofs p * e_n e) (p_dofs p * e_n e) k /\ shape (p_dofs p * e_n e) (p_dofs p * e_n e) m /\
       symmetric (p_dofs p * e_n e) k /\ psd (p_dofs p * e_n e) k) extra.

Lemma reinforced_stiff e : In e (p_elements p) -> exists c k m, 1 <= c /\ retriever e mats (p_nodes p) (p_uel p) = Ok (mscale c k, M2 m) /\
  p_stiff p e = k /\ p_mass p e = m /\ shape (p_dofs p * e_n e) (p_dofs p * e_n e) k /\ shape (p_dofs p * e_n e) (p_dofs p * e_n e) m.
Proof.
  intros He. destruct Hwf as (_ & _ & _ & HE & _). rewrite Forall_forall in HE. destruct (HE e He) as (_ & k & m & HR & Sk & Sm).
  destruct (harder_retriever _ _ _ _ _ _ _ Hmats Hu HR) as (c & Hc & HR').
  exists c, k, m. unfold p_stiff, p_mass. rewrite HR. repeat split; auto; apply Sk || apply Sm.
Qed.
Lemma reinforced_wf : wf_problem q.
Proof.
  pose proof Hwf as (H1 & H2 & H3 & H4 & H5). unfold wf_problem, q. cbn [reinforced p_dofs p_max p_ndof p_uel p_nodes p_cons p_elements p_mats p_loads].
  split; [exact H1|]. split; [exact Hfl|]. split; [exact Hlen|]. split; [|exact H5].
  apply Forall_app. split.
  - rewrite Forall_forall in *. intros e He. destruct (H4 e He) as (Hg & _). split.
    + unfold good_row in *. rewrite Hlen, <- H3. exact Hg.
    + destruct (reinforced_stiff e He) as (c & k & m & _ & HR & _ & _ & Sk & Sm). exists (mscale c k), m. split; [exact HR|]. split; [apply shape_mscale; exact Sk|exact Sm].
  - rewrite Forall_forall in *. intros e He. destruct (Hextra e He) as (Hg & k & m & HR & Sk & Sm & _). split; [exact Hg|]. exists k, m. auto.
Qed.
Lemma reinforced_psd : p_psd q.
Proof.
  intros e He. unfold q, p_stiff in *. cbn [reinforced p_dofs p_uel p_nodes p_elements p_mats] in *. apply in_app_or in He. destruct He as [He|He].
  - destruct (reinforced_stiff e He) as (c & k & m & Hc & HR & Ek & _ & Sk & _). rewrite HR. destruct (Hpsd e He) as (Hs & Hp). rewrite Ek in *. split.
    + intros i j Hi Hj. rewrite !ent_mscale. rewrite (Hs i j Hi Hj). reflexivity.
    + intros u. rewrite form_mscale. pose proof (Hp u). nra.
  - rewrite Forall_forall in Hextra. destruct (Hextra e He) as (_ & k & m & HR & _ & _ & Hs & Hp). rewrite HR. split; assumption.
Qed.
Lemma reinforced_stiffer : stiffer p q.
Proof.
  constructor; [reflexivity|reflexivity|exact Hsup|].
  intros U _. unfold p_energy at 2. change (p_elements q) with (p_elements p ++ extra). rewrite lsum_app.
  assert (A : p_energy p U U <= lsum (fun e => form (p_dofs q * e_n e) (p_stiff q e) (p_disp q U e) (p_disp q U e)) (p_elements p)).
  { unfold p_energy. apply lsum_le. intros e He. destruct (reinforced_stiff e He) as (c & k & m & Hc & HR & Ek & _). destruct (Hpsd e He) as (_ & Hp).
    assert (Eq : p_stiff q e = mscale c k) by (unfold p_stiff, q; cbn [reinforced p_uel p_nodes p_mats]; rewrite HR; reflexivity).
    rewrite Eq, form_mscale, Ek in *. change (p_disp q U e) with (p_disp p U e). change (p_dofs q) with (p_dofs p). pose proof (Hp (p_disp p U e)). nra. }
  assert (B : 0 <= lsum (fun e => form (p_dofs q * e_n e) (p_stiff q e) (p_disp q U e) (p_disp q U e)) extra).
  { apply lsum_nonneg. intros e He. assert (Hq : In e (p_elements q)) by (unfold q; cbn [reinforced p_elements]; apply in_or_app; right; exact He).
    exact (proj2 (reinforced_psd e Hq) _). }
  lra.
Qed.
Lemma reinforced_kinetic : extra = [] -> forall U V, p_kinetic q U V = p_kinetic p U V.
Proof.
  intros He U V. unfold p_kinetic, q. cbn [reinforced p_elements]. rewrite He, app_nil_r. apply lsum_ext. intros e Hin.
  destruct (reinforced_stiff e Hin) as (c & k & m & _ & HR & _ & Em & _).
  assert (Eq : p_mass (reinforced p cons mats []) e = m) by (unfold p_mass; cbn [reinforced p_uel p_nodes p_mats]; rewrite HR; reflexivity).
  rewrite Eq, Em. reflexivity.
Qed.
End Reinforced.
Lemma user_proportional f : In f [elast_tet4; elast_hex8; elast_axi_quad9; elast_quad8] -> proportional f.
Proof.
  intros [<-|[<-|[<-|[<-|[]]]]]; [exact (solid_proportional so_tet4 ltac:(cbn; tauto))|exact (solid_proportional so_hex8 ltac:(cbn; tauto))|exact axi_proportional|
    exact (plane_proportional pl_quad8 ltac:(cbn; tauto))].
Qed.
Lemma reinforced_all p cons mats extra : wf_problem p -> p_psd p -> (forall f, p_uel p = Some f -> proportional f) ->
  flags01 (p_dofs p) cons -> length cons = length (p_nodes p) -> (forall i d, p_dof p i d -> ent (p_cons p) i d = -1 -> ent cons i d = -1) ->
  Forall2 harder (p_mats p) mats ->
  Forall (fun e => good_row (p_dofs p) (p_max p) (p_ndof p) cons e /\
     exists k m, retriever e mats (p_nodes p) (p_uel p) = Ok (k, M2 m) /\
       shape (p_dofs p * e_n e) (p_dofs p * e_n e) k /\ shape (p_dofs p * e_n e) (p_dofs p * e_n e) m /\
       symmetric (p_dofs p * e_n e) k /\ psd (p_dofs p * e_n e) k) extra ->
  wf_problem (reinforced p cons mats extra) /\ p_psd (reinforced p cons mats extra) /\ stiffer p (reinforced p cons mats extra) /\
  (extra = [] -> forall U V, p_kinetic (reinforced p cons mats extra) U V = p_kinetic p U V).
Proof.
  intros H1 H2 H3 H4 H5 H6 H7 H8. split; [exact (reinforced_wf p cons mats extra H1 H3 H4 H5 H7 H8)|]. split; [exact (reinforced_psd p cons mats extra H1 H2 H3 H7 H8)|].
  split; [exact (reinforced_stiffer p cons mats extra H1 H2 H3 H6 H7 H8)|]. exact (reinforced_kinetic p cons mats extra H1 H3 H7).
Qed.
