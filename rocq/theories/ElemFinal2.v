(** * Proofs: properties of the element routines in their final form *)
From Coq Require Import String Reals List Arith Lia Lra Bool ZArith QArith Qreals.
From Verif Require Import Num LinAlg Gauss Fem Uel Assem Spec LinR Base SpecAssem AssemProofs ElemShape BarProofs SpecElem SpecShape ShapeProofs ElemCore Sampled Elem2 MatProofs Elem2Props Elem2Mass Elem2Modes Elem3 Elem3Props Areas Volumes ElemAxi BeamProofs ElemFinal.
Import ListNotations.
Local Open Scope R_scope.

Definition plane_list : list (uel_fun R * nat) :=
  [(elast_quad4, 4%nat); (elast_tri6, 6%nat); (elast_tri3, 3%nat); (elast_quad9, 9%nat); (elast_quad8, 8%nat)].
Definition solid_list : list (uel_fun R * nat) := [(elast_tet4, 4%nat); (elast_hex8, 8%nat)].

Lemma plane_of f n : In (f, n) plane_list -> exists p, In p planes /\ pl_f p = f /\ pl_n p = n.
Proof.
  intros H. destruct H as [H|[H|[H|[H|[H|[]]]]]]; apply pair_equal_spec in H; destruct H as [<- <-].
  - exists pl_quad4. split; [cbn; tauto|split; reflexivity].
  - exists pl_tri6. split; [cbn; tauto|split; reflexivity].
  - exists pl_tri3. split; [cbn; tauto|split; reflexivity].
  - exists pl_quad9. split; [cbn; tauto|split; reflexivity].
  - exists pl_quad8. split; [cbn; tauto|split; reflexivity].
Qed.
Lemma solid_of f n : In (f, n) solid_list -> exists p, In p solids /\ so_f p = f /\ so_n p = n.
Proof.
  intros H. destruct H as [H|[H|[]]]; apply pair_equal_spec in H; destruct H as [<- <-].
  - exists so_tet4. split; [cbn; tauto|split; reflexivity].
  - exists so_hex8. split; [cbn; tauto|split; reflexivity].
Qed.

Lemma plane_par p coord E nu rest K m : In p planes -> pl_f p coord (E :: nu :: rest) = Ok (K, m) ->
  exists rho, pl_par p (E :: nu :: rest) = Some (E, nu, rho).
Proof.
  intros Hp Hf. destruct (plane_summary p coord _ K m Hp Hf) as [E' [nu' [rho [M [Hpar _]]]]].
  exists rho. rewrite Hpar.
  repeat (destruct Hp as [<-|Hp]; [cbn [pl_par pl_quad4 pl_tri6 pl_tri3 pl_quad9 pl_quad8] in Hpar; unfold par_opt, par3 in Hpar;
    try (destruct rest as [|? [|? ?]]; try discriminate Hpar); injection Hpar as -> -> _; reflexivity|]).
  destruct Hp.
Qed.
Lemma plane_par3 p E nu rho : In p planes -> pl_par p [E; nu; rho] = Some (E, nu, rho).
Proof. intros Hp. repeat (destruct Hp as [<-|Hp]; [reflexivity|]). destruct Hp. Qed.

(** ** C31 *)
Lemma plane_sym_psd f n : In (f, n) plane_list -> forall coord E nu rest K m,
  f coord (E :: nu :: rest) = Ok (K, m) ->
  symmetric (2 * n) K /\ (0 <= E -> -1 < nu < 1 -> psd (2 * n) K).
Proof.
  intros Hin coord E nu rest K m Hf. destruct (plane_of f n Hin) as [p [Hp [<- <-]]].
  destruct (plane_par p coord E nu rest K m Hp Hf) as [rho Hpar]. split.
  - exact (plane_sym p coord _ K m Hp Hf).
  - intros HE Hn. exact (plane_psd p coord _ K m Hp Hf E nu rho Hpar HE Hn).
Qed.

Lemma solid_sym_psd f n : In (f, n) solid_list -> forall coord E nu rho K m,
  f coord [E; nu; rho] = Ok (K, m) ->
  symmetric (3 * n) K /\ (0 < E -> -1 < nu < 1/2 -> psd (3 * n) K).
Proof.
  intros Hin coord E nu rho K m Hf. destruct (solid_of f n Hin) as [p [Hp [<- <-]]]. split.
  - exact (solid_sym p coord E nu rho K m Hp Hf).
  - exact (solid_psd p coord E nu rho K m Hp Hf).
Qed.

Lemma axis_pos coord nx ny L : @axis R Num_R coord = Ok (nx, ny, L) -> 0 < L.
Proof.
  intros Ha. pose proof (axis_inv coord nx ny L Ha) as Hne. unfold axis in Ha. repeat inv_ok Ha. injection Ha as <- <- HL.
  subst L. match type of Hne with ?x <> 0 => assert (0 <= x) by (apply sqrt_pos) end. lra.
Qed.

Lemma div_nonneg a b : 0 <= a -> 0 < b -> 0 <= a / b.
Proof. intros. unfold Rdiv. apply Rmult_le_pos; [assumption|apply Rlt_le, Rinv_0_lt_compat; assumption]. Qed.

Lemma truss_sym_psd coord young area rest K m : truss2D coord (young :: area :: rest) = Ok (K, m) ->
  symmetric 4 K /\ (0 <= young * area -> psd 4 K).
Proof.
  intros Hf. apply truss_inv in Hf. destruct Hf as [nx [ny [L [y [a [r [Ha [Hp [-> _]]]]]]]]]. injection Hp as <- <- <-.
  split; [apply axial_sym|]. intros H. apply axial_psd. apply div_nonneg; [lra|]. eapply axis_pos; exact Ha.
Qed.

Lemma spring_inv coord c K m : spring coord [c] = Ok (K, m) -> exists nx ny L, axis coord = Ok (nx, ny, L) /\
  K = congr 2 4 (axial_Q nx ny) (mscale c axial_K) /\ m = M1 (vzeros 4).
Proof.
  unfold spring. intros Ht. inv_ok Ht. destruct r as [[nx ny] L]. cbn [bcast_mul bind] in Ht.
  apply Ok_pair_inj in Ht. destruct Ht as [<- <-]. exists nx, ny, L. auto.
Qed.
Lemma spring_sym_psd coord c K m : spring coord [c] = Ok (K, m) -> symmetric 4 K /\ (0 <= c -> psd 4 K).
Proof.
  intros Hf. apply spring_inv in Hf. destruct Hf as [nx [ny [L [Ha [-> _]]]]].
  split; [apply axial_sym|]. apply axial_psd.
Qed.

(** ** C32 *)
Lemma plane_rigid_free f n : In (f, n) plane_list -> forall coord params K m,
  f coord params = Ok (K, m) -> forall a b w i, (i < 2 * n)%nat -> act (2 * n) K (rigid2 coord a b w) i = 0.
Proof.
  intros Hin coord params K m Hf a b w i Hi. destruct (plane_of f n Hin) as [p [Hp [<- <-]]].
  exact (plane_rigid p coord params K m Hp Hf a b w i Hi).
Qed.
Lemma solid_rigid_free f n : In (f, n) solid_list -> forall coord params K m,
  f coord params = Ok (K, m) -> forall t w i, (i < 3 * n)%nat -> act (3 * n) K (rigid3 coord t w) i = 0.
Proof.
  intros Hin coord params K m Hf t w i Hi. destruct (solid_of f n Hin) as [p [Hp [<- <-]]].
  destruct (solid_summary p coord params K m Hp Hf) as [E [nu [rho [M [-> _]]]]].
  exact (solid_rigid p coord E nu rho K m Hp Hf t w i Hi).
Qed.

Lemma axis_point xa ya xb yb nx ny L : axis [[xa; ya]; [xb; yb]] = Ok (nx, ny, L) ->
  0 < L /\ L = bar_len xa ya xb yb /\ nx = (xb - xa) / L /\ ny = (yb - ya) / L.
Proof.
  intros H. pose proof (axis_pos _ _ _ _ H). rewrite axis_unfold in H. destruct (nis0 _); [discriminate|].
  apply Ok_inj in H. apply pair_equal_spec in H. destruct H as [H <-]. apply pair_equal_spec in H. destruct H as [<- <-]. auto.
Qed.

Lemma axial_rigid xa ya xb yb nx ny L c a b w i : axis [[xa; ya]; [xb; yb]] = Ok (nx, ny, L) -> (i < 4)%nat ->
  act 4 (congr 2 4 (axial_Q nx ny) (mscale c axial_K)) (rigid2 [[xa; ya]; [xb; yb]] a b w) i = 0.
Proof.
  intros H Hi. rewrite axial_act by exact Hi. apply axis_point in H. destruct H as [HL [_ [-> ->]]].
  unfold rigid2, affine2, field2, node_x, node_y, ent. cbn [Nat.even Nat.div2 nth].
  match goal with |- c * ?e * _ = 0 => assert (E : e = 0) by (field; lra); rewrite E end. ring.
Qed.

Lemma bars_rigid xa ya xb yb K m :
  (exists params, truss2D [[xa; ya]; [xb; yb]] params = Ok (K, m)) \/
  (exists c, spring [[xa; ya]; [xb; yb]] [c] = Ok (K, m)) ->
  forall a b w i, (i < 4)%nat -> act 4 K (rigid2 [[xa; ya]; [xb; yb]] a b w) i = 0.
Proof.
  intros [[params Hf]|[c Hf]] a b w i Hi.
  - apply truss_inv in Hf. destruct Hf as [nx [ny [L [y [ar [r [Ha [Hp [-> _]]]]]]]]]. eapply axial_rigid; eassumption.
  - apply spring_inv in Hf. destruct Hf as [nx [ny [L [Ha [-> _]]]]]. eapply axial_rigid; eassumption.
Qed.

(** ** C34, C35 *)
Definition area_list : list (uel_fun R * nat * (list (list R) -> R -> Prop)) :=
  [(elast_quad4, 4%nat, fun coord W => W = area4 coord);
   (elast_tri3, 3%nat, fun coord W => W = area3 coord * (999999999999 / 1000000000000));
   (elast_tri6, 6%nat, fun coord W => forall xc yc r, 0 <= r -> within2 6 coord xc yc r ->
       Rabs (W - area6 coord) <= 1 / 250000000000 * (r * r));
   (elast_quad8, 8%nat, fun coord W => forall xc yc r, 0 <= r -> within2 8 coord xc yc r ->
       Rabs (W - area8 coord) <= 1 / 1000000000000000 * (r * r));
   (elast_quad9, 9%nat, fun coord W => forall xc yc r, 0 <= r -> within2 9 coord xc yc r ->
       Rabs (W - area8 coord) <= 1 / 1000000000000000 * (r * r))].

Lemma area_of f n P : In (f, n, P) area_list -> exists p, In p planes /\ pl_f p = f /\ pl_n p = n /\
  forall coord, length coord = n -> P coord (wdet p coord).
Proof.
  intros H. destruct H as [H|[H|[H|[H|[H|[]]]]]]; apply pair_equal_spec in H; destruct H as [H <-]; apply pair_equal_spec in H; destruct H as [<- <-].
  - exists pl_quad4. split; [cbn; tauto|]. split; [reflexivity|]. split; [reflexivity|]. intros. apply quad4_area.
  - exists pl_tri3. split; [cbn; tauto|]. split; [reflexivity|]. split; [reflexivity|]. intros. apply tri3_area.
  - exists pl_tri6. split; [cbn; tauto|]. split; [reflexivity|]. split; [reflexivity|]. intros coord Hl xc yc r Hr Hw. exact (tri6_area coord xc yc r Hl Hr Hw).
  - exists pl_quad8. split; [cbn; tauto|]. split; [reflexivity|]. split; [reflexivity|]. intros coord Hl xc yc r Hr Hw. exact (quad8_area coord xc yc r Hl Hr Hw).
  - exists pl_quad9. split; [cbn; tauto|]. split; [reflexivity|]. split; [reflexivity|]. intros coord Hl xc yc r Hr Hw. exact (quad9_area coord xc yc r Hl Hr Hw).
Qed.

Definition volume_list : list (uel_fun R * nat * (list (list R) -> R -> Prop)) :=
  [(elast_tet4, 4%nat, fun coord W => W = vol4 coord);
   (elast_hex8, 8%nat, fun coord W => forall c r, 0 <= r -> within3 8 coord c r ->
       Rabs (W - vol8 coord) <= 1 / 1000000000000000 * (r * r * r))].
Lemma volume_of f n P : In (f, n, P) volume_list -> exists p, In p solids /\ so_f p = f /\ so_n p = n /\
  forall coord, P coord (wdet3 p coord).
Proof.
  intros H. destruct H as [H|[H|[]]]; apply pair_equal_spec in H; destruct H as [H <-]; apply pair_equal_spec in H; destruct H as [<- <-].
  - exists so_tet4. split; [cbn; tauto|]. split; [reflexivity|]. split; [reflexivity|]. intros. apply tet4_volume.
  - exists so_hex8. split; [cbn; tauto|]. split; [reflexivity|]. split; [reflexivity|]. intros coord c r Hr Hw. exact (hex8_volume coord c r Hr Hw).
Qed.

Lemma lsum_pos {A} (f : A -> R) l : l <> [] -> (forall a, In a l -> 0 < f a) -> 0 < lsum f l.
Proof.
  intros Hne H. destruct l as [|a l]; [congruence|]. clear Hne. revert a H. unfold lsum.
  induction l as [|b l IH]; intros a H; cbn; [specialize (H a (or_introl eq_refl)); lra|].
  pose proof (H a (or_introl eq_refl)). specialize (IH b (fun x Hx => H x (or_intror Hx))). cbn in IH. lra.
Qed.
Lemma wdet_pos p coord : In p planes -> accepted2 (pl_n p) (pl_sh p) (pl_gq p) coord -> 0 < wdet p coord.
Proof.
  intros Hp Ha. rewrite <- wdet_sum. apply lsum_pos.
  - unfold gs_of. pose proof (gq_ne p Hp). destruct (pl_gq p); [congruence|discriminate].
  - intros g Hg. eapply gs_weights; eassumption.
Qed.
Lemma wdet3_pos p coord : In p solids -> accepted3 (so_n p) (so_sh p) (so_gq p) coord -> 0 < wdet3 p coord.
Proof.
  intros Hp Ha. rewrite <- wdet3_sum. apply lsum_pos.
  - unfold gs3. pose proof (so_ne p Hp). destruct (so_gq p); [congruence|discriminate].
  - intros g Hg. eapply gs3_weights; eassumption.
Qed.

Lemma plane_energy f n P : In (f, n, P) area_list -> forall coord E nu rest K m,
  f coord (E :: nu :: rest) = Ok (K, m) ->
  exists W, 0 < W /\ P coord W /\
    forall a0 a1 a2 b0 b1 b2 a0' a1' a2' b0' b1' b2',
      form (2 * n) K (affine2 coord a0 a1 a2 b0 b1 b2) (affine2 coord a0' a1' a2' b0' b1' b2') =
      W * (E / (1 - nu * nu) * (a1 * a1' + nu * (a1 * b2' + b2 * a1') + b2 * b2'
             + (1 - nu) / 2 * ((a2 + b1) * (a2' + b1')))).
Proof.
  intros Hin coord E nu rest K m Hf. destruct (area_of f n P Hin) as [p [Hp [<- [<- HP]]]].
  destruct (plane_summary p coord _ K m Hp Hf) as [_ [_ [_ [_ [_ [_ [Ha _]]]]]]].
  destruct (plane_par p coord E nu rest K m Hp Hf) as [rho Hpar].
  exists (wdet p coord). split; [apply wdet_pos; assumption|]. split; [apply HP; apply Ha|].
  intros. exact (plane_uniform p coord _ K m Hp Hf E nu rho _ _ _ _ _ _ _ _ _ _ _ _ Hpar).
Qed.

Lemma solid_energy f n P : In (f, n, P) volume_list -> forall coord E nu rho K m,
  f coord [E; nu; rho] = Ok (K, m) ->
  exists W, 0 < W /\ P coord W /\
    forall t A t' A', form (3 * n) K (affine3 coord t A) (affine3 coord t' A') = W * energy3 E nu (voigt3 A) (voigt3 A').
Proof.
  intros Hin coord E nu rho K m Hf. destruct (volume_of f n P Hin) as [p [Hp [<- [<- HP]]]].
  destruct (solid_sampled p coord E nu rho K m Hp Hf) as [Ha _].
  exists (wdet3 p coord). split; [apply wdet3_pos; assumption|]. split; [apply HP|].
  intros. exact (solid_uniform p coord E nu rho K m Hp Hf t A t' A').
Qed.

Lemma plane_mass_props f n P : In (f, n, P) area_list -> forall coord E nu rho K m,
  f coord [E; nu; rho] = Ok (K, m) ->
  exists M W, m = M2 M /\ symmetric (2 * n) M /\ (0 <= rho -> psd (2 * n) M) /\
    (forall i j, (i < 2 * n)%nat -> (j < 2 * n)%nat -> Nat.even i <> Nat.even j -> ent M i j = 0) /\
    0 < W /\ P coord W /\
    forall a b a' b', form (2 * n) M (trans2 a b) (trans2 a' b') = rho * W * (a * a' + b * b').
Proof.
  intros Hin coord E nu rho K m Hf. destruct (area_of f n P Hin) as [p [Hp [<- [<- HP]]]].
  destruct (plane_summary p coord _ K m Hp Hf) as [_ [_ [_ [_ [_ [_ [Ha _]]]]]]].
  destruct (plane_mass p coord _ K m E nu rho Hp Hf (plane_par3 p E nu rho Hp)) as [M [H1 [H2 [H3 [H4 H5]]]]].
  exists M, (wdet p coord). repeat (split; [assumption|]). split; [apply wdet_pos; assumption|]. split; [apply HP; apply Ha|]. exact H5.
Qed.

Lemma solid_mass_props f n P : In (f, n, P) volume_list -> forall coord E nu rho K m,
  f coord [E; nu; rho] = Ok (K, m) ->
  exists M W, m = M2 M /\ symmetric (3 * n) M /\ (0 <= rho -> psd (3 * n) M) /\
    (forall i j, (i < 3 * n)%nat -> (j < 3 * n)%nat -> (i mod 3 <> j mod 3)%nat -> ent M i j = 0) /\
    0 < W /\ P coord W /\
    forall c c', form (3 * n) M (trans3 c) (trans3 c') = rho * W * rsum 3 (fun a => c a * c' a).
Proof.
  intros Hin coord E nu rho K m Hf. destruct (volume_of f n P Hin) as [p [Hp [<- [<- HP]]]].
  destruct (solid_sampled p coord E nu rho K m Hp Hf) as [Ha _].
  destruct (solid_mass p coord E nu rho K m Hp Hf) as [M [H1 [H2 [H3 [H4 H5]]]]].
  exists M, (wdet3 p coord). repeat (split; [assumption|]). split; [apply wdet3_pos; assumption|]. split; [apply HP|]. exact H5.
Qed.

Lemma truss_mass_props xa ya xb yb young area dens K m :
  truss2D [[xa; ya]; [xb; yb]] [young; area; dens] = Ok (K, m) ->
  exists M, m = M2 M /\ symmetric 4 M /\ (0 <= dens * area -> psd 4 M) /\
    (forall i j, (i < 4)%nat -> (j < 4)%nat -> Nat.even i <> Nat.even j -> ent M i j = 0) /\
    forall a b a' b', form 4 M (trans2 a b) (trans2 a' b') = dens * (area * bar_len xa ya xb yb) * (a * a' + b * b').
Proof.
  intros Hf. apply truss_inv in Hf. destruct Hf as [nx [ny [L [y [a [r [Ha [Hp [_ ->]]]]]]]]]. injection Hp as <- <- <-.
  eexists. split; [reflexivity|]. cbn [opt_dens length Nat.eqb last].
  apply axis_point in Ha. destruct Ha as [HL [EL _]].
  split; [apply sym_of_form; intros; rewrite !truss_mass_form; ring|]. split; [|split].
  - intros Hd u. rewrite truss_mass_form. apply Rmult_le_pos.
    + apply div_nonneg; [|lra]. replace (area * L * dens) with (dens * area * L) by ring. apply Rmult_le_pos; lra.
    + pose proof (Rle_0_sqr (u 0%nat + u 2%nat)). pose proof (Rle_0_sqr (u 1%nat + u 3%nat)).
      pose proof (Rle_0_sqr (u 0%nat)). pose proof (Rle_0_sqr (u 1%nat)). pose proof (Rle_0_sqr (u 2%nat)). pose proof (Rle_0_sqr (u 3%nat)).
      unfold Rsqr in *. lra.
  - intros i j Hi Hj He. rewrite truss_mass_ent by assumption.
    lt4 i Hi; lt4 j Hj; try (exfalso; apply He; reflexivity); cbn; ring.
  - intros. rewrite truss_mass_form. unfold trans2, field2. cbn [Nat.even Nat.div2]. rewrite <- EL. field.
Qed.

(** ** C36 *)
Lemma plane_scaled f n : In (f, n) plane_list -> forall coord E nu rho K M, f coord [E; nu; rho] = Ok (K, M2 M) ->
  forall t s, exists K' M', f coord [t * E; nu; s * rho] = Ok (K', M2 M') /\
    forall i j, ent K' i j = t * ent K i j /\ ent M' i j = s * ent M i j.
Proof.
  intros Hin coord E nu rho K M Hf t s. destruct (plane_of f n Hin) as [p [Hp [<- <-]]].
  exists (mscale t K), (mscale s M). split; [exact (plane_scaling p coord E nu rho K M _ _ _ t s Hp Hf eq_refl eq_refl eq_refl)|].
  intros. rewrite !ent_mscale. auto.
Qed.
Lemma solid_scaled f n : In (f, n) solid_list -> forall coord E nu rho K M, f coord [E; nu; rho] = Ok (K, M2 M) ->
  forall t s, exists K' M', f coord [t * E; nu; s * rho] = Ok (K', M2 M') /\
    forall i j, ent K' i j = t * ent K i j /\ ent M' i j = s * ent M i j.
Proof.
  intros Hin coord E nu rho K M Hf t s. destruct (solid_of f n Hin) as [p [Hp [<- <-]]].
  exists (mscale t K), (mscale s M). split; [exact (solid_scaling p coord E nu rho K M t s Hp Hf)|].
  intros. rewrite !ent_mscale. auto.
Qed.

Lemma plane_indep f n : In (f, n) plane_list -> forall coord E nu rho E' nu' rho' K M K' M' ,
  f coord [E; nu; rho] = Ok (K, M) -> f coord [E'; nu'; rho'] = Ok (K', M') ->
  (E = E' -> nu = nu' -> K = K') /\ (rho = rho' -> M = M').
Proof.
  intros Hin coord E nu rho E' nu' rho' K M K' M' H1 H2. destruct (plane_of f n Hin) as [p [Hp [<- <-]]].
  destruct (plane_summary p coord _ K M Hp H1) as [E1 [nu1 [rho1 [M1 [Hp1 [_ [_ [-> HS]]]]]]]].
  rewrite plane_par3 in Hp1 by exact Hp. injection Hp1 as <- <- <-.
  destruct (plane_summary p coord _ K' M' Hp H2) as [E1 [nu1 [rho1 [M1' [Hp1 [_ [_ [-> HS']]]]]]]].
  rewrite plane_par3 in Hp1 by exact Hp. injection Hp1 as <- <- <-. split.
  - intros <- <-. apply (form_matrix_unique (2 * pl_n p)); [apply HS|apply HS'|].
    intros. rewrite (sa_K _ _ _ _ _ _ _ _ HS), (sa_K _ _ _ _ _ _ _ _ HS'). reflexivity.
  - intros <-. f_equal. exact (plane_mass_indep p coord E nu rho K M1 E' nu' K' M1' Hp H1 H2).
Qed.
Lemma solid_indep f n : In (f, n) solid_list -> forall coord E nu rho E' nu' rho' K M K' M' ,
  f coord [E; nu; rho] = Ok (K, M) -> f coord [E'; nu'; rho'] = Ok (K', M') ->
  (E = E' -> nu = nu' -> K = K') /\ (rho = rho' -> M = M').
Proof.
  intros Hin coord E nu rho E' nu' rho' K M K' M' H1 H2. destruct (solid_of f n Hin) as [p [Hp [<- <-]]].
  destruct (solid_sampled p coord _ _ _ K M Hp H1) as [_ [M1 [-> HS]]].
  destruct (solid_sampled p coord _ _ _ K' M' Hp H2) as [_ [M1' [-> HS']]]. split.
  - intros <- <-. apply (form_matrix_unique (3 * so_n p)); [apply HS|apply HS'|].
    intros. rewrite (sa_K _ _ _ _ _ _ _ _ HS), (sa_K _ _ _ _ _ _ _ _ HS'). reflexivity.
  - intros <-. f_equal. exact (solid_mass_indep p coord E nu rho K M1 E' nu' K' M1' Hp H1 H2).
Qed.

Lemma M2_inj (A B : list (list R)) : M2 A = M2 B -> A = B.
Proof. intros H. congruence. Qed.
Lemma truss_scaled coord E A rho K M : truss2D coord [E; A; rho] = Ok (K, M2 M) ->
  forall t s, exists K' M', truss2D coord [t * E; A; s * rho] = Ok (K', M2 M') /\
    forall i j, (i < 4)%nat -> (j < 4)%nat -> ent K' i j = t * ent K i j /\ ent M' i j = s * ent M i j.
Proof.
  intros Hf t s. apply truss_inv in Hf. destruct Hf as [nx [ny [L [y [a [r [Ha [Hp [-> Hm]]]]]]]]].
  injection Hp as <- <- <-. apply M2_inj in Hm. subst M. rewrite (truss_unfold _ _ _ _ _ _ _ Ha).
  eexists. eexists. split; [reflexivity|]. intros i j Hi Hj. pose proof (axis_inv _ _ _ _ Ha).
  change (opt_dens [E; A; rho]) with rho. change (opt_dens [t * E; A; s * rho]) with (s * rho).
  split; [rewrite !axial_ent by assumption; field; assumption|]. rewrite !truss_mass_ent by assumption. field.
Qed.
Lemma truss_indep coord A E rho E' rho' K M K' M' :
  truss2D coord [E; A; rho] = Ok (K, M) -> truss2D coord [E'; A; rho'] = Ok (K', M') ->
  (E = E' -> K = K') /\ (rho = rho' -> M = M').
Proof.
  intros H1 H2. apply truss_inv in H1, H2.
  destruct H1 as [nx [ny [L [y [a [r [Ha [Hp [-> ->]]]]]]]]]. injection Hp as <- <- <-.
  destruct H2 as [nx' [ny' [L' [y' [a' [r' [Ha' [Hp' [-> ->]]]]]]]]]. injection Hp' as <- <- <-.
  rewrite Ha in Ha'. apply Ok_inj in Ha'. apply pair_equal_spec in Ha'. destruct Ha' as [Ha' <-]. apply pair_equal_spec in Ha'. destruct Ha' as [<- <-].
  split; intros <-; reflexivity.
Qed.
Lemma density_default coord (E nu : R) :
  Forall (fun f : uel_fun R => f coord [E; nu] = f coord [E; nu; 1])
    [elast_tri3; elast_tri6; elast_quad4; elast_quad9; truss2D].
Proof. repeat constructor. Qed.

(** ** C37 *)
Lemma plane_frame_indiff f n : In (f, n) plane_list -> forall coord params K m, f coord params = Ok (K, m) ->
  forall c s tx ty, c * c + s * s = 1 ->
  exists M K' M', m = M2 M /\ f (move2 c s tx ty coord) params = Ok (K', M2 M') /\
    forall u v, form (2 * n) K' (turn2 c s u) (turn2 c s v) = form (2 * n) K u v /\
                form (2 * n) M' (turn2 c s u) (turn2 c s v) = form (2 * n) M u v.
Proof.
  intros Hin coord params K m Hf c s tx ty Hcs. destruct (plane_of f n Hin) as [p [Hp [<- <-]]].
  destruct (plane_summary p coord _ K m Hp Hf) as [_ [_ [_ [M [_ [_ [_ [Hm _]]]]]]]].
  destruct (plane_frame p coord params K m c s tx ty Hp Hcs Hf) as [K' [M' [H1 [H2 H3]]]].
  exists M, K', M'. split; [exact Hm|]. split; [exact H1|]. intros. split; [apply H2|apply (H3 M Hm)].
Qed.
Lemma solid_frame_indiff f n : In (f, n) solid_list -> forall coord params K m, f coord params = Ok (K, m) ->
  forall Q t, orthogonal Q -> J3det Q = 1 ->
  exists M K' M', m = M2 M /\ f (move3 Q t coord) params = Ok (K', M2 M') /\
    forall u v, form (3 * n) K' (turn3 Q u) (turn3 Q v) = form (3 * n) K u v /\
                form (3 * n) M' (turn3 Q u) (turn3 Q v) = form (3 * n) M u v.
Proof.
  intros Hin coord params K m Hf Q t HQ HQ1. destruct (solid_of f n Hin) as [p [Hp [<- <-]]].
  destruct (solid_summary p coord _ K m Hp Hf) as [E [nu [rho [M [-> [_ [_ [_ [Hm _]]]]]]]]].
  destruct (solid_frame p coord E nu rho K m Q t Hp HQ HQ1 Hf) as [K' [M' [H1 [H2 H3]]]].
  exists M, K', M'. split; [exact Hm|]. split; [exact H1|]. intros. split; [apply H2|apply (H3 M Hm)].
Qed.

Lemma bar_len_move c s tx ty xa ya xb yb : c * c + s * s = 1 ->
  bar_len (c * xa - s * ya + tx) (s * xa + c * ya + ty) (c * xb - s * yb + tx) (s * xb + c * yb + ty) = bar_len xa ya xb yb.
Proof.
  intros H. unfold bar_len. f_equal.
  transitivity ((c * c + s * s) * ((xb - xa) * (xb - xa) + (yb - ya) * (yb - ya))); [ring|rewrite H; ring].
Qed.
Lemma truss_frame xa ya xb yb params K m : truss2D [[xa; ya]; [xb; yb]] params = Ok (K, m) ->
  forall c s tx ty, c * c + s * s = 1 ->
  exists M K' M', m = M2 M /\ truss2D (move2 c s tx ty [[xa; ya]; [xb; yb]]) params = Ok (K', M2 M') /\
    forall u v, form 4 K' (turn2 c s u) (turn2 c s v) = form 4 K u v /\
                form 4 M' (turn2 c s u) (turn2 c s v) = form 4 M u v.
Proof.
  intros Hf c s tx ty Hcs. apply truss_inv in Hf. destruct Hf as [nx [ny [L [y [a [r [Ha [Hp [-> ->]]]]]]]]].
  pose proof (axis_point _ _ _ _ _ _ _ Ha) as [HL [EL [Enx Eny]]].
  assert (Ha' : axis (move2 c s tx ty [[xa; ya]; [xb; yb]]) = Ok (c * nx - s * ny, s * nx + c * ny, L)).
  { unfold move2. cbn [map nth]. rewrite axis_unfold, bar_len_move by exact Hcs. rewrite <- EL.
    replace (nis0 L) with false by (symmetry; apply nis0_false; lra). f_equal. rewrite Enx, Eny.
    apply pair_equal_spec. split; [apply pair_equal_spec; split; field; lra|reflexivity]. }
  subst params. rewrite (truss_unfold _ _ _ _ _ _ _ Ha').
  do 3 eexists. split; [reflexivity|]. split; [reflexivity|]. intros u v.
  rewrite !axial_form, !truss_mass_form.
  assert (T : forall w, turn2 c s w 0%nat = c * w 0%nat - s * w 1%nat /\ turn2 c s w 1%nat = s * w 0%nat + c * w 1%nat
    /\ turn2 c s w 2%nat = c * w 2%nat - s * w 3%nat /\ turn2 c s w 3%nat = s * w 2%nat + c * w 3%nat) by (intros; repeat split).
  destruct (T u) as [-> [-> [-> ->]]]. destruct (T v) as [-> [-> [-> ->]]]. clear T. split.
  - match goal with |- ?k * ?e * ?e' = _ =>
      transitivity (k * ((c * c + s * s) * (nx * (u 2%nat - u 0%nat) + ny * (u 3%nat - u 1%nat)))
                      * ((c * c + s * s) * (nx * (v 2%nat - v 0%nat) + ny * (v 3%nat - v 1%nat)))); [ring|rewrite Hcs; ring] end.
  - match goal with |- ?k * _ = ?k * ?e => transitivity (k * ((c * c + s * s) * e)); [ring|rewrite Hcs; ring] end.
Qed.

(** translations leave the matrices as they are *)
Lemma turn2_id n : forall u j, (j < 2 * n)%nat -> turn2 1 0 u j = u j.
Proof.
  intros u j _. unfold turn2, field2. pose proof (Nat.div2_odd j) as Hj. rewrite <- Nat.negb_even in Hj.
  destruct (Nat.even j); cbn [negb Nat.b2n] in Hj; rewrite Hj at 3; rewrite ?Nat.add_0_r; ring.
Qed.
Lemma form_ext_lt n K u u' v v' : (forall j, (j < n)%nat -> u j = u' j) -> (forall j, (j < n)%nat -> v j = v' j) ->
  form n K u v = form n K u' v'.
Proof.
  intros Hu Hv. unfold form, act. apply rsum_ext; intros i Hi. rewrite Hu by exact Hi. f_equal.
  apply rsum_ext; intros j Hj. rewrite Hv by exact Hj. reflexivity.
Qed.
Lemma plane_translate f n : In (f, n) plane_list -> forall coord params K m, f coord params = Ok (K, m) ->
  forall tx ty, f (move2 1 0 tx ty coord) params = Ok (K, m).
Proof.
  intros Hin coord params K m Hf tx ty.
  destruct (plane_frame_indiff f n Hin coord params K m Hf 1 0 tx ty ltac:(ring)) as [M [K' [M' [-> [H1 H2]]]]].
  rewrite H1. destruct (plane_of f n Hin) as [p [Hp [<- <-]]].
  destruct (plane_summary p _ _ K _ Hp Hf) as [E [nu [rho [M1 [_ [_ [_ [Hm HS]]]]]]]]. injection Hm as <-.
  destruct (plane_summary p _ _ K' _ Hp H1) as [E' [nu' [rho' [M1 [_ [_ [_ [Hm HS']]]]]]]]. injection Hm as <-.
  assert (K' = K).
  { apply (form_matrix_unique (2 * pl_n p)); [apply HS'|apply HS|]. intros u v. rewrite <- (proj1 (H2 u v)).
    apply form_ext_lt; intros; symmetry; apply (turn2_id (pl_n p)); assumption. }
  assert (M' = M).
  { apply (form_matrix_unique (2 * pl_n p)); [apply HS'|apply HS|]. intros u v. rewrite <- (proj2 (H2 u v)).
    apply form_ext_lt; intros; symmetry; apply (turn2_id (pl_n p)); assumption. }
  subst. reflexivity.
Qed.

Definition id3 (a b : nat) : R := if Nat.eqb a b then 1 else 0.
Lemma id3_orth : orthogonal id3.
Proof. intros a b Ha Hb. destruct a as [|[|[|]]]; try lia; destruct b as [|[|[|]]]; try lia; unfold id3; cbn; ring. Qed.
Lemma id3_det : J3det id3 = 1.
Proof. unfold J3det, id3. cbn. ring. Qed.
Lemma turn3_id u j : turn3 id3 u j = u j.
Proof.
  unfold turn3. pose proof (Nat.div_mod j 3 ltac:(lia)) as Hj. pose proof (Nat.mod_upper_bound j 3 ltac:(lia)) as Hm.
  rewrite (rsum_single 3 (j mod 3)).
  - unfold id3. rewrite Nat.eqb_refl, <- Hj. ring.
  - exact Hm.
  - intros b Hb Hne. unfold id3. replace (j mod 3 =? b)%nat with false; [ring|]. symmetry. apply Nat.eqb_neq. auto.
Qed.
Lemma solid_translate f n : In (f, n) solid_list -> forall coord params K m, f coord params = Ok (K, m) ->
  forall t, f (move3 id3 t coord) params = Ok (K, m).
Proof.
  intros Hin coord params K m Hf t.
  destruct (solid_frame_indiff f n Hin coord params K m Hf id3 t id3_orth id3_det) as [M [K' [M' [-> [H1 H2]]]]].
  rewrite H1. destruct (solid_of f n Hin) as [p [Hp [<- <-]]].
  destruct (solid_summary p _ _ K _ Hp Hf) as [E [nu [rho [M1 [_ [_ [_ [_ [Hm HS]]]]]]]]]. injection Hm as <-.
  destruct (solid_summary p _ _ K' _ Hp H1) as [E' [nu' [rho' [M1 [_ [_ [_ [_ [Hm HS']]]]]]]]]. injection Hm as <-.
  assert (K' = K).
  { apply (form_matrix_unique (3 * so_n p)); [apply HS'|apply HS|]. intros u v. rewrite <- (proj1 (H2 u v)).
    apply form_ext_lt; intros; symmetry; apply turn3_id. }
  assert (M' = M).
  { apply (form_matrix_unique (3 * so_n p)); [apply HS'|apply HS|]. intros u v. rewrite <- (proj2 (H2 u v)).
    apply form_ext_lt; intros; symmetry; apply turn3_id. }
  subst. reflexivity.
Qed.
Lemma axis_translate xa ya xb yb tx ty : axis (move2 1 0 tx ty [[xa; ya]; [xb; yb]]) = axis [[xa; ya]; [xb; yb]].
Proof.
  unfold move2. cbn [map nth]. rewrite !axis_unfold, bar_len_move by ring.
  destruct (nis0 _); [reflexivity|]. do 2 f_equal. f_equal; unfold Rdiv; f_equal; ring.
Qed.
Lemma bars_translate xa ya xb yb params tx ty :
  truss2D (move2 1 0 tx ty [[xa; ya]; [xb; yb]]) params = truss2D [[xa; ya]; [xb; yb]] params /\
  spring (move2 1 0 tx ty [[xa; ya]; [xb; yb]]) params = spring [[xa; ya]; [xb; yb]] params.
Proof. unfold truss2D, spring. rewrite axis_translate. split; reflexivity. Qed.
