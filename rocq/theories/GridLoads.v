(** * Lemmas: uniform stress on rectangular grids *)
From Coq Require Import Reals List Arith Lia Lra Bool ZArith.
From Verif Require Import Num LinAlg Gauss Fem Uel Assem Post Pre Main Spec LinR Base SpecAssem SpecModel SpecElem SpecPost SpecPre SpecStatic SpecPatch SpecDriver SpecGrid
  GridProofs ModelProofs StaticProofs StaticProofs2 StaticProofs3 PatchProofs PatchProofs2 DriverProofs GridModel.
Import ListNotations.
Local Open Scope R_scope.

Definition ind (b : bool) : R := if b then 1 else 0.
Lemma ind_and a b : ind (a && b) = ind a * ind b.
Proof. destruct a, b; cbn; ring. Qed.
Lemma pick_ind (b : bool) (v : R) : (if b then v else 0) = ind b * v.
Proof. destruct b; cbn; ring. Qed.
Lemma rsum_prod n m (V : R) (a b : nat -> R) : rsum m (fun r => rsum n (fun c => a c * b r * V)) = rsum n a * rsum m b * V.
Proof.
  rewrite (rsum_ext m _ (fun r => (rsum n a * V) * b r)).
  - rewrite rsum_scal. ring.
  - intros r _. rewrite <- (rsum_scal_r n V a), <- rsum_scal_r. apply rsum_ext. intros c _. ring.
Qed.

Section Loads.
  Variables (L H : R) (nx ny : nat) (E nu : R) (md : model).
  Hypothesis G : grid_model L H nx ny E nu md.

  (** what the cell in column c, row r adds at the node in column i, row j *)
  Lemma cell_sides s c r i j d : (c < nx)%nat -> (r < ny)%nat -> (i <= nx)%nat -> (j <= ny)%nat -> (d < 2)%nat ->
    let dx := L / INR nx in let dy := H / INR ny in
    let V := fun px py => if (d =? 0)%nat then s 0%nat * (py * dy) - s 2%nat * (px * dx) else s 2%nat * (py * dy) - s 1%nat * (px * dx) in
    rsum 4 (fun k => if (e_node (cell nx c r) k =? node nx i j)%nat
                     then side (md_nodes md) s (node nx i j) (e_node (cell nx c r) ((k + 1) mod 4)) d
                        + side (md_nodes md) s (e_node (cell nx c r) ((k + 4 - 1) mod 4)) (node nx i j) d else 0) =
    ind (c =? i)%nat * ind (r =? j)%nat * V 1 (-1) + ind (c + 1 =? i)%nat * ind (r =? j)%nat * V 1 1
    + ind (c + 1 =? i)%nat * ind (r + 1 =? j)%nat * V (-1) 1 + ind (c =? i)%nat * ind (r + 1 =? j)%nat * V (-1) (-1).
  Proof.
    intros Hc Hr Hi Hj Hd dx dy V. destruct (cell_node nx c r) as (_ & E0 & E1 & E2 & E3).
    destruct (gm_xy L H nx ny E nu md G c r ltac:(lia) ltac:(lia)) as [X0 Y0].
    destruct (gm_xy L H nx ny E nu md G (c + 1) r ltac:(lia) ltac:(lia)) as [X1 Y1].
    destruct (gm_xy L H nx ny E nu md G (c + 1) (r + 1) ltac:(lia) ltac:(lia)) as [X2 Y2].
    destruct (gm_xy L H nx ny E nu md G c (r + 1) ltac:(lia) ltac:(lia)) as [X3 Y3].
    rewrite INR_succ in X1, X2, Y2, Y3.
    cbn [rsum]. change ((0 + 1) mod 4)%nat with 1%nat. change ((1 + 1) mod 4)%nat with 2%nat. change ((2 + 1) mod 4)%nat with 3%nat. change ((3 + 1) mod 4)%nat with 0%nat.
    change ((0 + 4 - 1) mod 4)%nat with 3%nat. change ((1 + 4 - 1) mod 4)%nat with 0%nat. change ((2 + 4 - 1) mod 4)%nat with 1%nat. change ((3 + 4 - 1) mod 4)%nat with 2%nat.
    rewrite E0, E1, E2, E3.
    assert (A0 : forall p q v, (p <= nx)%nat -> (q <= ny)%nat -> forall w, (p = i -> q = j -> v = w) ->
      (if (node nx p q =? node nx i j)%nat then v else 0) = ind (p =? i)%nat * ind (q =? j)%nat * w).
    { intros p q v Hp Hq w Hv. rewrite node_eqb by assumption. rewrite pick_ind, ind_and.
      destruct (Nat.eqb_spec p i) as [Ep|]; [|cbn [ind]; ring]. destruct (Nat.eqb_spec q j) as [Eq|]; [|cbn [ind]; ring]. rewrite (Hv Ep Eq). reflexivity. }
    rewrite (A0 c r _ ltac:(lia) ltac:(lia) (V 1 (-1))), (A0 (c + 1)%nat r _ ltac:(lia) ltac:(lia) (V 1 1)),
      (A0 (c + 1)%nat (r + 1)%nat _ ltac:(lia) ltac:(lia) (V (-1) 1)), (A0 c (r + 1)%nat _ ltac:(lia) ltac:(lia) (V (-1) (-1))); [ring|..];
    intros <- <-; unfold side, side_force, V, dx, dy; rewrite ?X0, ?Y0, ?X1, ?Y1, ?X2, ?Y2, ?X3, ?Y3; destruct (d =? 0)%nat; ring.
  Qed.

  Lemma grid_sides s i j d : (i <= nx)%nat -> (j <= ny)%nat -> (d < 2)%nat ->
    sides_at (md_nodes md) (md_elements md) s (node nx i j) d = grid_load L H nx ny s i j d.
  Proof.
    intros Hi Hj Hd. unfold sides_at, after, before. rewrite !lsum_flat_map, !(gm_sum L H nx ny E nu md G), <- rsum_plus.
    rewrite (rsum_ext ny _ (fun r => rsum nx (fun c => rsum 4 (fun k => if (e_node (cell nx c r) k =? node nx i j)%nat
                     then side (md_nodes md) s (node nx i j) (e_node (cell nx c r) ((k + 1) mod 4)) d
                        + side (md_nodes md) s (e_node (cell nx c r) ((k + 4 - 1) mod 4)) (node nx i j) d else 0)))).
    2:{ intros r _. rewrite <- rsum_plus. apply rsum_ext. intros c _. change (e_n (cell nx c r)) with 4%nat. rewrite !lsum_picked, <- rsum_plus. apply rsum_ext.
        intros k _. destruct (_ =? _)%nat; ring. }
    set (V := fun px py => if (d =? 0)%nat then s 0%nat * (py * (H / INR ny)) - s 2%nat * (px * (L / INR nx)) else s 2%nat * (py * (H / INR ny)) - s 1%nat * (px * (L / INR nx))).
    rewrite (rsum_ext ny _ (fun r => rsum nx (fun c => ind (c =? i)%nat * ind (r =? j)%nat * V 1 (-1)) + rsum nx (fun c => ind (c + 1 =? i)%nat * ind (r =? j)%nat * V 1 1)
    + rsum nx (fun c => ind (c + 1 =? i)%nat * ind (r + 1 =? j)%nat * V (-1) 1) + rsum nx (fun c => ind (c =? i)%nat * ind (r + 1 =? j)%nat * V (-1) (-1)))).
    2:{ intros r Hr. rewrite <- !rsum_plus. apply rsum_ext. intros c Hc. apply (cell_sides s c r i j d Hc Hr Hi Hj Hd). }
    rewrite !rsum_plus.
    rewrite (rsum_prod nx ny (V 1 (-1)) (fun c => ind (c =? i)%nat) (fun r => ind (r =? j)%nat)).
    rewrite (rsum_prod nx ny (V 1 1) (fun c => ind (c + 1 =? i)%nat) (fun r => ind (r =? j)%nat)).
    rewrite (rsum_prod nx ny (V (-1) 1) (fun c => ind (c + 1 =? i)%nat) (fun r => ind (r + 1 =? j)%nat)).
    rewrite (rsum_prod nx ny (V (-1) (-1)) (fun c => ind (c =? i)%nat) (fun r => ind (r + 1 =? j)%nat)).
    pose proof (rsum_delta nx i) as D1. pose proof (rsum_delta ny j) as D2. pose proof (rsum_delta1 nx i) as D3. pose proof (rsum_delta1 ny j) as D4.
    rewrite (proj2 (Nat.leb_le i nx) Hi), andb_true_r in D3. rewrite (proj2 (Nat.leb_le j ny) Hj), andb_true_r in D4.
    unfold ind. rewrite D1, D2, D3, D4. unfold grid_load, outward, tributary, V.
    destruct (1 <=? i)%nat, (1 <=? j)%nat, (i <? nx)%nat, (j <? ny)%nat, (d =? 0)%nat; field; (split; apply not_0_INR; destruct G as (? & ? & _); lia) || idtac.
  Qed.

  Lemma grid_materials : materials_ok md.
  Proof.
    intros e t im params He Ht Him Hp. apply (gm_in L H nx ny E nu md G) in He as (c & r & Hc & Hr & ->).
    cbn in Ht, Him. injection Ht as <-. injection Him as <-. destruct G as (_ & _ & _ & _ & _ & HE & Hnu & HM & _). rewrite HM in Hp. cbn in Hp. injection Hp as <-.
    exists E, nu, []. split; [reflexivity|]. split; [lra|]. split; [exact Hnu|left; reflexivity].
  Qed.

  Theorem grid_run sv plot strains a0 a1 a2 b0 b1 b2 : wf_model md -> supported md -> (exists i d, free md i d) -> solver_ok sv -> solver_total sv ->
    admissible md (affine_table (md_nodes md) a0 a1 a2 b0 b1 b2) ->
    (forall i j d, (i <= nx)%nat -> (j <= ny)%nat -> free md (node nx i j) d ->
       applied (md_loads md) (node nx i j) d = grid_load L H nx ny (hooke2 E nu (affine_strain a1 a2 b1 b2)) i j d) ->
    exists out, auto sv md plot strains = Ok out /\ out_warn out = false /\
      (forall i j, (i <= nx)%nat -> (j <= ny)%nat ->
         let x := - L / 2 + INR i * (L / INR nx) in let y := - H / 2 + INR j * (H / INR ny) in
         table out (node nx i j) 0 = a0 + a1 * x + a2 * y /\ table out (node nx i j) 1 = b0 + b1 * x + b2 * y) /\
      (strains = true -> out_strains out = Some (repeat [a1; b2; a2 + b1] ((nx + 1) * (ny + 1)),
         repeat (map (hooke2 E nu (affine_strain a1 a2 b1 b2)) [0; 1; 2]%nat) ((nx + 1) * (ny + 1)))).
  Proof.
    intros Hwf Hsup Hfr Hsv Htot Had Hl. pose proof (gm_length L H nx ny E nu md G) as HN.
    assert (Hst : stable md) by (exact (gm_stable L H nx ny E nu md G Hwf Hsup)).
    assert (Hacc : accepted md) by (apply (gm_accepted L H nx ny E nu md G); apply Hwf).
    assert (Hl' : forall i d, free md i d -> applied (md_loads md) i d = 1 * sides_at (md_nodes md) (md_elements md) (hooke2 E nu (affine_strain a1 a2 b1 b2)) i d).
    { intros k d Hf. pose proof Hf as (Hk & Hd & _). rewrite HN in Hk. destruct (node_of nx ny k Hk) as (i & j & Hi & Hj & ->).
      rewrite (Hl i j d Hi Hj Hf), (grid_sides _ i j d Hi Hj Hd). ring. }
    destruct (model_runs_full sv md plot strains Hwf Hacc Hst Hsv Htot Hfr (fun _ => gm_recoverable L H nx ny E nu md G) (fun _ => gm_plottable L H nx ny E nu md G)) as [out Hout].
    exists out. split; [exact Hout|]. split; [exact (no_warning sv md plot strains out Hwf Hsv grid_materials Hst Hout)|]. split.
    - intros i j Hi Hj x y. pose proof (node_bound nx ny i j Hi Hj) as Hb. rewrite <- HN in Hb.
      destruct (gm_xy L H nx ny E nu md G i j Hi Hj) as [HX HY].
      pose proof (patch_run sv md plot strains out E nu 1 a0 a1 a2 b0 b1 b2 Hwf Hsv Hst (gm_patch L H nx ny E nu md G) Had Hl' Hout) as HT.
      rewrite (HT (node nx i j) 0%nat Hb ltac:(lia)), (HT (node nx i j) 1%nat Hb ltac:(lia)). unfold affine_table. cbn [Nat.eqb]. rewrite HX, HY. split; reflexivity.
    - intros ->. destruct (patch_recovered sv md plot out E nu a0 a1 a2 b0 b1 b2 Hwf Hsv Hst (gm_patch L H nx ny E nu md G) Had Hl' Hout) as (Es & Ss & HO & -> & ->).
      rewrite HO, HN. reflexivity.
  Qed.

  Theorem grid_tension sv plot strains s i0 j1 j2 : wf_model md -> solver_ok sv -> solver_total sv ->
    (j1 <= ny)%nat -> (j2 <= ny)%nat -> j1 <> j2 -> (i0 <= nx)%nat ->
    ent (md_cons md) (node nx 0 j1) 0 = -1 -> ent (md_cons md) (node nx 0 j2) 0 = -1 -> ent (md_cons md) (node nx i0 0) 1 = -1 ->
    (forall i j, (i <= nx)%nat -> (j <= ny)%nat ->
       (ent (md_cons md) (node nx i j) 0 = -1 -> i = 0%nat) /\ (ent (md_cons md) (node nx i j) 1 = -1 -> j = 0%nat)) ->
    (forall i j d, (i <= nx)%nat -> (j <= ny)%nat -> free md (node nx i j) d ->
       applied (md_loads md) (node nx i j) d = if (d =? 0)%nat then s * (H / INR ny) * outward nx i * tributary ny j else 0) ->
    exists out, auto sv md plot strains = Ok out /\ out_warn out = false /\
      (forall i j, (i <= nx)%nat -> (j <= ny)%nat ->
         table out (node nx i j) 0 = s / E * (INR i * (L / INR nx)) /\ table out (node nx i j) 1 = - (nu * s / E) * (INR j * (H / INR ny))) /\
      (strains = true -> out_strains out = Some (repeat [s / E; - (nu * s / E); 0] ((nx + 1) * (ny + 1)), repeat [s; 0; 0] ((nx + 1) * (ny + 1)))).
  Proof.
    intros Hwf Hsv Htot Hj1 Hj2 Hj Hi0 C1 C2 C3 Honly Hl. pose proof (gm_length L H nx ny E nu md G) as HN.
    destruct (gm_dx L H nx ny E nu md G) as [Hdx Hdy]. pose proof G as (Hx & Hy & HL0 & HH0 & _ & HE & Hnu & _).
    set (a1 := s / E). set (b2 := - (nu * s / E)).
    assert (HK : forall c, (c < 3)%nat -> hooke2 E nu (affine_strain a1 0 0 b2) c = nth c [s; 0; 0] 0).
    { intros c Hc. assert (HD : 1 - nu * nu <> 0) by nra. assert (HD' : 1 - nu ^ 2 <> 0) by (replace (1 - nu ^ 2) with (1 - nu * nu) by ring; exact HD).
      destruct c as [|[|[|]]]; try lia; unfold hooke2, affine_strain, a1, b2; cbn [nth]; field; repeat split; try lra; try assumption. }
    assert (Hf : free md (node nx nx ny) 0).
    { split; [rewrite HN; apply node_bound; lia|]. split; [lia|]. destruct (Honly nx ny ltac:(lia) ltac:(lia)) as [A _].
      destruct Hwf as (HF & HLc & _). unfold flags01 in HF. rewrite Forall_forall in HF.
      assert (HI : In (nth (node nx nx ny) (md_cons md) []) (md_cons md)) by (apply nth_In; rewrite HLc, HN; apply node_bound; lia).
      destruct (HF _ HI) as [Lr Fr]. rewrite Forall_forall in Fr.
      destruct (Fr (ent (md_cons md) (node nx nx ny) 0)) as [Z|Z]; [apply nth_In; lia|exact Z|]. specialize (A Z). lia. }
    assert (Hsup : supported md).
    { intros a b w HR. pose proof (HR (node nx 0 j1) 0%nat ltac:(rewrite HN; apply node_bound; lia) ltac:(lia) C1) as R1.
      pose proof (HR (node nx 0 j2) 0%nat ltac:(rewrite HN; apply node_bound; lia) ltac:(lia) C2) as R2.
      pose proof (HR (node nx i0 0) 1%nat ltac:(rewrite HN; apply node_bound; lia) ltac:(lia) C3) as R3.
      unfold node_rigid in R1, R2, R3. cbn [Nat.eqb] in R1, R2, R3.
      rewrite (proj2 (gm_xy L H nx ny E nu md G 0 j1 ltac:(lia) Hj1)) in R1. rewrite (proj2 (gm_xy L H nx ny E nu md G 0 j2 ltac:(lia) Hj2)) in R2.
      assert (Hw : w = 0).
      { assert (P : w * ((INR j1 - INR j2) * (H / INR ny)) = 0) by lra. apply Rmult_integral in P as [P|P]; [exact P|].
        apply Rmult_integral in P as [P|P]; [|lra]. exfalso. apply Hj. apply INR_eq. lra. }
      subst w. repeat split; lra. }
    destruct (grid_run sv plot strains (a1 * (L / 2)) a1 0 (b2 * (H / 2)) 0 b2 Hwf Hsup (ex_intro _ _ (ex_intro _ _ Hf)) Hsv Htot) as (out & Hout & HW & HT & HS).
    - intros k d Hk Hd HC. rewrite HN in Hk. destruct (node_of nx ny k Hk) as (i & j & Hi & Hjj & ->). destruct (Honly i j Hi Hjj) as [O0 O1].
      destruct (gm_xy L H nx ny E nu md G i j Hi Hjj) as [HX HY]. unfold affine_table.
      destruct d as [|[|]]; [| |lia]; cbn [Nat.eqb]; rewrite HX, HY; [rewrite (O0 HC)|rewrite (O1 HC)]; cbn [INR]; field; repeat split; apply not_0_INR; lia.
    - intros i j d Hi Hjj Hfr. rewrite (Hl i j d Hi Hjj Hfr). unfold grid_load. rewrite !HK by lia. cbn [nth]. destruct (d =? 0)%nat; ring.
    - exists out. split; [exact Hout|]. split; [exact HW|]. split.
      + intros i j Hi Hjj. destruct (HT i j Hi Hjj) as [-> ->]. unfold a1, b2. split; field; repeat split; try lra; apply not_0_INR; lia.
      + intros Hs. rewrite (HS Hs). cbn [map]. rewrite !HK by lia. cbn [nth]. rewrite Rplus_0_r. reflexivity.
  Qed.
End Loads.
