(** * Lemmas: strain_nodes in another frame, on sums of fields *)
From Coq Require Import Reals List Arith Lia Lra Bool ZArith.
From Verif Require Import Num LinAlg Gauss Fem Uel Assem Post Main Spec LinR Base SpecAssem SpecModel SpecElem SpecPost SpecStatic SpecFrame
  ElemCore ElemShape Sampled Elem2 Elem2Props Elem2Mass ElemFinal ElemFinal2 PostProofs PostMore PostFinal FrameProofs.
Import ListNotations.
Local Open Scope R_scope.

Definition post_cases : list (Z * nat * (R -> R -> list R * list (list R)) * res (list (list R) * list R)) :=
  [(1%Z, 4%nat, shape_quad4, gauss_nd 2 2); (2%Z, 6%nat, shape_tri6, gauss_tri 3); (3%Z, 3%nat, shape_tri3, gauss_tri 1)].

Lemma case_plane t n sh rule : In (t, n, sh, rule) post_cases -> exists p, In p planes /\ pl_sh p = sh /\ pl_n p = n.
Proof.
  intros [H|[H|[H|[]]]]; repeat (apply pair_equal_spec in H; destruct H as [H <-]); subst; [exists pl_quad4|exists pl_tri6|exists pl_tri3]; (split; [cbn; tauto|split; reflexivity]).
Qed.

Lemma strain_at_strain2 p coord u q eps : In p planes -> strain_at (pl_sh p) coord u q eps ->
  length coord = pl_n p /\ forall c, (c < 3)%nat -> eps c = strain2 (pl_n p) (snd (pl_sh p (nth 0 q 0) (nth 1 q 0))) coord u c.
Proof.
  intros Hp (Hm & B & det & Hd & He). apply (diff2_inv (pl_n p)) in Hd; [|exact (good2_all p Hp)]. cbv zeta in Hd.
  destruct Hd as (Hl & _ & _ & _ & B0 & B1 & B2 & _). split; [exact Hl|]. intros c Hc. rewrite He by exact Hc. rewrite Hl.
  destruct c as [|[|[|]]]; [rewrite B0|rewrite B1|rewrite B2|lia]; reflexivity.
Qed.

Lemma rows_rel elements i (g g' : list Z -> nat -> nat -> R) l0 l1 l2 c r r' : occurs elements i <> 0 ->
  (forall e k, In e elements -> (k < e_n e)%nat -> g' e k c = l0 * g e k 0%nat + l1 * g e k 1%nat + l2 * g e k 2%nat) ->
  (forall a, (a < 3)%nat -> nth a r 0 * occurs elements i = gathered elements i (fun e k => g e k a)) ->
  nth c r' 0 * occurs elements i = gathered elements i (fun e k => g' e k c) ->
  nth c r' 0 = l0 * nth 0 r 0 + l1 * nth 1 r 0 + l2 * nth 2 r 0.
Proof.
  intros Ho Hg Hr Hr'. apply Rmult_eq_reg_r with (occurs elements i); [|exact Ho]. rewrite Hr'.
  rewrite (gathered_ext elements i _ (fun e k => (l0 * g e k 0%nat + l1 * g e k 1%nat) + l2 * g e k 2%nat)) by (intros e k He Hk _; apply Hg; assumption).
  rewrite !gathered_plus, !gathered_scal. rewrite <- !Hr by lia. ring.
Qed.

Lemma hooke_turned c s E nu e a : c * c + s * s = 1 -> 1 + nu <> 0 -> 1 - nu <> 0 -> (a < 3)%nat ->
  hooke2 E nu (turned_strain c s e) a = turned_stress c s (hooke2 E nu e) a.
Proof.
  intros Hcs H1 H2 Ha. assert (H12 : 1 - nu * nu <> 0).
  { replace (1 - nu * nu) with ((1 + nu) * (1 - nu)) by ring. apply Rmult_integral_contrapositive_currified; assumption. }
  assert (E1 : E / (2 * (1 + nu)) = E / (1 - nu * nu) * ((1 - nu) / 2)) by (field; auto).
  destruct a as [|[|[|]]]; [| | |lia]; cbn [hooke2 turned_strain turned_stress]; rewrite E1; set (G := E / (1 - nu * nu)).
  - transitivity (G * (c * c * (e 0%nat + nu * e 1%nat) + s * s * (nu * e 0%nat + e 1%nat) - (1 - nu) * (c * s * e 2%nat))); [field|field].
  - field.
  - field.
Qed.

Lemma case_of t n : In (t, n) [(1%Z, 4%nat); (2%Z, 6%nat); (3%Z, 3%nat)] -> exists sh rule pts wts, In (t, n, sh, rule) post_cases /\ rule = Ok (pts, wts).
Proof.
  intros [H|[H|[H|[]]]]; apply pair_equal_spec in H; destruct H as [<- <-].
  - exists shape_quad4, (gauss_nd 2 2). do 2 eexists. split; [left; reflexivity|reflexivity].
  - exists shape_tri6, (gauss_tri 3). do 2 eexists. split; [right; left; reflexivity|reflexivity].
  - exists shape_tri3, (gauss_tri 1). do 2 eexists. split; [right; right; left; reflexivity|reflexivity].
Qed.

Lemma mesh_nodes t n N elements e k : mesh_of t n N elements -> In e elements -> (k < e_n e)%nat -> (e_node e k < N)%nat.
Proof.
  intros Hm He Hk. unfold mesh_of in Hm. rewrite Forall_forall in Hm. destruct (Hm e He) as (L & _ & _ & F).
  unfold e_n in Hk. unfold e_node. rewrite Forall_forall in F.
  assert (HI : In (nth (3 + k) e 0%Z) (skipn 3 e)). { rewrite <- nth_skipn. apply nth_In. rewrite skipn_length. exact Hk. }
  specialize (F _ HI). lia.
Qed.

Lemma e_coords_moved c s tx ty nodes N e : length nodes = N -> Forall (fun z => (0 <= z < Z.of_nat N)%Z) (skipn 3 e) ->
  e_coords (map (move_row c s tx ty) nodes) e = move2 c s tx ty (e_coords nodes e).
Proof.
  intros HL F. unfold e_coords, move2. rewrite map_map. apply map_ext_in. intros z Hz. rewrite Forall_forall in F. specialize (F z Hz).
  unfold ent. rewrite (map_nth_def _ nodes (Z.to_nat z) [] []) by lia. reflexivity.
Qed.

Lemma e_field_turned c s N sol sol' e j : (forall i d, (i < N)%nat -> (d < 2)%nat -> ent sol' i d = turned c s (ent sol) i d) ->
  (e_node e (Nat.div2 j) < N)%nat -> e_field sol' e j = turn2 c s (e_field sol e) j.
Proof.
  intros H Hn. unfold e_field, turn2, field2 at 1 2. destruct (Nat.even j); rewrite H by (auto; lia); cbn [turned]; rewrite !field2_even, !field2_odd; reflexivity.
Qed.

Lemma strain_turned t n N nodes elements mats sol sol' c s tx ty E S E' S' :
  In (t, n) [(1%Z, 4%nat); (2%Z, 6%nat); (3%Z, 3%nat)] -> mesh_of t n N elements -> length nodes = N -> length sol = N -> length sol' = N ->
  c * c + s * s = 1 -> (forall i d, (i < N)%nat -> (d < 2)%nat -> ent sol' i d = turned c s (ent sol) i d) ->
  (forall e, In e elements -> e_nu mats e <> 1 /\ e_nu mats e <> -1) ->
  strain_rows nodes elements mats sol = Ok (E, S) -> strain_rows (map (move_row c s tx ty) nodes) elements mats sol' = Ok (E', S') ->
  rows_follow N (turned_strain c s) E E' /\ rows_follow N (turned_stress c s) S S'.
Proof.
  intros Hin Hm Hl Hs Hs' Hcs Hsol Hnu HR HR'. destruct (case_of t n Hin) as (sh & rule & pts & wts & Hc & Hru).
  destruct (nodal_average t n sh rule pts wts N nodes elements mats sol E S Hc Hru Hm Hl Hs HR) as (eps & E1 & E2 & E3).
  destruct (nodal_average t n sh rule pts wts N _ elements mats sol' E' S' Hc Hru Hm ltac:(rewrite map_length; exact Hl) Hs' HR') as (eps' & E1' & E2' & E3').
  assert (HE : forall e k a, In e elements -> (a < 3)%nat -> eps' e k a = turned_strain c s (eps e k) a).
  { intros e k a He Ha. destruct (Nat.lt_ge_cases k (length pts)) as [Hk|Hk].
    - destruct (case_plane t n sh rule Hc) as (p & Hp & Hsh & Hn). pose proof (E1 e k He Hk) as A. pose proof (E1' e k He Hk) as A'. rewrite <- Hsh in A, A'.
      unfold mesh_of in Hm. pose proof Hm as Hm0. rewrite Forall_forall in Hm. destruct (Hm e He) as (L & _ & _ & F).
      rewrite (e_coords_moved c s tx ty nodes N e Hl F) in A'.
      apply strain_at_strain2 in A; [|exact Hp]. apply strain_at_strain2 in A'; [|exact Hp]. destruct A as [AL A]. destruct A' as [_ A'].
      rewrite A' by exact Ha. set (q := nth k pts []) in *. set (D := snd (pl_sh p (nth 0 q 0) (nth 1 q 0))) in *.
      transitivity (strain2 (pl_n p) D (move2 c s tx ty (e_coords nodes e)) (turn2 c s (e_field sol e)) a).
      { assert (HF : forall j, (j < 2 * pl_n p)%nat -> e_field sol' e j = turn2 c s (e_field sol e) j).
        { intros j Hj. apply (e_field_turned c s N); [exact Hsol|]. apply (mesh_nodes t n N elements); [exact Hm0|exact He|].
          unfold e_n. rewrite L. rewrite Nat.div2_div. apply Nat.div_lt_upper_bound; lia. }
        unfold strain2. destruct a as [|[|]]; apply rsum_ext; intros j Hj; rewrite ?HF by lia; reflexivity. }
      rewrite strain_move by (try exact AL; try exact Hcs; try exact Ha; apply plane_D0; auto).
      cbv zeta. destruct a as [|[|[|]]]; [| | |lia]; cbn [nth turned_strain]; rewrite !A by lia; reflexivity.
    - rewrite E2' by assumption. destruct a as [|[|]]; cbn [turned_strain]; rewrite !E2 by assumption; ring. }
  assert (HS : forall e k a, In e elements -> (a < 3)%nat ->
     hooke2 (e_young mats e) (e_nu mats e) (eps' e k) a = turned_stress c s (hooke2 (e_young mats e) (e_nu mats e) (eps e k)) a).
  { intros e k a He Ha. destruct (Hnu e He) as [N1 N2]. rewrite <- hooke_turned by (auto; lra).
    unfold hooke2. destruct a as [|[|]]; rewrite ?(HE e k) by (auto; lia); reflexivity. }
  split; intros i Hi; destruct (E3 i Hi) as [X0 X1]; destruct (E3' i Hi) as [Y0 Y1]; destruct (Req_EM_T (occurs elements i) 0) as [Z|Z];
    try (left; split; [apply (X0 Z)|apply (Y0 Z)]);
    destruct (X1 Z) as (er & sr & P1 & P2 & P3 & P4 & P5); destruct (Y1 Z) as (er' & sr' & Q1 & Q2 & Q3 & Q4 & Q5); right.
  - exists er, er'. repeat (split; [assumption|]). intros a Ha.
    assert (Q := proj1 (Q5 a Ha)). pose proof (fun b Hb => proj1 (P5 b Hb)) as P.
    destruct a as [|[|[|]]]; [| | |lia]; cbn [turned_strain].
    + rewrite (rows_rel elements i eps eps' (c * c) (s * s) (- (c * s)) 0 er er' Z); [ring| |exact P|exact Q].
      intros e k He _. rewrite HE by (auto; lia). cbn [turned_strain]. ring.
    + rewrite (rows_rel elements i eps eps' (s * s) (c * c) (c * s) 1 er er' Z); [ring| |exact P|exact Q].
      intros e k He _. rewrite HE by (auto; lia). cbn [turned_strain]. ring.
    + rewrite (rows_rel elements i eps eps' (2 * c * s) (- (2 * c * s)) (c * c - s * s) 2 er er' Z); [ring| |exact P|exact Q].
      intros e k He _. rewrite HE by (auto; lia). cbn [turned_strain]. ring.
  - exists sr, sr'. repeat (split; [assumption|]). intros a Ha.
    assert (Q := proj2 (Q5 a Ha)). pose proof (fun b Hb => proj2 (P5 b Hb)) as P.
    set (sg := fun (e : list BinNums.Z) (k a : nat) => hooke2 (e_young mats e) (e_nu mats e) (eps e k) a) in *.
    set (sg' := fun (e : list BinNums.Z) (k a : nat) => hooke2 (e_young mats e) (e_nu mats e) (eps' e k) a).
    assert (HS' : forall e k a, In e elements -> (a < 3)%nat -> sg' e k a = turned_stress c s (sg e k) a) by exact HS.
    destruct a as [|[|[|]]]; [| | |lia]; cbn [turned_stress].
    + rewrite (rows_rel elements i sg sg' (c * c) (s * s) (- (2 * c * s)) 0 sr sr' Z); [ring| |exact P|exact Q].
      intros e k He _. rewrite HS' by (auto; lia). cbn [turned_stress]. ring.
    + rewrite (rows_rel elements i sg sg' (s * s) (c * c) (2 * c * s) 1 sr sr' Z); [ring| |exact P|exact Q].
      intros e k He _. rewrite HS' by (auto; lia). cbn [turned_stress]. ring.
    + rewrite (rows_rel elements i sg sg' (c * s) (- (c * s)) (c * c - s * s) 2 sr sr' Z); [ring| |exact P|exact Q].
      intros e k He _. rewrite HS' by (auto; lia). cbn [turned_stress]. ring.
Qed.

(** linear in the displacements *)
Lemma combine_rel elements i (g1 g2 g3 : list Z -> nat -> R) x y v1 v2 v3 : occurs elements i <> 0 ->
  (forall e k, In e elements -> g3 e k = x * g1 e k + y * g2 e k) ->
  v1 * occurs elements i = gathered elements i g1 -> v2 * occurs elements i = gathered elements i g2 -> v3 * occurs elements i = gathered elements i g3 ->
  v3 = x * v1 + y * v2.
Proof.
  intros Ho Hg H1 H2 H3. apply Rmult_eq_reg_r with (occurs elements i); [|exact Ho]. rewrite H3.
  rewrite (gathered_ext elements i _ (fun e k => x * g1 e k + y * g2 e k)) by (intros e k He _ _; apply Hg; exact He).
  rewrite gathered_plus, !gathered_scal, <- H1, <- H2. ring.
Qed.

Lemma strain_linear t n N nodes elements mats sol1 sol2 sol3 x y E1 S1 E2 S2 E3 S3 :
  In (t, n) [(1%Z, 4%nat); (2%Z, 6%nat); (3%Z, 3%nat)] -> mesh_of t n N elements -> length nodes = N ->
  length sol1 = N -> length sol2 = N -> length sol3 = N ->
  (forall i d, (i < N)%nat -> (d < 2)%nat -> ent sol3 i d = x * ent sol1 i d + y * ent sol2 i d) ->
  strain_rows nodes elements mats sol1 = Ok (E1, S1) -> strain_rows nodes elements mats sol2 = Ok (E2, S2) ->
  strain_rows nodes elements mats sol3 = Ok (E3, S3) ->
  rows_combine N x y E1 E2 E3 /\ rows_combine N x y S1 S2 S3.
Proof.
  intros Hin Hm Hl L1 L2 L3 Hsol R1 R2 R3. destruct (case_of t n Hin) as (sh & rule & pts & wts & Hc & Hru).
  destruct (nodal_average t n sh rule pts wts N nodes elements mats sol1 E1 S1 Hc Hru Hm Hl L1 R1) as (e1 & A1 & B1 & C1).
  destruct (nodal_average t n sh rule pts wts N nodes elements mats sol2 E2 S2 Hc Hru Hm Hl L2 R2) as (e2 & A2 & B2 & C2).
  destruct (nodal_average t n sh rule pts wts N nodes elements mats sol3 E3 S3 Hc Hru Hm Hl L3 R3) as (e3 & A3 & B3 & C3).
  assert (HE : forall e k a, In e elements -> (a < 3)%nat -> e3 e k a = x * e1 e k a + y * e2 e k a).
  { intros e k a He Ha. destruct (Nat.lt_ge_cases k (length pts)) as [Hk|Hk].
    - destruct (case_plane t n sh rule Hc) as (p & Hp & Hsh & Hn). pose proof (A1 e k He Hk) as X1. pose proof (A2 e k He Hk) as X2. pose proof (A3 e k He Hk) as X3.
      rewrite <- Hsh in X1, X2, X3. apply strain_at_strain2 in X1; [|exact Hp]. apply strain_at_strain2 in X2; [|exact Hp]. apply strain_at_strain2 in X3; [|exact Hp].
      rewrite (proj2 X1), (proj2 X2), (proj2 X3) by exact Ha. set (D := snd (pl_sh p _ _)).
      pose proof Hm as Hm0. unfold mesh_of in Hm. rewrite Forall_forall in Hm. destruct (Hm e He) as (L & _ & _ & F).
      assert (HF : forall j, (j < 2 * pl_n p)%nat -> e_field sol3 e j = x * e_field sol1 e j + y * e_field sol2 e j).
      { intros j Hj. assert (Hj' : (e_node e (Nat.div2 j) < N)%nat).
        { apply (mesh_nodes t n N elements); [exact Hm0|exact He|]. unfold e_n. rewrite L. rewrite Nat.div2_div. apply Nat.div_lt_upper_bound; lia. }
        unfold e_field, field2. destruct (Nat.even j); apply Hsol; auto; lia. }
      unfold strain2. destruct a as [|[|]]; rewrite <- !rsum_scal, <- rsum_plus; apply rsum_ext; intros j Hj; rewrite ?HF by lia; ring.
    - rewrite B1, B2, B3 by assumption. ring. }
  split; intros i Hi; destruct (C1 i Hi) as [X0 X1]; destruct (C2 i Hi) as [Y0 Y1]; destruct (C3 i Hi) as [W0 W1]; destruct (Req_EM_T (occurs elements i) 0) as [Z|Z];
    try (left; split; [apply (X0 Z)|split; [apply (Y0 Z)|apply (W0 Z)]]);
    destruct (X1 Z) as (er & sr & P1 & P2 & P3 & P4 & P5); destruct (Y1 Z) as (er' & sr' & Q1 & Q2 & Q3 & Q4 & Q5); destruct (W1 Z) as (er'' & sr'' & T1 & T2 & T3 & T4 & T5); right.
  - exists er, er', er''. repeat (split; [assumption|]). intros a Ha.
    apply (combine_rel elements i _ _ _ x y _ _ _ Z (fun e k He => HE e k a He Ha) (proj1 (P5 a Ha)) (proj1 (Q5 a Ha)) (proj1 (T5 a Ha))).
  - exists sr, sr', sr''. repeat (split; [assumption|]). intros a Ha.
    refine (combine_rel elements i _ _ _ x y _ _ _ Z _ (proj2 (P5 a Ha)) (proj2 (Q5 a Ha)) (proj2 (T5 a Ha))).
    intros e k He. cbv beta. unfold hooke2. destruct a as [|[|]]; rewrite ?(HE e k) by (auto; lia); ring.
Qed.

(** ** trusses *)
Lemma bar_stress_turned nodes elements mats disp disp' c s tx ty : Forall (bar_row nodes mats disp) elements -> c * c + s * s = 1 ->
  shape (length nodes) 2 disp' -> (forall i d, (i < length nodes)%nat -> (d < 2)%nat -> ent disp' i d = turned c s (ent disp) i d) ->
  stress_truss (map (move_row c s tx ty) nodes) elements mats disp' = stress_truss nodes elements mats disp.
Proof.
  intros HF Hcs [LD SD] HD. rewrite (truss_hooke nodes elements mats disp HF).
  assert (HX : forall i b, (i < length nodes)%nat -> ent (map (move_row c s tx ty) nodes) i (S b) = nth b [c * ent nodes i 1 - s * ent nodes i 2 + tx; s * ent nodes i 1 + c * ent nodes i 2 + ty] 0).
  { intros i b Hi. unfold ent. rewrite (map_nth_def _ nodes i [] []) by exact Hi. reflexivity. }
  rewrite truss_hooke.
  - f_equal. apply map_ext_in. intros e He. rewrite Forall_forall in HF. destruct (HF e He) as (_ & HN & _ & _ & _ & _ & Hne).
    pose proof (proj1 (proj2 (HN 0%nat ltac:(lia)))) as N0. pose proof (proj1 (proj2 (HN 1%nat ltac:(lia)))) as N1.
    unfold bar_stress. cbv zeta. rewrite !HX by assumption. cbn [nth]. unfold bar_elong. rewrite !bar_len_move by exact Hcs.
    unfold Rdiv. f_equal. f_equal. f_equal. unfold bar_disp.
    change (2 / 2)%nat with 1%nat. change (2 mod 2)%nat with 0%nat. change (0 / 2)%nat with 0%nat. change (0 mod 2)%nat with 0%nat.
    change (3 / 2)%nat with 1%nat. change (3 mod 2)%nat with 1%nat. change (1 / 2)%nat with 0%nat. change (1 mod 2)%nat with 1%nat.
    rewrite !HD by (auto; lia). cbn [turned].
    set (xa := ent nodes (e_node e 0) 1) in *. set (ya := ent nodes (e_node e 0) 2) in *. set (xb := ent nodes (e_node e 1) 1) in *. set (yb := ent nodes (e_node e 1) 2) in *.
    set (u0 := ent disp (e_node e 0) 0). set (u1 := ent disp (e_node e 0) 1). set (v0 := ent disp (e_node e 1) 0). set (v1 := ent disp (e_node e 1) 1).
    transitivity ((c * c + s * s) * ((xb - xa) * (v0 - u0) + (yb - ya) * (v1 - u1))); [ring|rewrite Hcs; ring].
  - apply Forall_forall. intros e He. rewrite Forall_forall in HF. destruct (HF e He) as (H5 & HN & H0 & H1 & H2 & H3 & Hne).
    pose proof (proj1 (proj2 (HN 0%nat ltac:(lia)))) as N0. pose proof (proj1 (proj2 (HN 1%nat ltac:(lia)))) as N1.
    split; [exact H5|]. split.
    { intros k Hk. destruct (HN k Hk) as (P0 & P1 & _). split; [exact P0|]. split; [rewrite map_length; exact P1|]. split; [rewrite LD; exact P1|].
      split; [rewrite (map_nth_def _ nodes _ [] []) by exact P1; cbn; lia|]. rewrite Forall_forall in SD. apply SD, nth_In. rewrite LD. exact P1. }
    repeat (split; [assumption|]). rewrite !HX by assumption. cbn [nth].
    set (xa := ent nodes (e_node e 0) 1) in *. set (ya := ent nodes (e_node e 0) 2) in *. set (xb := ent nodes (e_node e 1) 1) in *. set (yb := ent nodes (e_node e 1) 2) in *.
    destruct (Req_dec (c * xa - s * ya + tx) (c * xb - s * yb + tx)) as [A|A]; [|left; exact A].
    destruct (Req_dec (s * xa + c * ya + ty) (s * xb + c * yb + ty)) as [B|B]; [|right; exact B]. exfalso.
    assert (X : xa - xb = (c * c + s * s) * (xa - xb)) by (rewrite Hcs; ring).
    assert (Y : ya - yb = (c * c + s * s) * (ya - yb)) by (rewrite Hcs; ring).
    assert (X0 : (c * c + s * s) * (xa - xb) = 0).
    { transitivity (c * ((c * xa - s * ya) - (c * xb - s * yb)) + s * ((s * xa + c * ya) - (s * xb + c * yb))); [ring|].
      replace ((c * xa - s * ya) - (c * xb - s * yb)) with 0 by lra. replace ((s * xa + c * ya) - (s * xb + c * yb)) with 0 by lra. ring. }
    assert (Y0 : (c * c + s * s) * (ya - yb) = 0).
    { transitivity (- s * ((c * xa - s * ya) - (c * xb - s * yb)) + c * ((s * xa + c * ya) - (s * xb + c * yb))); [ring|].
      replace ((c * xa - s * ya) - (c * xb - s * yb)) with 0 by lra. replace ((s * xa + c * ya) - (s * xb + c * yb)) with 0 by lra. ring. }
    destruct Hne; lra.
Qed.
