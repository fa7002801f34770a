(** * Properties C47-C57: strains, stresses, trusses, principal values, plots *)
From Coq Require Import String QArith Reals List Arith Lra Lia ZArith.
From Verif Require Import Num LinAlg Gauss Fem Uel Assem Post Spec SpecElem SpecModel SpecPost PostFinal PostTotal PostPos PostMore.
Import ListNotations.
Local Open Scope R_scope.

(** ** C47 *)
(** the rows of strain_nodes are averages, over the occurrences of a node as node k of an element,
    of the strain at Gauss point k and of its plane stress; nodes of no element have no row *)
Theorem C47_average : forall t n sh rule pts wts N nodes elements mats sol E S,
  In (t, n, sh, rule) [(1%Z, 4%nat, shape_quad4, gauss_nd 2 2); (2%Z, 6%nat, shape_tri6, gauss_tri 3); (3%Z, 3%nat, shape_tri3, gauss_tri 1)] ->
  rule = Ok (pts, wts) ->
  mesh_of t n N elements -> length nodes = N -> length sol = N -> strain_rows nodes elements mats sol = Ok (E, S) ->
  exists eps : list Z -> nat -> nat -> R,
    (forall e k, In e elements -> (k < length pts)%nat ->
       strain_at sh (e_coords nodes e) (e_field sol e) (nth k pts []) (eps e k)) /\
    (forall e k c, In e elements -> (length pts <= k)%nat -> eps e k c = 0) /\
    forall i, (i < N)%nat ->
      (occurs elements i = 0 -> nth i E None = None /\ nth i S None = None) /\
      (occurs elements i <> 0 -> exists er sr, nth i E None = Some er /\ nth i S None = Some sr /\
        length er = 3%nat /\ length sr = 3%nat /\
        forall c, (c < 3)%nat ->
          nth c er 0 * occurs elements i = gathered elements i (fun e k => eps e k c) /\
          nth c sr 0 * occurs elements i =
            gathered elements i (fun e k => hooke2 (e_young mats e) (e_nu mats e) (eps e k) c)).
Proof. exact nodal_average. Qed.
Print Assumptions C47_average.

Theorem C47_uniform_strain : forall t n N nodes elements mats sol E S a0 a1 a2 b0 b1 b2,
  In (t, n) [(1%Z, 4%nat); (2%Z, 6%nat)] ->
  mesh_of t n N elements -> length nodes = N -> length sol = N -> affine_sol nodes sol a0 a1 a2 b0 b1 b2 ->
  strain_rows nodes elements mats sol = Ok (E, S) ->
  forall i e, (i < N)%nat -> In e elements -> touches e i ->
    nth i E None = Some [a1; b2; a2 + b1] /\
    forall Y nu, (forall e', In e' elements -> touches e' i -> e_young mats e' = Y /\ e_nu mats e' = nu) ->
      nth i S None = Some [Y / (1 - nu * nu) * (a1 + nu * b2); Y / (1 - nu * nu) * (nu * a1 + b2);
                           Y / (2 * (1 + nu)) * (a2 + b1)].
Proof. exact uniform_strain. Qed.
Print Assumptions C47_uniform_strain.

(** strain_nodes succeeds on complete tables with invertible Jacobians and two-column materials *)
Theorem C47_runs : forall t n sh rule pts wts N nodes elements mats sol,
  In (t, n, sh, rule) [(1%Z, 4%nat, shape_quad4, gauss_nd 2 2); (2%Z, 6%nat, shape_tri6, gauss_tri 3); (3%Z, 3%nat, shape_tri3, gauss_tri 1)] ->
  rule = Ok (pts, wts) ->
  mesh_of t n N elements -> elements <> [] -> length nodes = N -> length sol = N ->
  Forall (fun row => (2 < length row)%nat) nodes -> Forall (fun row => (1 < length row)%nat) sol ->
  Forall (fun e => (nth 2 e 0 < Z.of_nat (length mats))%Z /\ length (nth (Z.to_nat (nth 2 e 0%Z)) mats []) = 2%nat /\
    e_nu mats e <> 1 /\ e_nu mats e <> -1 /\
    Forall (fun p => exists X, elast_diff_2d (nth 0 p 0) (nth 1 p 0) (e_coords nodes e) sh = Ok X) pts) elements ->
  exists E S, strain_rows nodes elements mats sol = Ok (E, S) /\ length E = N /\ length S = N.
Proof. exact strain_rows_runs. Qed.
Print Assumptions C47_runs.

(** two squares with the field u = 1 + 2x - y, v = 3x + 5y; node 6 belongs to no element *)
Example C47_case : exists E S, strain_rows two_nodes two_quads [[8; 1/3]; [8; 1/3]] two_sol = Ok (E, S) /\
  nth 4 E None = Some [2; 5; 2] /\ nth 4 S None = Some [33; 51; 6] /\ nth 6 E None = None.
Proof.
  destruct (two_runs [[8; 1/3]; [8; 1/3]] (or_introl eq_refl)) as [E [S [H _]]]. exists E, S. split; [exact H|].
  assert (T : touches [0; 1; 0; 0; 1; 4; 3]%Z 4) by (exists 2%nat; split; [cbn; lia|reflexivity]).
  destruct (uniform_strain 1 4 7 two_nodes two_quads [[8; 1/3]; [8; 1/3]] two_sol E S 1 2 (-1) 0 3 5 ltac:(cbn; tauto) two_mesh eq_refl eq_refl two_affine H
              4 [0; 1; 0; 0; 1; 4; 3]%Z ltac:(lia) ltac:(cbn; tauto) T) as [H1 H2].
  split; [rewrite H1; repeat (f_equal; try lra)|]. split.
  - rewrite (H2 8 (1/3)); [f_equal; f_equal; [field|f_equal; [field|f_equal; field]]|]. intros e' [<-|[<-|[]]] _; unfold e_young, e_nu, ent; cbn; split; reflexivity.
  - assert (R0 : exists pts wts, @gauss_nd R Num_R 2 2 = Ok (pts, wts)) by (do 2 eexists; reflexivity). destruct R0 as [pts [wts R0]].
    destruct (nodal_average 1 4 shape_quad4 (gauss_nd 2 2) pts wts 7 two_nodes two_quads [[8; 1/3]; [8; 1/3]] two_sol E S ltac:(cbn; tauto) R0
              two_mesh eq_refl eq_refl H) as [eps [_ [_ K]]].
    apply (K 6%nat ltac:(lia)). cbv -[Rplus IZR]. lra.
Qed.

(** ** C48 *)
Theorem C48_refuted : exists N nodes elements mats sol E S a0 a1 a2 b0 b1 b2 i e,
  mesh_of 3 3 N elements /\ length nodes = N /\ length sol = N /\ affine_sol nodes sol a0 a1 a2 b0 b1 b2 /\
  strain_rows nodes elements mats sol = Ok (E, S) /\ (i < N)%nat /\ In e elements /\ touches e i /\
  nth i E None <> Some [a1; b2; a2 + b1].
Proof. exact tri3_refuted. Qed.
Print Assumptions C48_refuted.

(** what three-node triangles give: only the first node of each element receives its strain *)
Theorem C48_strain_partial : forall N nodes elements mats sol E S a0 a1 a2 b0 b1 b2,
  mesh_of 3 3 N elements -> length nodes = N -> length sol = N -> affine_sol nodes sol a0 a1 a2 b0 b1 b2 ->
  strain_rows nodes elements mats sol = Ok (E, S) ->
  forall i e, (i < N)%nat -> In e elements -> touches e i ->
    nth i E None = Some (map (fun v => firsts elements i / occurs elements i * v) [a1; b2; a2 + b1]).
Proof. exact tri3_strain. Qed.
Print Assumptions C48_strain_partial.

Example C48_case : exists E S, mesh_of 3 3 3 [tri_elem] /\ affine_sol tri_nodes tri_sol 0 1 0 0 0 0 /\
  strain_rows tri_nodes [tri_elem] [[1; 0]] tri_sol = Ok (E, S) /\ firsts [tri_elem] 0 = 1 /\ firsts [tri_elem] 1 = 0.
Proof.
  destruct tri_runs3 as [E [S H]]. exists E, S. split; [exact tri_mesh|]. split; [exact tri_affine|]. split; [exact H|].
  unfold firsts, lsum. cbn. split; lra.
Qed.

(** ** C49 *)
Theorem C49_hooke : forall t n N nodes elements mats sol E S, In (t, n) [(1%Z, 4%nat); (2%Z, 6%nat); (3%Z, 3%nat)] ->
  mesh_of t n N elements -> length nodes = N -> length sol = N -> strain_rows nodes elements mats sol = Ok (E, S) ->
  forall i er sr Y nu, (i < N)%nat -> nth i E None = Some er -> nth i S None = Some sr ->
    (forall e', In e' elements -> touches e' i -> e_young mats e' = Y /\ e_nu mats e' = nu) ->
    exists C, umat [Y; nu] = Ok C /\ forall c, (c < 3)%nat -> nth c sr 0 = act 3 C (fun a => nth a er 0) c.
Proof. exact nodal_hooke. Qed.
Print Assumptions C49_hooke.

(** two materials: the corner node 0 belongs only to elements of material 0 *)
Example C49_case : (exists E S, strain_rows two_nodes two_quads [[8; 1/3]; [1; 0]] two_sol = Ok (E, S) /\
    exists er sr, nth 0 E None = Some er /\ nth 0 S None = Some sr) /\
  (forall e', In e' two_quads -> touches e' 0 -> e_young [[8; 1/3]; [1; 0]] e' = 8 /\ e_nu [[8; 1/3]; [1; 0]] e' = 1/3).
Proof.
  split.
  - destruct (two_runs [[8; 1/3]; [1; 0]] (or_intror eq_refl)) as [E [S [H _]]]. exists E, S. split; [exact H|].
    assert (R0 : exists pts wts, @gauss_nd R Num_R 2 2 = Ok (pts, wts)) by (do 2 eexists; reflexivity). destruct R0 as [pts [wts R0]].
    destruct (nodal_average 1 4 shape_quad4 (gauss_nd 2 2) pts wts 7 two_nodes two_quads [[8; 1/3]; [1; 0]] two_sol E S ltac:(cbn; tauto) R0
              two_mesh eq_refl eq_refl H) as [eps [_ [_ K]]].
    destruct (K 0%nat ltac:(lia)) as [_ K1]. destruct K1 as [er [sr [A [B _]]]]; [cbv -[Rplus IZR]; lra|]. eauto.
  - intros e' [<-|[<-|[]]] [k [Hk E]].
    + unfold e_young, e_nu, ent. cbn. split; reflexivity.
    + exfalso. unfold e_n in Hk. cbn [length Nat.sub] in Hk. do 4 (destruct k as [|k]; [discriminate E|]). lia.
Qed.

(** ** C50 *)
(** for one quad4 the strain of each corner would have to be that of the Gauss point nearest to it:
    signs (-,-), (+,-), (+,+), (-,+) *)
Theorem C50_refuted : exists N nodes e mats sol E S a b w k er eps,
  mesh_of 1 4 N [e] /\ NoDup (skipn 3 e) /\ length nodes = N /\ length sol = N /\
  @gauss_1d R Num_R 2 = Ok ([a; b], w) /\ strain_rows nodes [e] mats sol = Ok (E, S) /\ (k < 4)%nat /\
  nth (e_node e k) E None = Some er /\
  strain_at shape_quad4 (e_coords nodes e) (e_field sol e) (nth k [[a; a]; [b; a]; [b; b]; [a; b]] []) eps /\
  nth 0 er 0 <> eps 0%nat.
Proof. exact quad_corner_refuted. Qed.
Print Assumptions C50_refuted.

(** what is assigned: Gauss points in product order, so corners 1, 2, 3 get (-,+), (+,-), (+,+) *)
Theorem C50_order_partial : forall N nodes e mats sol E S a b w, mesh_of 1 4 N [e] -> NoDup (skipn 3 e) -> length nodes = N -> length sol = N ->
  @gauss_1d R Num_R 2 = Ok ([a; b], w) -> strain_rows nodes [e] mats sol = Ok (E, S) ->
  a < 0 < b /\ forall k, (k < 4)%nat -> exists er, nth (e_node e k) E None = Some er /\
    strain_at shape_quad4 (e_coords nodes e) (e_field sol e) (nth k [[a; a]; [a; b]; [b; a]; [b; b]] []) (fun c => nth c er 0).
Proof. exact single_quad. Qed.
Print Assumptions C50_order_partial.

(** ** C51 *)
Theorem C51_refuted : exists cons elements mats nodes op bc neq,
  DME cons elements 2 18 None = Ok (op, bc, neq) /\
  (forall sparse, exists gk gm, assembler elements mats nodes (Z.to_nat neq) op sparse None = Ok (gk, gm)) /\
  forall sol : list (list R), strain_nodes nodes elements mats sol = Err (ValueError "unpack").
Proof. exact density_refuted. Qed.
Print Assumptions C51_refuted.

(** every material row that is not [E; nu] is rejected when its element comes first; accepted rows
    are covered by C47_runs *)
Theorem C51_rejected_partial : forall nodes e es mats sol t im row g, np_get e 1 = Ok t -> eletype t = Ok g -> np_get e 2 = Ok im ->
  np_get mats im = Ok row -> length row <> 2%nat ->
  @strain_nodes R Num_R nodes (e :: es) mats sol = Err (ValueError "unpack").
Proof. exact density_rejected. Qed.
Print Assumptions C51_rejected_partial.

(** ** C52 *)
Theorem C52_refuted : exists coord u eps xl pts wts k r s,
  str_el4 coord (mk_vec 8 u) = Ok (eps, xl) /\ gauss_nd 2 2 = Ok (pts, wts) /\ (k < length pts)%nat /\ nth k pts [] = [r; s] /\
  nth k xl [] <> [position 4 (fst (shape_quad4 r s)) coord 0; position 4 (fst (shape_quad4 r s)) coord 1].
Proof. exact positions_refuted. Qed.
Print Assumptions C52_refuted.

(** the strains are those of the Gauss points; the positions hold the x coordinate twice *)
Theorem C52_positions_partial : forall f sh rule pts wts coord u eps xl n,
  In (f, sh, rule, n) [(str_el3, shape_tri3, gauss_tri 1, 3%nat); (str_el6, shape_tri6, gauss_tri 3, 6%nat); (str_el4, shape_quad4, gauss_nd 2 2, 4%nat)] ->
  rule = Ok (pts, wts) -> length coord = n -> f coord (mk_vec (2 * n) u) = Ok (eps, xl) ->
  forall k, (k < length pts)%nat -> exists r s, nth k pts [] = [r; s] /\
    nth k xl [] = [position n (fst (sh r s)) coord 0; position n (fst (sh r s)) coord 0] /\
    strain_at sh coord u [r; s] (ent eps k).
Proof. exact gauss_positions. Qed.
Print Assumptions C52_positions_partial.

(** one row for each column of the arrays allocated; the rows that are not written are zero *)
Theorem C52_rows : forall f rule pts wts coord ul eps xl cap,
  In (f, rule, cap) [(str_el3, gauss_tri 1, 3%nat); (str_el6, gauss_tri 3, 7%nat); (str_el4, gauss_nd 2 2, 4%nat)] ->
  rule = Ok (pts, wts) -> f coord ul = Ok (eps, xl) ->
  (length pts <= cap)%nat /\ length eps = cap /\ length xl = cap /\
  forall k, (length pts <= k < cap)%nat -> nth k eps [] = [0; 0; 0] /\ nth k xl [] = [0; 0].
Proof. exact gauss_rows. Qed.
Print Assumptions C52_rows.

(** ** C53 *)
Theorem C53_hooke : forall nodes elements mats disp, Forall (bar_row nodes mats disp) elements ->
  stress_truss nodes elements mats disp = Ok (map (bar_stress nodes mats disp) elements).
Proof. exact truss_hooke. Qed.
Print Assumptions C53_hooke.

Theorem C53_rigid : forall nodes elements mats disp a b w, Forall (bar_row nodes mats disp) elements ->
  (forall i, (i < length nodes)%nat -> ent disp i 0 = a - w * ent nodes i 2 /\ ent disp i 1 = b + w * ent nodes i 1) ->
  stress_truss nodes elements mats disp = Ok (map (fun _ => 0) elements).
Proof. exact truss_rigid. Qed.
Print Assumptions C53_rigid.

Theorem C53_swap : forall nodes elements mats disp, Forall (bar_row nodes mats disp) elements ->
  stress_truss nodes (map swap_bar elements) mats disp = stress_truss nodes elements mats disp.
Proof. exact truss_swap. Qed.
Print Assumptions C53_swap.

Theorem C53_linear : forall nodes elements mats d1 d2 d3 s t s1 s2 s3,
  Forall (bar_row nodes mats d1) elements -> Forall (bar_row nodes mats d2) elements -> Forall (bar_row nodes mats d3) elements ->
  (forall i c, (i < length nodes)%nat -> (c < 2)%nat -> ent d3 i c = s * ent d1 i c + t * ent d2 i c) ->
  stress_truss nodes elements mats d1 = Ok s1 -> stress_truss nodes elements mats d2 = Ok s2 -> stress_truss nodes elements mats d3 = Ok s3 ->
  forall k, (k < length elements)%nat -> nth k s3 0 = s * nth k s1 0 + t * nth k s2 0.
Proof. exact truss_linear. Qed.
Print Assumptions C53_linear.

(** a bar from (0,0) to (3,4), E = 10, area 2, whose second end moves by (3,4)/10: stress 1 *)
Example C53_case : let nodes := [[0; 0; 0]; [1; 3; 4]] in let e := [0; 6; 0; 0; 1]%Z in let disp := [[0; 0]; [3/10; 4/10]] in
  bar_row nodes [[10; 2]] disp e /\ bar_stress nodes [[10; 2]] disp e = 1.
Proof.
  cbv zeta. split.
  - split; [cbn; lia|]. split; [intros [|[|k]] Hk; [| |lia]; unfold e_node; cbn -[Z.to_nat]; change (Z.to_nat 1) with 1%nat; change (Z.to_nat 0) with 0%nat; cbn; repeat split; lia|].
    split; [cbn; lia|]. split; [cbn; lia|]. split; [cbn; lia|]. split; [unfold ent; cbn; apply Rgt_not_eq; lra|]. left. unfold ent, e_node. cbn [nth Nat.add]. change (Z.to_nat 1) with 1%nat. cbn. apply Rlt_not_eq. lra.
  - unfold bar_stress, bar_elong, bar_len, bar_disp, e_young, ent, e_node. cbn -[Z.to_nat]. change (Z.to_nat 1) with 1%nat. cbn.
    match goal with |- context [sqrt ?x] => replace x with (5 * 5) by ring end. rewrite sqrt_square by lra. field.
Qed.

(** ** C54 *)
(** [c] is the lower left entry, which principal_dirs leaves at 0 *)
Theorem C54_exact : forall a b c d tol, c = b \/ c = 0 -> 0 < tol -> tol <= largest a b d -> tol <= Rabs b / largest a b d ->
  exists l1 l2 v1 v2, eigvals [[a; b]; [c; d]] tol = Ok (l1, l2, Some v1, Some v2) /\
    length v1 = 2%nat /\ length v2 = 2%nat /\
    tmul a b d v1 = (l1 * nth 0 v1 0, l1 * nth 1 v1 0) /\ tmul a b d v2 = (l2 * nth 0 v2 0, l2 * nth 1 v2 0) /\
    dot2 v1 v1 = 1 /\ dot2 v2 v2 = 1 /\ dot2 v1 v2 = 0 /\ Rabs l2 <= Rabs l1.
Proof. exact eig_exact. Qed.
Print Assumptions C54_exact.

Theorem C54_diagonal : forall a b c d tol, c = b \/ c = 0 -> 0 < tol -> tol <= largest a b d -> Rabs b / largest a b d < tol ->
  exists l1 l2 v1 v2, eigvals [[a; b]; [c; d]] tol = Ok (l1, l2, Some v1, Some v2) /\
    length v1 = 2%nat /\ length v2 = 2%nat /\
    (forall l v, (l, v) = (l1, v1) \/ (l, v) = (l2, v2) ->
       Rabs (fst (tmul a b d v) - l * nth 0 v 0) < tol * largest a b d /\ Rabs (snd (tmul a b d v) - l * nth 1 v 0) < tol * largest a b d) /\
    dot2 v1 v1 = 1 /\ dot2 v2 v2 = 1 /\ dot2 v1 v2 = 0 /\ Rabs l2 <= Rabs l1.
Proof. exact eig_diagonal. Qed.
Print Assumptions C54_diagonal.

Theorem C54_small : forall a b c d tol, c = b \/ c = 0 -> 0 < tol -> largest a b d < tol ->
  eigvals [[a; b]; [c; d]] tol = Ok (0, 0, None, None).
Proof. exact eig_small. Qed.
Print Assumptions C54_small.

Theorem C54_invariants : forall a b c d tol l1 l2 v1 v2, c = b \/ c = 0 -> 0 < tol -> tol <= largest a b d ->
  eigvals [[a; b]; [c; d]] tol = Ok (l1, l2, v1, v2) ->
  l1 + l2 = a + d /\ (tol <= Rabs b / largest a b d -> l1 * l2 = a * d - b * b).
Proof. exact eig_invariants. Qed.
Print Assumptions C54_invariants.

(** row by row, the tensor of [s1; s2; s3] has diagonal s1, s2 and off-diagonal s3 *)
Theorem C54_rows : forall field r, principal_dirs field = Ok r ->
  length r = length field /\
  forall i, (i < length field)%nat -> exists s1 s2 s3 rest x, nth i field [] = s1 :: s2 :: s3 :: rest /\
    nth i r (0, 0, None, None) = x /\ @eigvals R Num_R [[s1; s3]; [0; s2]] (nofQ 1e-6) = Ok x.
Proof. exact principal_rows. Qed.
Print Assumptions C54_rows.

Example C54_case : 1/1000000 <= largest 1 2 (-2) /\ 1/1000000 <= Rabs 2 / largest 1 2 (-2) /\
  largest 1 0 (-3) = 3 /\ 1/1000000 <= largest 1 0 (-3) /\ Rabs 0 / largest 1 0 (-3) < 1/1000000.
Proof.
  assert (A : largest 1 2 (-2) = 2) by (unfold largest, Rabs, Rmax; repeat destruct (Rcase_abs _); repeat destruct (Rle_dec _ _); lra).
  assert (B : largest 1 0 (-3) = 3) by (unfold largest, Rabs, Rmax; repeat destruct (Rcase_abs _); repeat destruct (Rle_dec _ _); lra).
  rewrite A, B, Rabs_R0, (Rabs_pos_eq 2) by lra. lra.
Qed.

(** ** C55 *)
Theorem C55_refuted : exists a b d k r, 0 < k /\ @eigvals R Num_R [[a; b]; [b; d]] (nofQ 1e-6) = Ok r /\
  @eigvals R Num_R [[k * a; k * b]; [k * b; k * d]] (nofQ 1e-6) <> Ok (scale_res k r).
Proof. exact eig_scale_refuted. Qed.
Print Assumptions C55_refuted.

(** it holds while both tensors have an entry of size tol at least *)
Theorem C55_scale_partial : forall a b c d tol k, c = b \/ c = 0 -> 0 < tol -> 0 < k -> tol <= largest a b d -> tol <= k * largest a b d ->
  exists r, eigvals [[a; b]; [c; d]] tol = Ok r /\ eigvals [[k * a; k * b]; [k * c; k * d]] tol = Ok (scale_res k r).
Proof. exact eig_scale. Qed.
Print Assumptions C55_scale_partial.

Example C55_case : 0 < 1/1000000 /\ 0 < 3 /\ 1/1000000 <= largest 1 2 (-2) /\ 1/1000000 <= 3 * largest 1 2 (-2).
Proof. destruct C54_case as [A _]. lra. Qed.

(** ** C56 *)
Theorem C56_element : forall e, (1 <= nth 1 e 0 <= 4)%Z -> length e = (3 + nodes_of_type (nth 1 e 0%Z))%nat ->
  exists ts, elem_triangs e = Ok ts /\
    (forall t, In t ts -> length t = 3%nat /\ forall k, In k t -> In k (skipn 3 e)) /\
    forall X Y : Z -> R, lsum (tri_area X Y) ts = e_area X Y e.
Proof. exact triangs_ok. Qed.
Print Assumptions C56_element.

Theorem C56_orientation : forall t, (1 <= t <= 4)%Z ->
  exists ts, elem_triangs ([0; t; 0] ++ map Z.of_nat (seq 0 (nodes_of_type t)))%Z = Ok ts /\ ts <> [] /\
    forall tr, In tr ts ->
      0 < tri_area (fun k => fst (nth (Z.to_nat k) (reference t) (0, 0))) (fun k => snd (nth (Z.to_nat k) (reference t) (0, 0))) tr.
Proof. exact triangs_positive. Qed.
Print Assumptions C56_orientation.

Theorem C56_other : forall e, nth_error e 1 <> None -> ~ (1 <= nth 1 e 0 <= 4)%Z -> elem_triangs e = Ok [].
Proof. exact triangs_other. Qed.
Print Assumptions C56_other.

Theorem C56_mesh : forall nodes elements X Y ts,
  (forall e, In e elements -> (1 <= nth 1 e 0 <= 4)%Z /\ length e = (3 + nodes_of_type (nth 1 e 0%Z))%nat) ->
  @mesh2tri R nodes elements = Ok (X, Y, ts) ->
  X = map (fun r => nth 1 r 0) nodes /\ Y = map (fun r => nth 2 r 0) nodes /\
  (forall t, In t ts -> length t = 3%nat /\ exists e, In e elements /\ forall k, In k t -> In k (skipn 3 e)) /\
  (forall t k, In t ts -> In k t -> (0 <= k < Z.of_nat (length nodes))%Z) /\
  forall x y : Z -> R, lsum (tri_area x y) ts = lsum (e_area x y) elements.
Proof. exact mesh_triangs. Qed.
Print Assumptions C56_mesh.

(** two squares and a triangle: seven nodes, five triangles, total area 10 *)
Example C56_case : let elements := [[0; 1; 0; 0; 1; 4; 3]; [1; 1; 0; 1; 2; 5; 4]; [2; 3; 0; 3; 4; 6]]%Z in
  let nodes := [[0; 0; 0]; [1; 2; 0]; [2; 4; 0]; [3; 0; 2]; [4; 2; 2]; [5; 4; 2]; [6; 0; 4]] in
  (forall e, In e elements -> (1 <= nth 1 e 0 <= 4)%Z /\ length e = (3 + nodes_of_type (nth 1 e 0%Z))%nat) /\
  (exists X Y ts, @mesh2tri R nodes elements = Ok (X, Y, ts) /\ length ts = 5%nat) /\
  lsum (e_area (fun k => ent nodes (Z.to_nat k) 1) (fun k => ent nodes (Z.to_nat k) 2)) elements = 10.
Proof.
  cbv zeta. split; [|split].
  - intros e He. cbn in He. destruct He as [<-|[<-|[<-|[]]]]; cbn; lia.
  - do 3 eexists. split; [cbv -[IZR]; reflexivity|reflexivity].
  - cbv -[Rplus Rminus Rmult Rdiv IZR]. lra.
Qed.

(** ** C57 *)
Theorem C57_refuted : exists elements nodes disp,
  (exists e, In e elements /\ (5 <= nth 1 e 0 <= 8)%Z) /\
  exists p, @fields_plot R elements nodes disp None None = Ok (Contours p).
Proof. exact beams_contoured_refuted. Qed.
Print Assumptions C57_refuted.

(** with beams alone (type 8) the call fails instead *)
Theorem C57_beams_refuted : forall elements nodes disp E S r,
  (forall e, In e elements -> nth 1 e 0%Z = 8%Z) -> @fields_plot R elements nodes disp E S <> Ok r.
Proof. exact beams_error_refuted. Qed.
Print Assumptions C57_beams_refuted.

(** it holds for types 5, 6 and 7, and only then *)
Theorem C57_printed_partial : forall elements nodes disp E S,
  (forall e, In e elements -> (2 <= length e)%nat) ->
  (exists e, In e elements /\ (5 <= nth 1 e 0 <= 7)%Z) ->
  @fields_plot R elements nodes disp E S = Ok (Printed disp).
Proof. exact structural_printed. Qed.
Print Assumptions C57_printed_partial.

Theorem C57_contoured_partial : forall elements nodes disp E S r,
  (forall e, In e elements -> ~ (5 <= nth 1 e 0 <= 7)%Z) ->
  @fields_plot R elements nodes disp E S = Ok r -> exists p, r = Contours p.
Proof. exact continuum_not_printed. Qed.
Print Assumptions C57_contoured_partial.
