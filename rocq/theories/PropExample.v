(** * Property C110: the cantilever of examples/beam_convergence *)
From Coq Require Import String Reals List ZArith Arith Lra Lia.
From Verif Require Import Num LinAlg Fem Assem Post Pre Main Example Spec SpecModel SpecPost SpecStatic SpecGrid SpecExample ExSolver GridProofs ExampleProofs ExampleProofs2 ExampleProofs3.
Import ListNotations.
Local Open Scope R_scope.

(** ** the closed form.  Full claim: exx, eyy, gammaxy are the strains of (u, v).  They are not: the
    shear strain is off by the last term *)
Theorem C110_strains_partial : forall nu P E I L h, E <> 0 -> I <> 0 -> 1 + nu <> 0 ->
  exists u v exx eyy gxy : R -> R -> R, (forall x y, beam_sln x y nu P E I L h = Ok (u x y, v x y, exx x y, eyy x y, gxy x y)) /\
    forall x y, strain_of u v x y (exx x y) (eyy x y) (gxy x y + P * (1 + nu) / (I * E) * (2 * y * y - h * h / 4)).
Proof. exact sln_partial. Qed.
Print Assumptions C110_strains_partial.

(** so the strains are right on two lines only, whatever the load *)
Theorem C110_strains_where : forall nu P E I L h, E <> 0 -> I <> 0 -> 1 + nu <> 0 -> P <> 0 ->
  forall u v exx eyy gxy : R -> R -> R, (forall x y, beam_sln x y nu P E I L h = Ok (u x y, v x y, exx x y, eyy x y, gxy x y)) ->
  forall x y, strain_of u v x y (exx x y) (eyy x y) (gxy x y) <-> 8 * y * y = h * h.
Proof. exact sln_wrong. Qed.
Print Assumptions C110_strains_where.

(** the numbers of the notebook, on the axis of the beam *)
Theorem C110_strains_refuted : exists nu P E I L h u v exx eyy gxy x y, 0 < E /\ 0 < I /\ -1 < nu < 1 / 2 /\
  (forall x y, beam_sln x y nu P E I L h = Ok (u x y, v x y, exx x y, eyy x y, gxy x y)) /\ ~ strain_of u v x y (exx x y) (eyy x y) (gxy x y).
Proof.
  destruct (sln_partial (3 / 10) (-50) 1000 (4267 / 100) 24 4 ltac:(lra) ltac:(lra) ltac:(lra)) as (u & v & e1 & e2 & g & HS & _).
  exists (3 / 10), (-50), 1000, (4267 / 100), 24, 4, u, v, e1, e2, g, 0, 0. repeat (split; [lra|]). split; [exact HS|].
  intros HC. apply (sln_wrong (3 / 10) (-50) 1000 (4267 / 100) 24 4 ltac:(lra) ltac:(lra) ltac:(lra) ltac:(lra) _ _ _ _ _ HS) in HC. lra.
Qed.
Print Assumptions C110_strains_refuted.

(** the strains themselves are good: their stresses are in equilibrium, leave the long sides and the end
    x = 0 free of normal stress, and carry the load -P in every section when I is that of the rectangle *)
Theorem C110_stress : forall nu P E I L h, E <> 0 -> I <> 0 -> 1 - nu * nu <> 0 ->
  forall u v exx eyy gxy : R -> R -> R, (forall x y, beam_sln x y nu P E I L h = Ok (u x y, v x y, exx x y, eyy x y, gxy x y)) ->
  let s k x y := hooke2 E nu (fun c => nth c [exx x y; eyy x y; gxy x y] 0) k in
  (forall x y, stress_balanced (s 0%nat) (s 1%nat) (s 2%nat) x y) /\
  (forall x y, s 1%nat x y = 0) /\ (forall x, s 2%nat x (h / 2) = 0 /\ s 2%nat x (- h / 2) = 0) /\
  (forall y, s 0%nat 0 y = 0) /\
  (I = h * h * h / 12 -> forall x, exists F, (forall y, derivable_pt_lim F y (s 2%nat x y)) /\ F (h / 2) - F (- h / 2) = - P).
Proof. exact sln_stress. Qed.
Print Assumptions C110_stress.

(** ** the tables of one iteration *)
Theorem C110_tables : forall P L h nx ny, (1 <= nx)%nat -> (1 <= ny)%nat -> L <> 0 ->
  exists nodes els loads x y, rect_grid L h nx ny = (x, y, els) /\ beam_tables P L h nx ny = Ok (nodes, els, loads) /\ length nodes = ((nx + 1) * (ny + 1))%nat /\
    (forall i j, (i <= nx)%nat -> (j <= ny)%nat -> exists f, nth (node nx i j) nodes [] =
       [INR (node nx i j); - L / 2 + INR i * (L / INR nx); - h / 2 + INR j * (h / INR ny); if (i =? nx)%nat then -1 else 0; f] /\
       f = if (node nx i j =? nx * (ny / 2 + 1) - 1)%nat then -1 else 0) /\
    loads = map (fun j => [INR (node nx 0 j); 0; P / INR ny]) (seq 0 (ny + 1)).
Proof. exact beam_table. Qed.
Print Assumptions C110_tables.

(** the node held in y is not on the held side: it is ny/2 + 1 columns away *)
Theorem C110_support : forall P L h nx ny nodes els loads, (1 <= nx)%nat -> (1 <= ny)%nat -> 0 < L -> (ny / 2 + 1 <= nx)%nat -> beam_tables P L h nx ny = Ok (nodes, els, loads) ->
  forall k, (k < length nodes)%nat -> ent nodes k 4 = -1 -> ent nodes k 1 = L / 2 - INR (ny / 2 + 1) * (L / INR nx) /\ ent nodes k 1 < L / 2.
Proof. exact beam_support. Qed.
Print Assumptions C110_support.

(** every iteration of the notebook has nx = 3 ny *)
Theorem C110_support_refuted : forall n, let ny := Nat.pow 2 n in let nx := (3 * ny)%nat in
  exists P L h nodes els loads, beam_tables P L h nx ny = Ok (nodes, els, loads) /\ ~ exists k, (k < length nodes)%nat /\ ent nodes k 1 = L / 2 /\ ent nodes k 4 = -1.
Proof.
  intros n ny nx. assert (Hy : (1 <= ny)%nat) by (pose proof (Nat.pow_nonzero 2 n); unfold ny; lia). assert (Hx : (1 <= nx)%nat) by (unfold nx; lia).
  assert (Hm : (ny / 2 + 1 <= nx)%nat) by (pose proof (Nat.div_le_upper_bound ny 2 ny ltac:(lia) ltac:(lia)); unfold nx; lia).
  destruct (beam_table (-50) 24 8 nx ny Hx Hy ltac:(lra)) as (nd & el & ld & x & y & _ & HT & _). exists (-50), 24, 8, nd, el, ld. split; [exact HT|].
  intros (k & Hk & HX & HF). destruct (beam_support (-50) 24 8 nx ny _ _ _ Hx Hy ltac:(lra) Hm HT k Hk HF). lra.
Qed.
Print Assumptions C110_support_refuted.

(** the loads add up to P (ny + 1)/ny *)
Theorem C110_load : forall P L h nx ny nodes els loads, (1 <= nx)%nat -> (1 <= ny)%nat -> L <> 0 -> beam_tables P L h nx ny = Ok (nodes, els, loads) ->
  lsum (fun r => nth 2 r 0) loads = P * (INR ny + 1) / INR ny.
Proof. exact beam_total. Qed.
Print Assumptions C110_load.
Theorem C110_load_refuted : exists P L h nx ny nodes els loads, beam_tables P L h nx ny = Ok (nodes, els, loads) /\ lsum (fun r => nth 2 r 0) loads = 2 * P /\ P <> 0.
Proof.
  destruct (beam_table (-50) 24 8 3 1 ltac:(lia) ltac:(lia) ltac:(lra)) as (nd & el & ld & x & y & _ & HT & _).
  exists (-50), 24, 8, 3%nat, 1%nat, nd, el, ld. split; [exact HT|]. rewrite (beam_total (-50) 24 8 3 1 _ _ _ ltac:(lia) ltac:(lia) ltac:(lra) HT). cbn [INR]. split; lra.
Qed.
Print Assumptions C110_load_refuted.

(** ** the call of DME: the five columns are refused, at every size *)
Theorem C110_stops : forall P L h nx ny, (1 <= nx)%nat -> (1 <= ny)%nat -> L <> 0 -> beam_dme P L h nx ny = Err (ValueError "could not broadcast input array").
Proof. exact beam_stops. Qed.
Print Assumptions C110_stops.
(** more generally any table of w columns for elements whose dofs do not match *)
Theorem C110_wide : forall (cons : list (list R)) e es t w nd nn ng, Forall (fun r => length r = w) cons -> (2 <= w)%nat ->
  nth_error e 1 = Some t -> eletype t = Ok (nd, nn, ng) -> Forall (fun z => (0 <= z < Z.of_nat (length cons))%Z) (skipn 3 e) ->
  ((length e - 3) * w <> nd)%nat -> ((length e - 3) * w <> 1)%nat -> DME cons (e :: es) 2 18 None = Err (ValueError "could not broadcast input array").
Proof. exact dme_wide. Qed.
Print Assumptions C110_wide.

(** ** the same tables given separately: the model runs, one node carries the whole load, and the couple on
    the held side is that of a beam shorter by ny/2 + 1 columns under P (ny + 1)/ny *)
Theorem C110_runs : forall P L h E nu nx ny nodes els loads, (1 <= nx)%nat -> (1 <= ny)%nat -> 0 < L -> 0 < h -> 1 / 100000000 < L * h / (4 * INR nx * INR ny) -> 0 < E -> -1 < nu < 1 ->
  beam_tables P L h nx ny = Ok (nodes, els, loads) -> forall sv, solver_ok sv -> solver_total sv ->
  exists out, auto sv (split_model E nu nodes els loads) false false = Ok out.
Proof. exact beam_runs. Qed.
Print Assumptions C110_runs.
Theorem C110_reaction : forall P L h E nu nx ny, (1 <= nx)%nat -> (1 <= ny)%nat -> 0 < L -> 0 < h -> 1 / 100000000 < L * h / (4 * INR nx * INR ny) -> 0 < E -> -1 < nu < 1 ->
  forall nodes els loads, beam_tables P L h nx ny = Ok (nodes, els, loads) -> let md := split_model E nu nodes els loads in
  forall sv plot strains out, solver_ok sv -> auto sv md plot strains = Ok out -> reaction md (table out) (nx * (ny / 2 + 1) - 1) 1 = - (P * (INR ny + 1) / INR ny).
Proof. exact sp_reaction. Qed.
Print Assumptions C110_reaction.
Theorem C110_couple : forall P L h E nu nx ny, (1 <= nx)%nat -> (1 <= ny)%nat -> 0 < L -> 0 < h -> 1 / 100000000 < L * h / (4 * INR nx * INR ny) -> 0 < E -> -1 < nu < 1 ->
  forall nodes els loads, beam_tables P L h nx ny = Ok (nodes, els, loads) -> let md := split_model E nu nodes els loads in
  forall sv plot strains out, solver_ok sv -> auto sv md plot strains = Ok out -> (ny / 2 + 1 <= nx)%nat ->
  rsum ((nx + 1) * (ny + 1)) (fun k => ent (md_nodes md) k 2 * reaction md (table out) k 0) = - (P * (INR ny + 1) / INR ny * (L - INR (ny / 2 + 1) * (L / INR nx))).
Proof. exact sp_moment. Qed.
Print Assumptions C110_couple.

(** the first iteration of the notebook: 3 x 1 cells, node 2 (x = 4) held in y, the couple is that of 2 P at 16 from the side *)
Example C110_case : exists nodes els loads, beam_tables (-50) 24 8 3 1 = Ok (nodes, els, loads) /\ ent nodes 2 1 = 4 /\ ent nodes 2 4 = -1 /\ ent nodes 3 1 = 12 /\ ent nodes 3 3 = -1 /\
  loads = [[0; 0; -50 / 1]; [4; 0; -50 / 1]] /\
  exists out, let md := split_model 1000 (3 / 10) nodes els loads in auto elim_solver md false false = Ok out /\
    reaction md (table out) 2 1 = 100 /\ rsum 8 (fun k => ent (md_nodes md) k 2 * reaction md (table out) k 0) = 1600.
Proof.
  destruct (beam_table (-50) 24 8 3 1 ltac:(lia) ltac:(lia) ltac:(lra)) as (nd & el & ld & x & y & _ & HT & _ & HR & HL). exists nd, el, ld. split; [exact HT|].
  destruct (HR 2%nat 0%nat ltac:(lia) ltac:(lia)) as (f & R2 & Ef). destruct (HR 3%nat 0%nat ltac:(lia) ltac:(lia)) as (g & R3 & _).
  cbn [node Nat.mul Nat.add Nat.div Nat.divmod fst Nat.sub Nat.eqb INR] in *. unfold ent at 1 2 3 4. rewrite R2, R3. cbn [nth]. rewrite Ef.
  split; [lra|]. split; [reflexivity|]. split; [lra|]. split; [reflexivity|].
  split; [rewrite HL; cbn [map seq node Nat.mul Nat.add INR]; repeat (f_equal; try lra)|].
  assert (D : 1 / 100000000 < 24 * 8 / (4 * INR 3 * INR 1)) by (cbn [INR]; lra).
  destruct (beam_runs (-50) 24 8 1000 (3 / 10) 3 1 nd el ld ltac:(lia) ltac:(lia) ltac:(lra) ltac:(lra) D ltac:(lra) ltac:(lra) HT elim_solver elim_ok elim_total) as [out HO].
  exists out. split; [exact HO|].
  pose proof (sp_reaction (-50) 24 8 1000 (3 / 10) 3 1 ltac:(lia) ltac:(lia) ltac:(lra) ltac:(lra) D ltac:(lra) ltac:(lra) nd el ld HT elim_solver false false out elim_ok HO) as A.
  pose proof (sp_moment (-50) 24 8 1000 (3 / 10) 3 1 ltac:(lia) ltac:(lia) ltac:(lra) ltac:(lra) D ltac:(lra) ltac:(lra) nd el ld HT elim_solver false false out elim_ok HO ltac:(cbn; lia)) as B.
  change (held_node 3 1) with 2%nat in A. change ((3 + 1) * (1 + 1))%nat with 8%nat in B. change (1 / 2 + 1)%nat with 1%nat in B. cbn [INR] in A, B. split; [rewrite A; lra|]. rewrite B. lra.
Qed.
