(** * Concrete models used to show that the hypotheses of the theorems can be met *)
From Coq Require Import String Reals List Arith Lia Lra Bool ZArith QArith Qreals.
From Verif Require Import Num LinAlg Gauss Fem Uel Assem Post Main Spec LinR Base SpecAssem SpecModel SpecElem
  AssemProofs AssemProofs2 AssemProofs3 AssemProofs4 ModelProofs BarProofs.
Import ListNotations.
Local Open Scope R_scope.

Ltac all_forall := repeat (apply Forall_cons || apply Forall_nil).
Ltac flags := all_forall; (split; [reflexivity|all_forall]; ((left; reflexivity) || (right; reflexivity))).

(** ** a user-defined element (constant matrices) on a chain of three nodes, one dof per node *)
Definition ex_uel : uel_fun R := fun _ _ => Ok ([[2; -1]; [-1; 2]], M2 [[4; 1]; [1; 4]]).
Definition ex_elements : list (list Z) := [[0; 9; 0; 0; 1]; [1; 9; 0; 1; 2]]%Z.
Definition ex_nodes : list (list R) := [[0; 0; 0]; [1; 1; 0]; [2; 2; 0]].
Definition ex_mats : list (list R) := [[1; 0]].
Definition ex_op : list (list Z) := [[-1; 0]; [0; 1]]%Z.
Definition ex_locs : list local :=
  [mkLocal [-1; 0]%Z [[2; -1]; [-1; 2]] [[4; 1]; [1; 4]];
   mkLocal [0; 1]%Z [[2; -1]; [-1; 2]] [[4; 1]; [1; 4]]].

Lemma ex_locals : locals_of ex_elements ex_mats ex_nodes ex_op (Some ex_uel) ex_locs.
Proof. split; [|reflexivity]. repeat constructor. Qed.

Lemma ex_locals_ok : Forall (local_ok 2) ex_locs.
Proof.
  constructor; [|constructor; [|constructor]];
    (split; [split; [reflexivity|repeat constructor]|]; split; [split; [reflexivity|repeat constructor]|];
     split; [cbn; lia|]; intros r Hr; cbn in Hr; destruct r as [|[|r]]; cbn; lia).
Qed.

Lemma ex_assembled sparse : exists gk gm,
  assembler ex_elements ex_mats ex_nodes 2 ex_op sparse (Some ex_uel) = Ok (gk, gm).
Proof.
  destruct (assembler_ok _ _ _ _ _ _ _ sparse ex_locals ex_locals_ok) as (K & M & He & _).
  destruct sparse; eauto.
Qed.

Lemma ex_sym_psd : Forall (fun l => symmetric (l_n l) (l_K l) /\ psd (l_n l) (l_K l)) ex_locs.
Proof.
  assert (HS : symmetric 2 [[2; -1]; [-1; 2]]).
  { intros [|[|i]] [|[|j]]; cbn; intros; try lia; reflexivity. }
  assert (HP : psd 2 [[2; -1]; [-1; 2]]).
  { intros u. unfold form, act. cbn [rsum]. unfold ent. cbn [nth].
    pose proof (Rle_0_sqr (u 0%nat)). pose proof (Rle_0_sqr (u 1%nat)). pose proof (Rle_0_sqr (u 0%nat - u 1%nat)).
    unfold Rsqr in *. lra. }
  constructor; [split; assumption|]. constructor; [split; assumption|constructor].
Qed.

(** ** two collinear bars of lengths 1 and 2 between two supports; one free dof *)
Definition bar2 (f : R) : model :=
  mkModel [[0; 0; 0]; [1; 1; 0]; [2; 3; 0]]
          [[-1; -1]; [0; -1]; [-1; -1]]
          [[0; 6; 0; 0; 1]; [1; 6; 0; 1; 2]]%Z
          [[2; 3]]
          [[1; f; 0]].

(** a solver for systems of one equation; fails on everything else *)
Definition solve1 (A : list (list R)) (f : list R) : res (list R) :=
  match A, f with
  | [[a]], [b] => if Req_EM_T a 0 then Err LinAlgError else Ok [b / a]
  | _, _ => Err LinAlgError
  end.
Definition sv1 : solvers R := {| spsolve := solve1; npsolve := solve1 |}.

Lemma sv1_ok : solver_ok sv1.
Proof.
  intros A f x. cbn [spsolve sv1]. unfold solve1.
  destruct A as [|[|a [|? ?]] [|? ?]]; try discriminate. destruct f as [|b [|? ?]]; try discriminate.
  destruct (Req_EM_T a 0) as [|Ha]; [discriminate|]. intros E. apply Ok_inj in E. subst x.
  split; [reflexivity|]. intros p Hp. cbn in Hp. assert (p = 0%nat) by lia. subst p.
  unfold act, ent. cbn [length rsum nth]. field. exact Ha.
Qed.

Lemma bar2_wf f : wf_model (bar2 f).
Proof.
  split; [|split; [reflexivity|split]].
  - flags.
  - all_forall; cbn; lia.
  - all_forall. split; [cbn; lia|]. exists 1%nat. split; [cbn; lia|reflexivity].
Qed.

Lemma len01 : bar_len 0 0 1 0 = 1.
Proof. unfold bar_len. replace ((1 - 0) * (1 - 0) + (0 - 0) * (0 - 0)) with 1 by ring. apply sqrt_1. Qed.
Lemma len13 : bar_len 1 0 3 0 = 2.
Proof. unfold bar_len. replace ((3 - 1) * (3 - 1) + (0 - 0) * (0 - 0)) with (2 * 2) by ring. apply sqrt_square. lra. Qed.

Definition K1 := congr 2 4 (axial_Q 1 0) (mscale 6 axial_K).
Definition K2 := congr 2 4 (axial_Q 1 0) (mscale 3 axial_K).

Lemma bar2_ret1 f : exists M, retriever [0; 6; 0; 0; 1]%Z (md_mats (bar2 f)) (md_nodes (bar2 f)) None = Ok (K1, M2 M)
  /\ shape 4 4 M.
Proof.
  eexists. split.
  - change (retriever [0; 6; 0; 0; 1]%Z (md_mats (bar2 f)) (md_nodes (bar2 f)) None) with
      (truss2D [[0; 0]; [1; 0]] [2; 3]).
    rewrite (truss_unfold _ _ _ _ 1 0 1).
    + replace (3 * 2 / 1) with 6 by field. reflexivity.
    + rewrite axis_ok by (left; lra). rewrite len01. do 3 f_equal; field.
  - apply shape_mscale. split; [reflexivity|repeat constructor].
Qed.

Lemma bar2_ret2 f : exists M, retriever [1; 6; 0; 1; 2]%Z (md_mats (bar2 f)) (md_nodes (bar2 f)) None = Ok (K2, M2 M)
  /\ shape 4 4 M.
Proof.
  eexists. split.
  - change (retriever [1; 6; 0; 1; 2]%Z (md_mats (bar2 f)) (md_nodes (bar2 f)) None) with
      (truss2D [[1; 0]; [3; 0]] [2; 3]).
    rewrite (truss_unfold _ _ _ _ 1 0 2).
    + replace (3 * 2 / 2) with 3 by field. reflexivity.
    + rewrite axis_ok by (left; lra). rewrite len13. do 3 f_equal; field.
  - apply shape_mscale. split; [reflexivity|repeat constructor].
Qed.

Lemma congr_is p q Q A : shape q q (congr p q Q A).
Proof. apply shape_mk_mat. Qed.

Definition op1 : list Z := [-1; -1; 0; -1; 0; 0; 0; 0; 0; 0; 0; 0; 0; 0; 0; 0; 0; 0]%Z.
Definition op2 : list Z := [0; -1; -1; -1; 0; 0; 0; 0; 0; 0; 0; 0; 0; 0; 0; 0; 0; 0]%Z.

Lemma bar2_assembled f : exists K M, sparse_assem (md_elements (bar2 f)) (md_mats (bar2 f)) (md_nodes (bar2 f)) 1
    [op1; op2] None = Ok (K, M) /\ K = [[9]].
Proof.
  destruct (bar2_ret1 f) as (M1 & R1 & S1). destruct (bar2_ret2 f) as (M2' & R2 & S2).
  set (locs := [mkLocal op1 K1 M1; mkLocal op2 K2 M2']).
  assert (HL : locals_of (md_elements (bar2 f)) (md_mats (bar2 f)) (md_nodes (bar2 f))
     [op1; op2] None locs).
  { split; [|reflexivity]. constructor; [exact R1|]. constructor; [exact R2|constructor]. }
  assert (HO : Forall (local_ok 1) locs).
  { constructor; [|constructor; [|constructor]].
    - split; [apply congr_is|]. split; [exact S1|]. split; [cbn; lia|].
      intros r Hr. cbn in Hr. do 4 (destruct r as [|r]; [cbn; lia|]). lia.
    - split; [apply congr_is|]. split; [exact S2|]. split; [cbn; lia|].
      intros r Hr. cbn in Hr. do 4 (destruct r as [|r]; [cbn; lia|]). lia. }
  destruct (assembler_ok _ _ _ _ _ _ _ true HL HO) as (K & M & He & HK & HM & HE).
  unfold assembler in He. inv_ok He. destruct r as [k m]. injection He as -> ->.
  exists K, M. split; [exact Hr|].
  destruct (HE 0%nat 0%nat) as [E _]; [lia|lia|].
  assert (E9 : ent K 0 0 = 9).
  { rewrite E. unfold lsum, locs. cbn [fold_right]. unfold scatter, l_n, l_eq. cbn [l_K l_op].
    change (length K1) with 4%nat. change (length K2) with 4%nat. cbn [rsum op1 op2 nth Z.eqb andb Z.of_nat].
    unfold K1, K2. rewrite !axial_ent by lia. unfold axial_q. ring. }
  destruct HK as [HKl HKr]. destruct K as [|row [|? ?]]; try discriminate.
  inversion HKr as [|? ? Hrow _]; subst. destruct row as [|x [|? ?]]; try discriminate.
  unfold ent in E9. cbn in E9. rewrite E9. reflexivity.
Qed.

Lemma bar2_dme : DME (md_cons (bar2 0)) (md_elements (bar2 0)) 2 18 None =
  Ok ([op1; op2], [[-1; -1]; [0; -1]; [-1; -1]]%Z, 1%Z).
Proof.
  unfold DME, eqcounter. cbn [md_cons bar2 map]. change (@ntrunc R Num_R) with Rtrunc.
  rewrite (Rtrunc_IZR 0), (Rtrunc_IZR (-1)). reflexivity.
Qed.

Lemma bar2_run f : exists out, auto sv1 (bar2 f) false false = Ok out.
Proof.
  unfold auto, solids_auto, run. cbn [md_nodes md_cons md_elements md_mats md_loads bar2].
  pose proof bar2_dme as Hd. cbn [md_cons md_elements bar2] in Hd. rewrite Hd. cbn [bind].
  destruct (bar2_assembled f) as (K & M & Ha & ->). cbn [md_nodes md_elements md_mats bar2] in Ha.
  change (Z.to_nat 1) with 1%nat. unfold assembler. rewrite Ha. cbn [bind].
  assert (Hl : loadasem [[1; f; 0]] [[-1; -1]; [0; -1]; [-1; -1]]%Z 1 2 = Ok [f]).
  { unfold loadasem, load_row. cbn [foldM bind]. change (np_get [1; f; 0] 0) with (Ok 1). cbn [bind].
    change (@ntrunc R Num_R) with Rtrunc. rewrite (Rtrunc_IZR 1). reflexivity. }
  rewrite Hl. cbn [bind static_sol spsolve sv1 solve1].
  destruct (Req_EM_T 9 0) as [E|_]; [lra|]. cbn [bind].
  assert (Hq : exists w, @not_equilibrium R Num_R 1 (entries (Csr [[9]])) [f / 9] [f] = Ok w).
  { unfold not_equilibrium. cbn [length Nat.eqb guard bind]. unfold gmax. cbn [mk_mat seq map mk_vec concat app fold_left bind].
    destruct (nis0 _); eauto. }
  destruct Hq as [w Hq]. rewrite Hq. cbn [bind].
  eexists. reflexivity.
Qed.

Lemma bar2_stable f : stable (bar2 f).
Proof.
  intros U HU.
  assert (H0 : forall i d, (i < 3)%nat -> (d < 2)%nat -> (i = 1 /\ d = 0)%nat \/ U i d = 0).
  { intros i d Hi Hd. destruct (HU i d Hi Hd) as [A _]. cbn [md_cons bar2] in A.
    assert (Ei : (i = 0 \/ i = 1 \/ i = 2)%nat) by lia. assert (Ed : (d = 0 \/ d = 1)%nat) by lia.
    destruct Ei as [->|[->| ->]], Ed as [->| ->]; auto; right; apply A; reflexivity. }
  assert (H1 : U 1%nat 0%nat = 0).
  { destruct (HU 1%nat 0%nat) as [_ B]; [cbn; lia|lia|]. specialize (B eq_refl).
    unfold internal_force in B. cbn [md_elements bar2] in B. unfold lsum in B. cbn [fold_right] in B.
    unfold e_n, e_node in B. cbn [length Nat.sub rsum Nat.add nth Z.to_nat Nat.eqb] in B.
    change (Pos.to_nat 1 =? 1)%nat with true in B. change (Pos.to_nat 2 =? 1)%nat with false in B. cbn [Nat.mul Nat.add] in B.
    unfold e_force, e_stiff in B.
    destruct (bar2_ret1 f) as (M1 & R1 & _). destruct (bar2_ret2 f) as (M2' & R2 & _). rewrite R1, R2 in B.
    unfold e_n in B. cbn [length Nat.sub Nat.mul Nat.add] in B. unfold K1, K2 in B.
    rewrite !axial_act in B by lia. unfold axial_q, e_disp, e_node in B. cbn in B.
    change (Pos.to_nat 1) with 1%nat in B. change (Pos.to_nat 2) with 2%nat in B.
    assert (Z00 : U 0%nat 0%nat = 0) by (destruct (H0 0%nat 0%nat) as [[? _]|]; [lia|lia|discriminate|assumption]).
    assert (Z20 : U 2%nat 0%nat = 0) by (destruct (H0 2%nat 0%nat) as [[? _]|]; [lia|lia|discriminate|assumption]).
    rewrite Z00, Z20 in B. lra. }
  intros i d Hi Hd. destruct (H0 i d Hi Hd) as [[-> ->]|E]; assumption.
Qed.
