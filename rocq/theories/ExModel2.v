(** * Concrete cases for the properties of whole models *)
From Coq Require Import String Reals List Arith Lia Lra ZArith.
From Verif Require Import Num LinAlg Fem Uel Assem Post TextIO Main Spec LinR Base SpecAssem SpecModel SpecElem AssemProofs4 ModelProofs ExModel SpecShape ShapeProofs ElemCore Elem2 Elem2Props ElemFinal2 ElemFinal3 MeshProofs.
Import ListNotations.
Local Open Scope R_scope.

(** ** C15: the two bars *)
Lemma bar2_rows f : node_rows_ok (bar2 f).
Proof. repeat constructor. Qed.
Lemma bar2_types f : continuum_or_truss (bar2 f).
Proof. repeat constructor; exists 6%Z; split; reflexivity. Qed.

(** ** C18: the files of the two bars *)
Definition line (s : string) : string := (s ++ String nl "")%string.
Definition fs_bar : fsys := fun p =>
  if String.eqb p "m/nodes.txt" then Some (line "0 0.0 0.0 -1 -1" ++ line "1 1.0 0 0 -1 # free in x" ++ line "2 3.0 0.0 -1 -1")%string
  else if String.eqb p "m/mater.txt" then Some (line "2.0 3.0")
  else if String.eqb p "m/eles.txt" then Some (line "0 6 0 0 1" ++ line "1 6 0 1 2")%string
  else if String.eqb p "m/loads.txt" then Some (line "1 9.0 0.0")
  else None.
Lemma bar_files : exists nodes mats elements loads, @readin R Num_R fs_bar "m/" = Ok (nodes, mats, elements, loads) /\
  Forall (fun row => length row = 5%nat) nodes /\ length nodes = 3%nat.
Proof.
  do 4 eexists. split; [unfold readin; cbv -[nofQ Num_R]; reflexivity|]. split; [repeat constructor|reflexivity].
Qed.

(** ** C20: the two bars numbered from the other end *)
Definition bar2r (f : R) : model :=
  mkModel [[0; 3; 0]; [1; 1; 0]; [2; 0; 0]]
          [[-1; -1]; [0; -1]; [-1; -1]]
          [[0; 6; 0; 2; 1]; [1; 6; 0; 1; 0]]%Z
          [[2; 3]]
          [[1; f; 0]].
Lemma bar2_relabelled f : relabelling (fun i => 2 - i)%nat (fun i => 2 - i)%nat (bar2 f) (bar2r f).
Proof.
  constructor; try reflexivity.
  - cbn [md_nodes bar2 length]. intros i Hi. lia.
  - cbn [md_nodes bar2 length]. intros i Hi. lia.
  - cbn [md_nodes bar2 length]. intros i Hi. do 3 (destruct i as [|i]; [reflexivity|]). lia.
  - cbn [md_nodes bar2 length]. intros i Hi. do 3 (destruct i as [|i]; [reflexivity|]). lia.
  - repeat constructor.
  - repeat constructor. exists 1%nat. split; [cbn; lia|]. split; reflexivity.
Qed.

(** ** C16: the assembled matrix of the chain *)
Lemma ex_energy u v : energy [u; v] [[2; -1]; [-1; 2]] = - (u * u - u * v + v * v).
Proof. rewrite ModelProofs2.energy_form. unfold form, act, ent. cbn [rsum length nth]. field. Qed.

(** ** C17: the chain, with a solver for systems of two equations *)
Definition solve2 (A : list (list R)) (f : list R) : res (list R) :=
  match A, f with
  | [[a; b]; [c; d]], [x; y] =>
      if Req_EM_T (a * d - b * c) 0 then Err LinAlgError
      else Ok [(x * d - b * y) / (a * d - b * c); (a * y - c * x) / (a * d - b * c)]
  | _, _ => Err LinAlgError
  end.
Lemma solve2_sound : sound solve2.
Proof.
  intros A f x. unfold solve2.
  destruct A as [|[|a [|b [|? ?]]] [|[|c [|d [|? ?]]] [|? ?]]]; try discriminate.
  destruct f as [|x0 [|y0 [|? ?]]]; try discriminate.
  destruct (Req_EM_T (a * d - b * c) 0) as [|Hne]; [discriminate|]. intros E. apply Ok_inj in E. subst x.
  split; [reflexivity|]. intros p Hp. cbn in Hp. 
  do 2 (destruct p as [|p]; [unfold act, ent; cbn [length rsum nth]; field; exact Hne|]). lia.
Qed.

Lemma ex_matrix sparse : exists gk gm, assembler ex_elements ex_mats ex_nodes 2 ex_op sparse (Some ex_uel) = Ok (gk, gm) /\
  fst (mats_of (gk, gm)) = [[4; -1]; [-1; 2]].
Proof.
  destruct (assembler_ok _ _ _ _ _ _ _ sparse ex_locals ex_locals_ok) as (K & M & He & SK & _ & HE).
  assert (EK : K = [[4; -1]; [-1; 2]]).
  { destruct SK as [LK RK]. destruct K as [|r0 [|r1 [|? ?]]]; try discriminate.
    inversion RK as [|? ? L0 RK']; subst. inversion RK' as [|? ? L1 _]; subst.
    destruct r0 as [|a [|b [|? ?]]]; try discriminate. destruct r1 as [|c [|d [|? ?]]]; try discriminate.
    destruct (HE 0%nat 0%nat) as [E00 _]; [lia|lia|]. destruct (HE 0%nat 1%nat) as [E01 _]; [lia|lia|].
    destruct (HE 1%nat 0%nat) as [E10 _]; [lia|lia|]. destruct (HE 1%nat 1%nat) as [E11 _]; [lia|lia|].
    unfold lsum, ex_locs, scatter, l_n, l_eq, ent in *. cbn in E00, E01, E10, E11.
    assert (a = 4) by lra. assert (b = -1) by lra. assert (c = -1) by lra. assert (d = 2) by lra. clear E00 E01 E10 E11. subst a b c d. reflexivity. }
  destruct sparse; do 2 eexists; (split; [exact He|exact EK]).
Qed.

Lemma ex_regular : regular 2 [[4; -1]; [-1; 2]].
Proof.
  intros u H. pose proof (H 0%nat ltac:(lia)) as H0. pose proof (H 1%nat ltac:(lia)) as H1.
  unfold act, ent in H0, H1. cbn [rsum nth] in H0, H1. intros p Hp. do 2 (destruct p as [|p]; [lra|]). lia.
Qed.
Lemma ex_solves f0 f1 : exists x, solve2 [[4; -1]; [-1; 2]] [f0; f1] = Ok x.
Proof. cbn. destruct (Req_EM_T _ _); [lra|]. eauto. Qed.
Lemma ex_range : op_in_range ex_elements ex_mats ex_nodes 2 ex_op (Some ex_uel).
Proof. exact (locals_op_in_range _ _ _ _ _ _ _ ex_locals ex_locals_ok). Qed.

(** ** C06: a square of two triangles on two supports *)
Definition sq_cons : list (list R) := [[-1; -1]; [0; -1]; [0; 0]; [0; 0]].
Definition sq_elements : list (list Z) := [[0; 3; 0; 0; 1; 2]; [1; 3; 0; 0; 2; 3]]%Z.
Definition sq_nodes : list (list R) := [[0; 0; 0]; [1; 2; 0]; [2; 2; 2]; [3; 0; 2]].
Lemma sq_rows : flags01 2 sq_cons /\ Forall (good_row 2 18 None sq_cons) sq_elements.
Proof.
  split; [flags|]. repeat constructor; exists 3%Z; (split; [reflexivity|]); (split; [reflexivity|]); (split; [cbn; lia|]); cbn [skipn];
    all_forall; cbn; lia.
Qed.

Lemma tri_runs c : J2det (Jac 3 (snd (shape_tri3 0 0)) c) = 4 -> length c = 3%nat -> ncols c = 2%nat ->
  exists K M, elast_tri3 c [1; 1/4; 2] = Ok (K, M2 M) /\ shape 6 6 K /\ shape 6 6 M.
Proof.
  intros Hd Hl Hc.
  destruct (plane_runs pl_tri3 c [1; 1/4; 2] 1 (1/4) 2 ltac:(cbn; tauto) eq_refl ltac:(lra)) as [K [M H]].
  - split; [exact Hl|]. split; [exact Hc|]. intros r s w _. 
    apply (Rlt_le_trans _ 4); [lra|]. apply Req_le. rewrite <- Hd. reflexivity.
  - exists K, M. split; [exact H|]. exact (types_shape 3 elast_tri3 6 3 _ _ _ K M eq_refl eq_refl H).
Qed.
Lemma sq_assembled sparse : exists op bc neq gk gm, DME sq_cons sq_elements 2 18 None = Ok (op, bc, neq) /\ neq = 5%Z /\
  assembler sq_elements [[1; 1/4; 2]] sq_nodes (Z.to_nat neq) op sparse None = Ok (gk, gm).
Proof.
  destruct sq_rows as [HF HG]. destruct (DME_ok 2 18 None sq_cons sq_elements HF HG) as [op [bc [HD [Hnum Hrows]]]].
  assert (Hc : count_free sq_cons = 5%nat) by (unfold count_free, sq_cons; cbn; repeat (destruct (Req_EM_T _ _); try lra); reflexivity).
  rewrite Hc in *. exists op, bc, 5%Z.
  pose proof (AssemProofs3.numbering_bc_ok _ _ _ _ HF Hnum) as Hbc. pose proof (AssemProofs3.numbering_length _ _ _ Hnum) as Hlen.
  inversion Hrows as [|? r1 ? ? Hr1 Hrows']; subst. inversion Hrows' as [|? r2 ? ? Hr2 Hrows'']; subst. inversion Hrows''; subst.
  destruct (tri_runs [[0; 0]; [2; 0]; [2; 2]]) as [K1' [M1' [E1 [S1 T1]]]];
    [unfold J2det, Jac, ent; shp; cbn [rsum nth]; ring|reflexivity|reflexivity|].
  destruct (tri_runs [[0; 0]; [2; 2]; [0; 2]]) as [K2' [M2'' [E2 [S2 T2]]]];
    [unfold J2det, Jac, ent; shp; cbn [rsum nth]; ring|reflexivity|reflexivity|].
  assert (HL : locals_of sq_elements [[1; 1/4; 2]] sq_nodes [r1; r2] None [mkLocal r1 K1' M1'; mkLocal r2 K2' M2'']).
  { split; [|reflexivity]. constructor; [exact E1|]. constructor; [exact E2|constructor]. }
  assert (HO : Forall (local_ok 5) [mkLocal r1 K1' M1'; mkLocal r2 K2' M2'']).
  { inversion HG as [|? ? [t1 [_ [_ [_ N1]]]] HG']; subst. inversion HG' as [|? ? [t2 [_ [_ [_ N2]]]] _]; subst.
    constructor; [|constructor; [|constructor]]; unfold local_ok, l_n; cbn [l_K l_M l_op].
    - rewrite (proj1 S1). split; [exact S1|]. split; [exact T1|]. split; [rewrite (proj1 Hr1); lia|].
      intros r Hr. exact (row_range bc 2 18 5 sq_cons _ _ r Hbc Hlen N1 Hr1 Hr).
    - rewrite (proj1 S2). split; [exact S2|]. split; [exact T2|]. split; [rewrite (proj1 Hr2); lia|].
      intros r Hr. exact (row_range bc 2 18 5 sq_cons _ _ r Hbc Hlen N2 Hr2 Hr). }
  destruct (assembler_ok _ _ _ _ _ _ _ sparse HL HO) as (K & M & He & _).
  destruct sparse; do 2 eexists; (split; [exact HD|]); (split; [reflexivity|exact He]).
Qed.
Lemma sq_materials : forall elem t im params, In elem sq_elements -> nth_error elem 1 = Some t -> nth_error elem 2 = Some im ->
  np_get [[1; 1/4; 2]] im = Ok params -> material_ok t params.
Proof.
  intros elem t im params [<-|[<-|[]]] Ht Hi Hp; cbn in Ht, Hi; injection Ht as <-; injection Hi as <-; cbn in Hp; apply Ok_inj in Hp; subst params;
    exists 1, (1/4), [2]; (split; [reflexivity|]); (split; [lra|]); (split; [lra|]); right; cbn; lra.
Qed.
