(** * Runs of the files of the Brazilian test *)
From Coq Require Import String Reals List ZArith Arith Bool Lra Lia Relations.
From Verif Require Import Num LinAlg Gauss Fem Uel Assem Post Pre TextIO Template Brazil Main Spec SpecPre SpecText SpecPost SpecModel SpecStatic SpecRun SpecTemplate SpecBrazil
  LinR Base AssemProofs PostProofs ModelProofs MeshProofs ImportProofs TextProofs TextGrammar TextWritten RunProofs TemplateProofs TemplateProofs2 TriModel TemplateProofs3 BrazilProofs ExSolver ExTemplate.
Import ListNotations.
Local Open Scope R_scope.
Local Notation count4 maters := (count_occ Z.eq_dec maters 4%Z).

Lemma brazil_tri points cells cell_data eles maters lines bounds v md : brazil_mesh points cells cell_data eles maters lines bounds [v] ->
  brazil_model (fun _ => 1%Z) points eles maters lines bounds [v] md -> tri_model points eles lines bounds 1 2 (fun _ => 1%Z) md.
Proof.
  intros ((_ & _ & _ & _ & _ & _ & _ & HF & HR) & _ & Hv) (Ln & Lc & Hn & Le & Ne & Hmt & Hld). repeat (split; [assumption|]). split.
  - intros k _. rewrite Hmt. exists 70000000000, (35/100). split; [lra|]. split; [lra|reflexivity].
  - rewrite Hld. cbn [map]. apply Forall_cons; [|constructor]. split; [cbn; lia|]. exists v. inversion Hv; subst. split; [now rewrite Ln|reflexivity].
Qed.
Lemma one_load N v d : (v < N)%nat -> (d < 2)%nat ->
  rsum N (fun i => applied [[INR v; 0; -1000000000]] i d) = if (d =? 0)%nat then 0 else -1000000000.
Proof.
  intros Hv Hd. rewrite (rsum_single N v); [|exact Hv|].
  - unfold applied. cbn [fold_left]. change (nth 0 [INR v; 0; -1000000000] 0) with (INR v). destruct (Req_EM_T (INR v) (INR v)); [|congruence]. destruct d as [|[|]]; [reflexivity|reflexivity|lia].
  - intros i _ Hne. unfold applied. cbn [fold_left]. change (nth 0 [INR v; 0; -1000000000] 0) with (INR v). destruct (Req_EM_T (INR v) (INR i)) as [E|]; [|reflexivity]. apply INR_eq in E. congruence.
Qed.
Theorem brazil_run sv fs points cells cell_data eles maters lines bounds v gui prompt : brazil_mesh points cells cell_data eles maters lines bounds [v] ->
  (count4 maters = length eles \/ count4 maters = 1%nat) -> Forall (sturdy points) eles -> mesh_connected points eles -> held_on 1 2 points lines bounds ->
  (exists i, (i < length points)%nat /\ (~ on_line lines bounds 1 i \/ ~ on_line lines bounds 2 i)) -> solver_ok sv -> solver_total sv ->
  exists fs' md out, brazil fs points cells cell_data = Ok fs' /\ brazil_model (fun _ => 1%Z) points eles maters lines bounds [v] md /\
    solids_GUI sv fs' gui prompt false false (Some ""%string) = Ok out /\ in_equilibrium md (table out) /\ out_warn out = false /\
    rsum (length points) (fun i => reaction md (table out) i 0) = 0 /\ rsum (length points) (fun i => reaction md (table out) i 1) = 1000000000.
Proof.
  intros HM HC HS HK HH Hf Hsv Hst. destruct (brazil_read fs _ _ _ _ _ _ _ _ HM HC) as (fs' & md & E & Hsh & HT & _).
  destruct (tr_run _ _ _ _ _ _ _ _ (brazil_tri _ _ _ _ _ _ _ _ _ HM HT) HS HK HH sv fs' gui prompt Hsh Hf Hsv Hst) as (out & HO & HE & HW & HB).
  exists fs', md, out. do 5 (split; [assumption|]). pose proof HT as (_ & _ & _ & _ & _ & _ & Hld). destruct HM as (_ & _ & Hv). inversion Hv; subst.
  pose proof (HB 0%nat ltac:(lia)) as B0. pose proof (HB 1%nat ltac:(lia)) as B1. rewrite Hld in B0, B1. cbn [map] in B0, B1.
  rewrite one_load in B0, B1 by (assumption || lia). cbn [Nat.eqb] in B0, B1. split; lra.
Qed.

(** ** a quarter of a disk in two triangles: left side 0 - 2, bottom 0 - 1, load at the node 2 *)
Definition quarter_points : list (list R) := [[0; 0; 0]; [1; 0; 0]; [0; 1; 0]; [7/10; 7/10; 0]].
Definition quarter_eles : list (list Z) := [[0; 1; 3]; [0; 3; 2]]%Z.
Definition quarter_lines : list (list Z) := [[2; 0]; [0; 1]]%Z.
Definition quarter_cells : list (string * list (list Z)) := [("vertex", [[2]%Z]); ("line", quarter_lines); ("triangle", quarter_eles)]%string.
Definition quarter_data (maters : list Z) : list (string * list (string * list Z)) :=
  [("vertex", [("gmsh:physical", [3]%Z)]); ("line", [("gmsh:physical", [1; 2]%Z)]); ("triangle", [("gmsh:physical", maters)])]%string.
Ltac key' := match goal with
  | |- has_key ((?k, ?v) :: ?t) ?k _ => exists [], t; split; [reflexivity|intros []]
  | |- has_key (?a :: ?t) _ _ => exists [a]; eexists; split; [reflexivity|intros [K|[]]; discriminate K]
  | |- has_key (?a :: ?b :: ?t) _ _ => exists [a; b]; eexists; split; [reflexivity|intros [K|[K|[]]]; discriminate K]
  end.
Lemma quarter_mesh maters : length maters = 2%nat -> brazil_mesh quarter_points quarter_cells (quarter_data maters) quarter_eles maters quarter_lines [1; 2]%Z [2%nat].
Proof.
  intros L. unfold quarter_cells, quarter_data. split; [|split; [key'|constructor; [cbn; lia|constructor]]].
  split; [allz|]. split; [key'|]. split; [key'|]. split; [eexists; split; [key'|key']|]. split; [eexists; split; [key'|key']|].
  split; [exact L|]. split; [reflexivity|]. split; allz.
Qed.
Lemma quarter_sturdy : Forall (sturdy quarter_points) quarter_eles.
Proof.
  unfold quarter_eles. repeat (apply Forall_cons; [|]); [| |apply Forall_nil]; unfold sturdy, ent; cbn [pow nth Z.to_nat]; change (Pos.to_nat 1) with 1%nat; change (Pos.to_nat 2) with 2%nat; change (Pos.to_nat 3) with 3%nat; cbn [nth quarter_points];
    unfold Rabs; repeat destruct (Rcase_abs _); lra.
Qed.
Lemma quarter_connected : mesh_connected quarter_points quarter_eles.
Proof.
  split.
  - set (R0 := fun a b : list Z => In b quarter_eles /\ neighbours a b).
    assert (N : forall a b, In a quarter_eles -> In b quarter_eles -> clos_refl_trans _ R0 a b).
    { intros a b Ha Hb. apply rt_step. split; [exact Hb|]. exists 0%Z, 3%Z. split; [lia|]. destruct Ha as [<-|[<-|[]]]; destruct Hb as [<-|[<-|[]]]; cbn; tauto. }
    exact N.
  - intros i Hi. cbn [length quarter_points] in Hi. assert (E : (i = 0 \/ i = 1 \/ i = 2 \/ i = 3)%nat) by lia.
    destruct E as [->|[->|[->| ->]]]; [exists [0; 1; 3]%Z|exists [0; 1; 3]%Z|exists [0; 3; 2]%Z|exists [0; 1; 3]%Z]; cbn; tauto.
Qed.
Lemma quarter_held : held_on 1 2 quarter_points quarter_lines [1; 2]%Z.
Proof.
  split.
  - exists 0%nat, 2%nat. split; [|split]; [exists [2; 0]%Z; cbn; tauto|exists [2; 0]%Z; cbn; tauto|unfold ent; cbn [pow nth quarter_points]; lra].
  - exists 0%nat. exists [0; 1]%Z. cbn. tauto.
Qed.
Lemma quarter_free : exists i, (i < length quarter_points)%nat /\ (~ on_line quarter_lines [1; 2]%Z 1 i \/ ~ on_line quarter_lines [1; 2]%Z 2 i).
Proof.
  exists 3%nat. split; [cbn; lia|]. left. intros (row & H & Hi). change (tagged quarter_lines [1; 2]%Z 1) with [[2; 0]]%Z in H. destruct H as [<-|[]]. cbn in Hi. lia.
Qed.
(** the text numbers the materials differently, wherever a triangle is in the group 4 *)
Theorem brazil_described fs points cells cell_data eles maters lines bounds v e md fs' : brazil_mesh points cells cell_data eles maters lines bounds [v] ->
  brazil fs points cells cell_data = Ok fs' -> (e < length eles)%nat -> nth e maters 0%Z = 4%Z -> brazil_model described points eles maters lines bounds [v] md -> ~ files_show fs' (fun f => f) md.
Proof.
  intros HM E He H4 HD Hsh. assert (HC : count4 maters = length eles \/ count4 maters = 1%nat).
  { destruct (Nat.eq_dec (count4 maters) (length eles)) as [|N1]; [now left|]. destruct (Nat.eq_dec (count4 maters) 1) as [|N2]; [now right|].
    rewrite (brazil_groups fs _ _ _ _ _ _ _ _ HM N1 N2) in E. discriminate. }
  destruct (brazil_read fs _ _ _ _ _ _ _ _ HM HC) as (fs'' & md1 & E1 & Hsh1 & H1 & _). rewrite E in E1. apply Ok_inj in E1. subst fs''.
  assert (Eq : md_elements md = md_elements md1).
  { destruct Hsh as (? & ? & t3 & ? & ? & _ & _ & F3 & _ & _ & _ & S3 & _). destruct Hsh1 as (? & ? & t3' & ? & ? & _ & _ & F3' & _ & _ & _ & S3' & _).
    rewrite F3 in F3'. injection F3' as <-. apply (load_iff parse_int integer_is integer_iff) in S3, S3'. rewrite S3 in S3'. now apply Ok_inj in S3'. }
  destruct HD as (_ & _ & _ & _ & Nd & _). destruct H1 as (_ & _ & _ & _ & N1 & _). specialize (Nd e He). specialize (N1 e He). rewrite Eq, N1, H4 in Nd.
  cbn in Nd. discriminate.
Qed.
Lemma quarter_two : brazil_mesh quarter_points [("vertex", [[1]; [2]]%Z); ("line", quarter_lines); ("triangle", quarter_eles)]%string (quarter_data [4; 4]%Z) quarter_eles [4; 4]%Z quarter_lines [1; 2]%Z [1; 2]%nat.
Proof.
  unfold quarter_data. split; [|split; [key'|repeat constructor]].
  split; [allz|]. split; [key'|]. split; [key'|]. split; [eexists; split; [key'|key']|]. split; [eexists; split; [key'|key']|].
  split; [reflexivity|]. split; [reflexivity|]. split; allz.
Qed.
Lemma quarter_described fs : exists fs' md, brazil fs quarter_points quarter_cells (quarter_data [4; 4]%Z) = Ok fs' /\
  brazil_model described quarter_points quarter_eles [4; 4]%Z quarter_lines [1; 2]%Z [2%nat] md /\ ~ files_show fs' (fun f => f) md.
Proof.
  pose proof (quarter_mesh [4; 4]%Z eq_refl) as HM. destruct (brazil_read fs _ _ _ _ _ _ _ _ HM (or_introl eq_refl)) as (fs' & md1 & E1 & _ & H1 & _).
  assert (HD : brazil_model described quarter_points quarter_eles [4; 4]%Z quarter_lines [1; 2]%Z [2%nat]
    (mkModel (md_nodes md1) (md_cons md1) [[0; 3; 0; 0; 1; 3]; [1; 3; 0; 0; 3; 2]]%Z (md_mats md1) (md_loads md1))).
  { destruct H1 as (A1 & A2 & A3 & A4 & A5 & A6 & A7). unfold brazil_model. cbn [md_nodes md_cons md_elements md_mats md_loads].
    do 3 (split; [assumption|]). split; [reflexivity|]. split; [|split; assumption]. intros e He. cbn in He. destruct e as [|[|e]]; [reflexivity|reflexivity|lia]. }
  eexists fs', _. split; [exact E1|]. split; [exact HD|]. refine (brazil_described fs _ _ _ _ _ _ _ _ 0%nat _ _ HM E1 _ eq_refl HD). cbn. lia.
Qed.
