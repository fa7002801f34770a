(** * Runs that start from text files *)
From Coq Require Import String Reals List ZArith Arith Lia Lra.
From Verif Require Import Num LinAlg Uel Assem Post Pre TextIO Main Spec LinR Base SpecAssem SpecModel SpecElem SpecStatic SpecPre SpecText SpecRun
  ModelProofs ModelProofs2 MeshProofs StaticProofs3 TextProofs TextGrammar TextWritten ExModel ExModel2 ExSolver.
Import ListNotations.
Local Open Scope string_scope.

Lemma files_read fs folder md : files_show fs (fun f => folder ++ f) md -> exists nodes,
  @readin R Num_R fs folder = Ok (nodes, md_mats md, md_elements md, md_loads md) /\ Forall (fun row => length row = 5%nat) nodes /\
  md_nodes md = map (firstn 3) nodes /\ md_cons md = map (skipn 3) nodes.
Proof.
  intros (t1 & t2 & t3 & t4 & nodes & F1 & F2 & F3 & F4 & S1 & S2 & S3 & S4 & H5 & E1 & E2). exists nodes. split; [|auto].
  apply readin_iff. exists t1, t2, t3, t4. auto 10.
Qed.
Lemma files_argument sv fs gui prompt plot strains folder md : files_show fs (fun f => folder ++ f) md ->
  solids_GUI sv fs gui prompt plot strains (Some folder) = auto sv md plot strains.
Proof.
  intros H. destruct (files_read fs folder md H) as (nodes & HR & H5 & E1 & E2).
  rewrite (gui_auto sv fs gui prompt plot strains folder _ _ _ _ H5 HR). unfold auto. rewrite E1, E2. reflexivity.
Qed.
Lemma files_dialog sv fs prompt plot strains folder md : folder <> "" -> files_show fs (inside folder) md ->
  solids_GUI sv fs (Some (Some folder)) prompt plot strains None = auto sv md plot strains.
Proof.
  intros Hne H. rewrite <- (files_argument sv fs (Some (Some folder)) prompt plot strains (folder ++ "/") md); [reflexivity|].
  assert (P : forall f, inside folder f = (folder ++ "/") ++ f).
  { intros f. unfold inside. destruct (String.eqb_spec folder ""); [contradiction|]. clear. induction folder as [|c s IH]; [reflexivity|]. cbn in *. rewrite IH. reflexivity. }
  destruct H as (t1 & t2 & t3 & t4 & nodes & F1 & F2 & F3 & F4 & H). exists t1, t2, t3, t4, nodes. rewrite P in F1, F2, F3, F4. auto.
Qed.
Lemma files_equilibrium sv fs gui prompt plot strains folder md out : files_show fs (fun f => folder ++ f) md -> wf_model md -> solver_ok sv ->
  solids_GUI sv fs gui prompt plot strains (Some folder) = Ok out -> in_equilibrium md (table out).
Proof. intros H Hwf Hsv. rewrite (files_argument sv fs gui prompt plot strains folder md H). apply run_equilibrium; assumption. Qed.
Lemma files_run sv fs gui prompt folder md : files_show fs (fun f => folder ++ f) md -> wf_model md -> accepted md -> stable md -> solver_ok sv -> solver_total sv ->
  (exists i d, free md i d) -> exists out, solids_GUI sv fs gui prompt false false (Some folder) = Ok out /\ in_equilibrium md (table out).
Proof.
  intros H Hwf Ha Hst H1 H2 Hf. destruct (model_runs sv md Hwf Ha Hst H1 H2 Hf) as [out HO].
  exists out. split; [rewrite (files_argument sv fs gui prompt false false folder md H); exact HO|]. exact (run_equilibrium sv md false false out Hwf H1 HO).
Qed.
(** any other content: no file, or a file that shows no table *)
Lemma files_refused sv fs gui prompt plot strains folder :
  (forall md, ~ exists nodes t1 t2 t3 t4,
     fs (folder ++ "nodes.txt") = Some t1 /\ fs (folder ++ "mater.txt") = Some t2 /\ fs (folder ++ "eles.txt") = Some t3 /\ fs (folder ++ "loads.txt") = Some t4 /\
     shows number_is t1 nodes /\ shows number_is t2 (md_mats md) /\ shows integer_is t3 (md_elements md) /\ shows number_is t4 (md_loads md)) ->
  exists e, solids_GUI (T := R) sv fs gui prompt plot strains (Some folder) = Err e.
Proof.
  intros H. unfold solids_GUI. destruct (@readin R Num_R fs folder) as [[[[nodes mats] elements] loads]|e] eqn:E; [|exists e; reflexivity].
  exfalso. apply readin_iff in E. destruct E as (t1 & t2 & t3 & t4 & E). apply (H (mkModel [] [] elements mats loads)). exists nodes, t1, t2, t3, t4. exact E.
Qed.

(** the two bars *)
Ltac tab := repeat match goal with
  | |- @eq R _ _ => lra
  | |- @eq Z _ _ => reflexivity
  | |- @eq (list _) [] [] => reflexivity
  | |- @eq (list _) (_ :: _) (_ :: _) => apply f_equal2
  | |- @eq (_ * _) _ _ => apply f_equal2
  | |- Ok _ = Ok _ => apply f_equal
  end.
Lemma bar_shown : files_show fs_bar (fun f => "m/" ++ f) (bar2 9).
Proof.
  assert (H : @readin R Num_R fs_bar "m/" = Ok ([[0; 0; 0; -1; -1]; [1; 1; 0; 0; -1]; [2; 3; 0; -1; -1]], [[2; 3]], [[0; 6; 0; 0; 1]; [1; 6; 0; 1; 2]]%Z, [[1; 9; 0]])%R).
  { unfold readin. cbv -[nofQ Num_R]. change (@nofQ R Num_R) with Q2R. unfold Q2R. cbn. tab. }
  apply readin_iff in H. destruct H as (t1 & t2 & t3 & t4 & F1 & F2 & F3 & F4 & S1 & S2 & S3 & S4).
  exists t1, t2, t3, t4, [[0; 0; 0; -1; -1]; [1; 1; 0; 0; -1]; [2; 3; 0; -1; -1]]%R. repeat (split; [assumption|]).
  split; [repeat constructor|]. split; reflexivity.
Qed.
Lemma bar2_accepted f : accepted (bar2 f).
Proof.
  apply Forall_forall. intros e He. destruct (bar2_ret1 f) as (M1 & R1 & _). destruct (bar2_ret2 f) as (M2' & R2 & _).
  destruct He as [<-|[<-|[]]]; (split; [exists 6%Z; split; [reflexivity|]; split; [reflexivity|]; split; [cbn; lia|]; cbn [skipn]; all_forall; cbn; lia|]).
  - do 2 eexists. exact R1.
  - do 2 eexists. exact R2.
Qed.
Lemma bar2_free f : exists i d, free (bar2 f) i d.
Proof. exists 1%nat, 0%nat. split; [cbn; lia|split; [lia|reflexivity]]. Qed.
