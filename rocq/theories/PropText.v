(** * Properties C64-C66: text files *)
From Coq Require Import String Reals List ZArith Arith Lra Lia.
From Verif Require Import Num LinAlg Pre TextIO Spec SpecPre SpecText TextProofs TextGrammar TextWritten ExText.
Import ListNotations.
Local Open Scope string_scope.

(** ** C64 *)
Theorem C64_elements : forall (fs : fsys) (nodes mats : list (list R)) elements (loads : list (list R)) folder,
  Forall (fun row => row <> []) elements -> (forall r1 r2, In r1 elements -> In r2 elements -> length r1 = length r2) ->
  exists text, read_file (echomod fs nodes mats elements loads folder) (folder ++ "KELEMS.txt") = Ok text /\
    loadtxt parse_int text = Ok elements.
Proof. exact echo_elements. Qed.
Print Assumptions C64_elements.

Example C64_case : savetxt fmt_d [[0; 1; 0; 12; -3]; [1; 1; 0; 104; 5]]%Z = "0 1 0 12 -3
1 1 0 104 5
" /\ loadtxt parse_int (savetxt fmt_d [[0; 1; 0; 12; -3]; [1; 1; 0; 104; 5]]%Z) = Ok [[0; 1; 0; 12; -3]; [1; 1; 0; 104; 5]]%Z.
Proof. split; reflexivity. Qed.

(** ** C65 *)
Theorem C65_refuted : exists (fs : fsys) (nodes mats : list (list R)) elements loads folder text tab',
  Forall (fun row => row <> []) nodes /\ (forall r1 r2, In r1 nodes -> In r2 nodes -> length r1 = length r2) /\
  read_file (echomod fs nodes mats elements loads folder) (folder ++ "KNODES.txt") = Ok text /\
  loadtxt parse_num text = Ok tab' /\ tab' <> nodes.
Proof. exact echo_refuted. Qed.
Print Assumptions C65_refuted.

(** the tables come back up to 0.005 per entry, exactly for multiples of 0.01.
    Missing for the full claim: other numbers, which the format rounds (C65_refuted). *)
Theorem C65_near_partial : forall (fs : fsys) (nodes mats : list (list R)) elements (loads : list (list R)) folder name tab,
  In (name, tab) [("KNODES.txt", nodes); ("KMATES.txt", mats); ("KLOADS.txt", loads)] ->
  Forall (fun row => row <> []) tab -> (forall r1 r2, In r1 tab -> In r2 tab -> length r1 = length r2) ->
  exists text tab', read_file (echomod fs nodes mats elements loads folder) (folder ++ name) = Ok text /\
    loadtxt parse_num text = Ok tab' /\ length tab' = length tab /\
    (forall i, length (nth i tab' []) = length (nth i tab [])) /\
    forall i j, (i < length tab)%nat -> (j < length (nth i tab []))%nat -> (Rabs (ent tab' i j - ent tab i j) <= 5 / 1000)%R /\
      forall z, ent tab i j = (IZR z / 100)%R -> ent tab' i j = ent tab i j.
Proof. exact echo_reals. Qed.
Print Assumptions C65_near_partial.

(** -1.25 comes back, 1/8 does not *)
Example C65_case : exists text tab', read_file (echomod (fun _ => None) [[0; -125/100; 1/8]]%R [] [] [] "job/") "job/KNODES.txt" = Ok text /\
  loadtxt parse_num text = Ok tab' /\ ent tab' 0 1 = (-125/100)%R /\ (Rabs (ent tab' 0 2 - 1/8) <= 5/1000)%R.
Proof.
  destruct (echo_reals (fun _ => None) [[0; -125/100; 1/8]]%R [] [] [] "job/" "KNODES.txt" [[0; -125/100; 1/8]]%R) as [text [tab' [H1 [H2 [_ [_ H3]]]]]].
  - now left.
  - repeat constructor. discriminate.
  - intros ? ? [<-|[]] [<-|[]]. reflexivity.
  - exists text, tab'. split; [exact H1|]. split; [exact H2|]. split.
    + destruct (H3 0%nat 1%nat) as [_ K]; [cbn; lia|cbn; lia|]. rewrite (K (-125)%Z); [reflexivity|]. reflexivity.
    + apply (H3 0%nat 2%nat); cbn; lia.
Qed.

(** ** C66 *)
(** files found through the dialog are not found when the same folder is typed *)
Theorem C66_refuted : exists folder (fs : fsys) model,
  @readin R Num_R fs (initial_params (Some (Some folder)) "") = Ok model /\
  (forall s, In s ["nodes.txt"; "mater.txt"; "eles.txt"; "loads.txt"] -> fs (inside folder s) <> None) /\
  @readin R Num_R fs (initial_params None folder) = Err FileNotFoundError.
Proof. exact prompt_refuted. Qed.
Print Assumptions C66_refuted.

(** Missing for the full claim: a typed folder without a final slash (C66_refuted). *)
Theorem C66_dialog_partial : forall (fs : fsys) folder prompt, folder <> "" ->
  @readin R Num_R fs (initial_params (Some (Some folder)) prompt) = readin (fun file => fs (inside folder file)) "".
Proof. exact dialog_reads. Qed.
Print Assumptions C66_dialog_partial.
Theorem C66_prompt_partial : forall (fs : fsys) easygui folder prompt, easygui = None \/ easygui = Some None ->
  (folder = "" /\ prompt = "") \/ (folder <> "" /\ prompt = folder ++ "/") ->
  @readin R Num_R fs (initial_params easygui prompt) = readin (fun file => fs (inside folder file)) "".
Proof. exact prompt_reads. Qed.
Print Assumptions C66_prompt_partial.

Example C66_case : inside "job" "nodes.txt" = "job/nodes.txt" /\ inside "" "nodes.txt" = "nodes.txt" /\
  exists model, @readin R Num_R (bar_files "job") (initial_params (Some (Some "job")) "") = Ok model.
Proof. split; [reflexivity|]. split; [reflexivity|]. eexists. cbv -[nofQ Num_R]. reflexivity. Qed.

(** ** C86 *)
(** the tables read are those the four files show *)
Theorem C86_read : forall (fs : fsys) folder nodes mats elements loads,
  @readin R Num_R fs folder = Ok (nodes, mats, elements, loads) <->
  exists t1 t2 t3 t4, fs (folder ++ "nodes.txt") = Some t1 /\ fs (folder ++ "mater.txt") = Some t2 /\ fs (folder ++ "eles.txt") = Some t3 /\ fs (folder ++ "loads.txt") = Some t4 /\
    shows number_is t1 nodes /\ shows number_is t2 mats /\ shows integer_is t3 elements /\ shows number_is t4 loads.
Proof. exact readin_iff. Qed.
Print Assumptions C86_read.

(** otherwise a file is missing or shows no table *)
Theorem C86_refused : forall (fs : fsys) folder e, @readin R Num_R fs folder = Err e ->
  (e = FileNotFoundError /\ exists f, In f ["nodes.txt"; "mater.txt"; "eles.txt"; "loads.txt"] /\ fs (folder ++ f) = None) \/
  ((exists m, e = ValueError m) /\
   ((exists f t, In f ["nodes.txt"; "mater.txt"; "loads.txt"] /\ fs (folder ++ f) = Some t /\ forall tab, ~ shows number_is t tab) \/
    exists t, fs (folder ++ "eles.txt") = Some t /\ forall tab, ~ shows integer_is t tab)).
Proof. exact readin_fails. Qed.
Print Assumptions C86_refused.

Example C86_case : shows number_is tab_text [[1; -1/4; 1/2]; [3; 400; 0]]%R /\
  (forall tab, ~ shows number_is "1 2
3" tab) /\ (forall tab, ~ shows integer_is "0 1.0 0" tab).
Proof. exact (conj tab_shown (conj ragged_refused point_refused)). Qed.

(** ** C87 *)
Theorem C87_written : forall (fs : fsys) (nodes mats : list (list R)) elements (loads : list (list R)) folder,
  let fs' := echomod fs nodes mats elements loads folder in
  (exists t, fs' (folder ++ "KNODES.txt") = Some t /\ file_text fixed2_is t nodes) /\ (exists t, fs' (folder ++ "KMATES.txt") = Some t /\ file_text fixed2_is t mats) /\
  (exists t, fs' (folder ++ "KELEMS.txt") = Some t /\ file_text d_is t elements) /\ (exists t, fs' (folder ++ "KLOADS.txt") = Some t /\ file_text fixed2_is t loads) /\
  forall p, (forall f, In f ["KNODES.txt"; "KMATES.txt"; "KELEMS.txt"; "KLOADS.txt"] -> p <> folder ++ f) -> fs' p = fs p.
Proof. exact echo_written. Qed.
Print Assumptions C87_written.

Example C87_case : fixed2_is " 0.12" (1/8) /\ fixed2_is "-1.25" (-5/4) /\ d_is "-30" (-30).
Proof. exact (conj (proj1 eighth_written) (conj (proj2 eighth_written) (fmt_d_is (-30)))). Qed.
