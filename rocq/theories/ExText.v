(** * Cases for the text files *)
From Coq Require Import String Ascii QArith Qreals Reals List ZArith Arith Bool Lra Lia.
From Verif Require Import Num LinAlg TextIO SpecText TextProofs TextGrammar TextWritten.
Import ListNotations.
Local Open Scope string_scope.

(** comment, tab, Windows line ends, empty line, no newline at the end *)
Definition tab_text : string :=
  "# x y z" ++ String "013" (String "010" ("1  -2.5e-1" ++ String "009" (".5" ++ String "013" (String "010" (String "010" "+3. 4E2 0 # last"))))).
Lemma tab_shown : shows number_is tab_text [[1; -1/4; 1/2]; [3; 400; 0]]%R.
Proof.
  apply (load_iff _ _ number_iff).
  transitivity (Ok (map (map Q2R) [[1; - ((inject_Z 2 + (5 # 10) * 1) * (1 # 10)); inject_Z 0 + (5 # 10) * 1]; [inject_Z 3 + (0 # 10) * 0; inject_Z 4 * (100 # 1); 0]])).
  - reflexivity.
  - cbn [map]. repeat match goal with |- Ok ?a = Ok ?b => apply f_equal | |- ?a :: ?l = ?b :: ?m => apply f_equal2 | |- [] = [] => reflexivity end; unfold Q2R; cbn; lra.
Qed.
Lemma ragged_refused : forall tab, ~ shows number_is "1 2
3" tab.
Proof. intros tab H. apply (load_iff _ _ number_iff) in H. cbv -[nofQ Num_R] in H. discriminate. Qed.
Lemma point_refused : forall tab, ~ shows integer_is "0 1.0 0" tab.
Proof. intros tab H. apply (load_iff _ _ integer_iff) in H. discriminate. Qed.
Lemma eighth_written : fixed2_is " 0.12" (1/8) /\ fixed2_is "-1.25" (-5/4).
Proof.
  split.
  - exists " ", "", "0", 0%Z, "12", 12%Z. split; [reflexivity|]. split; [right; split; [lra|reflexivity]|]. split.
    + exists 0%nat. split; [|now left]. exact (digits_more "0" 0 "" 0 0 ltac:(exists 0%nat; repeat split; lia) digits_none).
    + split; [exact (digits_more "1" 1 "2" 2 1 ltac:(exists 1%nat; repeat split; lia) (digits_more "2" 2 "" 0 0 ltac:(exists 2%nat; repeat split; lia) digits_none))|].
      split; [|repeat split; cbn; lia]. rewrite (Rabs_pos_eq (1/8)) by lra. split; [|reflexivity]. unfold Rabs. destruct (Rcase_abs _); cbn in *; lra.
  - exists "", "-", "1", 1%Z, "25", 25%Z. split; [reflexivity|]. split; [left; split; [lra|reflexivity]|]. split.
    + exists 0%nat. split; [exact (digits_more "1" 1 "" 0 0 ltac:(exists 1%nat; repeat split; lia) digits_none)|]. right. exists "1"%char, "". split; [reflexivity|discriminate].
    + split; [exact (digits_more "2" 2 "5" 5 1 ltac:(exists 2%nat; repeat split; lia) (digits_more "5" 5 "" 0 0 ltac:(exists 5%nat; repeat split; lia) digits_none))|].
      rewrite (Rabs_left (-5/4)) by lra. split; [|repeat split; cbn; lia]. split; unfold Rabs; destruct (Rcase_abs _); cbn in *; intros; lra.
Qed.
