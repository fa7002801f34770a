(** * What echomod writes *)
From Coq Require Import String Ascii QArith Qreals Reals List ZArith Arith Bool Lra Lia.
From Coq Require Import Decimal DecimalString DecimalZ DecimalFacts DecimalPos DecimalN.
From Verif Require Import Num LinAlg TextIO SpecText LinR Base TextProofs TextGrammar.
Import ListNotations.
Local Open Scope string_scope.

Lemma nzhead_front u v : nzhead u <> D0 v.
Proof. induction u; cbn; try discriminate. exact IHu. Qed.
Lemma to_uint_front p : exists c t, NilZero.string_of_uint (Pos.to_uint p) = String c t /\ c <> "0"%char.
Proof.
  pose proof (DecimalPos.Unsigned.to_uint_nonnil p) as Hn.
  assert (Hf : Pos.to_uint p = unorm (Pos.to_uint p)).
  { rewrite <- (DecimalN.Unsigned.to_of (Pos.to_uint p)). unfold N.of_uint. rewrite DecimalPos.Unsigned.of_to. reflexivity. }
  assert (Hz : forall v, Pos.to_uint p <> D0 v).
  { intros v E. rewrite E in Hf. unfold unorm in Hf. change (nzhead (D0 v)) with (nzhead v) in Hf. destruct (nzhead v) eqn:Ev; try discriminate.
    - injection Hf as ->. pose proof (DecimalPos.Unsigned.of_to p) as K. rewrite E in K. discriminate.
    - exact (nzhead_front v _ Ev). }
  destruct (Pos.to_uint p); [congruence|exfalso; eapply Hz; reflexivity|..]; cbn; eexists _, _; split; try reflexivity; discriminate.
Qed.

Lemma string_digits u : u <> Nil -> exists n, digits (NilZero.string_of_uint u) (Z.of_uint u) (S n).
Proof. intros H. apply nz_digits_iff. exists u. split; [now apply NilZero.usu|reflexivity]. Qed.
Lemma plain_pos p : plain_digits (NilZero.string_of_uint (Pos.to_uint p)) (Zpos p).
Proof.
  destruct (string_digits _ (DecimalPos.Unsigned.to_uint_nonnil p)) as [n Hn]. pose proof (DecimalZ.of_to (Zpos p)) as E. cbn [Z.to_int Z.of_int] in E. rewrite E in Hn.
  exists n. split; [exact Hn|]. right. apply to_uint_front.
Qed.
Lemma plain_fmt z : (0 <= z)%Z -> plain_digits (fmt_d z) z.
Proof.
  intros Hz. destruct z as [|p|p]; [|exact (plain_pos p)|lia]. exists 0%nat. split; [|now left].
  change 0%Z with (0 * 10 ^ Z.of_nat 0 + 0)%Z at 2. apply (digits_more "0" 0 "" 0 0); [exists 0%nat; repeat split; lia|constructor].
Qed.
Theorem fmt_d_is z : d_is (fmt_d z) z.
Proof.
  destruct z as [|p|p].
  - exists "0". split; [exact (plain_fmt 0 ltac:(lia))|reflexivity].
  - exists (fmt_d (Zpos p)). split; [exact (plain_pos p)|reflexivity].
  - exists (fmt_d (Zpos p)). split; [exact (plain_pos p)|reflexivity].
Qed.

Lemma round_ties (y : R) : (0 <= y)%R -> nearest_even y (round_even y).
Proof.
  intros Hy. destruct (round_even_near y Hy) as [Hp Hn]. split; [exact Hn|]. revert Hp Hn.
  unfold round_even. change (@ntrunc R Num_R) with Rtrunc. unfold Rtrunc. destruct (Rle_dec 0 y); [|contradiction].
  destruct (base_Int_part y) as [H1 H2]. set (k := Int_part y) in *. cbn [nsub nz Num_R].
  assert (Eh : @nofQ R Num_R 0.5 = (1/2)%R) by (cbn [nofQ Num_R]; unfold Q2R; cbn [Qnum Qden]; lra). rewrite Eh.
  unfold nltb. cbn [nleb Num_R]. intros _.
  destruct (Rle_dec (1/2) (y - IZR k)); cbn [negb].
  - destruct (Rle_dec (y - IZR k) (1/2)); cbn [negb].
    + destruct (Z.even k) eqn:Ek; [intros; exact Ek|]. intros _ _. rewrite Z.even_add, Ek. reflexivity.
    + rewrite plus_IZR. intros _. unfold Rabs. destruct (Rcase_abs _); intros; lra.
  - intros _. unfold Rabs. destruct (Rcase_abs _); intros; lra.
Qed.

Lemma blanks_every s : blanks s <-> every (fun c => c = " "%char) s.
Proof. unfold blanks. induction s as [|c s IH]; cbn; [tauto|]. rewrite andb_true_iff, Ascii.eqb_eq, IH. reflexivity. Qed.
Lemma length_blanks k : String.length (String.concat "" (repeat " " k)) = k.
Proof.
  induction k as [|k IH]; [reflexivity|]. cbn [repeat String.concat]. destruct (repeat " " k) as [|x l] eqn:E.
  - destruct k; [reflexivity|discriminate].
  - rewrite length_app_s. change ("" ++ String.concat "" (x :: l)) with (String.concat "" (x :: l)). rewrite IH. reflexivity.
Qed.
Theorem fmt_fixed x : fixed2_is (fmt_5_2f x) x.
Proof.
  destruct (cents_near x) as [Hc _]. assert (Hm : (0 <= cents x mod 100 < 100)%Z) by (apply Z.mod_pos_bound; lia).
  set (a := (cents x mod 100 / 10)%Z). set (b := ((cents x mod 100) mod 10)%Z).
  assert (Ha : (0 <= a < 10)%Z) by (unfold a; split; [apply Z.div_pos; lia|apply Z.div_lt_upper_bound; lia]).
  assert (Hb : (0 <= b < 10)%Z) by (apply Z.mod_pos_bound; lia).
  exists (String.concat "" (repeat " " (5 - String.length (body52 x)))), (if nltb x n0 then "-" else ""), (fmt_d (cents x / 100)), (cents x / 100)%Z, (fmt_d a ++ fmt_d b), (cents x mod 100)%Z.
  assert (E : fmt_5_2f x = String.concat "" (repeat " " (5 - String.length (body52 x))) ++ body52 x).
  { unfold fmt_5_2f. fold (cents x). cbv zeta. unfold pad_left, body52. destruct (nltb x n0); reflexivity. }
  split; [exact E|]. split; [|split; [apply plain_fmt, Z.div_pos; lia|split; [|split; [|split; [apply blanks_every, concat_blanks|]]]]].
  - destruct (nltb x n0) eqn:En; [left; split; [now apply neg_spec|reflexivity]|right; split; [|reflexivity]].
    destruct (Rle_lt_dec 0 x) as [K|K]; [exact K|]. apply neg_spec in K. congruence.
  - assert (Em : (cents x mod 100 = 10 * a + b)%Z) by (unfold a, b; apply Z.div_mod; lia). rewrite Em.
    assert (Ca : In a [0; 1; 2; 3; 4; 5; 6; 7; 8; 9]%Z) by (cbn; lia). assert (Cb : In b [0; 1; 2; 3; 4; 5; 6; 7; 8; 9]%Z) by (cbn; lia).
    assert (X : exists v, NilEmpty.uint_of_string (fmt_d a ++ fmt_d b) = Some v /\ Z.of_uint v = (10 * a + b)%Z /\ usz v = 2%nat).
    { clearbody a b. cbn [In] in Ca, Cb.
      repeat (destruct Ca as [<-|Ca]; [repeat (destruct Cb as [<-|Cb]; [eexists; repeat split; reflexivity|]); destruct Cb|]); destruct Ca. }
    destruct X as [v [Ev [Hv Lv]]]. destruct (digits_uint _ _ Ev) as [Hd _]. rewrite Hv, Lv in Hd. exact Hd.
  - rewrite <- (Z.div_mod (cents x) 100) by lia. unfold cents. rewrite nabs_abs. apply round_ties. cbn [nmul nz Num_R]. pose proof (Rabs_pos x). lra.
  - rewrite E, length_app_s, length_blanks. split; [lia|]. intros Hne. destruct (5 - String.length (body52 x))%nat eqn:E5; [now destruct Hne|lia].
Qed.

Theorem saved {A} (fmt : A -> string) (literal : string -> A -> Prop) : (forall a, literal (fmt a) a) -> forall tab, file_text literal (savetxt fmt tab) tab.
Proof.
  intros H tab. unfold savetxt. induction tab as [|r tab IH]; cbn [fold_right]; [constructor|]. apply file_text_row; [|exact IH].
  clear IH. induction r as [|a r IH]; cbn [map join]; [constructor|]. destruct r as [|b r]; [apply row_text_one, H|]. apply row_text_more; [apply H|exact IH].
Qed.

Theorem echo_written (fs : fsys) (nodes mats : list (list R)) elements (loads : list (list R)) folder :
  let fs' := echomod fs nodes mats elements loads folder in
  (exists t, fs' (folder ++ "KNODES.txt") = Some t /\ file_text fixed2_is t nodes) /\ (exists t, fs' (folder ++ "KMATES.txt") = Some t /\ file_text fixed2_is t mats) /\
  (exists t, fs' (folder ++ "KELEMS.txt") = Some t /\ file_text d_is t elements) /\ (exists t, fs' (folder ++ "KLOADS.txt") = Some t /\ file_text fixed2_is t loads) /\
  forall p, (forall f, In f ["KNODES.txt"; "KMATES.txt"; "KELEMS.txt"; "KLOADS.txt"] -> p <> folder ++ f) -> fs' p = fs p.
Proof.
  cbv zeta. unfold echomod. repeat split.
  - eexists. split; [rewrite !write_other by discriminate; apply write_same|]. exact (saved _ _ fmt_fixed nodes).
  - eexists. split; [rewrite !write_other by discriminate; apply write_same|]. exact (saved _ _ fmt_fixed mats).
  - eexists. split; [rewrite !write_other by discriminate; apply write_same|]. exact (saved _ _ fmt_d_is elements).
  - eexists. split; [apply write_same|]. exact (saved _ _ fmt_fixed loads).
  - intros p Hp. unfold write_file. repeat match goal with |- context [String.eqb p ?q] => destruct (String.eqb_spec p q) as [E|_]; [exfalso; revert E; apply Hp; cbn; tauto|] end. reflexivity.
Qed.
