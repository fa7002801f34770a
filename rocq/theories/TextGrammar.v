(** * The reader accepts exactly the grammar of SpecText *)
From Coq Require Import String Ascii QArith Qreals Reals List ZArith Arith Bool Lra Lia.
From Coq Require Import Decimal DecimalString DecimalZ DecimalFacts DecimalPos DecimalN.
From Verif Require Import Num LinAlg TextIO SpecText LinR Base TextProofs.
Import ListNotations.
Local Open Scope string_scope.

(** ** digits *)
Fixpoint usz (u : uint) : nat :=
  match u with Nil => O | D0 v | D1 v | D2 v | D3 v | D4 v | D5 v | D6 v | D7 v | D8 v | D9 v => S (usz v) end.

Ltac open_uint := match goal with
    | |- context [Z.of_uint (D0 ?u)] => change (Z.of_uint (D0 u)) with (Z.of_uint u)
    | |- context [Z.of_uint (D1 ?u)] => change (Z.of_uint (D1 u)) with (Zpos (Pos.of_uint_acc u 1))
    | |- context [Z.of_uint (D2 ?u)] => change (Z.of_uint (D2 u)) with (Zpos (Pos.of_uint_acc u 2))
    | |- context [Z.of_uint (D3 ?u)] => change (Z.of_uint (D3 u)) with (Zpos (Pos.of_uint_acc u 3))
    | |- context [Z.of_uint (D4 ?u)] => change (Z.of_uint (D4 u)) with (Zpos (Pos.of_uint_acc u 4))
    | |- context [Z.of_uint (D5 ?u)] => change (Z.of_uint (D5 u)) with (Zpos (Pos.of_uint_acc u 5))
    | |- context [Z.of_uint (D6 ?u)] => change (Z.of_uint (D6 u)) with (Zpos (Pos.of_uint_acc u 6))
    | |- context [Z.of_uint (D7 ?u)] => change (Z.of_uint (D7 u)) with (Zpos (Pos.of_uint_acc u 7))
    | |- context [Z.of_uint (D8 ?u)] => change (Z.of_uint (D8 u)) with (Zpos (Pos.of_uint_acc u 8))
    | |- context [Z.of_uint (D9 ?u)] => change (Z.of_uint (D9 u)) with (Zpos (Pos.of_uint_acc u 9))
    end.
Lemma acc_value u : forall p, Zpos (Pos.of_uint_acc u p) = (Zpos p * 10 ^ Z.of_nat (usz u) + Z.of_uint u)%Z.
Proof.
  induction u; intros p; cbn [Pos.of_uint_acc usz].
  1: cbn; lia.
  1: open_uint; rewrite !IHu, Nat2Z.inj_succ, Z.pow_succ_r, Pos2Z.inj_mul by lia; ring.
  all: open_uint; rewrite !IHu, Nat2Z.inj_succ, Z.pow_succ_r, Pos2Z.inj_add, Pos2Z.inj_mul by lia; ring.
Qed.

Ltac dig k := exists k; split; [lia|split; reflexivity].
Lemma digits_uint s : forall u, NilEmpty.uint_of_string s = Some u -> digits s (Z.of_uint u) (usz u) /\ usz u = String.length s.
Proof.
  induction s as [|c s IH]; intros u E.
  - injection E as <-. split; [constructor|reflexivity].
  - cbn [NilEmpty.uint_of_string] in E. destruct (NilEmpty.uint_of_string s) as [v|] eqn:Ev.
    2:{ unfold uint_of_char in E. destruct c as [[] [] [] [] [] [] [] []]; discriminate. }
    destruct (IH v eq_refl) as [Hd Hl].
    assert (G : forall d w, digit_is c d -> Z.of_uint w = (d * 10 ^ Z.of_nat (usz v) + Z.of_uint v)%Z -> usz w = S (usz v) ->
      digits (String c s) (Z.of_uint w) (usz w) /\ usz w = String.length (String c s)).
    { intros d w Hc -> ->. split; [now constructor|cbn; now rewrite Hl]. }
    unfold uint_of_char in E. destruct c as [[] [] [] [] [] [] [] []]; try discriminate E; injection E as <-.
    all: match goal with
      | |- context [usz (D0 _)] => apply (G 0%Z); [dig 0%nat|open_uint; lia|reflexivity]
      | |- context [usz (D1 _)] => apply (G 1%Z); [dig 1%nat|open_uint; apply acc_value|reflexivity]
      | |- context [usz (D2 _)] => apply (G 2%Z); [dig 2%nat|open_uint; apply acc_value|reflexivity]
      | |- context [usz (D3 _)] => apply (G 3%Z); [dig 3%nat|open_uint; apply acc_value|reflexivity]
      | |- context [usz (D4 _)] => apply (G 4%Z); [dig 4%nat|open_uint; apply acc_value|reflexivity]
      | |- context [usz (D5 _)] => apply (G 5%Z); [dig 5%nat|open_uint; apply acc_value|reflexivity]
      | |- context [usz (D6 _)] => apply (G 6%Z); [dig 6%nat|open_uint; apply acc_value|reflexivity]
      | |- context [usz (D7 _)] => apply (G 7%Z); [dig 7%nat|open_uint; apply acc_value|reflexivity]
      | |- context [usz (D8 _)] => apply (G 8%Z); [dig 8%nat|open_uint; apply acc_value|reflexivity]
      | |- context [usz (D9 _)] => apply (G 9%Z); [dig 9%nat|open_uint; apply acc_value|reflexivity]
      end.
Qed.
Lemma uint_digits_of s v n : digits s v n -> exists u, NilEmpty.uint_of_string s = Some u /\ Z.of_uint u = v /\ usz u = n /\ String.length s = n.
Proof.
  induction 1 as [|c d s v n [k [Hk [-> ->]]] Hd [u [E [Hv [Hn Hl]]]]].
  - exists Nil. repeat split.
  - cbn [NilEmpty.uint_of_string]. rewrite E.
    assert (Hl' : String.length (String (ascii_of_nat (48 + k)) s) = S n) by (cbn; now rewrite Hl).
    do 10 (destruct k as [|k]; [eexists; repeat split; [| |exact Hl'];
      [open_uint; rewrite ?acc_value, ?Hn, Hv; reflexivity|cbn; now rewrite Hn]|]). lia.
Qed.

Lemma digit_is_digit c d : digit_is c d -> digit c = true.
Proof. intros [k [Hk [-> _]]]. do 10 (destruct k as [|k]; [reflexivity|]). lia. Qed.
Lemma digits_digit s v n : digits s v n -> allc digit s = true.
Proof. induction 1 as [|c d s v n Hc _ IH]; [reflexivity|]. cbn. now rewrite (digit_is_digit c d Hc), IH. Qed.

Lemma nz_uint s u : NilZero.uint_of_string s = Some u <-> s <> "" /\ NilEmpty.uint_of_string s = Some u.
Proof. destruct s as [|c s]; cbn; [split; [discriminate|intros [H _]; congruence]|]. split; [now split; [discriminate|]|tauto]. Qed.
Lemma nz_digits_iff s v : (exists u, NilZero.uint_of_string s = Some u /\ Z.of_uint u = v) <-> exists n, digits s v (S n).
Proof.
  split.
  - intros [u [E <-]]. apply nz_uint in E as [Hne E]. destruct (digits_uint s u E) as [Hd Hl]. destruct s as [|c s]; [congruence|]. cbn in Hl. exists (String.length s).
    rewrite Hl in Hd. exact Hd.
  - intros [n Hd]. destruct (uint_digits_of _ _ _ Hd) as [u [E [Hv _]]]. exists u. split; [|exact Hv]. apply nz_uint. split; [|exact E]. intros ->. inversion Hd.
Qed.

(** ** signs *)
Definition factor (neg : bool) : Z := if neg then (-1)%Z else 1%Z.
Definition unsigned (s : string) : Prop := match s with EmptyString => True | String c _ => Ascii.eqb c "-" || Ascii.eqb c "+" = false end.
Lemma split_sign_out s neg t : split_sign s = (neg, t) -> exists p, s = p ++ t /\ sign_is p (factor neg).
Proof.
  unfold split_sign. destruct s as [|c s]; [intros E; injection E as <- <-; exists ""; split; [reflexivity|left; now split]|].
  destruct (Ascii.eqb_spec c "-") as [->|H1]; [intros E; injection E as <- <-; exists "-"; split; [reflexivity|right; right; now split]|].
  destruct (Ascii.eqb_spec c "+") as [->|H2]; [intros E; injection E as <- <-; exists "+"; split; [reflexivity|right; left; now split]|].
  intros E; injection E as <- <-; exists ""; split; [reflexivity|left; now split].
Qed.
Lemma split_sign_in p f t : sign_is p f -> unsigned t -> exists neg, split_sign (p ++ t) = (neg, t) /\ f = factor neg.
Proof.
  intros [[-> ->]|[[-> ->]|[-> ->]]] Hu.
  - exists false. split; [|reflexivity]. destruct t as [|c t]; [reflexivity|]. apply split_sign_none. exact Hu.
  - exists false. split; reflexivity.
  - exists true. split; reflexivity.
Qed.
Lemma digit_unsigned s : allc digit s = true -> unsigned s.
Proof.
  destruct s as [|c t]; [easy|]. cbn [allc unsigned]. intros H. apply andb_true_iff in H as [H _]. unfold digit in H.
  destruct (Ascii.eqb c "-" || Ascii.eqb c "+"); [|reflexivity]. rewrite andb_false_r in H. discriminate.
Qed.

Theorem integer_iff s z : parse_int s = Some z <-> integer_is s z.
Proof.
  unfold parse_int. split.
  - destruct (split_sign s) as [neg t] eqn:Es. destruct (split_sign_out _ _ _ Es) as [p [-> Hp]]. intros E.
    destruct (NilZero.uint_of_string t) as [u|] eqn:Eu; [|discriminate]. cbn in E. injection E as <-.
    destruct (proj1 (nz_digits_iff t (Z.of_uint u)) (ex_intro _ u (conj Eu eq_refl))) as [n Hd].
    exists p, (factor neg), t, (Z.of_uint u), n. repeat split; auto. destruct neg; cbn [factor]; lia.
  - intros [p [f [t [v [n [-> [Hp [Hd ->]]]]]]]]. destruct (split_sign_in p f t Hp) as [neg [-> ->]]; [exact (digit_unsigned _ (digits_digit _ _ _ Hd))|].
    destruct (proj2 (nz_digits_iff t v) (ex_intro _ n Hd)) as [u [-> <-]]. cbn. f_equal. destruct neg; cbn [factor]; lia.
Qed.

(** ** decimals *)
Lemma split_dot_out s : match split_dot s with (a, None) => s = a | (a, Some b) => s = a ++ "." ++ b end.
Proof.
  induction s as [|c s IH]; [reflexivity|]. cbn [split_dot]. destruct (Ascii.eqb_spec c ".") as [->|H]; [reflexivity|].
  destruct (split_dot s) as [a [b|]]; cbn [append]; now rewrite IH at 1.
Qed.
Lemma split_dot_none s : allc digit s = true -> split_dot s = (s, None).
Proof.
  induction s as [|c s IH]; [reflexivity|]. cbn. intros H. apply andb_true_iff in H as [H1 H2]. unfold digit in H1.
  destruct (Ascii.eqb c "."); [rewrite andb_false_r in H1; discriminate|]. now rewrite IH.
Qed.
Lemma pow_pos10 m : IZR (Zpos (10 ^ Pos.of_nat (S m))) = (10 ^ S m)%R.
Proof. rewrite Pos2Z.inj_pow, pow_IZR. f_equal. f_equal. lia. Qed.
Lemma frac_value v w m : Q2R (inject_Z v + (w # Pos.pow 10 (Pos.of_nat m)) * (if (m =? 0)%nat then 0 else 1)) = (IZR v + IZR w / 10 ^ m * (if (m =? 0)%nat then 0 else 1))%R.
Proof.
  rewrite Q2R_plus, Q2R_mult. f_equal; [unfold Q2R; cbn; lra|]. destruct m as [|m]; cbn [Nat.eqb].
  - unfold Q2R at 2. cbn. lra.
  - unfold Q2R. cbn [Qnum Qden]. rewrite pow_pos10. lra.
Qed.
Theorem decimal_out s q : parse_udec s = Some q -> decimal_is s (Q2R q).
Proof.
  unfold parse_udec. pose proof (split_dot_out s) as Ho. destruct (split_dot s) as [a [b|]]; subst s.
  - destruct (NilEmpty.uint_of_string a) as [u|] eqn:Eu; [|discriminate]. destruct (NilEmpty.uint_of_string b) as [v|] eqn:Ev; [|discriminate].
    destruct (digits_uint _ _ Eu) as [Hu Lu]. destruct (digits_uint _ _ Ev) as [Hv Lv]. rewrite Lu in Hu. rewrite Lv in Hv.
    destruct (Nat.eqb_spec (String.length a + String.length b) 0) as [|Hne]; [discriminate|]. intros E. injection E as <-. right.
    exists a, (Z.of_uint u), (String.length a), b, (Z.of_uint v), (String.length b). repeat split; try assumption; [lia|].
    rewrite frac_value. destruct (String.length b) eqn:El; cbn [Nat.eqb]; [|lra]. inversion Hv as [E|]. cbn. lra.
  - destruct (NilZero.uint_of_string a) as [u|] eqn:Eu; [|discriminate]. cbn. intros E. injection E as <-. left.
    destruct (proj1 (nz_digits_iff a (Z.of_uint u)) (ex_intro _ u (conj Eu eq_refl))) as [n Hd]. exists (Z.of_uint u), n. split; [exact Hd|]. unfold Q2R. cbn. lra.
Qed.
Theorem decimal_in s x : decimal_is s x -> exists q, parse_udec s = Some q /\ Q2R q = x.
Proof.
  unfold parse_udec. intros [[v [n [Hd ->]]]|[a [v [n [b [w [m [-> [Ha [Hb [Hnm ->]]]]]]]]]]].
  - rewrite split_dot_none by exact (digits_digit _ _ _ Hd). destruct (proj2 (nz_digits_iff s v) (ex_intro _ n Hd)) as [u [-> <-]].
    eexists. split; [reflexivity|]. unfold Q2R. cbn. lra.
  - change ("." ++ b) with (String "." b). rewrite split_dot_digits by exact (digits_digit _ _ _ Ha).
    destruct (uint_digits_of _ _ _ Ha) as [u [-> [<- [_ Ln]]]]. destruct (uint_digits_of _ _ _ Hb) as [t [-> [<- [_ Lm]]]]. rewrite Ln, Lm.
    destruct (Nat.eqb_spec (n + m) 0) as [|_]; [lia|]. eexists. split; [reflexivity|]. rewrite frac_value. destruct m as [|m]; cbn [Nat.eqb]; [|lra].
    inversion Hb as [E|]. cbn. lra.
Qed.

(** ** exponents *)
Lemma split_e_out s : match split_e s with (a, None) => s = a | (a, Some b) => exists c, (c = "e"%char \/ c = "E"%char) /\ s = a ++ String c b end.
Proof.
  induction s as [|c s IH]; [reflexivity|]. cbn [split_e]. destruct (Ascii.eqb_spec c "e") as [->|H1]; [cbn [orb]; exists "e"%char; auto|].
  destruct (Ascii.eqb_spec c "E") as [->|H2]; [cbn [orb]; exists "E"%char; auto|]. cbn [orb].
  destruct (split_e s) as [a [b|]]; cbn [append]; [destruct IH as [c' [Hc ->]]; exists c'; auto|now subst].
Qed.
Definition noe (c : ascii) : bool := negb (Ascii.eqb c "e" || Ascii.eqb c "E").
Lemma split_e_in a c b : allc noe a = true -> c = "e"%char \/ c = "E"%char -> split_e (a ++ String c b) = (a, Some b).
Proof.
  intros H Hc. induction a as [|d a IH].
  - cbn [append split_e]. destruct Hc as [-> | ->]; reflexivity.
  - cbn in H. apply andb_true_iff in H as [H1 H2]. apply negb_true_iff in H1. cbn [append split_e]. rewrite H1, IH by exact H2. reflexivity.
Qed.
Lemma decimal_noe s x : decimal_is s x -> allc noe s = true.
Proof.
  intros [[v [n [Hd _]]]|[a [v [n [b [w [m [-> [Ha [Hb _]]]]]]]]]]; [exact (digit_e _ (digits_digit _ _ _ Hd))|].
  rewrite !allc_app. change (allc noe ".") with true. rewrite (digit_e _ (digits_digit _ _ _ Ha) : allc noe a = true), (digit_e _ (digits_digit _ _ _ Hb) : allc noe b = true). reflexivity.
Qed.
Lemma decimal_unsigned s x t : decimal_is s x -> unsigned (s ++ t).
Proof.
  intros [[v [n [Hd _]]]|[a [v [n [b [w [m [-> [Ha [Hb _]]]]]]]]]].
  - destruct s as [|c s]; [inversion Hd|]. exact (digit_unsigned _ (digits_digit _ _ _ Hd)).
  - destruct a as [|c a]; [reflexivity|]. exact (digit_unsigned _ (digits_digit _ _ _ Ha)).
Qed.
Lemma pow10_value e x : ten_to e x <-> Q2R (pow10 e) = x.
Proof.
  assert (P : forall p, IZR (Zpos (10 ^ p)) = (10 ^ Pos.to_nat p)%R).
  { intros p. rewrite Pos2Z.inj_pow, pow_IZR, positive_nat_Z. reflexivity. }
  unfold ten_to, Q2R. destruct e as [|p|p]; cbn [pow10 Qnum Qden]; rewrite ?P.
  - cbn. split; [intros [[_ ->]|[H _]]; [lra|lia]|intros <-; left; split; [lia|lra]].
  - rewrite Z2Nat.inj_pos. split; [intros [[_ ->]|[H _]]; [lra|lia]|intros <-; left; split; [lia|lra]].
  - cbn [Z.opp]. rewrite Z2Nat.inj_pos. split; [intros [[H _]|[_ ->]]; [lia|lra]|intros <-; right; split; [lia|lra]].
Qed.

Theorem number_iff s x : @parse_num R Num_R s = Some x <-> number_is s x.
Proof.
  unfold parse_num, parse_dec. change (@nofQ R Num_R) with Q2R. split.
  - destruct (split_sign s) as [neg t] eqn:Es. destruct (split_sign_out _ _ _ Es) as [p [-> Hp]]. clear Es. intros E.
    destruct (parse_ufloat t) as [q|] eqn:Eq; [|discriminate]. cbn in E. injection E as <-.
    exists p, (factor neg), t, (Q2R q). split; [reflexivity|]. split; [exact Hp|]. split; [destruct neg; cbn [factor]; [rewrite Q2R_opp; lra|lra]|].
    unfold parse_ufloat in Eq. pose proof (split_e_out t) as Ho. destruct (split_e t) as [a [b|]].
    + destruct Ho as [c [Hc ->]]. destruct (parse_udec a) as [qa|] eqn:Ea; [|discriminate]. destruct (parse_int b) as [e|] eqn:Eb; [|discriminate]. injection Eq as <-.
      right. exists a, (Q2R qa), c, b, e, (Q2R (pow10 e)). repeat split; [exact Hc|exact (decimal_out _ _ Ea)|apply integer_iff, Eb|now apply pow10_value|apply Q2R_mult].
    + subst a. left. exact (decimal_out _ _ Eq).
  - intros [p [f [t [y [-> [Hp [-> H]]]]]]].
    assert (G : unsigned t /\ exists q, parse_ufloat t = Some q /\ Q2R q = y).
    { destruct H as [H|[a [ya [c [b [e [ye [-> [Hc [Ha [Hb [He ->]]]]]]]]]]]].
      - split; [rewrite <- (app_nil_s t); exact (decimal_unsigned _ _ _ H)|]. destruct (decimal_in _ _ H) as [q [E Hq]]. exists q. split; [|exact Hq].
        unfold parse_ufloat. rewrite split_e_none by exact (decimal_noe _ _ H). exact E.
      - split; [exact (decimal_unsigned _ _ _ Ha)|]. destruct (decimal_in _ _ Ha) as [q [E Hq]]. apply integer_iff in Hb. exists (q * pow10 e)%Q. split.
        + unfold parse_ufloat. rewrite split_e_in by (try exact (decimal_noe _ _ Ha); exact Hc). now rewrite E, Hb.
        + rewrite Q2R_mult, Hq. f_equal. now apply pow10_value. }
    destruct G as [Hu [q [E Hq]]]. destruct (split_sign_in p f t Hp Hu) as [neg [-> ->]]. rewrite E. cbn. f_equal.
    destruct neg; cbn [factor]; [rewrite Q2R_opp|]; rewrite Hq; lra.
Qed.

(** ** lines *)
Ltac chars := repeat match goal with |- context [Ascii.eqb ?a ?b] => destruct (Ascii.eqb_spec a b); subst; cbn [orb]; try tauto end.
Lemma blank_iff c : is_blank c = true <-> blank c.
Proof. unfold is_blank, blank. rewrite !orb_true_iff, !Ascii.eqb_eq. tauto. Qed.
Lemma newline_iff c : is_nl c = true <-> newline c.
Proof. unfold is_nl, newline. rewrite orb_true_iff, !Ascii.eqb_eq. reflexivity. Qed.
Definition wordc (c : ascii) : Prop := ~ blank c /\ ~ newline c /\ c <> "#"%char.
Lemma every_app P s t : every P (s ++ t) <-> every P s /\ every P t.
Proof. induction s as [|c s IH]; cbn; [tauto|]. rewrite IH. tauto. Qed.
Lemma every_weaken (P Q : ascii -> Prop) s : (forall c, P c -> Q c) -> every P s -> every Q s.
Proof. intros H. induction s as [|c s IH]; cbn; [easy|]. intros [A B]. auto. Qed.
Lemma blank_line c : blank c -> ~ newline c /\ c <> "#"%char.
Proof. unfold blank, newline. intros H. repeat (destruct H as [->|H]; [split; [intros [?|?]; discriminate|discriminate]|]). subst. split; [intros [?|?]; discriminate|discriminate]. Qed.
Definition linech (c : ascii) : Prop := ~ newline c /\ c <> "#"%char.
Lemma word_line s : every wordc s -> every linech s.
Proof. apply every_weaken. unfold wordc, linech. tauto. Qed.
Lemma is_blank_false c : is_blank c = false <-> ~ blank c.
Proof. rewrite <- blank_iff. destruct (is_blank c); intuition congruence. Qed.

Lemma words_out s : forall cur, every linech s -> every wordc cur -> entries (cur ++ s) (words_aux s cur).
Proof.
  induction s as [|c s IH]; intros cur Hs Hc; cbn [words_aux].
  - rewrite app_nil_s. destruct (String.eqb_spec cur ""); [subst; constructor|]. apply entries_last. split; assumption.
  - cbn in Hs. destruct Hs as [[H1 H2] Hs]. destruct (is_blank c) eqn:Eb.
    + apply blank_iff in Eb. destruct (String.eqb_spec cur "") as [->|Hne].
      * cbn [append]. apply entries_blank; [exact Eb|]. exact (IH "" Hs I).
      * apply entries_more; [split; assumption|exact Eb|]. exact (IH "" Hs I).
    + apply is_blank_false in Eb. replace (cur ++ String c s) with ((cur ++ String c "") ++ s) by (rewrite app_assoc_s; reflexivity).
      apply IH; [exact Hs|]. apply every_app. split; [exact Hc|]. cbn. unfold wordc. tauto.
Qed.
Lemma words_word w t : forall cur, every wordc w -> words_aux (w ++ t) cur = words_aux t (cur ++ w).
Proof.
  induction w as [|c w IH]; intros cur H; cbn [append words_aux]; [now rewrite app_nil_s|]. cbn in H. destruct H as [[H _] Hw].
  apply is_blank_false in H. rewrite H, IH by exact Hw. now rewrite app_assoc_s.
Qed.
Lemma entries_in s l : entries s l -> words s = l /\ every linech s.
Proof.
  unfold words. induction 1 as [|c s l Hc He [IH1 IH2]|w [Hne Hw]|w c s l [Hne Hw] Hc He [IH1 IH2]].
  - split; [reflexivity|exact I].
  - split; [|split; [exact (blank_line c Hc)|exact IH2]]. cbn [words_aux]. apply blank_iff in Hc. rewrite Hc. exact IH1.
  - split; [|now apply word_line]. rewrite <- (app_nil_s w) at 1. rewrite words_word by exact Hw. cbn [append words_aux].
    destruct (String.eqb_spec w ""); [contradiction|reflexivity].
  - split; [|apply every_app; split; [now apply word_line|split; [exact (blank_line c Hc)|exact IH2]]].
    rewrite words_word by exact Hw. cbn [append words_aux]. apply blank_iff in Hc. rewrite Hc. destruct (String.eqb_spec w ""); [contradiction|]. now rewrite IH1.
Qed.

Definition nonl (c : ascii) : Prop := ~ newline c.
Lemma strip_out s : every nonl s -> (every linech s /\ strip_comment s = s) \/ exists a b, s = a ++ "#" ++ b /\ every linech a /\ every nonl b /\ strip_comment s = a.
Proof.
  induction s as [|c s IH]; [left; split; [exact I|reflexivity]|]. cbn [every strip_comment]. intros [H1 H2].
  destruct (Ascii.eqb_spec c "#") as [->|Hne]; [right; exists "", s; repeat split; assumption|].
  destruct (IH H2) as [[A B]|[a [b [E1 [E2 [E3 E4]]]]]].
  - left. rewrite B. repeat split; assumption.
  - right. exists (String c a), b. rewrite E4. repeat split; try assumption. cbn [append]. now rewrite E1 at 1.
Qed.
Lemma line_out s : every nonl s -> line_is s (words (strip_comment s)).
Proof.
  intros H. destruct (strip_out s H) as [[A ->]|[a [b [-> [Ha [Hb ->]]]]]].
  - left. exact (words_out s "" A I).
  - right. exists a, b. split; [reflexivity|]. split; [exact (words_out a "" Ha I)|exact Hb].
Qed.
Lemma strip_plain s : every linech s -> strip_comment s = s.
Proof. induction s as [|c s IH]; [reflexivity|]. cbn. intros [[_ H1] H2]. destruct (Ascii.eqb_spec c "#"); [contradiction|]. now rewrite IH. Qed.
Lemma strip_after a b : every linech a -> strip_comment (a ++ "#" ++ b) = a.
Proof. change ("#" ++ b) with (String "#" b). induction a as [|c a IH]; [reflexivity|]. cbn [every append strip_comment]. intros [[_ H1] H2]. destruct (Ascii.eqb_spec c "#"); [contradiction|]. now rewrite IH. Qed.
Lemma linech_nonl s : every linech s -> every nonl s.
Proof. apply every_weaken. unfold linech, nonl. tauto. Qed.
Lemma line_in s l : line_is s l -> words (strip_comment s) = l /\ every nonl s.
Proof.
  intros [H|[a [b [-> [H Hb]]]]]; destruct (entries_in _ _ H) as [E Hl].
  - rewrite strip_plain by exact Hl. split; [exact E|now apply linech_nonl].
  - rewrite strip_after by exact Hl. split; [exact E|]. apply every_app. split; [now apply linech_nonl|]. cbn. split; [intros [?|?]; discriminate|exact Hb].
Qed.

(** ** texts *)
Definition rows_of (text : string) : list (list string) :=
  filter (fun ws => negb (length ws =? 0)%nat) (map (fun l => words (strip_comment l)) (split_lines text)).
Lemma split_last s : every nonl s -> split_lines s = [s].
Proof.
  induction s as [|c s IH]; [reflexivity|]. cbn [every split_lines]. intros [H1 H2]. destruct (is_nl c) eqn:E; [apply newline_iff in E; contradiction|].
  now rewrite IH.
Qed.
Lemma split_more s c t : every nonl s -> newline c -> split_lines (s ++ String c t) = s :: split_lines t.
Proof.
  intros Hs Hc. induction s as [|d s IH]; cbn [append split_lines].
  - apply newline_iff in Hc. now rewrite Hc.
  - cbn in Hs. destruct Hs as [H1 H2]. destruct (is_nl d) eqn:E; [apply newline_iff in E; contradiction|]. now rewrite IH.
Qed.
Lemma first_line text : every nonl text \/ exists s c t, text = s ++ String c t /\ every nonl s /\ newline c.
Proof.
  induction text as [|c text IH]; [left; exact I|]. destruct (is_nl c) eqn:E.
  - right. exists "", c, text. repeat split. now apply newline_iff.
  - assert (Hc : nonl c) by (intros K; apply newline_iff in K; congruence).
    destruct IH as [H|[s [d [t [-> [Hs Hd]]]]]]; [left; now split|right; exists (String c s), d, t; repeat split; assumption].
Qed.
Lemma length_app_s s t : String.length (s ++ t) = (String.length s + String.length t)%nat.
Proof. induction s as [|c s IH]; cbn; [reflexivity|]. now rewrite IH. Qed.
Lemma lines_out n : forall text, (String.length text < n)%nat -> lines_are text (rows_of text).
Proof.
  induction n as [|n IH]; intros text Hn; [lia|]. unfold rows_of. destruct (first_line text) as [H|[s [c [t [-> [Hs Hc]]]]]].
  - rewrite split_last by exact H. cbn [map filter]. pose proof (line_out text H) as Hl. destruct (words (strip_comment text)) as [|w l] eqn:E; cbn [length Nat.eqb negb].
    + now constructor.
    + apply lines_row; [exact Hl|discriminate].
  - rewrite split_more by assumption. cbn [map filter]. pose proof (line_out s Hs) as Hl. rewrite length_app_s in Hn. cbn in Hn.
    assert (Ht : lines_are t (rows_of t)) by (apply IH; lia).
    destruct (words (strip_comment s)) as [|w l] eqn:E; cbn [length Nat.eqb negb].
    + now apply lines_skip.
    + apply lines_more; [exact Hl|discriminate|exact Hc|exact Ht].
Qed.
Lemma lines_in text rows : lines_are text rows -> rows_of text = rows.
Proof.
  unfold rows_of. induction 1 as [s Hl|s l Hl Hne|s c t r Hl Hc _ IH|s l c t r Hl Hne Hc _ IH]; destruct (line_in _ _ Hl) as [E Hs].
  - rewrite split_last by exact Hs. cbn [map filter]. now rewrite E.
  - rewrite split_last by exact Hs. cbn [map filter]. rewrite E. destruct l; [congruence|reflexivity].
  - rewrite split_more by assumption. cbn [map filter]. rewrite E. exact IH.
  - rewrite split_more by assumption. cbn [map filter]. rewrite E. destruct l; [congruence|]. cbn [length Nat.eqb negb]. now rewrite IH.
Qed.

Section Load.
  Context {A : Type} (parse : string -> option A) (literal : string -> A -> Prop).
  Hypothesis agree : forall s a, parse s = Some a <-> literal s a.
  Let conv (tok : string) : res A := match parse tok with Some a => Ok a | None => Err (ValueError "could not convert string") end.
  Lemma conv_row ws : forall vs, mapM conv ws = Ok vs <-> Forall2 literal ws vs.
  Proof.
    induction ws as [|w ws IH]; intros vs; cbn [mapM].
    - split; [intros E; injection E as <-; constructor|intros H; inversion H; reflexivity].
    - unfold conv at 1. destruct (parse w) as [a|] eqn:Ea; cbn [bind].
      + destruct (mapM conv ws) as [vs'|] eqn:Em; cbn [bind].
        * split; [intros E; injection E as <-; constructor; [now apply agree|now apply IH]|].
          intros H; inversion H as [|? b ? vs'' Hb Hv]; subst. apply agree in Hb. rewrite Ea in Hb. injection Hb as ->. apply IH in Hv. now injection Hv as ->.
        * split; [discriminate|]. intros H; inversion H as [|? b ? vs'' Hb Hv]; subst. apply IH in Hv. discriminate.
      + split; [discriminate|]. intros H; inversion H as [|? b ? vs'' Hb Hv]; subst. apply agree in Hb. congruence.
  Qed.
  Lemma conv_rows rows : forall tab, mapM (mapM conv) rows = Ok tab <-> Forall2 (Forall2 literal) rows tab.
  Proof.
    induction rows as [|w ws IH]; intros vs; cbn [mapM].
    - split; [intros E; injection E as <-; constructor|intros H; inversion H; reflexivity].
    - destruct (mapM conv w) as [a|] eqn:Ea; cbn [bind].
      + destruct (mapM (mapM conv) ws) as [vs'|] eqn:Em; cbn [bind].
        * split; [intros E; injection E as <-; constructor; [now apply conv_row|now apply IH]|].
          intros H; inversion H as [|? b ? vs'' Hb Hv]; subst. apply conv_row in Hb. rewrite Ea in Hb. injection Hb as ->. apply IH in Hv. now injection Hv as ->.
        * split; [discriminate|]. intros H; inversion H as [|? b ? vs'' Hb Hv]; subst. apply IH in Hv. discriminate.
      + split; [discriminate|]. intros H; inversion H as [|? b ? vs'' Hb Hv]; subst. apply conv_row in Hb. congruence.
  Qed.
  Lemma rect_iff (tab : list (list A)) : rectangular tab = true <-> forall r1 r2, In r1 tab -> In r2 tab -> length r1 = length r2.
  Proof.
    destruct tab as [|r tab]; [split; [intros _ ? ? []|reflexivity]|]. cbn [rectangular]. rewrite forallb_forall. split.
    - intros H. assert (K : forall x, In x (r :: tab) -> length x = length r) by (intros x [<-|Hx]; [reflexivity|apply Nat.eqb_eq, H, Hx]).
      intros r1 r2 H1 H2. now rewrite (K r1 H1), (K r2 H2).
    - intros H x Hx. apply Nat.eqb_eq. apply H; [now right|now left].
  Qed.
  Theorem load_iff text tab : loadtxt parse text = Ok tab <-> shows literal text tab.
  Proof.
    unfold loadtxt. fold (rows_of text). fold conv. split.
    - intros E. destruct (mapM (mapM conv) (rows_of text)) as [vals|] eqn:Em; [|discriminate]. cbn [bind] in E. destruct (rectangular vals) eqn:Er; [|discriminate].
      cbn in E. injection E as <-. exists (rows_of text). split; [exact (lines_out _ text (Nat.lt_succ_diag_r _))|]. split; [now apply conv_rows|now apply rect_iff].
    - intros [rows [Hl [Hf Hr]]]. apply lines_in in Hl. rewrite Hl. apply conv_rows in Hf. rewrite Hf. cbn [bind]. apply rect_iff in Hr. now rewrite Hr.
  Qed.
  Theorem load_err text e : loadtxt parse text = Err e -> exists m, e = ValueError m.
  Proof.
    unfold loadtxt. fold (rows_of text). fold conv. intros E. destruct (mapM (mapM conv) (rows_of text)) as [vals|e'] eqn:Em; cbn [bind] in E.
    - destruct (rectangular vals); [discriminate|]. cbn in E. injection E as <-. eexists. reflexivity.
    - injection E as ->. revert Em. generalize (rows_of text). intros rows. revert e. induction rows as [|w ws IH]; [discriminate|]. intros e. cbn [mapM].
      destruct (mapM conv w) as [a|e'] eqn:Ea; cbn [bind].
      + destruct (mapM (mapM conv) ws) as [vs'|]; cbn [bind]; [discriminate|]. intros E. injection E as ->. exact (IH _ eq_refl).
      + intros E. injection E as ->. clear IH. revert e Ea. induction w as [|x w IHw]; [discriminate|]. intros e. cbn [mapM]. unfold conv at 1. destruct (parse x); cbn [bind].
        * destruct (mapM conv w) as [?|]; cbn [bind]; [discriminate|]. intros E. injection E as ->. exact (IHw _ eq_refl).
        * intros E. injection E as <-. eexists. reflexivity.
  Qed.
End Load.

(** ** readin *)
Theorem readin_iff (fs : fsys) folder nodes mats elements loads :
  @readin R Num_R fs folder = Ok (nodes, mats, elements, loads) <->
  exists t1 t2 t3 t4, fs (folder ++ "nodes.txt") = Some t1 /\ fs (folder ++ "mater.txt") = Some t2 /\ fs (folder ++ "eles.txt") = Some t3 /\ fs (folder ++ "loads.txt") = Some t4 /\
    shows number_is t1 nodes /\ shows number_is t2 mats /\ shows integer_is t3 elements /\ shows number_is t4 loads.
Proof.
  unfold readin, read_file. split.
  - intros E. destruct (fs (folder ++ "nodes.txt")) as [t1|]; [cbn [bind] in E|discriminate]. destruct (loadtxt parse_num t1) as [n|] eqn:E1; [cbn [bind] in E|discriminate].
    destruct (fs (folder ++ "mater.txt")) as [t2|]; [cbn [bind] in E|discriminate]. destruct (loadtxt parse_num t2) as [m|] eqn:E2; [cbn [bind] in E|discriminate].
    destruct (fs (folder ++ "eles.txt")) as [t3|]; [cbn [bind] in E|discriminate]. destruct (loadtxt parse_int t3) as [el|] eqn:E3; [cbn [bind] in E|discriminate].
    destruct (fs (folder ++ "loads.txt")) as [t4|]; [cbn [bind] in E|discriminate]. destruct (loadtxt parse_num t4) as [lo|] eqn:E4; [cbn [bind] in E|discriminate].
    injection E as <- <- <- <-. exists t1, t2, t3, t4. repeat split.
    + apply (load_iff _ _ number_iff), E1.
    + apply (load_iff _ _ number_iff), E2.
    + apply (load_iff _ _ integer_iff), E3.
    + apply (load_iff _ _ number_iff), E4.
  - intros [t1 [t2 [t3 [t4 [-> [-> [-> [-> [H1 [H2 [H3 H4]]]]]]]]]]]. cbn [bind].
    apply (load_iff _ _ number_iff) in H1, H2, H4. apply (load_iff _ _ integer_iff) in H3. rewrite H1. cbn [bind]. rewrite H2. cbn [bind]. rewrite H3. cbn [bind]. rewrite H4. reflexivity.
Qed.

(** why reading fails: a missing file or a file that shows no table *)
Theorem readin_fails (fs : fsys) folder e : @readin R Num_R fs folder = Err e ->
  (e = FileNotFoundError /\ exists f, In f ["nodes.txt"; "mater.txt"; "eles.txt"; "loads.txt"] /\ fs (folder ++ f) = None) \/
  ((exists m, e = ValueError m) /\
   ((exists f t, In f ["nodes.txt"; "mater.txt"; "loads.txt"] /\ fs (folder ++ f) = Some t /\ forall tab, ~ shows number_is t tab) \/
    exists t, fs (folder ++ "eles.txt") = Some t /\ forall tab, ~ shows integer_is t tab)).
Proof.
  assert (No1 : forall t e', loadtxt (@parse_num R Num_R) t = Err e' -> forall tab, ~ shows number_is t tab).
  { intros t e' E tab H. apply (load_iff _ _ number_iff) in H. congruence. }
  assert (No2 : forall t e', loadtxt parse_int t = Err e' -> forall tab, ~ shows integer_is t tab).
  { intros t e' E tab H. apply (load_iff _ _ integer_iff) in H. congruence. }
  unfold readin, read_file. intros E.
  destruct (fs (folder ++ "nodes.txt")) as [t1|] eqn:F1; cbn [bind] in E; [|injection E as <-; left; split; [reflexivity|]; eexists; split; [|exact F1]; cbn; tauto].
  destruct (loadtxt parse_num t1) as [n|e1] eqn:E1; cbn [bind] in E.
  2:{ injection E as ->. right. split; [exact (load_err _ _ _ E1)|]. left. eexists _, t1. split; [|split; [exact F1|exact (No1 _ _ E1)]]. cbn; tauto. }
  destruct (fs (folder ++ "mater.txt")) as [t2|] eqn:F2; cbn [bind] in E; [|injection E as <-; left; split; [reflexivity|]; eexists; split; [|exact F2]; cbn; tauto].
  destruct (loadtxt parse_num t2) as [m|e2] eqn:E2; cbn [bind] in E.
  2:{ injection E as ->. right. split; [exact (load_err _ _ _ E2)|]. left. eexists _, t2. split; [|split; [exact F2|exact (No1 _ _ E2)]]. cbn; tauto. }
  destruct (fs (folder ++ "eles.txt")) as [t3|] eqn:F3; cbn [bind] in E; [|injection E as <-; left; split; [reflexivity|]; eexists; split; [|exact F3]; cbn; tauto].
  destruct (loadtxt parse_int t3) as [el|e3] eqn:E3; cbn [bind] in E.
  2:{ injection E as ->. right. split; [exact (load_err _ _ _ E3)|]. right. exists t3. split; [reflexivity|exact (No2 _ _ E3)]. }
  destruct (fs (folder ++ "loads.txt")) as [t4|] eqn:F4; cbn [bind] in E; [|injection E as <-; left; split; [reflexivity|]; eexists; split; [|exact F4]; cbn; tauto].
  destruct (loadtxt parse_num t4) as [lo|e4] eqn:E4; cbn [bind] in E; [discriminate|].
  injection E as ->. right. split; [exact (load_err _ _ _ E4)|]. left. eexists _, t4. split; [|split; [exact F4|exact (No1 _ _ E4)]]. cbn; tauto.
Qed.
