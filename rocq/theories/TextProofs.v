(** * Proofs about the text files *)
From Coq Require Import String Ascii QArith Qreals Reals List ZArith Arith Bool Lra Lia.
From Coq Require Import Decimal DecimalString DecimalZ DecimalFacts DecimalPos DecimalN.
From Verif Require Import Num LinAlg Pre TextIO Spec SpecPre LinR Base.
Import ListNotations.
Local Open Scope string_scope.

(** ** tokens *)
Definition okc (c : ascii) : bool := negb (is_blank c || is_nl c || Ascii.eqb c "#").
Fixpoint allc (f : ascii -> bool) (s : string) : bool :=
  match s with EmptyString => true | String c t => f c && allc f t end.
Definition blanks (s : string) : Prop := allc (fun c => Ascii.eqb c " ") s = true.
Definition token (s : string) : Prop := s <> "" /\ allc okc s = true.

Lemma allc_app f s t : allc f (s ++ t) = allc f s && allc f t.
Proof. induction s as [|c s IH]; [reflexivity|]. cbn. rewrite IH. apply andb_assoc. Qed.

Lemma app_nil_s s : s ++ "" = s.
Proof. induction s as [|c s IH]; [reflexivity|]. cbn. now rewrite IH. Qed.
Lemma app_assoc_s s t u : (s ++ t) ++ u = s ++ (t ++ u).
Proof. induction s as [|c s IH]; [reflexivity|]. cbn. now rewrite IH. Qed.

Lemma words_blanks s t : blanks s -> words_aux (s ++ t) "" = words_aux t "".
Proof.
  induction s as [|c s IH]; [reflexivity|]. unfold blanks. cbn. intros H. apply andb_true_iff in H as [H1 H2].
  apply Ascii.eqb_eq in H1. subst c. cbn. apply IH. exact H2.
Qed.

Lemma okc_blank c : okc c = true -> is_blank c = false.
Proof. unfold okc. destruct (is_blank c); [discriminate|reflexivity]. Qed.

Lemma words_token_end s : forall cur, allc okc s = true -> cur ++ s <> "" -> words_aux s cur = [cur ++ s].
Proof.
  induction s as [|c s IH]; intros cur H Hne.
  - cbn. rewrite app_nil_s in *. destruct (String.eqb_spec cur ""); [contradiction|reflexivity].
  - cbn in H. apply andb_true_iff in H as [H1 H2]. cbn [words_aux]. rewrite okc_blank by exact H1.
    rewrite IH; [now rewrite app_assoc_s|exact H2|]. rewrite app_assoc_s. exact Hne.
Qed.
Lemma words_token s t : forall cur, allc okc s = true -> cur ++ s <> "" -> words_aux (s ++ String " " t) cur = (cur ++ s) :: words_aux t "".
Proof.
  induction s as [|c s IH]; intros cur H Hne.
  - cbn. rewrite app_nil_s in *. destruct (String.eqb_spec cur ""); [contradiction|reflexivity].
  - cbn in H. apply andb_true_iff in H as [H1 H2]. cbn [words_aux append]. rewrite okc_blank by exact H1.
    rewrite IH; [now rewrite app_assoc_s|exact H2|]. rewrite app_assoc_s. exact Hne.
Qed.

Definition padded (body fmt : string) : Prop := exists b, blanks b /\ fmt = b ++ body /\ token body.

Lemma words_join bodies fmts : Forall2 padded bodies fmts -> words (join fmts) = bodies.
Proof.
  unfold words. induction 1 as [|x f xs fs [b [Hb [-> [Hne Hok]]]] Hf IH]; [reflexivity|].
  destruct fs as [|f' fs].
  - inversion Hf; subst. cbn [join]. rewrite words_blanks by exact Hb. rewrite words_token_end; [reflexivity|exact Hok|exact Hne].
  - cbn [join]. rewrite app_assoc_s, words_blanks by exact Hb. match goal with |- words_aux (x ++ ?r) _ = _ => change r with (String " " (join (f' :: fs))) end.
    rewrite words_token by assumption. rewrite IH. reflexivity.
Qed.

(** ** lines *)
Definition linec (c : ascii) : bool := negb (is_nl c || Ascii.eqb c "#").
Lemma okc_linec s : allc okc s = true -> allc linec s = true.
Proof.
  induction s as [|c s IH]; [reflexivity|]. cbn. intros H. apply andb_true_iff in H as [H1 H2]. rewrite IH by exact H2. rewrite andb_true_r.
  unfold okc, linec in *. destruct (is_blank c); [discriminate|]. exact H1.
Qed.
Lemma blanks_linec s : blanks s -> allc linec s = true.
Proof.
  unfold blanks. induction s as [|c s IH]; [reflexivity|]. cbn. intros H. apply andb_true_iff in H as [H1 H2]. rewrite IH by exact H2. rewrite andb_true_r.
  apply Ascii.eqb_eq in H1. subst c. reflexivity.
Qed.
Lemma join_linec bodies fmts : Forall2 padded bodies fmts -> allc linec (join fmts) = true.
Proof.
  induction 1 as [|x f xs fs [b [Hb [-> [Hne Hok]]]] Hf IH]; [reflexivity|].
  assert (H1 : allc linec (b ++ x) = true) by (rewrite allc_app, blanks_linec, okc_linec by assumption; reflexivity).
  destruct fs as [|f' fs]; [exact H1|]. cbn [join]. rewrite allc_app, H1. cbn [andb]. exact IH.
Qed.

Lemma strip_line s : allc linec s = true -> strip_comment s = s.
Proof.
  induction s as [|c s IH]; [reflexivity|]. cbn. intros H. apply andb_true_iff in H as [H1 H2]. unfold linec in H1.
  destruct (Ascii.eqb c "#"); [rewrite orb_true_r in H1; discriminate|]. now rewrite IH.
Qed.
Lemma split_line s t : allc linec s = true -> split_lines (s ++ String nl t) = s :: split_lines t.
Proof.
  induction s as [|c s IH]; intros H.
  - cbn. reflexivity.
  - cbn in H. apply andb_true_iff in H as [H1 H2]. cbn [append split_lines]. rewrite IH by exact H2.
    unfold linec in H1. destruct (is_nl c); [discriminate|reflexivity].
Qed.

Lemma split_savetxt {A} (fmt : A -> string) rows : Forall (fun row => allc linec (join (map fmt row)) = true) rows ->
  split_lines (savetxt fmt rows) = (map (fun row => join (map fmt row)) rows ++ [""])%list.
Proof.
  induction 1 as [|row rows H HF IH]; [reflexivity|]. unfold savetxt in *. cbn [fold_right map app]. rewrite split_line by exact H.
  now rewrite IH.
Qed.

(** reading back what was written, entry by entry *)
Theorem load_save {A B} (fmt : A -> string) (body : A -> string) (parse : string -> option B) (val : A -> B) rows :
  (forall a, padded (body a) (fmt a)) -> (forall a, parse (body a) = Some (val a)) ->
  Forall (fun row => row <> []) rows -> (forall r1 r2, In r1 rows -> In r2 rows -> length r1 = length r2) ->
  loadtxt parse (savetxt fmt rows) = Ok (map (map val) rows).
Proof.
  intros Hp Hv Hne Hrect. unfold loadtxt.
  assert (F2 : forall row, Forall2 padded (map body row) (map fmt row)).
  { intros row. induction row as [|a row IH]; constructor; [apply Hp|exact IH]. }
  rewrite split_savetxt by (apply Forall_forall; intros row _; apply (join_linec (map body row)); apply F2).
  rewrite map_app, filter_app. cbn [map strip_comment words words_aux filter length negb Nat.eqb]. rewrite List.app_nil_r.
  assert (E : filter (fun ws : list string => negb (length ws =? 0)%nat) (map (fun l => words (strip_comment l)) (map (fun row => join (map fmt row)) rows)) = map (map body) rows).
  { rewrite map_map. clear Hrect. induction Hne as [|row rows H1 H2 IH]; [reflexivity|]. cbn [map filter].
    rewrite strip_line by (apply (join_linec (map body row)); apply F2). rewrite (words_join (map body row)) by apply F2.
    rewrite map_length. destruct row as [|a row]; [congruence|]. cbn [length Nat.eqb negb]. now rewrite IH. }
  match goal with |- bind (mapM _ ?l) _ = _ => replace l with (map (map body) rows) by (symmetry; exact E) end.
  assert (M : mapM (mapM (fun tok => match parse tok with Some a => Ok a | None => Err (ValueError "could not convert string") end)) (map (map body) rows) = Ok (map (map val) rows)).
  { rewrite mapM_map. apply mapM_total. intros row _. rewrite mapM_map. apply mapM_total. intros a _. now rewrite Hv. }
  rewrite M. cbn [bind].
  assert (G : rectangular (map (map val) rows) = true).
  { destruct rows as [|r0 rows]; [reflexivity|]. cbn [map rectangular]. apply forallb_forall. intros r Hr. apply in_map_iff in Hr as [r' [<- Hr']].
    rewrite !map_length. apply Nat.eqb_eq. apply Hrect; [now right|now left]. }
  rewrite G. reflexivity.
Qed.

(** ** C64: integers *)
Definition digit (c : ascii) : bool := okc c && negb (Ascii.eqb c ".") && negb (Ascii.eqb c "-" || Ascii.eqb c "+") && negb (Ascii.eqb c "e" || Ascii.eqb c "E").
Lemma uint_digits u : allc digit (NilEmpty.string_of_uint u) = true.
Proof. induction u; cbn; try reflexivity; exact IHu. Qed.
Lemma allc_weaken f g s : (forall c, f c = true -> g c = true) -> allc f s = true -> allc g s = true.
Proof. intros H. induction s as [|c s IH]; [reflexivity|]. cbn. rewrite !andb_true_iff. intros [A B]. auto. Qed.
Lemma digit_okc s : allc digit s = true -> allc okc s = true.
Proof. apply allc_weaken. intros c. unfold digit. rewrite !andb_true_iff. tauto. Qed.
Lemma nz_digits u : allc digit (NilZero.string_of_uint u) = true.
Proof. destruct u; try apply uint_digits; reflexivity. Qed.
Lemma nz_nonempty u : NilZero.string_of_uint u <> "".
Proof. destruct u; cbn; discriminate. Qed.

Lemma fmt_d_token z : token (fmt_d z).
Proof.
  unfold fmt_d, NilZero.string_of_int. destruct (Z.to_int z) as [u|u]; split; try discriminate.
  - apply nz_nonempty.
  - apply digit_okc, nz_digits.
  - cbn [allc]. rewrite (digit_okc _ (nz_digits u)). reflexivity.
Qed.

Lemma to_int_nonnil z : Z.to_int z <> Pos Nil /\ Z.to_int z <> Neg Nil.
Proof.
  split; intros E.
  - destruct z as [|p|p]; cbn in E; try discriminate. injection E as E. exact (DecimalPos.Unsigned.to_uint_nonnil p E).
  - destruct z as [|p|p]; cbn in E; try discriminate. injection E as E. exact (DecimalPos.Unsigned.to_uint_nonnil p E).
Qed.

Lemma split_sign_none c t : Ascii.eqb c "-" || Ascii.eqb c "+" = false -> split_sign (String c t) = (false, String c t).
Proof. intros H. apply orb_false_iff in H as [H1 H2]. unfold split_sign. now rewrite H1, H2. Qed.
Lemma digit_sign s : allc digit s = true -> split_sign s = (false, s).
Proof.
  destruct s as [|c t]; [reflexivity|]. cbn [allc]. intros H. apply andb_true_iff in H as [H _]. apply split_sign_none. unfold digit in H.
  destruct (Ascii.eqb c "-" || Ascii.eqb c "+"); [|reflexivity]. rewrite andb_false_r in H. discriminate.
Qed.
Lemma parse_fmt_d z : parse_int (fmt_d z) = Some z.
Proof.
  unfold parse_int, fmt_d. destruct (to_int_nonnil z) as [A B]. pose proof (DecimalZ.of_to z) as Ez. unfold NilZero.string_of_int.
  destruct (Z.to_int z) as [u|u].
  - rewrite digit_sign by apply nz_digits. rewrite NilZero.usu by congruence. cbn [option_map]. now rewrite <- Ez.
  - change (split_sign (String "-" (NilZero.string_of_uint u))) with (true, NilZero.string_of_uint u). cbv beta iota zeta. rewrite NilZero.usu by congruence. cbn [option_map]. now rewrite <- Ez.
Qed.

Theorem ints_round_trip rows : Forall (fun row => row <> []) rows -> (forall r1 r2, In r1 rows -> In r2 rows -> length r1 = length r2) ->
  loadtxt parse_int (savetxt fmt_d rows) = Ok rows.
Proof.
  intros H1 H2. rewrite (load_save fmt_d fmt_d parse_int (fun z => z)); [|intros a; exists ""; split; [reflexivity|split; [reflexivity|apply fmt_d_token]]|apply parse_fmt_d|assumption..].
  f_equal. rewrite <- (map_id rows) at 2. apply map_ext. intros. apply map_id.
Qed.

(** ** C65: reals *)
Definition cents (x : R) : Z := round_even (nmul (nz 100) (nabs x)).
Definition echoed (x : R) : R := ((if nltb x n0 then -1 else 1) * IZR (cents x) / 100)%R.
Definition body52 (x : R) : string :=
  (if nltb x n0 then "-" else "") ++ fmt_d (cents x / 100) ++ "." ++ fmt_d (cents x mod 100 / 10) ++ fmt_d ((cents x mod 100) mod 10).

Lemma round_even_near (y : R) : (0 <= y)%R -> (0 <= round_even y)%Z /\ (Rabs (IZR (round_even y) - y) <= 1/2)%R.
Proof.
  intros Hy. unfold round_even. change (@ntrunc R Num_R) with Rtrunc. unfold Rtrunc. destruct (Rle_dec 0 y); [|contradiction].
  destruct (base_Int_part y) as [H1 H2]. set (k := Int_part y) in *.
  assert (Hk : (0 <= k)%Z). { assert (K : (-1 < IZR k)%R) by lra. apply (lt_IZR (-1)) in K. lia. }
  cbn [nsub nz Num_R].
  assert (Eh : @nofQ R Num_R 0.5 = (1/2)%R) by (cbn [nofQ Num_R]; unfold Q2R; cbn [Qnum Qden]; lra). rewrite Eh.
  unfold nltb. cbn [nleb Num_R].
  destruct (Rle_dec (1/2) (y - IZR k)); cbn [negb].
  - destruct (Rle_dec (y - IZR k) (1/2)); cbn [negb].
    + destruct (Z.even k); rewrite ?plus_IZR; split; try lia; unfold Rabs; destruct (Rcase_abs _); lra.
    + rewrite plus_IZR; split; try lia; unfold Rabs; destruct (Rcase_abs _); lra.
  - split; [lia|]. unfold Rabs; destruct (Rcase_abs _); lra.
Qed.

Lemma nabs_abs (x : R) : nabs x = Rabs x.
Proof. unfold nabs. cbn [nleb Num_R nopp n0]. unfold Rabs. destruct (Rle_dec 0 x), (Rcase_abs x); try lra; reflexivity. Qed.
Lemma neg_spec (x : R) : nltb x n0 = true <-> (x < 0)%R.
Proof. unfold nltb. cbn [nleb Num_R n0]. destruct (Rle_dec 0 x); cbn; split; intros; try lra; try discriminate; reflexivity. Qed.

Lemma cents_near (x : R) : (0 <= cents x)%Z /\ (Rabs (IZR (cents x) - 100 * Rabs x) <= 1/2)%R.
Proof. unfold cents. rewrite nabs_abs. apply round_even_near. cbn [nmul nz Num_R]. pose proof (Rabs_pos x). lra. Qed.

Theorem echoed_near (x : R) : (Rabs (echoed x - x) <= 5 / 1000)%R.
Proof.
  destruct (cents_near x) as [_ H]. unfold echoed. destruct (nltb x n0) eqn:E.
  - apply neg_spec in E. rewrite (Rabs_left x) in H by exact E. revert H. unfold Rabs. repeat destruct (Rcase_abs _); lra.
  - assert (0 <= x)%R by (destruct (Rle_lt_dec 0 x) as [K|K]; [exact K|apply neg_spec in K; congruence]).
    rewrite (Rabs_pos_eq x) in H by assumption. revert H. unfold Rabs. repeat destruct (Rcase_abs _); lra.
Qed.

Theorem echoed_exact (z : Z) : echoed (IZR z / 100) = (IZR z / 100)%R.
Proof.
  assert (C : cents (IZR z / 100) = Z.abs z).
  { destruct (cents_near (IZR z / 100)) as [_ H].
    assert (E : (100 * Rabs (IZR z / 100) = IZR (Z.abs z))%R).
    { unfold Rdiv. rewrite Rabs_mult, <- Rabs_Zabs. rewrite (Rabs_pos_eq (/ 100)) by lra. lra. }
    rewrite E, <- minus_IZR in H. assert (K : (Rabs (IZR (cents (IZR z / 100) - Z.abs z)) < 1)%R) by lra.
    rewrite Rabs_Zabs in K. apply (lt_IZR _ 1) in K. lia. }
  unfold echoed. rewrite C. destruct (nltb _ _) eqn:E.
  - apply neg_spec in E. assert (z < 0)%Z by (apply lt_IZR; lra). rewrite Z.abs_neq, opp_IZR by lia. lra.
  - assert (0 <= IZR z / 100)%R by (destruct (Rle_lt_dec 0 (IZR z / 100)) as [K|K]; [exact K|apply neg_spec in K; congruence]).
    assert (0 <= z)%Z by (apply le_IZR; lra). rewrite Z.abs_eq by lia. lra.
Qed.

Lemma concat_blanks k : blanks (String.concat "" (repeat " " k)).
Proof.
  unfold blanks. induction k as [|k IH]; [reflexivity|]. cbn [repeat String.concat]. destruct (repeat " " k) eqn:E; [reflexivity|].
  rewrite <- E in *. rewrite allc_app. cbn [append]. rewrite IH. reflexivity.
Qed.

Lemma body52_token x : token (body52 x).
Proof.
  unfold body52. split.
  - destruct (nltb x n0); [discriminate|]. cbn [append]. destruct (fmt_d_token (cents x / 100)) as [H _]. destruct (fmt_d (cents x / 100)); [contradiction|discriminate].
  - rewrite !allc_app. destruct (fmt_d_token (cents x / 100)) as [_ ->]. destruct (fmt_d_token (cents x mod 100 / 10)) as [_ ->].
    destruct (fmt_d_token ((cents x mod 100) mod 10)) as [_ ->]. destruct (nltb x n0); reflexivity.
Qed.
Lemma fmt_body x : padded (body52 x) (fmt_5_2f x).
Proof.
  unfold fmt_5_2f. fold (cents x). cbv zeta. unfold pad_left. eexists. split; [apply concat_blanks|]. split; [|apply body52_token].
  f_equal. unfold body52. destruct (nltb x n0); reflexivity.
Qed.

Lemma split_dot_digits s t : allc digit s = true -> split_dot (s ++ String "." t) = (s, Some t).
Proof.
  induction s as [|c s IH]; [reflexivity|]. cbn. intros H. apply andb_true_iff in H as [H1 H2]. unfold digit in H1.
  destruct (Ascii.eqb c "."); [rewrite andb_false_r in H1; discriminate|]. now rewrite IH.
Qed.

Lemma fmt_d_nonneg z : (0 <= z)%Z -> exists u, fmt_d z = NilZero.string_of_uint u /\ u <> Nil /\ Z.of_uint u = z.
Proof.
  intros Hz. pose proof (DecimalZ.of_to z) as E. destruct (to_int_nonnil z) as [A _]. unfold fmt_d. destruct z as [|p|p]; [| |lia].
  - exists (D0 Nil). repeat split. discriminate.
  - cbn [Z.to_int] in *. exists (Pos.to_uint p). split; [reflexivity|]. split; [intros K; apply A; now rewrite K|exact E].
Qed.

Lemma parse_u52 n : (0 <= n)%Z -> exists q, parse_udec (fmt_d (n / 100) ++ "." ++ fmt_d (n mod 100 / 10) ++ fmt_d ((n mod 100) mod 10)) = Some q /\
  Q2R q = (IZR n / 100)%R.
Proof.
  intros Hn. assert (H1 : (0 <= n / 100)%Z) by (apply Z.div_pos; lia).
  assert (H2 : (0 <= n mod 100 < 100)%Z) by (apply Z.mod_pos_bound; lia).
  destruct (fmt_d_nonneg (n / 100) H1) as [u [E [Hu Hz]]]. rewrite E. unfold parse_udec.
  change ("." ++ fmt_d (n mod 100 / 10) ++ fmt_d ((n mod 100) mod 10)) with (String "." (fmt_d (n mod 100 / 10) ++ fmt_d ((n mod 100) mod 10))).
  rewrite split_dot_digits by apply nz_digits.
  assert (Eu : NilZero.string_of_uint u = NilEmpty.string_of_uint u) by (destruct u; [congruence|reflexivity..]).
  rewrite Eu, NilEmpty.usu.
  set (a := (n mod 100 / 10)%Z). set (b := ((n mod 100) mod 10)%Z).
  assert (Ha : (0 <= a < 10)%Z) by (unfold a; split; [apply Z.div_pos; lia|apply Z.div_lt_upper_bound; lia]).
  assert (Hb : (0 <= b < 10)%Z) by (apply Z.mod_pos_bound; lia).
  assert (X : exists v, NilEmpty.uint_of_string (fmt_d a ++ fmt_d b) = Some v /\ Z.of_uint v = (10 * a + b)%Z /\ String.length (fmt_d a ++ fmt_d b) = 2%nat).
  { assert (Ca : In a [0; 1; 2; 3; 4; 5; 6; 7; 8; 9]%Z) by (cbn; lia). assert (Cb : In b [0; 1; 2; 3; 4; 5; 6; 7; 8; 9]%Z) by (cbn; lia).
    clearbody a b. cbn [In] in Ca, Cb.
    repeat (destruct Ca as [<-|Ca]; [repeat (destruct Cb as [<-|Cb]; [eexists; repeat split; reflexivity|]); destruct Cb|]); destruct Ca. }
  destruct X as [v [Ev [Hv Lv]]]. rewrite Ev, Lv, Hz, Hv. rewrite Nat.add_comm. cbn [Nat.add Nat.eqb].
  eexists. split; [reflexivity|]. rewrite Q2R_plus, Q2R_mult. unfold Q2R. cbn [Qnum Qden inject_Z].
  change (Pos.pow 10 (Pos.of_nat 2)) with 100%positive.
  assert (En : n = (100 * (n / 100) + (10 * a + b))%Z).
  { unfold a, b. rewrite (Z.div_mod n 100) at 1 by lia. rewrite (Z.div_mod (n mod 100) 10) at 1 by lia. reflexivity. }
  assert (Er : IZR n = (100 * IZR (n / 100) + IZR (10 * a + b))%R) by (etransitivity; [exact (f_equal IZR En)|rewrite plus_IZR, mult_IZR; reflexivity]).
  rewrite Er. lra.
Qed.

Lemma split_e_none s : allc (fun c => negb (Ascii.eqb c "e" || Ascii.eqb c "E")) s = true -> split_e s = (s, None).
Proof.
  induction s as [|c s IH]; [reflexivity|]. cbn. intros H. apply andb_true_iff in H as [H1 H2]. apply negb_true_iff in H1. rewrite H1, IH by exact H2. reflexivity.
Qed.
Lemma digit_e s : allc digit s = true -> allc (fun c => negb (Ascii.eqb c "e" || Ascii.eqb c "E")) s = true.
Proof. apply allc_weaken. intros c. unfold digit. rewrite !andb_true_iff. tauto. Qed.
Lemma parse_f52 n : (0 <= n)%Z -> exists q, parse_ufloat (fmt_d (n / 100) ++ "." ++ fmt_d (n mod 100 / 10) ++ fmt_d ((n mod 100) mod 10)) = Some q /\
  Q2R q = (IZR n / 100)%R.
Proof.
  intros Hn. destruct (parse_u52 n Hn) as [q [E Hq]]. exists q. split; [|exact Hq]. unfold parse_ufloat. rewrite split_e_none; [exact E|].
  assert (H2 : (0 <= n mod 100 < 100)%Z) by (apply Z.mod_pos_bound; lia).
  destruct (fmt_d_nonneg (n / 100) ltac:(apply Z.div_pos; lia)) as [u [Eu _]]. destruct (fmt_d_nonneg (n mod 100 / 10) ltac:(apply Z.div_pos; lia)) as [v [Ev _]].
  destruct (fmt_d_nonneg ((n mod 100) mod 10) ltac:(apply Z.mod_pos_bound; lia)) as [w [Ew _]]. rewrite Eu, Ev, Ew, !allc_app, (digit_e _ (nz_digits u)), (digit_e _ (nz_digits v)), (digit_e _ (nz_digits w)). reflexivity.
Qed.

Lemma parse_body x : parse_num (body52 x) = Some (echoed x).
Proof.
  destruct (cents_near x) as [Hc _]. destruct (parse_f52 (cents x) Hc) as [q [E Hq]].
  unfold parse_num, body52, echoed, parse_dec. destruct (nltb x n0).
  - match goal with |- context [split_sign (?a ++ ?t)] => change (split_sign (a ++ t)) with (true, t) end. cbv beta iota zeta.
    cbn [append] in E |- *. rewrite E. cbn [option_map]. f_equal. cbn [nofQ Num_R]. rewrite Q2R_opp, Hq. lra.
  - destruct (fmt_d_nonneg (cents x / 100) ltac:(apply Z.div_pos; lia)) as [u [Eu _]].
    pose proof (nz_digits u) as Hd. rewrite <- Eu in Hd. destruct (fmt_d_token (cents x / 100)) as [Hne _].
    cbn [append] in E |- *. destruct (fmt_d (cents x / 100)) as [|c t] eqn:Ef; [contradiction|]. cbn [append] in E |- *.
    cbn [allc] in Hd. apply andb_true_iff in Hd as [Hd _]. unfold digit in Hd.
    rewrite split_sign_none by (destruct (Ascii.eqb c "-" || Ascii.eqb c "+"); [rewrite andb_false_r in Hd; discriminate|reflexivity]).
    cbv beta iota zeta. rewrite E. cbn [option_map]. f_equal. cbn [nofQ Num_R]. rewrite Hq. lra.
Qed.

Theorem reals_round_trip (rows : list (list R)) : Forall (fun row => row <> []) rows -> (forall r1 r2, In r1 rows -> In r2 rows -> length r1 = length r2) ->
  loadtxt parse_num (savetxt fmt_5_2f rows) = Ok (map (map echoed) rows).
Proof. intros H1 H2. apply (load_save fmt_5_2f body52 parse_num echoed); [apply fmt_body|apply parse_body|assumption..]. Qed.

(** ** files *)
Lemma app_inj_s p s t : p ++ s = p ++ t -> s = t.
Proof. induction p as [|c p IH]; cbn; [auto|]. intros E. injection E as E. auto. Qed.

Lemma write_same fs p t : write_file fs p t p = Some t.
Proof. unfold write_file. now rewrite String.eqb_refl. Qed.
Lemma write_other fs folder a b t : a <> b -> write_file fs (folder ++ b) t (folder ++ a) = fs (folder ++ a).
Proof.
  intros H. unfold write_file. destruct (String.eqb_spec (folder ++ a) (folder ++ b)) as [E|E]; [|reflexivity].
  apply app_inj_s in E. contradiction.
Qed.

Lemma echo_files (fs : fsys) (nodes mats : list (list R)) elements (loads : list (list R)) folder :
  let fs' := echomod fs nodes mats elements loads folder in
  fs' (folder ++ "KNODES.txt") = Some (savetxt fmt_5_2f nodes) /\ fs' (folder ++ "KMATES.txt") = Some (savetxt fmt_5_2f mats) /\
  fs' (folder ++ "KELEMS.txt") = Some (savetxt fmt_d elements) /\ fs' (folder ++ "KLOADS.txt") = Some (savetxt fmt_5_2f loads) /\
  forall p, (forall s, In s ["KNODES.txt"; "KMATES.txt"; "KELEMS.txt"; "KLOADS.txt"] -> p <> folder ++ s) -> fs' p = fs p.
Proof.
  cbv zeta. unfold echomod. repeat split.
  - rewrite !write_other by discriminate. apply write_same.
  - rewrite !write_other by discriminate. apply write_same.
  - rewrite !write_other by discriminate. apply write_same.
  - apply write_same.
  - intros p Hp. unfold write_file.
    repeat match goal with |- context [String.eqb p (folder ++ ?s)] => destruct (String.eqb_spec p (folder ++ s)) as [E|_]; [exfalso; apply (Hp s); [cbn; tauto|exact E]|] end.
    reflexivity.
Qed.

Theorem echo_elements (fs : fsys) (nodes mats : list (list R)) elements (loads : list (list R)) folder :
  Forall (fun row => row <> []) elements -> (forall r1 r2, In r1 elements -> In r2 elements -> length r1 = length r2) ->
  exists text, read_file (echomod fs nodes mats elements loads folder) (folder ++ "KELEMS.txt") = Ok text /\
    loadtxt parse_int text = Ok elements.
Proof.
  intros H1 H2. destruct (echo_files fs nodes mats elements loads folder) as [_ [_ [E _]]].
  exists (savetxt fmt_d elements). split; [unfold read_file; now rewrite E|]. now apply ints_round_trip.
Qed.

Theorem echo_reals (fs : fsys) (nodes mats : list (list R)) elements (loads : list (list R)) folder name tab :
  In (name, tab) [("KNODES.txt", nodes); ("KMATES.txt", mats); ("KLOADS.txt", loads)] ->
  Forall (fun row => row <> []) tab -> (forall r1 r2, In r1 tab -> In r2 tab -> length r1 = length r2) ->
  exists text tab', read_file (echomod fs nodes mats elements loads folder) (folder ++ name) = Ok text /\
    loadtxt parse_num text = Ok tab' /\ length tab' = length tab /\
    (forall i, length (nth i tab' []) = length (nth i tab [])) /\
    forall i j, (i < length tab)%nat -> (j < length (nth i tab []))%nat -> (Rabs (ent tab' i j - ent tab i j) <= 5 / 1000)%R /\
      forall z, ent tab i j = (IZR z / 100)%R -> ent tab' i j = ent tab i j.
Proof.
  intros Hin H1 H2. destruct (echo_files fs nodes mats elements loads folder) as [E1 [E2 [_ [E4 _]]]].
  exists (savetxt fmt_5_2f tab), (map (map echoed) tab). split; [|split; [now apply reals_round_trip|split; [apply map_length|split]]].
  - unfold read_file. destruct Hin as [E|[E|[E|[]]]]; apply pair_equal_spec in E as [<- <-]; [rewrite E1|rewrite E2|rewrite E4]; reflexivity.
  - intros i. destruct (Nat.lt_ge_cases i (length tab)) as [Hi|Hi].
    + rewrite (nth_indep _ [] (map echoed [])) by (rewrite map_length; exact Hi). rewrite map_nth, map_length. reflexivity.
    + rewrite !nth_overflow by (rewrite ?map_length; exact Hi). reflexivity.
  - intros i j Hi Hj. assert (E : ent (map (map echoed) tab) i j = echoed (ent tab i j)).
    { unfold ent. rewrite (nth_indep _ [] (map echoed [])) by (rewrite map_length; exact Hi). rewrite map_nth.
      rewrite (nth_indep _ 0%R (echoed 0)) by (rewrite map_length; exact Hj). apply map_nth. }
    rewrite E. split; [apply echoed_near|]. intros z Hz. rewrite Hz. apply echoed_exact.
Qed.

Theorem echo_refuted : exists (fs : fsys) (nodes mats : list (list R)) elements loads folder text tab',
  Forall (fun row => row <> []) nodes /\ (forall r1 r2, In r1 nodes -> In r2 nodes -> length r1 = length r2) /\
  read_file (echomod fs nodes mats elements loads folder) (folder ++ "KNODES.txt") = Ok text /\
  loadtxt parse_num text = Ok tab' /\ tab' <> nodes.
Proof.
  exists (fun _ => None), [[0; 1/8; 0; 0; 0]]%R, [], [], [], "".
  assert (H1 : Forall (fun row : list R => row <> []) [[0; 1/8; 0; 0; 0]]%R) by (repeat constructor; discriminate).
  assert (H2 : forall r1 r2 : list R, In r1 [[0; 1/8; 0; 0; 0]]%R -> In r2 [[0; 1/8; 0; 0; 0]]%R -> length r1 = length r2) by (intros ? ? [<-|[]] [<-|[]]; reflexivity).
  exists (savetxt fmt_5_2f [[0; 1/8; 0; 0; 0]]%R), (map (map echoed) [[0; 1/8; 0; 0; 0]]%R).
  split; [exact H1|]. split; [exact H2|].
  split; [destruct (echo_files (fun _ => None) [[0; 1/8; 0; 0; 0]]%R [] [] [] "") as [E _]; unfold read_file; cbv zeta in E; rewrite E; reflexivity|].
  split; [now apply reals_round_trip|]. cbn [map]. intros K. injection K as _ K _ _ _.
  unfold echoed in K. assert (E : nltb (1/8)%R n0 = false).
  { destruct (nltb (1/8)%R n0) eqn:E; [apply neg_spec in E; lra|reflexivity]. }
  rewrite E in K. assert (K' : (2 * IZR (cents (1/8)) = 25)%R) by lra. rewrite <- mult_IZR in K'. apply (eq_IZR _ 25) in K'. lia.
Qed.

(** ** C66 *)

Lemma readin_paths (fs fs' : fsys) (f f' : string) : (forall s, In s ["nodes.txt"; "mater.txt"; "eles.txt"; "loads.txt"] -> fs (f ++ s) = fs' (f' ++ s)) ->
  @readin R Num_R fs f = readin fs' f'.
Proof.
  intros H. unfold readin, read_file. rewrite (H "nodes.txt"), (H "mater.txt"), (H "eles.txt"), (H "loads.txt") by (cbn; tauto). reflexivity.
Qed.

(** the dialog *)
Theorem dialog_folder folder prompt file : folder <> "" -> initial_params (Some (Some folder)) prompt ++ file = inside folder file.
Proof.
  intros H. unfold initial_params, inside. destruct (String.eqb_spec folder ""); [contradiction|]. apply app_assoc_s.
Qed.
(** the prompt, for the empty answer and for answers ending in a slash *)
Theorem prompt_folder easygui folder prompt file : easygui = None \/ easygui = Some None ->
  (folder = "" /\ prompt = "") \/ (folder <> "" /\ prompt = folder ++ "/") -> initial_params easygui prompt ++ file = inside folder file.
Proof.
  intros He [[-> ->]|[H ->]]; unfold initial_params, inside; destruct He as [-> | ->]; try reflexivity;
    (destruct (String.eqb_spec folder ""); [contradiction|]; apply app_assoc_s).
Qed.

Definition bar_files (folder : string) : fsys := fun p =>
  if String.eqb p (inside folder "nodes.txt") then Some "0 0 0 -1 -1"
  else if String.eqb p (inside folder "mater.txt") then Some "1 1"
  else if String.eqb p (inside folder "eles.txt") then Some "0 6 0 0 0"
  else if String.eqb p (inside folder "loads.txt") then Some "0 0 1"
  else None.

Theorem prompt_refuted : exists folder (fs : fsys) model,
  @readin R Num_R fs (initial_params (Some (Some folder)) "") = Ok model /\
  (forall s, In s ["nodes.txt"; "mater.txt"; "eles.txt"; "loads.txt"] -> fs (inside folder s) <> None) /\
  @readin R Num_R fs (initial_params None folder) = Err FileNotFoundError.
Proof.
  exists "job", (bar_files "job"). eexists. split; [cbv -[nofQ Num_R]; reflexivity|]. split; [|reflexivity].
  intros s Hs. cbn [In] in Hs. repeat (destruct Hs as [<-|Hs]; [discriminate|]). destruct Hs.
Qed.

Theorem dialog_reads (fs : fsys) folder prompt : folder <> "" ->
  @readin R Num_R fs (initial_params (Some (Some folder)) prompt) = readin (fun file => fs (inside folder file)) "".
Proof. intros Hf. apply readin_paths. intros s _. rewrite dialog_folder by exact Hf. reflexivity. Qed.
Theorem prompt_reads (fs : fsys) easygui folder prompt : easygui = None \/ easygui = Some None ->
  (folder = "" /\ prompt = "") \/ (folder <> "" /\ prompt = folder ++ "/") ->
  @readin R Num_R fs (initial_params easygui prompt) = readin (fun file => fs (inside folder file)) "".
Proof. intros H1 H2. apply readin_paths. intros s _. rewrite (prompt_folder _ _ _ _ H1 H2). reflexivity. Qed.
