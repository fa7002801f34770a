(** * Proofs about the script that writes the input files *)
From Coq Require Import String Ascii QArith Qreals Reals List ZArith Arith Bool Lra Lia.
From Verif Require Import Num LinAlg Pre TextIO Template Spec SpecPre SpecText SpecModel SpecRun SpecTemplate LinR Base AssemProofs PostProofs ModelProofs ImportProofs TextProofs TextGrammar TextWritten.
Import ListNotations.
Local Open Scope string_scope.

(** ** formats *)
Lemma digits_app s v n t w m : digits s v n -> digits t w m -> digits (s ++ t) (v * 10 ^ Z.of_nat m + w) (n + m).
Proof.
  intros H Ht. induction H as [|c d s v n Hd Hs IH]; [exact Ht|]. cbn [append Nat.add].
  replace ((d * 10 ^ Z.of_nat n + v) * 10 ^ Z.of_nat m + w)%Z with (d * 10 ^ Z.of_nat (n + m) + (v * 10 ^ Z.of_nat m + w))%Z
    by (rewrite Nat2Z.inj_add, Z.pow_add_r by lia; ring).
  constructor; assumption.
Qed.
Lemma digit_fmt z : (0 <= z < 10)%Z -> digits (fmt_d z) z 1.
Proof.
  intros Hz. assert (C : In z [0; 1; 2; 3; 4; 5; 6; 7; 8; 9]%Z) by (cbn; lia). cbn [In] in C.
  assert (G : forall c k, (k < 10)%nat -> c = ascii_of_nat (48 + k) -> digits (String c "") (Z.of_nat k) 1).
  { intros c k Hk E. replace (Z.of_nat k) with (Z.of_nat k * 10 ^ Z.of_nat 0 + 0)%Z by (cbn; lia). constructor; [exists k; auto|constructor]. }
  repeat (destruct C as [<-|C]; [match goal with |- digits ?s ?v 1 => change (digits s (Z.of_nat (Z.to_nat v)) 1); apply G; [cbn; lia|reflexivity] end|]). destruct C.
Qed.
Lemma last_digits_is k : forall v, (0 <= v < 10 ^ Z.of_nat k)%Z -> digits (last_digits k v) v k.
Proof.
  induction k as [|k IH]; intros v Hv; cbn [last_digits].
  - cbn in Hv. replace v with 0%Z by lia. constructor.
  - rewrite Nat2Z.inj_succ, Z.pow_succ_r in Hv by lia.
    assert (H1 := Z.div_mod v 10 ltac:(lia)). assert (H2 := Z.mod_pos_bound v 10 ltac:(lia)).
    assert (H3 : (0 <= v / 10 < 10 ^ Z.of_nat k)%Z) by (split; [apply Z.div_pos; lia|apply Z.div_lt_upper_bound; lia]).
    pose proof (digits_app _ _ _ _ _ _ (IH _ H3) (digit_fmt _ H2)) as G. replace (k + 1)%nat with (S k) in G by lia.
    replace (v / 10 * 10 ^ Z.of_nat 1 + v mod 10)%Z with v in G by (change (10 ^ Z.of_nat 1)%Z with 10%Z; lia). exact G.
Qed.

(** the number |x| in units of the last digit, and the number read back *)
Definition units (k : nat) (x : R) : Z := round_even (nmul (nz (10 ^ Z.of_nat k)) (nabs x)).
Definition rd (k : nat) (x : R) : R := ((if nltb x n0 then -1 else 1) * (IZR (units k x) / 10 ^ k))%R.

Lemma pow_IZR10 k : IZR (10 ^ Z.of_nat k) = (10 ^ k)%R.
Proof. symmetry. apply (pow_IZR 10 k). Qed.
Lemma pow10_pos k : (0 < 10 ^ k)%R.
Proof. apply pow_lt. lra. Qed.
Lemma units_nearest k x : (0 <= units k x)%Z /\ nearest_even (10 ^ k * Rabs x) (units k x).
Proof.
  unfold units. rewrite nabs_abs. cbn [nmul nz Num_R]. rewrite pow_IZR10.
  assert (P : (0 <= 10 ^ k * Rabs x)%R) by (apply Rmult_le_pos; [left; apply pow10_pos|apply Rabs_pos]).
  split; [exact (proj1 (round_even_near _ P))|exact (round_ties _ P)].
Qed.
Lemma nearest_opp y n : nearest_even y n -> nearest_even (- y) (- n).
Proof.
  unfold nearest_even. rewrite opp_IZR. replace (- IZR n - - y)%R with (- (IZR n - y))%R by ring. rewrite Rabs_Ropp, Z.even_opp. tauto.
Qed.
Lemma nearest_unique y n m : nearest_even y n -> nearest_even y m -> n = m.
Proof.
  intros [G1 G2] [H1 H2]. assert (D : (Rabs (IZR n - IZR m) <= 1)%R) by (revert H1 G1; unfold Rabs; repeat destruct (Rcase_abs _); lra).
  rewrite <- minus_IZR, Rabs_Zabs in D. apply le_IZR in D.
  destruct (Z.eq_dec n m) as [|Hne]; [assumption|exfalso].
  assert (C : (n = m + 1 \/ m = n + 1)%Z) by lia.
  assert (K1 : (Rabs (IZR n - y) = 1/2)%R /\ (Rabs (IZR m - y) = 1/2)%R).
  { revert H1 G1. destruct C as [-> | ->]; rewrite plus_IZR; unfold Rabs; repeat destruct (Rcase_abs _); lra. }
  destruct K1 as [K1 K2]. specialize (H2 K2). specialize (G2 K1).
  destruct C as [-> | ->]; [rewrite Z.even_add, H2 in G2|rewrite Z.even_add, G2 in H2]; discriminate.
Qed.
Lemma not_neg (x : R) : nltb x n0 = false -> (0 <= x)%R.
Proof. intros E. destruct (Rle_lt_dec 0 x) as [K|K]; [exact K|]. apply neg_spec in K. congruence. Qed.
Lemma rd_rounded k x : rounded_to k x (rd k x).
Proof.
  destruct (units_nearest k x) as [_ H]. unfold rd. destruct (nltb x n0) eqn:E.
  - apply neg_spec in E. rewrite (Rabs_left x E) in H. exists (- units k x)%Z. rewrite opp_IZR. split; [|field; apply Rgt_not_eq, pow10_pos].
    apply nearest_opp in H. replace (- (10 ^ k * - x))%R with (10 ^ k * x)%R in H by ring. exact H.
  - apply not_neg in E. rewrite (Rabs_pos_eq x E) in H. exists (units k x). split; [exact H|ring].
Qed.
Lemma rounded_unique k x y y' : rounded_to k x y -> rounded_to k x y' -> y = y'.
Proof. intros (n & Hn & ->) (m & Hm & ->). now rewrite (nearest_unique _ _ _ Hn Hm). Qed.
Lemma rounded_near k x y : rounded_to k x y -> (Rabs (y - x) <= / 2 / 10 ^ k)%R.
Proof.
  intros (n & [Hn _] & ->). pose proof (pow10_pos k). replace (IZR n / 10 ^ k - x)%R with ((IZR n - 10 ^ k * x) * / 10 ^ k)%R by (field; lra).
  rewrite Rabs_mult, (Rabs_pos_eq (/ 10 ^ k)) by (left; now apply Rinv_0_lt_compat). unfold Rdiv. apply Rmult_le_compat_r; [left; now apply Rinv_0_lt_compat|lra].
Qed.
Lemma rounded_exact k z : rounded_to k (IZR z / 10 ^ k) (IZR z / 10 ^ k).
Proof.
  exists z. split; [|reflexivity]. pose proof (pow10_pos k). replace (10 ^ k * (IZR z / 10 ^ k))%R with (IZR z) by (field; lra).
  unfold nearest_even. rewrite Rminus_diag_eq by reflexivity. rewrite Rabs_R0. split; [lra|]. intros; lra.
Qed.
Lemma rd_exact k x z : x = (IZR z / 10 ^ k)%R -> rd k x = x.
Proof. intros E. apply (rounded_unique k x); [apply rd_rounded|]. rewrite E. apply rounded_exact. Qed.
Lemma fmt_f_fixed k x : fixed_is k (fmt_f k x) x.
Proof.
  destruct (units_nearest k x) as [H0 H1]. assert (Hp : (0 < 10 ^ Z.of_nat k)%Z) by (apply Z.pow_pos_nonneg; lia).
  exists (if nltb x n0 then "-" else ""), (fmt_d (units k x / 10 ^ Z.of_nat k)), (units k x / 10 ^ Z.of_nat k)%Z, (last_digits k (units k x mod 10 ^ Z.of_nat k)), (units k x mod 10 ^ Z.of_nat k)%Z.
  split; [unfold fmt_f; fold (units k x); destruct (nltb x n0); reflexivity|]. split.
  - destruct (nltb x n0) eqn:E; [left; split; [now apply neg_spec|reflexivity]|right; split; [now apply not_neg|reflexivity]].
  - split; [apply plain_fmt, Z.div_pos; lia|]. split; [apply last_digits_is, Z.mod_pos_bound; exact Hp|].
    rewrite <- Z.div_mod by lia. exact H1.
Qed.
Lemma fixed_number k s x : fixed_is k s x -> number_is s (rd k x).
Proof.
  intros (p & a & v & b & w & -> & Hp & Ha & Hb & Hn).
  assert (E : (10 ^ Z.of_nat k * v + w = units k x)%Z).
  { exact (nearest_unique _ _ _ Hn (proj2 (units_nearest k x))). }
  destruct Ha as [n [Ha _]].
  exists p, (if nltb x n0 then -1 else 1)%Z, (a ++ "." ++ b), (IZR v + IZR w / 10 ^ k)%R. split; [reflexivity|]. split; [|split; [|left; right]].
  - destruct Hp as [[Hx ->]|[Hx ->]]; [apply neg_spec in Hx; rewrite Hx; right; right; auto|].
    destruct (nltb x n0) eqn:Ex; [apply neg_spec in Ex; lra|]. left. auto.
  - unfold rd. rewrite <- E, plus_IZR, mult_IZR, pow_IZR10. pose proof (pow10_pos k). destruct (nltb x n0); field; lra.
  - exists a, v, (S n), b, w, k. repeat split; try assumption. lia.
Qed.

Lemma plain_token s v : plain_digits s v -> token s.
Proof.
  intros [n [H _]]. split; [inversion H; discriminate|]. apply digit_okc. exact (digits_digit _ _ _ H).
Qed.
Lemma fmt_f_token k x : token (fmt_f k x).
Proof.
  destruct (fmt_f_fixed k x) as (p & a & v & b & w & -> & Hp & Ha & Hb & _). destruct (plain_token _ _ Ha) as [Hne Hok].
  split.
  - destruct Hp as [[_ ->]|[_ ->]]; [discriminate|]. destruct a; [congruence|discriminate].
  - rewrite !allc_app, Hok, (digit_okc _ (digits_digit _ _ _ Hb)). destruct Hp as [[_ ->]|[_ ->]]; reflexivity.
Qed.
Lemma d_number z : number_is (fmt_d z) (IZR z).
Proof.
  destruct (fmt_d_is z) as [a [[n [Ha _]] ->]]. exists (if (z <? 0)%Z then "-" else ""), (if (z <? 0)%Z then -1 else 1)%Z, a, (IZR (Z.abs z)). split; [reflexivity|].
  split; [|split; [|left; left; exists (Z.abs z), n; auto]].
  - destruct (z <? 0)%Z; [right; right|left]; auto.
  - rewrite <- mult_IZR. f_equal. destruct (Z.ltb_spec z 0); lia.
Qed.

(** value read back from a column *)
Definition col_val (cx : column * R) : R :=
  match fst cx with Col_d => IZR (ntrunc (snd cx)) | Col_f k => rd k (snd cx) end.
Lemma column_parse cx : parse_num (fmt_column (fst cx) (snd cx)) = Some (col_val cx).
Proof. apply number_iff. destruct cx as [[|k] x]; cbn [fst snd fmt_column]; [apply d_number|apply fixed_number, fmt_f_fixed]. Qed.
Lemma column_token cx : padded (fmt_column (fst cx) (snd cx)) (fmt_column (fst cx) (snd cx)).
Proof. exists "". split; [reflexivity|]. split; [reflexivity|]. destruct cx as [[|k] x]; cbn [fst snd fmt_column]; [apply fmt_d_token|apply fmt_f_token]. Qed.

Definition col_lit (c : column) : string -> R -> Prop := match c with Col_d => whole_is | Col_f k => fixed_is k end.

Theorem columns_shown cols (rows : list (list R)) : cols <> [] -> Forall (fun row => length row = length cols) rows ->
  shows number_is (savetxt_columns cols rows) (map (fun row => map col_val (combine cols row)) rows).
Proof.
  intros Hc HF. apply (load_iff parse_num number_is number_iff). unfold savetxt_columns.
  rewrite (load_save (fun cx => fmt_column (fst cx) (snd cx)) (fun cx => fmt_column (fst cx) (snd cx)) parse_num col_val);
    [rewrite map_map; reflexivity|apply column_token|apply column_parse| |].
  - apply Forall_forall. intros r Hr. apply in_map_iff in Hr as [row [<- Hr]]. rewrite Forall_forall in HF. specialize (HF row Hr).
    destruct cols; [congruence|]. destruct row; [discriminate|]. discriminate.
  - rewrite Forall_forall in HF. intros r1 r2 H1 H2. apply in_map_iff in H1 as [row1 [<- H1]]. apply in_map_iff in H2 as [row2 [<- H2]].
    rewrite !combine_length, (HF _ H1), (HF _ H2). reflexivity.
Qed.
Theorem columns_written cols (rows : list (list R)) : Forall (fun row => length row = length cols) rows ->
  Forall (fun row => forall x, In (Col_d, x) (combine cols row) -> exists z, x = IZR z) rows ->
  columns_text (map col_lit cols) (savetxt_columns cols rows) rows.
Proof.
  intros HF HD. split; [eapply Forall_impl; [|exact HF]; cbv beta; intros; now rewrite map_length|].
  unfold savetxt_columns, savetxt. induction rows as [|r rows IH]; [constructor|]. inversion HF as [|? ? F1 F2]. inversion HD as [|? ? D1 D2]. subst.
  cbn [map fold_right]. apply file_text_row; [|apply IH; assumption]. clear -D1.
  revert cols D1. induction r as [|x r IH]; intros [|c cols] D1; cbn [combine map]; try constructor.
  assert (L : col_lit c (fmt_column c x) x).
  { destruct c as [|k]; [|apply fmt_f_fixed]. destruct (D1 x (or_introl eq_refl)) as [z ->]. exists z. split; [reflexivity|]. cbn [fmt_column].
    change (@ntrunc R Num_R) with Rtrunc. rewrite Rtrunc_IZR. apply fmt_d_is. }
  specialize (IH cols (fun y Hy => D1 y (or_intror Hy))).
  destruct cols as [|c' cols]; [cbn; now apply row_text_one|]. destruct r as [|x' r]; [cbn; now apply row_text_one|].
  apply (row_text_more (fun s cx => fst cx s (snd cx)) _ (col_lit c, x)); [exact L|exact IH].
Qed.

(** ** the tables *)
Section Script.
  Variables (s : list Z -> list Z) (points : list (list R)) (cells : dict (list (list Z))) (cell_data : dict (dict (list Z)))
            (eles : list (list Z)) (maters : list Z) (lines : list (list Z)) (bounds : list Z).
  Hypothesis Hs : set_order s.
  Hypothesis HM : template_mesh points cells cell_data eles maters lines bounds.

  Lemma line_flat tag : line_nodes cells cell_data tag = Ok (concat (tagged lines bounds tag)).
  Proof.
    destruct HM as (_ & _ & HL & _ & (d & Hd & Hb) & _ & Eb & _ & _). apply (line_nodes_ok _ _ lines d bounds); try assumption. rewrite Eb. apply le_n.
  Qed.
  Lemma flat_in tag z : In z (s (concat (tagged lines bounds tag))) -> (0 <= z < Z.of_nat (length points))%Z /\ on_line lines bounds tag (Z.to_nat z).
  Proof.
    intros Hz. apply (proj1 (proj2 (Hs _) z)) in Hz. assert (R : (0 <= z < Z.of_nat (length points))%Z).
    { apply in_concat in Hz as [row [Hr Hz]]. apply tagged_In in Hr. destruct HM as (_ & _ & _ & _ & _ & _ & _ & _ & HR).
      rewrite Forall_forall in HR. specialize (HR row Hr). rewrite Forall_forall in HR. exact (HR z Hz). }
    split; [exact R|]. apply in_concat_line. rewrite Z2Nat.id by lia. exact Hz.
  Qed.

  Lemma elements_ok : exists els, template_elements cells cell_data = Ok els /\ element_table eles maters els.
  Proof.
    destruct HM as (_ & HE & _ & (d & Hd & Hm) & _ & Lm & _ & HF & _). apply has_key_dget in HE, Hd, Hm.
    eexists. split.
    - unfold template_elements, dict in *. rewrite HE. cbn [bind]. rewrite (mapM_total _ (fun r => r)).
      + cbn [bind]. rewrite map_id, Hd. cbn [bind]. rewrite Hm. cbn [bind]. unfold broadcast. rewrite map_length, Lm, Nat.eqb_refl. cbn [bind]. reflexivity.
      + intros row Hr. rewrite Forall_forall in HF. destruct (HF row Hr) as [L _]. unfold broadcast. now rewrite L.
    - split; [rewrite map_length, !combine_length, seq_length, map_length, Lm; lia|]. intros e He.
      rewrite (map_nth_def _ _ _ (0%nat, (0%Z, []))) by (rewrite !combine_length, seq_length, map_length, Lm; lia).
      rewrite combine_nth by (rewrite combine_length, seq_length, map_length, Lm; lia). rewrite combine_nth by (rewrite map_length, Lm; reflexivity).
      rewrite seq_nth by exact He. cbn [fst snd Nat.add]. rewrite (map_nth_def _ _ _ 0%Z) by lia. reflexivity.
  Qed.

  Lemma nodes_ok : exists tab, template_nodes s points cells cell_data = Ok tab /\ node_table points lines bounds tab.
  Proof.
    pose proof HM as HM'. destruct HM' as (HP & _). destruct (node_writer_ok points HP) as (a & Ea & La & Na).
    unfold template_nodes. rewrite Ea. cbn [bind]. rewrite !line_flat. cbn [bind].
    assert (R5 : forall i, (i < length points)%nat -> length (nth i a []) = 5%nat) by (intros i Hi; now rewrite Na).
    destruct (set_col_ok 3 (-1) (length points) (s (concat (tagged lines bounds 300))) a La) as (a1 & E1 & L1 & S1 & X1).
    { apply Forall_forall. intros row Hin. apply (In_nth _ _ []) in Hin as [i [Hi <-]]. rewrite R5 by lia. lia. }
    { intros z Hz. exact (proj1 (flat_in 300 z Hz)). }
    change (@nz R Num_R (-1)) with (-1)%R. change 3%Z with (Z.of_nat 3). rewrite E1. cbn [bind].
    destruct (set_col_ok 4 (-1) (length points) (s (concat (tagged lines bounds 400))) a1 L1) as (a2 & E2 & L2 & S2 & X2).
    { apply Forall_forall. intros row Hin. apply (In_nth _ _ []) in Hin as [i [Hi <-]]. rewrite S1, R5 by lia. lia. }
    { intros z Hz. exact (proj1 (flat_in 400 z Hz)). }
    change 4%Z with (Z.of_nat 4). rewrite E2. exists a2. split; [reflexivity|]. split; [exact L2|]. intros i Hi.
    assert (HO : forall tag, In (Z.of_nat i) (s (concat (tagged lines bounds tag))) <-> on_line lines bounds tag i).
    { intros tag. rewrite <- in_concat_line. apply Hs. }
    exists (ent a2 i 3), (ent a2 i 4). split.
    - assert (L : length (nth i a2 []) = 5%nat) by (rewrite S2, S1; now apply R5).
      assert (Z0 : forall k, (k < 3)%nat -> ent a2 i k = ent a i k) by (intros k Hk; rewrite (proj2 (X2 i k)) by lia; apply (proj2 (X1 i k)); lia).
      assert (E0 := Z0 0%nat ltac:(lia)). assert (E01 := Z0 1%nat ltac:(lia)). assert (E02 := Z0 2%nat ltac:(lia)). unfold ent in *. rewrite Na in E0, E01, E02 by exact Hi.
      cbn [nth] in E0, E01, E02. destruct (nth i a2 []) as [|v0 [|v1 [|v2 [|v3 [|v4 [|]]]]]]; try discriminate. cbn [nth] in *. now subst.
    - split; (split; intros H).
      + rewrite (proj2 (X2 i 3%nat)) by lia. apply (proj1 (X1 i 3%nat)). split; [now apply HO|reflexivity].
      + rewrite (proj2 (X2 i 3%nat)) by lia. rewrite (proj2 (X1 i 3%nat)) by (rewrite HO; tauto). unfold ent. now rewrite Na.
      + apply (proj1 (X2 i 4%nat)). split; [now apply HO|reflexivity].
      + rewrite (proj2 (X2 i 4%nat)) by (rewrite HO; tauto). rewrite (proj2 (X1 i 4%nat)) by lia. unfold ent. now rewrite Na.
  Qed.

  Lemma loads_ok : (exists i, on_line lines bounds 500 i) -> exists ids, loaded lines bounds ids /\ ids <> [] /\ Forall (fun i => (i < length points)%nat) ids /\
    template_loads s cells cell_data = Ok (map (fun i => [INR i; 0; -2 / INR (length ids)]%R) ids).
  Proof.
    intros [i0 Hi0]. set (zs := s (concat (tagged lines bounds 500))). destruct (Hs (concat (tagged lines bounds 500))) as [HN HI]. fold zs in HN, HI.
    assert (HR : forall z, In z zs -> (0 <= z < Z.of_nat (length points))%Z /\ on_line lines bounds 500 (Z.to_nat z)) by (intros z Hz; now apply flat_in).
    exists (map Z.to_nat zs).
    assert (Hne : zs <> []). { apply in_concat_line in Hi0. apply HI in Hi0. intros E. rewrite E in Hi0. exact Hi0. }
    split; [split|split; [|split]].
    - clearbody zs. clear HI Hne. induction zs as [|z zs IH]; [constructor|]. inversion HN as [|? ? N1 N2]; subst. cbn [map]. constructor.
      + intros K. apply in_map_iff in K as [z' [E Hz']]. apply N1. assert (B := HR z (or_introl eq_refl)). assert (B' := HR z' (or_intror Hz')).
        replace z with z' by lia. exact Hz'.
      + apply IH; [exact N2|]. intros; apply HR; now right.
    - intros i. rewrite in_map_iff. split.
      + intros [z [<- Hz]]. exact (proj2 (HR z Hz)).
      + intros Ho. exists (Z.of_nat i). split; [apply Nat2Z.id|]. apply HI, in_concat_line, Ho.
    - destruct zs; [congruence|discriminate].
    - apply Forall_forall. intros i Hi. apply in_map_iff in Hi as [z [<- Hz]]. assert (B := HR z Hz). lia.
    - unfold template_loads. rewrite line_flat. cbn [bind]. fold zs. destruct (Z.eqb_spec (Z.of_nat (length zs)) 0) as [E|_]; [destruct zs; [congruence|cbn in E; lia]|].
      cbn [negb guard bind]. rewrite map_map, map_length. f_equal. apply map_ext_in. intros z Hz. destruct (HR z Hz) as [B _].
      numR. replace (INR (Z.to_nat z)) with (IZR z) by (rewrite INR_IZR_INZ, Z2Nat.id by lia; reflexivity). rewrite (INR_IZR_INZ (length zs)). reflexivity.
  Qed.
  Lemma loads_none : (forall i, ~ on_line lines bounds 500 i) -> template_loads (T := R) s cells cell_data = Err ZeroDivisionError.
  Proof.
    intros H. unfold template_loads. rewrite line_flat. cbn [bind].
    replace (s (concat (tagged lines bounds 500))) with (@nil Z); [reflexivity|].
    destruct (s (concat (tagged lines bounds 500))) as [|z l] eqn:E; [reflexivity|exfalso]. apply (H (Z.to_nat z)).
    apply (flat_in 500 z). rewrite E. now left.
  Qed.
End Script.
