(** * Proofs about the functions reading meshio data *)
From Coq Require Import String QArith Reals List ZArith Arith Bool Lra Lia Permutation.
From Verif Require Import Num LinAlg Pre Spec SpecPre LinR Base PostProofs.
Import ListNotations.
Local Open Scope R_scope.

Lemma has_key_dget {A} (d : list (string * A)) k v : has_key d k v <-> dget d k = Ok v.
Proof.
  split.
  - intros [d1 [d2 [-> Hn]]]. induction d1 as [|[k' v'] d1 IH]; cbn.
    + now rewrite String.eqb_refl.
    + destruct (String.eqb_spec k k') as [->|Hk]; [exfalso; apply Hn; now left|]. apply IH. intros K. apply Hn. now right.
  - induction d as [|[k' v'] d IH]; cbn; [discriminate|]. destruct (String.eqb_spec k k') as [->|Hk].
    + intros E. apply Ok_inj in E. subst v'. exists [], d. split; [reflexivity|]. intros [].
    + intros E. destruct (IH E) as [d1 [d2 [-> Hn]]]. exists ((k', v') :: d1), d2. split; [reflexivity|].
      cbn. intros [E1|E1]; [congruence|now apply Hn].
Qed.

Lemma tagged_get {A} (tags : list Z) tag : forall (pre rows : list A), (length tags <= length rows)%nat ->
  mapM (np_get (pre ++ rows)) (map (fun it : nat * Z => Z.of_nat (fst it)) (filter (fun it => (snd it =? tag)%Z) (combine (seq (length pre) (length tags)) tags)))
  = Ok (tagged rows tags tag).
Proof.
  induction tags as [|t tags IH]; intros pre rows L; [destruct rows; reflexivity|].
  destruct rows as [|r rows]; [cbn in L; lia|]. cbn [length seq combine filter snd tagged].
  assert (E : (pre ++ r :: rows)%list = ((pre ++ [r]) ++ rows)%list) by (rewrite <- app_assoc; reflexivity).
  assert (L' : S (length pre) = length (pre ++ [r])) by (rewrite app_length; cbn; lia).
  specialize (IH (pre ++ [r])%list rows ltac:(cbn in L; lia)). rewrite <- E, <- L' in IH.
  destruct (t =? tag)%Z.
  - cbn [map mapM fst]. rewrite (np_get_nth _ _ r) by (rewrite app_length; cbn; lia). cbn [bind].
    rewrite app_nth2, Nat.sub_diag by lia. cbn [nth]. rewrite IH. reflexivity.
  - exact IH.
Qed.

Lemma tagged_rows {A} (rows : list A) tags tag : (length tags <= length rows)%nat ->
  mapM (np_get rows) (indices_of tags tag) = Ok (tagged rows tags tag).
Proof. intros L. unfold indices_of. exact (tagged_get tags tag [] rows L). Qed.

Lemma indices_length {A} (rows : list A) tags tag : (length tags <= length rows)%nat -> length (indices_of tags tag) = length (tagged rows tags tag).
Proof. intros L. symmetry. apply (mapM_length _ _ _ (tagged_rows rows tags tag L)). Qed.

Lemma tagged_In {A} (rows : list A) tags tag r : In r (tagged rows tags tag) -> In r rows.
Proof.
  revert tags. induction rows as [|x rows IH]; intros [|t tags]; cbn; try tauto.
  destruct (t =? tag)%Z; cbn; intros H; [destruct H as [H|H]|]; eauto.
Qed.

(** [tagged] by positions *)
Lemma tagged_spec {A} (rows : list A) tags tag r : In r (tagged rows tags tag) <-> exists k, nth_error rows k = Some r /\ nth_error tags k = Some tag.
Proof.
  revert tags. induction rows as [|x rows IH]; intros tags.
  - destruct tags; cbn; split; try tauto; intros [[|k] [H _]]; discriminate.
  - destruct tags as [|t tags]; [cbn; split; [tauto|intros [[|k] [_ H]]; discriminate]|].
    cbn [tagged]. destruct (Z.eqb_spec t tag) as [->|Ht].
    + cbn [In]. rewrite IH. split.
      * intros [->|[k H]]; [exists 0%nat; split; reflexivity|exists (S k); exact H].
      * intros [[|k] [H1 H2]]; [left; cbn in H1; congruence|right; exists k; split; assumption].
    + rewrite IH. split.
      * intros [k H]. exists (S k). exact H.
      * intros [[|k] [H1 H2]]; [cbn in H2; congruence|exists k; split; assumption].
Qed.

(** ** C60 *)
Definition numbered (nini ty mt : Z) (rows : list (list Z)) : list (list Z) :=
  map (fun kr => (nini + Z.of_nat (fst kr))%Z :: ty :: mt :: snd kr) (combine (seq 0 (length rows)) rows).

Lemma numbered_length nini ty mt rows : length (numbered nini ty mt rows) = length rows.
Proof. unfold numbered. rewrite map_length, combine_length, seq_length. lia. Qed.
Lemma numbered_nth nini ty mt rows k : (k < length rows)%nat ->
  nth k (numbered nini ty mt rows) [] = [nini + Z.of_nat k; ty; mt]%Z ++ nth k rows [].
Proof.
  intros Hk. unfold numbered. rewrite (map_nth_def _ _ _ (0%nat, [])) by (rewrite combine_length, seq_length; lia).
  rewrite combine_nth by apply seq_length. rewrite seq_nth by exact Hk. reflexivity.
Qed.

Theorem ele_writer_ok cells cell_data tag n eles data tags phy ty mt nini :
  In (tag, n) [("triangle"%string, 3%nat); ("triangle6"%string, 6%nat); ("quad"%string, 4%nat)] ->
  has_key cells tag eles -> has_key cell_data tag data -> has_key data "gmsh:physical"%string tags ->
  (length tags <= length eles)%nat -> Forall (fun row => length row = n) eles ->
  exists els, ele_writer cells cell_data tag phy ty mt nini = Ok ((nini + Z.of_nat (length els))%Z, els) /\
    length els = length (tagged eles tags phy) /\
    forall k, (k < length els)%nat -> nth k els [] = [nini + Z.of_nat k; ty; mt]%Z ++ nth k (tagged eles tags phy) [].
Proof.
  intros Hn H1 H2 H3 HL HF. apply has_key_dget in H1, H2, H3.
  exists (numbered nini ty mt (tagged eles tags phy)). rewrite numbered_length. split; [|split; [reflexivity|intros; now apply numbered_nth]].
  unfold ele_writer, dict. rewrite H1. cbn [bind]. assert (En : nnode_of tag = Ok n).
  { destruct Hn as [E|[E|[E|[]]]]; apply pair_equal_spec in E as [<- <-]; reflexivity. }
  rewrite En. cbn [bind]. rewrite H2. cbn [bind]. rewrite H3. cbn [bind].
  rewrite tagged_rows by exact HL. cbn [bind].
  rewrite (mapM_total _ (fun r => r)).
  - cbn [bind]. rewrite map_id. rewrite (indices_length eles) by exact HL. reflexivity.
  - intros row Hrow. rewrite Forall_forall in HF. rewrite (HF row) by (eapply tagged_In; exact Hrow). rewrite Nat.eqb_refl. reflexivity.
Qed.

(** identifiers of consecutive calls *)
Theorem ele_writer_chain cells cell_data calls : forall nini,
  (forall c, In c calls -> exists n eles data tags, In (fst c, n) [("triangle"%string, 3%nat); ("triangle6"%string, 6%nat); ("quad"%string, 4%nat)] /\
     has_key cells (fst c) eles /\ has_key cell_data (fst c) data /\ has_key data "gmsh:physical"%string tags /\
     (length tags <= length eles)%nat /\ Forall (fun row => length row = n) eles) ->
  exists nf els, foldM (fun st c => '(nf, els) <- ele_writer cells cell_data (fst c) (fst (snd c)) (fst (snd (snd c))) (snd (snd (snd c))) (fst st) ;; Ok (nf, snd st ++ els))
                       calls (nini, []) = Ok (nf, els) /\ nf = (nini + Z.of_nat (length els))%Z /\
    map (fun e => nth 0 e 0%Z) els = map (fun k => (nini + Z.of_nat k)%Z) (seq 0 (length els)).
Proof.
  intros nini H.
  assert (G : forall els0, map (fun e => nth 0 e 0%Z) els0 = map (fun k => (nini + Z.of_nat k)%Z) (seq 0 (length els0)) ->
    exists nf els, foldM (fun st c => '(nf, els) <- ele_writer cells cell_data (fst c) (fst (snd c)) (fst (snd (snd c))) (snd (snd (snd c))) (fst st) ;; Ok (nf, snd st ++ els))
                       calls ((nini + Z.of_nat (length els0))%Z, els0) = Ok (nf, els) /\ nf = (nini + Z.of_nat (length els))%Z /\
    map (fun e => nth 0 e 0%Z) els = map (fun k => (nini + Z.of_nat k)%Z) (seq 0 (length els))).
  { induction calls as [|c calls IH]; intros els0 H0; [do 2 eexists; split; [reflexivity|split; [reflexivity|exact H0]]|].
    destruct (H c (or_introl eq_refl)) as [n [eles [data [tags [A1 [A2 [A3 [A4 [A5 A6]]]]]]]]].
    destruct (ele_writer_ok cells cell_data (fst c) n eles data tags (fst (snd c)) (fst (snd (snd c))) (snd (snd (snd c))) (nini + Z.of_nat (length els0))%Z A1 A2 A3 A4 A5 A6)
      as [els1 [E1 [E2 E3]]].
    cbn [foldM fst snd]. rewrite E1. cbn [bind].
    replace (nini + Z.of_nat (length els0) + Z.of_nat (length els1))%Z with (nini + Z.of_nat (length (els0 ++ els1)))%Z by (rewrite app_length; lia).
    apply IH; [intros; apply H; now right|].
    rewrite map_app, H0, app_length, seq_app, map_app. f_equal. cbn [Nat.add].
    apply nth_ext with (d := 0%Z) (d' := 0%Z); rewrite !map_length, ?seq_length; [reflexivity|]. intros k Hk.
    rewrite (map_nth_def _ _ _ []) by exact Hk. rewrite (map_nth_def _ _ _ 0%nat) by (rewrite seq_length; exact Hk).
    rewrite E3 by exact Hk. rewrite seq_nth by exact Hk. cbn. lia. }
  destruct (G [] eq_refl) as [nf [els [G1 G2]]]. cbn [length Z.of_nat] in G1. rewrite Z.add_0_r in G1. exists nf, els. split; assumption.
Qed.

Theorem ele_writer_unknown cells cell_data tag phy ty mt nini : ~ In tag ["triangle"; "triangle6"; "quad"]%string ->
  exists e, ele_writer cells cell_data tag phy ty mt nini = Err e.
Proof.
  intros Hn. unfold ele_writer. destruct (dget cells tag); [|eexists; reflexivity]. cbn [bind].
  assert (E : nnode_of tag = Err KeyError).
  { unfold nnode_of. cbn [dget]. cbn [In] in Hn.
    destruct (String.eqb_spec tag "triangle") as [->|]; [exfalso; tauto|]. destruct (String.eqb_spec tag "triangle6") as [->|]; [exfalso; tauto|].
    destruct (String.eqb_spec tag "quad") as [->|]; [exfalso; tauto|]. reflexivity. }
  rewrite E. eexists. reflexivity.
Qed.

(** ** C61 *)
Theorem node_writer_ok (points : list (list R)) : Forall (fun p => (2 <= length p)%nat) points ->
  exists a, node_writer points = Ok a /\ length a = length points /\
    forall i, (i < length points)%nat -> nth i a [] = [INR i; ent points i 0; ent points i 1; 0; 0].
Proof.
  intros HF. exists (map (fun ip : nat * list R => [INR (fst ip); nth 0 (snd ip) 0; nth 1 (snd ip) 0; 0; 0]) (combine (seq 0 (length points)) points)).
  split; [|split].
  - unfold node_writer. apply mapM_total. intros [i p] Hin. apply in_combine_r in Hin. rewrite Forall_forall in HF. specialize (HF p Hin).
    destruct p as [|a [|b p]]; cbn in HF; try lia. cbn [fst snd nth]. numR. rewrite <- INR_IZR_INZ. reflexivity.
  - rewrite map_length, combine_length, seq_length. lia.
  - intros i Hi. rewrite (map_nth_def _ _ _ (0%nat, [])) by (rewrite combine_length, seq_length; lia).
    rewrite combine_nth by apply seq_length. rewrite seq_nth by exact Hi. reflexivity.
Qed.

Lemma set_col_ok (c : nat) (v : R) N : forall ids a, length a = N -> Forall (fun row => (c < length row)%nat) a ->
  (forall z, In z ids -> (0 <= z < Z.of_nat N)%Z) ->
  exists a', set_col a ids (Z.of_nat c) v = Ok a' /\ length a' = N /\
    (forall i, length (nth i a' []) = length (nth i a [])) /\
    forall i k, (In (Z.of_nat i) ids /\ k = c -> ent a' i k = v) /\ (~ (In (Z.of_nat i) ids /\ k = c) -> ent a' i k = ent a i k).
Proof.
  induction ids as [|z ids IH]; intros a LA HF Hr.
  - exists a. split; [reflexivity|]. split; [exact LA|]. split; [reflexivity|]. intros i k. cbn [In]. tauto.
  - assert (Hz := Hr z (or_introl eq_refl)). unfold set_col. cbn [foldM].
    rewrite (np_get_nonneg a z []) by lia. cbn [bind].
    assert (Hrow : (c < length (nth (Z.to_nat z) a []))%nat) by (rewrite Forall_forall in HF; apply HF, nth_In; lia).
    rewrite np_upd_nonneg by lia. cbn [bind]. rewrite np_upd_nonneg by lia. cbn [bind]. rewrite Nat2Z.id.
    set (a1 := upd a (Z.to_nat z) (fun _ => upd (nth (Z.to_nat z) a []) c (fun _ => v))).
    assert (N1 : forall i, nth i a1 [] = if (i =? Z.to_nat z)%nat then upd (nth (Z.to_nat z) a []) c (fun _ => v) else nth i a []).
    { intros i. unfold a1. rewrite upd_nth by lia. reflexivity. }
    assert (L1 : forall i, length (nth i a1 []) = length (nth i a [])).
    { intros i. rewrite N1. destruct (Nat.eqb_spec i (Z.to_nat z)) as [->|]; [now rewrite upd_length|reflexivity]. }
    destruct (IH a1) as [a' [E [LA' [HL HE]]]].
    + unfold a1. rewrite upd_length. exact LA.
    + apply Forall_forall. intros row Hin. apply (In_nth _ _ []) in Hin as [i [Hi <-]]. rewrite L1.
      rewrite Forall_forall in HF. apply HF, nth_In. unfold a1 in Hi. rewrite upd_length in Hi. exact Hi.
    + intros; apply Hr; now right.
    + unfold set_col in E. exists a'. split; [exact E|]. split; [exact LA'|]. split; [intros i; rewrite HL; apply L1|].
      intros i k. destruct (HE i k) as [H1 H2].
      assert (E1 : ent a1 i k = if ((i =? Z.to_nat z)%nat && (k =? c)%nat)%bool then v else ent a i k).
      { unfold ent. rewrite N1. destruct (Nat.eqb_spec i (Z.to_nat z)) as [->|]; [|reflexivity]. cbn [andb]. rewrite upd_nth by exact Hrow. reflexivity. }
      destruct (in_dec Z.eq_dec (Z.of_nat i) ids) as [Hin|Hin].
      * split; [intros [_ ->]; apply H1; auto|]. intros Hn. destruct (Nat.eq_dec k c) as [->|Hk]; [exfalso; apply Hn; split; [right; exact Hin|reflexivity]|].
        rewrite H2 by tauto. rewrite E1. destruct (Nat.eqb_spec k c); [contradiction|]. now rewrite andb_false_r.
      * rewrite H2 by tauto. rewrite E1. split.
        -- intros [[K|K] ->]; [|contradiction]. replace (Z.to_nat z) with i by lia. rewrite !Nat.eqb_refl. reflexivity.
        -- intros Hn. destruct (Nat.eqb_spec i (Z.to_nat z)) as [->|]; [|reflexivity]. destruct (Nat.eqb_spec k c) as [->|]; [|reflexivity].
           exfalso. apply Hn. split; [left; lia|reflexivity].
Qed.

Lemma line_nodes_ok cells cell_data lines data tags phy : has_key cells "line"%string lines -> has_key cell_data "line"%string data ->
  has_key data "gmsh:physical"%string tags -> (length tags <= length lines)%nat ->
  line_nodes cells cell_data phy = Ok (concat (tagged lines tags phy)).
Proof.
  intros H1 H2 H3 HL. apply has_key_dget in H1, H2, H3. unfold line_nodes, dict. rewrite H1. cbn [bind]. rewrite H2. cbn [bind]. rewrite H3. cbn [bind].
  rewrite tagged_rows by exact HL. reflexivity.
Qed.

Lemma in_concat_line lines tags phy i : In (Z.of_nat i) (concat (tagged lines tags phy)) <-> on_line lines tags phy i.
Proof. rewrite in_concat. unfold on_line. reflexivity. Qed.

Theorem boundary_conditions_ok set_list cells cell_data lines data tags phy a bx bz :
  set_order set_list -> has_key cells "line"%string lines -> has_key cell_data "line"%string data ->
  has_key data "gmsh:physical"%string tags -> (length tags <= length lines)%nat ->
  Forall (Forall (fun z => (0 <= z < Z.of_nat (length a))%Z)) lines ->
  Forall (fun row => (5 <= length row)%nat) a ->
  exists a', boundary_conditions set_list cells cell_data phy a bx bz = Ok a' /\ length a' = length a /\
    (forall i, length (nth i a' []) = length (nth i a [])) /\
    forall i k, (on_line lines tags phy i -> k = 3%nat -> ent a' i k = bx) /\ (on_line lines tags phy i -> k = 4%nat -> ent a' i k = bz) /\
      (~ on_line lines tags phy i \/ (k <> 3 /\ k <> 4)%nat -> ent a' i k = ent a i k).
Proof.
  intros HS H1 H2 H3 HL HR HF. unfold boundary_conditions. rewrite (line_nodes_ok _ _ lines data tags) by assumption. cbn [bind].
  set (flat := concat (tagged lines tags phy)). destruct (HS flat) as [_ HI].
  assert (Hrange : forall z, In z (set_list flat) -> (0 <= z < Z.of_nat (length a))%Z).
  { intros z Hz. apply HI in Hz. unfold flat in Hz. apply in_concat in Hz as [row [Hrow Hz]]. apply tagged_In in Hrow.
    rewrite Forall_forall in HR. specialize (HR row Hrow). rewrite Forall_forall in HR. exact (HR z Hz). }
  destruct (set_col_ok 3 bx (length a) (set_list flat) a eq_refl) as [a1 [E1 [L1 [R1 X1]]]].
  { eapply Forall_impl; [|exact HF]. cbv beta. intros; lia. }
  { exact Hrange. }
  change 3%Z with (Z.of_nat 3). rewrite E1. cbn [bind].
  destruct (set_col_ok 4 bz (length a) (set_list flat) a1 L1) as [a2 [E2 [L2 [R2 X2]]]].
  { apply Forall_forall. intros row Hin. apply (In_nth _ _ []) in Hin as [i [Hi <-]]. rewrite R1. rewrite Forall_forall in HF.
    enough (5 <= length (nth i a []))%nat by lia. apply HF, nth_In. lia. }
  { exact Hrange. }
  change 4%Z with (Z.of_nat 4). rewrite E2. exists a2. split; [reflexivity|]. split; [exact L2|]. split; [intros; now rewrite R2, R1|].
  intros i k. destruct (X1 i k) as [A1 A2]. destruct (X2 i k) as [B1 B2].
  assert (HO : In (Z.of_nat i) (set_list flat) <-> on_line lines tags phy i) by (rewrite HI; apply in_concat_line).
  repeat split.
  - intros Ho ->. rewrite B2 by lia. apply A1. split; [now apply HO|reflexivity].
  - intros Ho ->. apply B1. split; [now apply HO|reflexivity].
  - intros Hn. rewrite B2, A2; [reflexivity| |]; rewrite HO; intros [K1 K2]; destruct Hn as [Hn|Hn]; try tauto; lia.
Qed.

Lemma mat_eq (a b : list (list R)) : length a = length b -> (forall i, length (nth i a []) = length (nth i b [])) ->
  (forall i k, ent a i k = ent b i k) -> a = b.
Proof.
  intros L1 L2 E. apply nth_ext with (d := []) (d' := []); [exact L1|]. intros i Hi.
  apply nth_ext with (d := 0) (d' := 0); [apply L2|]. intros k Hk. apply E.
Qed.

Theorem boundary_order s1 s2 cells cell_data lines data tags phy (a : list (list R)) bx bz :
  set_order s1 -> set_order s2 -> has_key cells "line"%string lines -> has_key cell_data "line"%string data ->
  has_key data "gmsh:physical"%string tags -> (length tags <= length lines)%nat ->
  Forall (Forall (fun z => (0 <= z < Z.of_nat (length a))%Z)) lines -> Forall (fun row => (5 <= length row)%nat) a ->
  boundary_conditions s1 cells cell_data phy a bx bz = boundary_conditions s2 cells cell_data phy a bx bz.
Proof.
  intros S1 S2 H1 H2 H3 HL HR HF.
  destruct (boundary_conditions_ok s1 cells cell_data lines data tags phy a bx bz S1 H1 H2 H3 HL HR HF) as [a1 [E1 [L1 [R1 X1]]]].
  destruct (boundary_conditions_ok s2 cells cell_data lines data tags phy a bx bz S2 H1 H2 H3 HL HR HF) as [a2 [E2 [L2 [R2 X2]]]].
  rewrite E1, E2. f_equal. apply mat_eq; [congruence|intros; now rewrite R1, R2|]. intros i k.
  destruct (X1 i k) as [A1 [A2 A3]]. destruct (X2 i k) as [B1 [B2 B3]].
  destruct (in_dec Z.eq_dec (Z.of_nat i) (concat (tagged lines tags phy))) as [Hin|Hin]; rewrite in_concat_line in Hin.
  - destruct (Nat.eq_dec k 3) as [->|N3]; [now rewrite A1, B1|]. destruct (Nat.eq_dec k 4) as [->|N4]; [now rewrite A2, B2|].
    rewrite A3, B3 by (right; split; assumption). reflexivity.
  - rewrite A3, B3 by (left; assumption). reflexivity.
Qed.

(** ** C62 *)
Theorem loading_ok set_list cells cell_data lines data tags phy Px Py :
  set_order set_list -> has_key cells "line"%string lines -> has_key cell_data "line"%string data ->
  has_key data "gmsh:physical"%string tags -> (length tags <= length lines)%nat ->
  concat (tagged lines tags phy) <> [] ->
  exists ids rows, loading set_list cells cell_data phy Px Py = Ok rows /\
    NoDup ids /\ (forall z, In z ids <-> In z (concat (tagged lines tags phy))) /\
    length rows = length ids /\
    (forall k, (k < length ids)%nat -> nth k rows [] = [IZR (nth k ids 0%Z); Px / INR (length ids); Py / INR (length ids)]) /\
    lsum (fun row => nth 1 row 0) rows = Px /\ lsum (fun row => nth 2 row 0) rows = Py.
Proof.
  intros HS H1 H2 H3 HL Hne. destruct (HS (concat (tagged lines tags phy))) as [HN HI].
  set (ids := set_list (concat (tagged lines tags phy))) in *.
  assert (Hlen : length ids <> 0%nat).
  { intros K. apply length_zero_iff_nil in K. destruct (concat (tagged lines tags phy)) as [|z l] eqn:Ec; [congruence|].
    assert (Hz : In z ids) by (apply HI; now left). rewrite K in Hz. exact Hz. }
  exists ids, (map (fun n => [IZR n; Px / INR (length ids); Py / INR (length ids)]) ids).
  split; [|split; [exact HN|split; [exact HI|split; [apply map_length|split]]]].
  - unfold loading. rewrite (line_nodes_ok _ _ lines data tags) by assumption. cbn [bind]. fold ids.
    destruct (Z.eqb_spec (Z.of_nat (length ids)) 0); [lia|]. cbn [negb guard bind]. numR. rewrite <- !INR_IZR_INZ. reflexivity.
  - intros k Hk. rewrite (map_nth_def _ _ _ 0%Z) by exact Hk. reflexivity.
  - assert (S : forall (P : R) (l : list Z), fold_right (fun (_ : Z) s => P + s) 0 l = INR (length l) * P).
    { intros P l. induction l as [|z l IH]; [cbn; ring|]. cbn [fold_right]. rewrite IH. cbn [length]. rewrite S_INR. ring. }
    assert (Hnz : INR (length ids) <> 0) by (apply not_0_INR; exact Hlen).
    assert (M : forall j P, (forall n : Z, nth j [IZR n; Px / INR (length ids); Py / INR (length ids)] 0 = P) ->
       forall l, lsum (fun row => nth j row 0) (map (fun n => [IZR n; Px / INR (length ids); Py / INR (length ids)]) l) = INR (length l) * P).
    { intros j P HP l. rewrite <- S. unfold lsum. induction l as [|z l IH]; [reflexivity|]. cbn [map fold_right]. rewrite IH, HP. reflexivity. }
    split; [rewrite (M 1%nat (Px / INR (length ids))) by reflexivity|rewrite (M 2%nat (Py / INR (length ids))) by reflexivity]; field; exact Hnz.
Qed.

Theorem loading_empty set_list cells cell_data lines data tags phy (Px Py : R) :
  set_order set_list -> has_key cells "line"%string lines -> has_key cell_data "line"%string data ->
  has_key data "gmsh:physical"%string tags -> (length tags <= length lines)%nat ->
  concat (tagged lines tags phy) = [] -> loading set_list cells cell_data phy Px Py = Err ZeroDivisionError.
Proof.
  intros HS H1 H2 H3 HL He. unfold loading. rewrite (line_nodes_ok _ _ lines data tags) by assumption. cbn [bind]. rewrite He.
  destruct (HS []) as [_ HI]. replace (set_list []) with (@nil Z); [reflexivity|].
  destruct (set_list []) as [|z l] eqn:E; [reflexivity|]. exfalso. apply (proj1 (HI z)). rewrite <- E. rewrite E. now left.
Qed.

(** ** C63 *)
Definition uniq (l : list Z) : list Z := nodup Z.eq_dec l.
Lemma uniq_order : set_order uniq.
Proof. intros l. split; [apply NoDup_nodup|]. intros z. apply nodup_In. Qed.

Definition corner_cells : list (string * list (list Z)) := [("line"%string, [[0; 1]; [0; 2]]%Z)].
Definition corner_data : list (string * list (string * list Z)) := [("line"%string, [("gmsh:physical"%string, [10; 20]%Z)])].
Definition corner_nodes : list (list R) := [[0; 0; 0; 0; 0]; [1; 1; 0; 0; 0]; [2; 0; 1; 0; 0]].

Lemma corner_keys : has_key corner_cells "line"%string [[0; 1]; [0; 2]]%Z /\ has_key corner_data "line"%string [("gmsh:physical"%string, [10; 20]%Z)] /\
  has_key [("gmsh:physical"%string, [10; 20]%Z)] "gmsh:physical"%string [10; 20]%Z.
Proof. repeat split; apply has_key_dget; reflexivity. Qed.

Theorem restraints_refuted : exists cells cell_data lines data tags p q (a : list (list R)) i,
  has_key cells "line"%string lines /\ has_key cell_data "line"%string data /\ has_key data "gmsh:physical"%string tags /\
  on_line lines tags p i /\ on_line lines tags q i /\
  forall s, set_order s -> exists a1 a2, boundary_conditions s cells cell_data p a 0 (-1) = Ok a1 /\
    boundary_conditions s cells cell_data q a1 (-1) 0 = Ok a2 /\ ent a1 i 4 = -1 /\ ent a2 i 3 = -1 /\ ent a2 i 4 = 0.
Proof.
  destruct corner_keys as [K1 [K2 K3]].
  exists corner_cells, corner_data, [[0; 1]; [0; 2]]%Z, [("gmsh:physical"%string, [10; 20]%Z)], [10; 20]%Z, 10%Z, 20%Z, corner_nodes, 0%nat.
  assert (O1 : on_line [[0; 1]; [0; 2]]%Z [10; 20]%Z 10 0) by (exists [0; 1]%Z; split; cbn; tauto).
  assert (O2 : on_line [[0; 1]; [0; 2]]%Z [10; 20]%Z 20 0) by (exists [0; 2]%Z; split; cbn; tauto).
  do 5 (split; [assumption|]). intros s Hs.
  assert (HR : Forall (Forall (fun z => (0 <= z < 3)%Z)) [[0; 1]; [0; 2]]%Z) by (repeat constructor; lia).
  destruct (boundary_conditions_ok s corner_cells corner_data _ _ _ 10 corner_nodes 0 (-1) Hs K1 K2 K3) as [a1 [E1 [L1 [R1 X1]]]]; [cbn; lia|exact HR|repeat constructor; cbn; lia|].
  destruct (boundary_conditions_ok s corner_cells corner_data _ _ _ 20 a1 (-1) 0 Hs K1 K2 K3) as [a2 [E2 [L2 [R2 X2]]]]; [cbn; lia|rewrite L1; exact HR| |].
  { apply Forall_forall. intros row Hin. apply (In_nth _ _ []) in Hin as [i [Hi <-]]. rewrite R1. rewrite L1 in Hi. cbn in Hi.
    do 3 (destruct i as [|i]; [cbn; lia|]). lia. }
  exists a1, a2. split; [exact E1|]. split; [exact E2|]. split; [apply (proj1 (proj2 (X1 0%nat 4%nat))); auto|].
  split; [apply (X2 0%nat 3%nat); auto|apply (proj1 (proj2 (X2 0%nat 4%nat))); auto].
Qed.

(** flags set by one call survive another call with the same flag, or on a line avoiding the node *)
Theorem restraints_kept s cells cell_data lines data tags q (a a2 : list (list R)) bx bz i k v :
  set_order s -> has_key cells "line"%string lines -> has_key cell_data "line"%string data -> has_key data "gmsh:physical"%string tags ->
  (length tags <= length lines)%nat -> Forall (Forall (fun z => (0 <= z < Z.of_nat (length a))%Z)) lines -> Forall (fun row => (5 <= length row)%nat) a ->
  boundary_conditions s cells cell_data q a bx bz = Ok a2 -> (k = 3 \/ k = 4)%nat -> ent a i k = v ->
  (on_line lines tags q i -> (if (k =? 3)%nat then bx else bz) = v) -> ent a2 i k = v.
Proof.
  intros Hs K1 K2 K3 HL HR HF H Hk Hv Hl.
  destruct (boundary_conditions_ok s cells cell_data lines data tags q a bx bz Hs K1 K2 K3 HL HR HF) as [a' [E [_ [_ X]]]].
  rewrite E in H. apply Ok_inj in H. subst a'. destruct (X i k) as [A [B C]].
  destruct (in_dec Z.eq_dec (Z.of_nat i) (concat (tagged lines tags q))) as [Hin|Hin]; rewrite in_concat_line in Hin.
  - specialize (Hl Hin). destruct Hk as [-> | ->]; cbn [Nat.eqb] in Hl; [rewrite A by auto|rewrite B by auto]; exact Hl.
  - rewrite C by (left; exact Hin). exact Hv.
Qed.
