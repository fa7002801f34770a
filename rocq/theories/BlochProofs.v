(** * Proofs about Bloch periodicity *)
From Coq Require Import String QArith Reals List ZArith Arith Bool Lra Lia.
From Verif Require Import Num LinAlg Bloch Spec SpecBloch LinR Base PostProofs.
Import ListNotations.
Local Open Scope R_scope.

(** ** C67, C68 *)
Definition img (ima : list Z) (j : nat) : bool := existsb (Z.eqb (Z.of_nat j)) ima.
Definition imgs_below (ima : list Z) (k : nat) : nat := length (filter (img ima) (seq 0 k)).

Lemma zin_img k ima : zin (Z.of_nat k) ima = img ima k.
Proof. reflexivity. Qed.
Lemma img_spec ima k : img ima k = true <-> In (Z.of_nat k) ima.
Proof.
  unfold img. rewrite existsb_exists. split.
  - intros [x [Hx E]]. apply Z.eqb_eq in E. now subst.
  - intros H. exists (Z.of_nat k). split; [exact H|apply Z.eqb_refl].
Qed.
Lemma imgs_S ima k : imgs_below ima (S k) = (imgs_below ima k + if img ima k then 1 else 0)%nat.
Proof. unfold imgs_below. rewrite seq_S, filter_app, app_length. cbn [Nat.add filter]. destruct (img ima k); cbn; lia. Qed.
Lemma indep_count ima k : (length (independent ima k) + imgs_below ima k = k)%nat.
Proof.
  induction k as [|k IH]; [reflexivity|]. rewrite imgs_S. unfold independent in *. rewrite seq_S, filter_app, app_length. cbn [Nat.add filter].
  fold (img ima k). destruct (img ima k); cbn [negb length]; lia.
Qed.

Lemma zindex_ok x l i : zindex x l = Ok i -> exists m, i = Z.of_nat m /\ nth_error l m = Some x /\ forall m', (m' < m)%nat -> nth_error l m' <> Some x.
Proof.
  revert i. induction l as [|y l IH]; intros i; cbn; [discriminate|]. destruct (Z.eqb_spec x y) as [->|Hn].
  - intros E. apply Ok_inj in E. subst. exists 0%nat. repeat split. intros m' K. lia.
  - intros E. inv_ok E. apply Ok_inj in E. destruct (IH _ Hr) as [m [-> [H1 H2]]]. exists (S m). split; [lia|]. split; [exact H1|].
    intros [|m'] K; cbn; [congruence|apply H2; lia].
Qed.

Lemma reference_unique ima ref d r r' : reference_of ima ref d r -> reference_of ima ref d r' -> r = r'.
Proof.
  intros [m [A1 [A2 A3]]] [m' [B1 [B2 B3]]]. assert (m = m').
  { destruct (Nat.lt_total m m') as [H|[H|H]]; [exfalso; apply (B3 m H); exact A1|exact H|exfalso; apply (A3 m' H); exact B1]. }
  subst. congruence.
Qed.

Definition new_spec (ima ref : list Z) (new : list Z) (k : nat) : Prop :=
  (img ima k = false -> nth k new 0%Z = (Z.of_nat k - Z.of_nat (imgs_below ima k))%Z) /\
  (img ima k = true -> exists r, reference_of ima ref (Z.of_nat k) r /\
     nth k new 0%Z = if (r <? Z.of_nat k)%Z then r else (r - Z.of_nat (imgs_below ima k + 1))%Z).

Lemma reassign_inv ima ref n new cont : foldM (reassign_step ima ref) (seq 0 n) ([], 0%Z) = Ok (new, cont) ->
  length new = n /\ cont = Z.of_nat (imgs_below ima n) /\ forall k, (k < n)%nat -> new_spec ima ref new k.
Proof.
  revert new cont. induction n as [|n IH]; intros new cont H.
  - cbn in H. apply Ok_inj, pair_equal_spec in H as [<- <-]. repeat split; intros; lia.
  - rewrite foldM_seq_S in H. inv_ok H. destruct r as [new0 cont0]. destruct (IH _ _ Hr) as [L [C S]].
    assert (G : exists v, new = (new0 ++ [v])%list /\ cont = Z.of_nat (imgs_below ima (Datatypes.S n)) /\ new_spec ima ref (new0 ++ [v]) n).
    { unfold reassign_step in H. rewrite zin_img in H. rewrite imgs_S. destruct (img ima n) eqn:Ei.
      - inv_ok H. inv_ok H. rename Hr0 into Hz. apply zindex_ok in Hz as [m [-> [M1 M2]]].
        rename Hr1 into Hg. apply (np_get_nat_ok _ _ _ 0%Z) in Hg as [Hm Er].
        exists (if (r0 <? Z.of_nat n)%Z then r0 else (r0 - (cont0 + 1))%Z).
        assert (HE : new = (new0 ++ [if (r0 <? Z.of_nat n)%Z then r0 else (r0 - (cont0 + 1))%Z])%list /\ cont = (cont0 + 1)%Z).
        { destruct (r0 <? Z.of_nat n)%Z; apply Ok_inj, pair_equal_spec in H as [<- <-]; split; reflexivity. }
        destruct HE as [-> ->]. split; [reflexivity|]. split; [lia|]. unfold new_spec. rewrite Ei. split; [discriminate|]. intros _.
        exists r0. split.
        + exists m. split; [exact M1|]. split; [|exact M2]. rewrite Er. apply nth_error_nth'. exact Hm.
        + rewrite app_nth2, L, Nat.sub_diag by lia. cbn [nth]. rewrite C. destruct (r0 <? Z.of_nat n)%Z; lia.
      - apply Ok_inj, pair_equal_spec in H as [<- <-]. eexists. split; [reflexivity|]. split; [lia|]. unfold new_spec. rewrite Ei. split; [|discriminate]. intros _.
        rewrite app_nth2, L, Nat.sub_diag by lia. cbn [nth]. rewrite C. reflexivity. }
    destruct G as [v [-> [-> G]]]. split; [rewrite app_length; cbn; lia|]. split; [reflexivity|].
    intros k Hk. destruct (Nat.eq_dec k n) as [->|Hne]; [exact G|].
    assert (Hk' : (k < n)%nat) by lia. specialize (S k Hk'). unfold new_spec in *. rewrite app_nth1 by lia. exact S.
Qed.

Lemma reassign_spec n ima ref new : reassign_dof_bloch n ima ref = Ok new -> length new = n /\ forall k, (k < n)%nat -> new_spec ima ref new k.
Proof.
  unfold reassign_dof_bloch. intros H. inv_ok H. destruct r as [new' cont]. apply Ok_inj in H. subst new'.
  destruct (reassign_inv _ _ _ _ _ Hr) as [A [_ B]]. split; assumption.
Qed.

Theorem reassign_rank n ima ref new : reassign_dof_bloch n ima ref = Ok new ->
  length new = n /\ forall k, (k < n)%nat -> ~ In (Z.of_nat k) ima -> nth k new 0%Z = Z.of_nat (length (independent ima k)).
Proof.
  intros H. destruct (reassign_spec _ _ _ _ H) as [L S]. split; [exact L|]. intros k Hk Hn. destruct (S k Hk) as [A _].
  rewrite A; [pose proof (indep_count ima k); lia|]. destruct (img ima k) eqn:E; [apply img_spec in E; contradiction|reflexivity].
Qed.

Theorem reassign_consecutive n ima ref new : reassign_dof_bloch n ima ref = Ok new ->
  map (fun k => nth k new 0%Z) (independent ima n) = map Z.of_nat (seq 0 (length (independent ima n))).
Proof.
  intros H. destruct (reassign_rank _ _ _ _ H) as [_ R0].
  assert (G : forall m, (m <= n)%nat -> map (fun k => nth k new 0%Z) (independent ima m) = map Z.of_nat (seq 0 (length (independent ima m)))).
  { induction m as [|m IH]; intros Hm; [reflexivity|]. specialize (IH ltac:(lia)).
    assert (E : independent ima (S m) = (independent ima m ++ if img ima m then [] else [m])%list).
    { unfold independent. rewrite seq_S, filter_app. cbn [Nat.add filter]. fold (img ima m). destruct (img ima m); reflexivity. }
    rewrite E. destruct (img ima m) eqn:Ei; [rewrite List.app_nil_r; exact IH|].
    rewrite map_app, IH, app_length, seq_app, map_app. f_equal. cbn [map length seq Nat.add]. rewrite R0; [reflexivity|lia|].
    intros K. apply img_spec in K. congruence. }
  apply G. lia.
Qed.

Theorem reassign_runs n ima ref : (length ima <= length ref)%nat -> exists new, reassign_dof_bloch n ima ref = Ok new.
Proof.
  intros HL. unfold reassign_dof_bloch.
  assert (G : exists new cont, foldM (reassign_step ima ref) (seq 0 n) ([], 0%Z) = Ok (new, cont)).
  { induction n as [|n [new [cont IH]]]; [do 2 eexists; reflexivity|]. rewrite foldM_seq_S, IH. cbn [bind]. unfold reassign_step. rewrite zin_img.
    destruct (img ima n) eqn:E; [|do 2 eexists; reflexivity]. apply img_spec in E.
    assert (Z1 : exists m, zindex (Z.of_nat n) ima = Ok (Z.of_nat m) /\ (m < length ima)%nat).
    { clear - E. induction ima as [|y l IHl]; [destruct E|]. cbn. destruct (Z.eqb_spec (Z.of_nat n) y); [exists 0%nat; split; [reflexivity|cbn; lia]|].
      destruct E as [E|E]; [congruence|]. destruct (IHl E) as [m [E1 E2]]. exists (S m). rewrite E1. cbn [bind]. split; [f_equal; lia|cbn; lia]. }
    destruct Z1 as [m [Z1 Z2]]. rewrite Z1. cbn [bind]. rewrite (np_get_nth _ _ 0%Z) by lia. cbn [bind].
    destruct (_ <? _)%Z; do 2 eexists; reflexivity. }
  destruct G as [new [cont G]]. rewrite G. eexists. reflexivity.
Qed.

Lemma imgs_mono ima j k : (j <= k)%nat -> (imgs_below ima j <= imgs_below ima k)%nat.
Proof. induction 1; [lia|]. rewrite imgs_S. lia. Qed.
Lemma imgs_gap ima j k : (j <= k)%nat -> imgs_below ima j = imgs_below ima k <-> forall m, (j <= m < k)%nat -> ~ In (Z.of_nat m) ima.
Proof.
  induction 1 as [|k Hjk IH]; [split; [intros; lia|reflexivity]|]. rewrite imgs_S. pose proof (imgs_mono ima j k Hjk). split.
  - intros E m Hm. destruct (img ima k) eqn:Ei; [lia|]. destruct (Nat.eq_dec m k) as [->|].
    + intros K. apply img_spec in K. congruence.
    + apply (proj1 IH); lia.
  - intros Hn. destruct (img ima k) eqn:Ei; [apply img_spec in Ei; exfalso; apply (Hn k); [lia|exact Ei]|]. rewrite (proj2 IH); [lia|]. intros; apply Hn; lia.
Qed.

(** exactly when an image gets the number of its independent reference *)
Theorem reassign_image n ima ref new d r : reassign_dof_bloch n ima ref = Ok new -> (d < n)%nat -> (r < n)%nat -> In (Z.of_nat d) ima ->
  reference_of ima ref (Z.of_nat d) (Z.of_nat r) -> ~ In (Z.of_nat r) ima ->
  (nth d new 0%Z = nth r new 0%Z <->
   if (r <? d)%nat then forall m, (m < r)%nat -> ~ In (Z.of_nat m) ima else forall m, (d < m < r)%nat -> ~ In (Z.of_nat m) ima).
Proof.
  intros H Hd Hr Hi Href Hnr. destruct (reassign_spec _ _ _ _ H) as [_ S]. destruct (S d Hd) as [_ A]. destruct (S r Hr) as [B _].
  destruct (A (proj2 (img_spec ima d) Hi)) as [r' [Href' ->]]. rewrite (reference_unique _ _ _ _ _ Href' Href). clear r' Href'.
  rewrite B by (destruct (img ima r) eqn:E; [apply img_spec in E; contradiction|reflexivity]).
  assert (Hdr : d <> r) by (intros ->; contradiction).
  destruct (Nat.ltb_spec r d) as [Hlt|Hge].
  - destruct (Z.ltb_spec (Z.of_nat r) (Z.of_nat d)); [|lia].
    split; [intros E m Hm; apply (proj1 (imgs_gap ima 0 r ltac:(lia))); [change (imgs_below ima 0) with 0%nat; lia|lia]|].
    intros E. assert (K : imgs_below ima 0 = imgs_below ima r) by (apply imgs_gap; [lia|intros m Hm; apply E; lia]). change (imgs_below ima 0) with 0%nat in K. lia.
  - destruct (Z.ltb_spec (Z.of_nat r) (Z.of_nat d)); [lia|].
    assert (Es : imgs_below ima (Datatypes.S d) = (imgs_below ima d + 1)%nat) by (rewrite imgs_S, (proj2 (img_spec ima d) Hi); reflexivity).
    pose proof (imgs_gap ima (Datatypes.S d) r ltac:(lia)) as G. rewrite <- Es. split.
    + intros E m Hm. apply (proj1 G); lia.
    + intros E. rewrite (proj2 G) by (intros m Hm; apply E; lia). reflexivity.
Qed.

(** the example of the documentation of bloch_transform_mat: 2x2 elements, one dof per node *)
Theorem reassign_refuted : exists n ima ref new d r, reassign_dof_bloch n ima ref = Ok new /\ (d < n)%nat /\ (r < n)%nat /\ In (Z.of_nat d) ima /\
  reference_of ima ref (Z.of_nat d) (Z.of_nat r) /\ ~ In (Z.of_nat r) ima /\ nth d new 0%Z <> nth r new 0%Z.
Proof.
  exists 9%nat, [2; 6; 8; 7; 5]%Z, [0; 0; 0; 1; 3]%Z, [0; 1; 0; 2; 3; 3; 0; 1; 0]%Z, 5%nat, 3%nat.
  split; [reflexivity|]. split; [lia|]. split; [lia|]. split; [cbn; tauto|]. split.
  - exists 4%nat. split; [reflexivity|]. split; [reflexivity|]. intros m' Hm. do 4 (destruct m' as [|m']; [discriminate|]). lia.
  - split; [cbn; lia|]. cbn. lia.
Qed.

(** ** C69 *)
Lemma pair_eq (a b : R * R) : fst a = fst b -> snd a = snd b -> a = b.
Proof. destruct a, b; cbn; congruence. Qed.
Ltac cpl := unfold cplus, cmul, cadd; apply pair_eq; cbn [fst snd nadd nmul Num_R]; try ring.
Fixpoint csuml (l : list (R * R)) : R * R := match l with [] => (0, 0) | x :: l => cplus x (csuml l) end.
Lemma fold_cadd (l : list (R * R)) a : fold_left (@cadd R Num_R) l a = cplus a (csuml l).
Proof. revert a. induction l as [|x l IH]; intros a; cbn [fold_left csuml]; [cpl|]. rewrite IH. cpl. Qed.
Lemma csuml_app l l' : csuml (l ++ l') = cplus (csuml l) (csuml l').
Proof. induction l as [|x l IH]; cbn [app csuml]; [cpl|]. rewrite IH. cpl. Qed.
Lemma csum_ext n f g : (forall j, (j < n)%nat -> f j = g j) -> csum n f = csum n g.
Proof. induction n; intros E; cbn; [reflexivity|]. rewrite IHn by (intros; apply E; lia). rewrite E by lia. reflexivity. Qed.
Lemma csum_plus n f g : csum n (fun j => cplus (f j) (g j)) = cplus (csum n f) (csum n g).
Proof. induction n; cbn [csum]; [cpl|]. rewrite IHn. cpl. Qed.
Lemma csum_zero n f : (forall j, (j < n)%nat -> f j = (0, 0)) -> csum n f = (0, 0).
Proof. induction n; intros E; cbn [csum]; [reflexivity|]. rewrite IHn by (intros; apply E; lia). rewrite E by lia. cpl. Qed.
Lemma csum_one n f k : (k < n)%nat -> (forall j, (j < n)%nat -> j <> k -> f j = (0, 0)) -> csum n f = f k.
Proof.
  induction n; intros Hk E; [lia|]. cbn [csum]. destruct (Nat.eq_dec k n) as [->|Hne].
  - rewrite csum_zero by (intros; apply E; lia). cpl.
  - rewrite IHn by (try lia; intros; apply E; lia). rewrite (E n) by lia. cpl.
Qed.

Definition centry := (Z * Z * (R * R))%type.
Definition erow (e : centry) : Z := fst (fst e).
Definition ecol (e : centry) : Z := snd (fst e).
Definition row_of (i : nat) (ents : list centry) : list centry := filter (fun e => (erow e =? Z.of_nat i)%Z) ents.
Definition act_of (u : nat -> R * R) (ents : list centry) : R * R := csuml (map (fun e => cmul (snd e) (u (Z.to_nat (ecol e)))) ents).

Lemma coo_sum n u i (ents : list centry) : Forall (fun e => (0 <= ecol e < Z.of_nat n)%Z) ents ->
  csum n (fun j => cmul (csuml (map snd (filter (fun e => (erow e =? Z.of_nat i)%Z && (ecol e =? Z.of_nat j)%Z) ents))) (u j)) = act_of u (row_of i ents).
Proof.
  unfold act_of, row_of. induction 1 as [|e l He Hl IH]; cbn [filter map csuml].
  - apply csum_zero. intros. cpl.
  - destruct (Z.eqb_spec (erow e) (Z.of_nat i)) as [Er|Er]; cbn [andb map csuml]; [|exact IH].
    rewrite <- IH.
    assert (E1 : cmul (snd e) (u (Z.to_nat (ecol e))) = csum n (fun j => if (ecol e =? Z.of_nat j)%Z then cmul (snd e) (u j) else (0, 0))).
    { rewrite (csum_one n _ (Z.to_nat (ecol e))); [|lia|].
      - rewrite Z2Nat.id by lia. now rewrite Z.eqb_refl.
      - intros j Hj Hne. destruct (Z.eqb_spec (ecol e) (Z.of_nat j)); [lia|reflexivity]. }
    rewrite E1, <- csum_plus. apply csum_ext. intros j Hj. destruct (ecol e =? Z.of_nat j)%Z; cbn [map csuml]; cpl.
Qed.

Lemma coo_act p q (ents : list centry) T u i : @coo_tocsr_c R Num_R p q ents = Ok T -> (i < Z.to_nat p)%nat ->
  length T = Z.to_nat p /\ cact (Z.to_nat q) T u i = act_of u (row_of i ents) /\ Forall (fun e => (0 <= ecol e < q)%Z) ents.
Proof.
  intros H Hi. unfold coo_tocsr_c in H. inv_ok H. apply guard_ok in Hr. apply andb_prop in Hr as [Hr1 Hr2]. apply andb_prop in Hr1 as [Hp Hq].
  apply Ok_inj in H. subst T.
  assert (F : Forall (fun e => (0 <= ecol e < q)%Z) ents).
  { apply Forall_forall. intros e He. rewrite forallb_forall in Hr2. specialize (Hr2 e He). destruct e as [[a b] v]. unfold ecol; cbn [fst snd].
    repeat (apply andb_prop in Hr2 as [Hr2 ?]). apply Z.leb_le in H0. apply Z.ltb_lt in H. lia. }
  split; [rewrite map_length, seq_length; reflexivity|]. split; [|exact F].
  rewrite <- (coo_sum (Z.to_nat q)) by (eapply Forall_impl; [|exact F]; cbn; intros; lia).
  unfold cact. apply csum_ext. intros j Hj. f_equal.
  rewrite (map_nth_def _ _ i 0%nat) by (rewrite seq_length; lia). rewrite (map_nth_def _ _ j 0%nat) by (rewrite seq_length; lia).
  rewrite !seq_nth by lia. cbn [Nat.add]. rewrite fold_cadd. unfold c0. cbn [n0 Num_R].
  transitivity (csuml (map snd (filter (fun e : centry => let '(r, c, _) := e in (r =? Z.of_nat i)%Z && (c =? Z.of_nat j)%Z) ents))); [cpl; apply Rplus_0_l|].
  f_equal. f_equal. apply filter_ext. intros [[a b] v]. reflexivity.
Qed.
Lemma row_app i a b : row_of i (a ++ b) = (row_of i a ++ row_of i b)%list.
Proof. apply filter_app. Qed.
Lemma act_app u a b : act_of u (a ++ b) = cplus (act_of u a) (act_of u b).
Proof. unfold act_of. rewrite map_app. apply csuml_app. Qed.


Definition inner_of (dofs_ima new : list Z) (k : nat) : res (list centry) :=
  if zin (Z.of_nat k) dofs_ima then Ok [] else c <- np_get new (Z.of_nat k) ;; Ok [(Z.of_nat k, c, (1, 0))].
Lemma inner_rows dofs_ima new n : forall s inner, mapM (inner_of dofs_ima new) (seq s n) = Ok inner ->
  forall i, row_of i (concat inner) = if (s <=? i)%nat && (i <? s + n)%nat && negb (zin (Z.of_nat i) dofs_ima) then [(Z.of_nat i, nth i new 0%Z, (1, 0))] else [].
Proof.
  induction n as [|n IH]; intros s inner H i.
  - cbn in H. apply Ok_inj in H. subst. destruct (Nat.leb_spec s i), (Nat.ltb_spec i (s + 0)); try lia; reflexivity.
  - cbn [seq mapM] in H. do 2 inv_ok H. apply Ok_inj in H. subst inner. cbn [concat]. rewrite row_app, (IH _ _ Hr0 i).
    unfold inner_of in Hr. destruct (zin (Z.of_nat s) dofs_ima) eqn:Ez.
    + apply Ok_inj in Hr. subst r. cbn [row_of filter app].
      destruct (Nat.eq_dec s i) as [->|Hne].
      * rewrite Ez. cbn [negb]. rewrite !andb_false_r. reflexivity.
      * replace (S s + n)%nat with (s + S n)%nat by lia. destruct (Nat.leb_spec s i), (Nat.leb_spec (S s) i); try lia; reflexivity.
    + inv_ok Hr. apply Ok_inj in Hr. subst r. apply (np_get_nat_ok _ _ _ 0%Z) in Hr1 as [Hl Ec]. subst. unfold row_of at 1. cbn [filter erow fst].
      destruct (Z.eqb_spec (Z.of_nat s) (Z.of_nat i)) as [E|E].
      * apply Nat2Z.inj in E. subst i. rewrite Ez. destruct (Nat.leb_spec s s), (Nat.ltb_spec s (s + S n)), (Nat.leb_spec (S s) s); try lia. reflexivity.
      * replace (S s + n)%nat with (s + S n)%nat by lia. destruct (Nat.leb_spec s i), (Nat.leb_spec (S s) i); try lia; reflexivity.
Qed.

Lemma zdget_lookup d k v : zdget d k = Ok v -> lookup d k = v.
Proof. induction d as [|[k' v'] d IH]; cbn; [discriminate|]. destruct (k =? k')%Z; [apply Ok_inj|exact IH]. Qed.

Lemma np_get_nn {A} (l : list A) z x d : (0 <= z)%Z -> np_get l z = Ok x -> (Z.to_nat z < length l)%nat /\ x = nth (Z.to_nat z) l d.
Proof. intros Hz H. rewrite <- (Z2Nat.id z Hz) in H. apply (np_get_nat_ok _ _ _ d) in H. exact H. Qed.

Definition bentry (k : list R) (coords : list (list R)) (new : list Z) (p : bpair) : centry :=
  (b_ima p, nth (Z.to_nat (b_ref p)) new 0%Z, cis (shift k coords p)).

Lemma phase_ok (k ca cb : list R) arg : phase_arg k ca cb = Ok arg -> length k = length ca /\ length k = length cb /\
  arg = rsum (length k) (fun a => nth a k 0 * (nth a ca 0 - nth a cb 0)).
Proof.
  unfold phase_arg. intros H. do 2 inv_ok H. apply guard_ok, Nat.eqb_eq in Hr. apply guard_ok, Nat.eqb_eq in Hr0. apply Ok_inj in H. subst arg.
  split; [exact Hr0|]. split; [congruence|]. rewrite sumn_rsum. apply rsum_ext. intros a Ha. reflexivity.
Qed.
Lemma mapM_g {A B} (f : A -> res B) (g : A -> B) l bs : mapM f l = Ok bs -> (forall a b, In a l -> f a = Ok b -> b = g a) -> bs = map g l.
Proof.
  revert bs. induction l as [|a l IH]; intros bs H E; cbn in H.
  - apply Ok_inj in H. now subst.
  - do 2 inv_ok H. apply Ok_inj in H. subst. cbn. f_equal; [apply E; [now left|exact Hr]|]. apply IH; [exact Hr0|]. intros; apply E; [now right|assumption].
Qed.

Lemma pair_entries k coords rd id new ima ref ents : bloch_pair cis k coords rd id new (ima, ref) = Ok ents -> (0 <= ima)%Z -> (0 <= ref)%Z ->
  Forall (fun z => (0 <= z)%Z) (lookup rd ref) ->
  ents = map (bentry k coords new) (map (fun d => BP (snd d) (fst d) ima ref) (combine (lookup rd ref) (lookup id ima))).
Proof.
  unfold bloch_pair. intros H Hi Hf Hd. do 5 inv_ok H. apply (np_get_nn _ _ _ []) in Hr as [_ ->]; [|exact Hi]. apply (np_get_nn _ _ _ []) in Hr0 as [_ ->]; [|exact Hf].
  apply phase_ok in Hr1 as [_ [_ ->]]. apply zdget_lookup in Hr2, Hr3. subst r2 r3.
  rewrite map_map. apply (mapM_g _ _ _ _ H). intros [a b] e Hin E. inv_ok E. apply Ok_inj in E. subst e.
  rewrite Forall_forall in Hd. apply in_combine_l in Hin. apply (np_get_nn _ _ _ 0%Z) in Hr as [_ ->]; [|apply Hd; exact Hin]. reflexivity.
Qed.

Lemma bloch_entries k coords rd id new nima nref bl : mapM (bloch_pair cis k coords rd id new) (combine nima nref) = Ok bl ->
  Forall (fun z => (0 <= z)%Z) nima -> Forall (fun z => (0 <= z)%Z) nref ->
  (forall n, In n nref -> Forall (fun z => (0 <= z)%Z) (lookup rd n)) ->
  concat bl = map (bentry k coords new) (pairing nref nima rd id).
Proof.
  unfold pairing. revert nref bl. induction nima as [|a l IH]; intros nref bl H H1 H2 H3.
  - cbn in H. apply Ok_inj in H. subst. reflexivity.
  - destruct nref as [|b nref]; [cbn in H; apply Ok_inj in H; subst; reflexivity|]. cbn [combine] in H. cbn [mapM] in H. do 2 inv_ok H. apply Ok_inj in H. subst.
    cbn [concat combine flat_map]. rewrite map_app. f_equal.
    + apply (pair_entries k coords rd id new a b r Hr); [now inversion H1|now inversion H2|apply H3; now left].
    + apply IH; [exact Hr0|now inversion H1|now inversion H2|]. intros; apply H3; now right.
Qed.

Lemma row_none k coords new i l : (forall p, In p l -> b_ima p <> Z.of_nat i) -> row_of i (map (bentry k coords new) l) = [].
Proof.
  induction l as [|p l IH]; intros E; [reflexivity|]. unfold row_of. cbn [map filter]. unfold erow at 1. cbn [bentry fst].
  destruct (Z.eqb_spec (b_ima p) (Z.of_nat i)) as [E'|_]; [exfalso; apply (E p); [now left|exact E']|]. apply IH. intros; apply E; now right.
Qed.
Lemma row_one k coords new i l p : NoDup (map b_ima l) -> In p l -> b_ima p = Z.of_nat i -> row_of i (map (bentry k coords new) l) = [bentry k coords new p].
Proof.
  induction l as [|p' l IH]; intros Hn Hp E; [destruct Hp|]. inversion Hn as [|x y Hx Hn']; subst. unfold row_of. cbn [map filter]. unfold erow at 1. cbn [bentry fst].
  fold (row_of i (map (bentry k coords new) l)).
  destruct Hp as [->|Hp].
  - rewrite E, Z.eqb_refl, row_none; [reflexivity|]. intros p' Hp' E'. apply Hx. rewrite E, <- E'. now apply in_map.
  - destruct (Z.eqb_spec (b_ima p') (Z.of_nat i)) as [E'|_]; [|apply IH; assumption].
    exfalso. apply Hx. rewrite E', <- E. now apply in_map.
Qed.

Theorem bloch_periodic : forall k coords n nref nima dref dima rd id new T,
  bloch_transform_mat cis k coords n nref nima dref dima rd id new = Ok T ->
  Forall (fun z => (0 <= z)%Z) nima -> Forall (fun z => (0 <= z)%Z) nref ->
  (forall m, In m nref -> Forall (fun z => (0 <= z)%Z) (lookup rd m)) ->
  NoDup (map b_ima (pairing nref nima rd id)) ->
  (forall p, In p (pairing nref nima rd id) -> In (b_ima p) dima) ->
  forall q, let u := cact (n - length dref) T q in
  (forall i, (i < n)%nat -> ~ In (Z.of_nat i) dima -> u i = q (Z.to_nat (nth i new 0%Z))) /\
  (forall p, In p (pairing nref nima rd id) -> (0 <= b_ima p < Z.of_nat n)%Z ->
     u (Z.to_nat (b_ima p)) = cmul (cis (shift k coords p)) (q (Z.to_nat (nth (Z.to_nat (b_ref p)) new 0%Z)))) /\
  (forall p, In p (pairing nref nima rd id) -> (0 <= b_ima p < Z.of_nat n)%Z -> (0 <= b_ref p < Z.of_nat n)%Z -> ~ In (b_ref p) dima ->
     u (Z.to_nat (b_ima p)) = cmul (cis (shift k coords p)) (u (Z.to_nat (b_ref p)))).
Proof.
  intros k coords n nref nima dref dima rd id new T H H1 H2 H3 H4 H5 q u.
  unfold bloch_transform_mat in H. do 2 inv_ok H. cbn [n1 n0 Num_R] in Hr. fold (inner_of dima new) in Hr.
  assert (Hcols : Z.to_nat (Z.of_nat n - Z.of_nat (length dref)) = (n - length dref)%nat) by lia.
  assert (A : forall i, (i < n)%nat -> u i = cplus (act_of q (row_of i (concat r))) (act_of q (row_of i (concat r0)))).
  { intros i Hi. unfold u. rewrite <- Hcols, <- act_app, <- row_app. apply (coo_act _ _ _ _ q i H). lia. }
  rewrite (bloch_entries _ _ _ _ _ _ _ _ Hr0 H1 H2 H3) in A.
  assert (R1 : forall i, act_of q (row_of i (concat r)) =
    act_of q (if (0 <=? i)%nat && (i <? 0 + n)%nat && negb (zin (Z.of_nat i) dima) then [(Z.of_nat i, nth i new 0%Z, (1, 0))] else [])) by
    (intros i; exact (f_equal (act_of q) (inner_rows _ _ _ _ _ Hr i))).
  assert (B : forall i, (i < n)%nat -> ~ In (Z.of_nat i) dima -> u i = q (Z.to_nat (nth i new 0%Z))).
  { intros i Hi Hn. rewrite A by exact Hi. rewrite R1, row_none.
    - replace (zin (Z.of_nat i) dima) with false.
      + destruct (Nat.leb_spec 0 i), (Nat.ltb_spec i (0 + n)); try lia. cbn [andb negb]. unfold act_of. cbn [map csuml snd ecol fst]. cpl.
      + symmetry. rewrite zin_img. destruct (img dima i) eqn:E; [apply img_spec in E; contradiction|reflexivity].
    - intros p Hp E. apply Hn. rewrite <- E. apply H5, Hp. }
  assert (C : forall p, In p (pairing nref nima rd id) -> (0 <= b_ima p < Z.of_nat n)%Z ->
     u (Z.to_nat (b_ima p)) = cmul (cis (shift k coords p)) (q (Z.to_nat (nth (Z.to_nat (b_ref p)) new 0%Z)))).
  { intros p Hp Hi. rewrite A by lia. rewrite R1, (row_one _ _ _ _ _ p H4 Hp) by lia.
    replace (zin (Z.of_nat (Z.to_nat (b_ima p))) dima) with true.
    - rewrite andb_false_r. unfold act_of. cbn [map csuml bentry snd ecol fst]. cpl.
    - symmetry. rewrite zin_img. apply img_spec. rewrite Z2Nat.id by lia. apply H5, Hp. }
  split; [exact B|]. split; [exact C|]. intros p Hp Hi Hf Hn. rewrite (C p Hp Hi). rewrite (B (Z.to_nat (b_ref p))); [reflexivity|lia|]. rewrite Z2Nat.id by lia. exact Hn.
Qed.

Theorem phase_modulus x : cnorm2 (cis x) = 1.
Proof. unfold cnorm2, cis. cbn [fst snd]. pose proof (sin2_cos2 x) as E. unfold Rsqr in E. lra. Qed.
Theorem phase_product a z : cnorm2 (cmul (cis a) z) = cnorm2 z.
Proof.
  transitivity (cnorm2 (cis a) * cnorm2 z); [unfold cnorm2, cmul; cbn [fst snd]; ring|]. rewrite phase_modulus. ring.
Qed.
Theorem phase_zero k coords p : (forall a, nth a k 0 = 0) -> cis (shift k coords p) = (1, 0).
Proof.
  intros Hk. unfold shift. rewrite (rsum_ext _ _ (fun _ => 0)) by (intros; rewrite Hk; ring).
  assert (E : rsum (length k) (fun _ => 0) = 0) by (induction (length k); cbn; lra). rewrite E. unfold cis. rewrite cos_0, sin_0. reflexivity.
Qed.
Theorem phase_adds a b : cis (a + b) = cmul (cis a) (cis b).
Proof. unfold cis, cmul. cbn [fst snd]. rewrite cos_plus, sin_plus. f_equal. ring. Qed.

(** the two routines together run on complete tables *)
From Coq Require Import Permutation.
Lemma imgs_total ima n : NoDup ima -> Forall (fun z => (0 <= z < Z.of_nat n)%Z) ima -> imgs_below ima n = length ima.
Proof.
  intros Hn Hf. unfold imgs_below. rewrite <- (map_length Z.of_nat). apply Permutation_length. apply NoDup_Permutation; [|exact Hn|].
  - apply FinFun.Injective_map_NoDup; [intros x y; apply Nat2Z.inj|]. apply NoDup_filter, seq_NoDup.
  - intros z. rewrite in_map_iff. split.
    + intros [m [<- Hm]]. apply filter_In in Hm as [_ Hm]. apply img_spec, Hm.
    + intros Hz. rewrite Forall_forall in Hf. specialize (Hf z Hz) as Hr. exists (Z.to_nat z). split; [lia|]. apply filter_In. split; [apply in_seq; lia|].
      apply img_spec. rewrite Z2Nat.id by lia. exact Hz.
Qed.
Lemma independent_lt ima k n : (k < n)%nat -> ~ In (Z.of_nat k) ima -> (length (independent ima k) < length (independent ima n))%nat.
Proof.
  intros Hk Hn. pose proof (indep_count ima k). pose proof (indep_count ima n). pose proof (indep_count ima (S k)).
  pose proof (imgs_S ima k) as E. replace (img ima k) with false in E by (symmetry; destruct (img ima k) eqn:E'; [apply img_spec in E'; contradiction|reflexivity]).
  enough (imgs_below ima n <= imgs_below ima (S k) + (n - S k))%nat by lia.
  clear - Hk. replace n with (S k + (n - S k))%nat at 1 by lia. generalize (n - S k)%nat. intros m. induction m; [rewrite Nat.add_0_r; lia|].
  replace (S k + S m)%nat with (S (S k + m)) by lia. rewrite (imgs_S ima (S k + m)). destruct (img _ _); lia.
Qed.
Lemma mapM_all {A B} (f : A -> res B) l : (forall a, In a l -> exists b, f a = Ok b) -> exists bs, mapM f l = Ok bs.
Proof.
  induction l as [|a l IH]; intros E; cbn; [eauto|]. destruct (E a ltac:(now left)) as [b Eb]. destruct IH as [bs Hbs]; [intros; apply E; now right|].
  rewrite Eb. cbn [bind]. rewrite Hbs. cbn [bind]. eexists. reflexivity.
Qed.
Lemma zdget_has {A} (d : list (Z * A)) k : In k (map fst d) -> exists v, zdget d k = Ok v.
Proof. induction d as [|[k' v] d IH]; cbn; [tauto|]. intros H. destruct (Z.eqb_spec k k') as [->|Hne]; [eauto|]. apply IH. destruct H as [H|H]; [congruence|exact H]. Qed.

Lemma forallb_all {A} (f : A -> bool) l : (forall x, In x l -> f x = true) -> forallb f l = true.
Proof. intros H. apply forallb_forall. exact H. Qed.

Theorem bloch_runs : forall k coords n nref nima dref dima rd id,
  NoDup dima -> Forall (fun z => (0 <= z < Z.of_nat n)%Z) dima -> length dref = length dima ->
  Forall (fun z => (0 <= z < Z.of_nat (length coords))%Z) nima -> Forall (fun z => (0 <= z < Z.of_nat (length coords))%Z) nref ->
  Forall (fun row => length row = length k) coords ->
  (forall m, In m nref -> In m (map fst rd)) -> (forall m, In m nima -> In m (map fst id)) ->
  (forall p, In p (pairing nref nima rd id) -> (0 <= b_ima p < Z.of_nat n)%Z /\ (0 <= b_ref p < Z.of_nat n)%Z /\ ~ In (b_ref p) dima) ->
  exists new T, reassign_dof_bloch n dima dref = Ok new /\ bloch_transform_mat cis k coords n nref nima dref dima rd id new = Ok T /\
    length T = n /\ Forall (fun row => length row = (n - length dima)%nat) T.
Proof.
  intros k coords n nref nima dref dima rd id Hnd Hrange Hlen Hnima Hnref Hc Hkr Hki Hp.
  destruct (reassign_runs n dima dref) as [new Hnew]; [lia|]. exists new.
  destruct (reassign_rank _ _ _ _ Hnew) as [Ln Hrank].
  assert (Hcol : forall i, (i < n)%nat -> ~ In (Z.of_nat i) dima -> (0 <= nth i new 0%Z < Z.of_nat n - Z.of_nat (length dref))%Z).
  { intros i Hi Hn. rewrite Hrank by assumption. pose proof (independent_lt dima i n Hi Hn). pose proof (indep_count dima n) as C. rewrite (imgs_total dima n Hnd Hrange) in C. lia. }
  destruct (mapM_all (inner_of dima new) (seq 0 n)) as [inner Hin].
  { intros a Ha. apply in_seq in Ha. unfold inner_of. destruct (zin _ _); [eauto|]. rewrite (np_get_nth _ _ 0%Z) by lia. cbn. eauto. }
  assert (Hdof : forall a b, In (a, b) (combine nima nref) -> incl (map (fun d => BP (snd d) (fst d) a b) (combine (lookup rd b) (lookup id a))) (pairing nref nima rd id)).
  { intros a b Hab p Hip. unfold pairing. apply in_flat_map. exists (a, b). split; [exact Hab|exact Hip]. }
  destruct (mapM_all (bloch_pair cis k coords rd id new) (combine nima nref)) as [bl Hbl].
  { intros [a b] Hab. pose proof (in_combine_l _ _ _ _ Hab) as Ha. pose proof (in_combine_r _ _ _ _ Hab) as Hb.
    rewrite Forall_forall in Hnima, Hnref, Hc. specialize (Hnima a Ha). specialize (Hnref b Hb). unfold bloch_pair.
    assert (Ga : np_get coords a = Ok (nth (Z.to_nat a) coords [])) by (rewrite <- (Z2Nat.id a) at 1 by lia; apply np_get_nth; lia).
    assert (Gb : np_get coords b = Ok (nth (Z.to_nat b) coords [])) by (rewrite <- (Z2Nat.id b) at 1 by lia; apply np_get_nth; lia).
    rewrite Ga, Gb. cbn [bind].
    assert (La : length (nth (Z.to_nat a) coords []) = length k) by (apply Hc, nth_In; lia).
    assert (Lb : length (nth (Z.to_nat b) coords []) = length k) by (apply Hc, nth_In; lia).
    unfold phase_arg. rewrite La, Lb, Nat.eqb_refl. cbn [guard bind].
    destruct (zdget_has rd b (Hkr b Hb)) as [vr Evr]. destruct (zdget_has id a (Hki a Ha)) as [vi Evi]. rewrite Evr, Evi. cbn [bind].
    apply mapM_all. intros [cr ci] Hcc.
    assert (Hpp : In (BP ci cr a b) (pairing nref nima rd id)).
    { apply (Hdof a b Hab). rewrite (zdget_lookup _ _ _ Evr), (zdget_lookup _ _ _ Evi). apply in_map_iff. exists (cr, ci). split; [reflexivity|exact Hcc]. }
    destruct (Hp _ Hpp) as [_ [Hcr _]]. cbn [b_ref] in Hcr. 
    assert (Gc : np_get new cr = Ok (nth (Z.to_nat cr) new 0%Z)) by (rewrite <- (Z2Nat.id cr) at 1 by lia; apply np_get_nth; lia).
    rewrite Gc. cbn [bind]. eexists. reflexivity. }
  assert (Hbe : concat bl = map (bentry k coords new) (pairing nref nima rd id)).
  { clear - Hbl Hdof Hp Hnima Hnref. unfold pairing. rewrite flat_map_concat_map, concat_map, map_map. f_equal.
    apply (mapM_g _ _ _ _ Hbl). intros [a b] e Hab E. cbn [fst snd].
    pose proof (in_combine_l _ _ _ _ Hab) as Ha. pose proof (in_combine_r _ _ _ _ Hab) as Hb. rewrite Forall_forall in Hnima, Hnref.
    specialize (Hnima a Ha). specialize (Hnref b Hb). specialize (Hdof a b Hab).
    unfold bloch_pair in E. do 5 inv_ok E. apply (np_get_nn _ _ _ []) in Hr as [_ ->]; [|lia]. apply (np_get_nn _ _ _ []) in Hr0 as [_ ->]; [|lia].
    apply phase_ok in Hr1 as [_ [_ ->]]. apply zdget_lookup in Hr2, Hr3. subst r2 r3. rewrite map_map. apply (mapM_g _ _ _ _ E). intros [x y] e' Hxy E'.
    inv_ok E'. apply Ok_inj in E'. subst e'. apply (np_get_nn _ _ _ 0%Z) in Hr as [_ ->]; [reflexivity|].
    assert (Hpp : In (BP y x a b) (pairing nref nima rd id)).
    { apply Hdof. apply in_map_iff. exists (x, y). split; [reflexivity|exact Hxy]. }
    destruct (Hp _ Hpp) as [_ [K _]]. cbn in K. lia. }
  assert (Hie : forall e, In e (concat inner) -> exists i, (i < n)%nat /\ ~ In (Z.of_nat i) dima /\ e = (Z.of_nat i, nth i new 0%Z, (1, 0))).
  { intros e He. apply in_concat in He as [ents [He1 He2]]. apply mapM_ok in Hin.
    clear - Hin He1 He2 Ln. assert (G : forall l bs, Forall2 (fun a b => inner_of dima new a = Ok b) l bs -> In ents bs -> exists a, In a l /\ inner_of dima new a = Ok ents).
    { induction 1; intros Hb; [destruct Hb|]. destruct Hb as [->|Hb]; [eexists; split; [now left|eassumption]|]. destruct (IHForall2 Hb) as [a [A1 A2]]. exists a. split; [now right|exact A2]. }
    destruct (G _ _ Hin He1) as [a [Ha Ea]]. apply in_seq in Ha. unfold inner_of in Ea. destruct (zin (Z.of_nat a) dima) eqn:Ez.
    - apply Ok_inj in Ea. subst. destruct He2.
    - inv_ok Ea. apply Ok_inj in Ea. subst. destruct He2 as [<-|[]]. apply (np_get_nat_ok _ _ _ 0%Z) in Hr as [_ ->]. exists a. split; [lia|]. split; [|reflexivity].
      intros K. apply img_spec in K. rewrite zin_img in Ez. congruence. }
  assert (Hg : ((0 <=? Z.of_nat n)%Z && (0 <=? Z.of_nat n - Z.of_nat (length dref))%Z &&
    forallb (fun e => let '(r, c, _) := e in (0 <=? r)%Z && (r <? Z.of_nat n)%Z && (0 <=? c)%Z && (c <? Z.of_nat n - Z.of_nat (length dref))%Z) (concat inner ++ concat bl)) = true).
  { assert (Hnn : (length dima <= n)%nat) by (rewrite <- (imgs_total dima n Hnd Hrange); pose proof (indep_count dima n); lia).
    destruct (Z.leb_spec 0 (Z.of_nat n)); [|lia]. destruct (Z.leb_spec 0 (Z.of_nat n - Z.of_nat (length dref))); [|lia]. cbn [andb].
    apply forallb_all. intros [[er ec] v] He. apply in_app_iff in He as [He|He].
    - destruct (Hie _ He) as [i [Hi [Hni E]]]. injection E as -> -> _. specialize (Hcol i Hi Hni).
      repeat (rewrite (proj2 (Z.leb_le _ _)) by lia). repeat (rewrite (proj2 (Z.ltb_lt _ _)) by lia). reflexivity.
    - rewrite Hbe in He. apply in_map_iff in He as [p [E Hpp]]. unfold bentry in E. injection E as <- <- _. destruct (Hp p Hpp) as [P1 [P2 P3]].
      specialize (Hcol (Z.to_nat (b_ref p)) ltac:(lia)). rewrite Z2Nat.id in Hcol by lia. specialize (Hcol P3).
      repeat (rewrite (proj2 (Z.leb_le _ _)) by lia). repeat (rewrite (proj2 (Z.ltb_lt _ _)) by lia). reflexivity. }
  assert (HT : exists T, @coo_tocsr_c R Num_R (Z.of_nat n) (Z.of_nat n - Z.of_nat (length dref)) (concat inner ++ concat bl) = Ok T /\
    length T = n /\ Forall (fun row => length row = (n - length dima)%nat) T).
  { unfold coo_tocsr_c, guard. eexists. split; [etransitivity; [apply (f_equal (fun b : bool => bind (if b then Ok tt else _) _) Hg)|reflexivity]|]. rewrite map_length, seq_length. split; [lia|].
    apply Forall_forall. intros row Hrow. apply in_map_iff in Hrow as [i [<- _]]. rewrite map_length, seq_length. lia. }
  destruct HT as [T [HT [HT1 HT2]]]. exists T. split; [exact Hnew|]. split; [|split; [exact HT1|exact HT2]].
  unfold bloch_transform_mat. etransitivity; [|exact HT].
  etransitivity; [apply (f_equal (fun z => bind z _) Hin)|]. cbn [bind]. etransitivity; [apply (f_equal (fun z => bind z _) Hbl)|]. reflexivity.
Qed.

(** lattice of the examples *)
Definition cell_nodes : list (list R) := [[0; 0]; [1; 0]; [2; 0]; [0; 1]; [1; 1]; [2; 1]; [0; 2]; [1; 2]; [2; 2]].
