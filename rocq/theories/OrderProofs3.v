(** * Lemmas: bars and beams from their other end; all orders together *)
From Coq Require Import String Reals List Arith Lia Lra Bool ZArith QArith Qreals.
From Verif Require Import Num LinAlg Gauss Fem Uel Spec LinR Base ElemShape BarProofs SpecElem SpecShape ShapeProofs ElemCore Sampled Elem2 Elem2Props Elem2Mass
  Elem3 Elem3Props MatProofs ElemAxi BeamProofs Assem Main Script SpecAssem SpecModel SpecScript SpecOrder OrderProofs OrderProofs2.
Import ListNotations.
Local Open Scope R_scope.

Lemma axis_rev coord nx ny L : length coord = 2%nat -> @axis R Num_R coord = Ok (nx, ny, L) -> axis (pick [] [1; 0]%nat coord) = Ok (- nx, - ny, L).
Proof.
  destruct coord as [|a [|b [|]]]; try discriminate. intros _. cbn [pick map nth]. unfold axis.
  change (np_get [a; b] 1) with (Ok b). change (np_get [a; b] 0) with (Ok a). change (np_get [b; a] 1) with (Ok a). change (np_get [b; a] 0) with (Ok b).
  cbn [bind]. rewrite (Nat.eqb_sym (length b)). destruct (length a =? length b)%nat eqn:E; [|discriminate]. cbn [guard bind].
  set (v := map (fun ba => (fst ba - snd ba)%num) (combine b a)). set (v' := map (fun ba => (fst ba - snd ba)%num) (combine a b)).
  assert (Hv : v' = map Ropp v).
  { unfold v, v'. apply Nat.eqb_eq in E. clear - E. revert b E. induction a as [|x a IH]; intros [|y b] E; try discriminate; [reflexivity|].
    injection E as E. cbn. rewrite IH by exact E. f_equal. numR. ring. }
  clearbody v v'. subst v'.
  assert (HS : fold_right nadd n0 (map (fun x : R => (x * x)%num) (map Ropp v)) = fold_right nadd n0 (map (fun x : R => (x * x)%num) v)).
  { induction v as [|x v IH]; [reflexivity|]. cbn [map fold_right]. rewrite IH. numR. ring. }
  rewrite HS. set (L' := nsqrt _). intros Ha. inv_ok Ha. inv_ok Ha. inv_ok Ha. injection Ha as <- <- <-.
  destruct v as [|x0 [|x1 v]]; [discriminate|discriminate|]. cbn [map].
  assert (G0 : forall y z (w : list R), np_get (y :: z :: w) 0 = Ok y) by (intros; change 0%Z with (Z.of_nat 0); rewrite (np_get_nth _ 0%nat y) by (cbn; lia); reflexivity).
  assert (G1 : forall y z (w : list R), np_get (y :: z :: w) 1 = Ok z) by (intros; change 1%Z with (Z.of_nat 1); rewrite (np_get_nth _ 1%nat y) by (cbn; lia); reflexivity).
  rewrite G0 in *. rewrite G1 in *. cbn [bind] in *. rewrite Hr1. cbn [bind]. injection Hr as <-. injection Hr0 as <-.
  numR. unfold Rdiv. rewrite !Ropp_mult_distr_l. reflexivity.
Qed.

Lemma truss_turn coord params K M : length coord = 2%nat -> truss2D coord params = Ok (K, M2 M) ->
  exists K' M', truss2D (pick [] [1; 0]%nat coord) params = Ok (K', M2 M') /\
    (forall u v, form 4 K' (pf 2 [1; 0]%nat u) (pf 2 [1; 0]%nat v) = form 4 K u v) /\
    forall u v, form 4 M' (pf 2 [1; 0]%nat u) (pf 2 [1; 0]%nat v) = form 4 M u v.
Proof.
  intros Hc Hf. apply truss_inv in Hf. destruct Hf as (nx & ny & L & E & A & rest & Ha & -> & -> & Hm). injection Hm as ->.
  unfold truss2D. rewrite (axis_rev _ _ _ _ Hc Ha). cbn [bind]. do 2 eexists. split; [reflexivity|]. split; intros u v.
  - rewrite !form_congr. numR. unfold form, act, pf. cbn. numR. ring.
  - unfold form, act, pf. cbn. numR. ring.
Qed.

Lemma beamU_turn coord params K M : length coord = 2%nat -> beam2DU coord params = Ok (K, M2 M) ->
  exists K' M', beam2DU (pick [] [1; 0]%nat coord) params = Ok (K', M2 M') /\
    (forall u v, form 6 K' (pf 3 [1; 0]%nat u) (pf 3 [1; 0]%nat v) = form 6 K u v) /\
    forall u v, form 6 M' (pf 3 [1; 0]%nat u) (pf 3 [1; 0]%nat v) = form 6 M u v.
Proof.
  intros Hc Hf. unfold beam2DU in *. inv_ok Hf. destruct r as [[nx ny] L]. rewrite (axis_rev _ _ _ _ Hc Hr). cbn [bind].
  destruct params as [|E [|I rest]]; try discriminate. inv_ok Hf. destruct r as [dens area]. rewrite Hr0. cbn [bind].
  injection Hf as <- <-. do 2 eexists. split; [reflexivity|]. split; intros u v;
    rewrite !form_congr; numR; unfold form, act, pf; cbn; numR; ring.
Qed.

Lemma beam_turn coord params K M : length coord = 2%nat -> beam2D coord (firstn 4 params) = Ok (K, M2 M) ->
  exists K' M', beam2D (pick [] [1; 0]%nat coord) (firstn 4 params) = Ok (K', M2 M') /\
    (forall u v, form 6 K' (pf 3 [1; 0]%nat u) (pf 3 [1; 0]%nat v) = form 6 K u v) /\
    forall u v, form 6 M' (pf 3 [1; 0]%nat u) (pf 3 [1; 0]%nat v) = form 6 M u v.
Proof.
  intros Hc Hf. unfold beam2D in *. inv_ok Hf. destruct r as [[nx ny] L]. rewrite (axis_rev _ _ _ _ Hc Hr). cbn [bind].
  destruct params as [|E [|I [|A rest]]]; try discriminate. cbn [firstn] in *. inv_ok Hf. rewrite Hr0. cbn [bind].
  assert (HB : exists rho, match (match rest with [] => [] | a :: l => a :: firstn 0 l end) with [] => [n1] | _ => (match rest with [] => [] | a :: l => a :: firstn 0 l end) end = [rho])
    by (destruct rest; eexists; reflexivity).
  destruct rest as [|rho rest]; cbn [map bcast_mul bind] in *; injection Hf as <- <-; do 2 eexists; (split; [reflexivity|]); (split; intros u v;
    rewrite !form_congr; numR; unfold form, act, pf; cbn; numR; ring).
Qed.

(** every order of the two tables *)
Definition keeps (d : nat) (s : list nat) (A A' : list (list R)) : Prop :=
  forall u v, form (d * length s) A' (pf d s u) (pf d s v) = form (d * length s) A u v.
Lemma turns_order f d s : In (f, d, s) (turns ++ simplex_turns) -> order (length s) s /\ (0 < d)%nat.
Proof.
  intros Hin. assert (HF : Forall (fun s => order (length s) s) (map snd (turns ++ simplex_turns))).
  { cbn [turns simplex_turns app map snd]. do 12 (apply Forall_cons; [cbn [length]; is_order|]). apply Forall_nil. }
  assert (HD : Forall (fun d => (0 < d)%nat) (map (fun x => snd (fst x)) (turns ++ simplex_turns))).
  { cbn [turns simplex_turns app map fst snd]. do 12 (apply Forall_cons; [lia|]). apply Forall_nil. }
  rewrite Forall_forall in HF, HD. split.
  - apply HF, in_map_iff. exists (f, d, s). auto.
  - apply HD, in_map_iff. exists (f, d, s). auto.
Qed.
Lemma turns_keep f d s coord params K M : In (f, d, s) (turns ++ simplex_turns) -> length coord = length s -> rectangular coord -> f coord params = Ok (K, M2 M) ->
  exists K' M', f (pick [] s coord) params = Ok (K', M2 M') /\ keeps d s K K' /\ (In (f, d, s) turns -> keeps d s M M').
Proof.
  intros Hin Hc Hr Hf. apply in_app_iff in Hin. destruct Hin as [Hin|Hin].
  - assert (G : exists K' M', f (pick [] s coord) params = Ok (K', M2 M') /\ keeps d s K K' /\ keeps d s M M').
    { unfold keeps. cbn [turns] in Hin.
      destruct Hin as [Hin|Hin]; [injection Hin as <- <- <-|].
      { destruct (turn_plane pl_quad4 _ _ _ _ _ _ coord params K M ltac:(cbn; tauto) quad4_turned quarter_two Hr Hf) as (K' & M' & H1 & H2 & H3).
        exists K', M'. split; [exact H1|]. split; [exact H2|exact (H3 quad4_values)]. }
      destruct Hin as [Hin|Hin]; [injection Hin as <- <- <-|].
      { destruct (turn_plane pl_quad8 _ _ _ _ _ _ coord params K M ltac:(cbn; tauto) quad8_turned quarter_three Hr Hf) as (K' & M' & H1 & H2 & H3).
        exists K', M'. split; [exact H1|]. split; [exact H2|exact (H3 quad8_values)]. }
      destruct Hin as [Hin|Hin]; [injection Hin as <- <- <-|].
      { destruct (turn_plane pl_quad9 _ _ _ _ _ _ coord params K M ltac:(cbn; tauto) quad9_turned quarter_three Hr Hf) as (K' & M' & H1 & H2 & H3).
        exists K', M'. split; [exact H1|]. split; [exact H2|exact (H3 quad9_values)]. }
      destruct Hin as [Hin|Hin]; [injection Hin as <- <- <-|].
      { exact (turn_axi _ _ _ _ _ _ coord params K M quad9_turned quad9_values quarter_three Hr Hf). }
      destruct Hin as [Hin|Hin]; [injection Hin as <- <- <-|].
      { destruct (turn_solid so_hex8 _ _ _ coord params K M ltac:(cbn; tauto) hex8_z brick_z Hr Hf) as (K' & M' & H1 & H2 & H3).
        exists K', M'. split; [exact H1|]. split; [exact H2|exact (H3 hex8_z_values)]. }
      destruct Hin as [Hin|Hin]; [injection Hin as <- <- <-|].
      { destruct (turn_solid so_hex8 _ _ _ coord params K M ltac:(cbn; tauto) hex8_x brick_x Hr Hf) as (K' & M' & H1 & H2 & H3).
        exists K', M'. split; [exact H1|]. split; [exact H2|exact (H3 hex8_x_values)]. }
      destruct Hin as [Hin|Hin]; [injection Hin as <- <- <-; exact (truss_turn coord params K M Hc Hf)|].
      destruct Hin as [Hin|Hin]; [injection Hin as <- <- <-; exact (beamU_turn coord params K M Hc Hf)|].
      destruct Hin as [Hin|[]]. injection Hin as <- <- <-. exact (beam_turn coord params K M Hc Hf). }
    destruct G as (K' & M' & H1 & H2 & H3). exists K', M'. auto.
  - assert (G : exists K' M', f (pick [] s coord) params = Ok (K', M2 M') /\ keeps d s K K').
    { unfold keeps. cbn [simplex_turns] in Hin.
      destruct Hin as [Hin|Hin]; [injection Hin as <- <- <-|].
      { destruct (turn_plane pl_tri3 _ _ _ _ _ _ coord params K M ltac:(cbn; tauto) tri3_turned (still _) Hr Hf) as (K' & M' & H1 & H2 & _). eauto. }
      destruct Hin as [Hin|Hin]; [injection Hin as <- <- <-|].
      { destruct (turn_solid so_tet4 _ _ _ coord params K M ltac:(cbn; tauto) tet4_a (rest3 _) Hr Hf) as (K' & M' & H1 & H2 & _). eauto. }
      destruct Hin as [Hin|[]]. injection Hin as <- <- <-.
      destruct (turn_solid so_tet4 _ _ _ coord params K M ltac:(cbn; tauto) tet4_b (rest3 _) Hr Hf) as (K' & M' & H1 & H2 & _). eauto. }
    destruct G as (K' & M' & H1 & H2). exists K', M'. split; [exact H1|]. split; [exact H2|]. intros Hin2. exfalso.
    assert (Hs : In s (map snd turns)) by (apply in_map_iff; exists (f, d, s); auto).
    assert (Hs' : In s (map snd simplex_turns)) by (apply in_map_iff; exists (f, d, s); auto).
    cbn in Hs, Hs'. repeat (destruct Hs' as [<-|Hs']; [repeat (destruct Hs as [Hs|Hs]; [discriminate Hs|]); exact Hs|]). exact Hs'.
Qed.
