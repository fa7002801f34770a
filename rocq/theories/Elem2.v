(** * Proofs: plane continuum elements as sampled matrices *)
From Coq Require Import String Reals List Arith Lia Lra Bool ZArith QArith Qreals.
From Verif Require Import Num LinAlg Gauss Fem Uel Spec LinR Base ElemShape BarProofs SpecElem SpecShape ShapeProofs ElemCore Sampled.
Import ListNotations.
Local Open Scope R_scope.

(** strain and value of the interpolated field at a point of the reference element *)
Definition strain2 (n : nat) (D coord : list (list R)) (u : nat -> R) (a : nat) : R :=
  match a with
  | O => rsum n (fun k => grad2 n D coord 0 k * u (2 * k)%nat)
  | 1%nat => rsum n (fun k => grad2 n D coord 1 k * u (2 * k + 1)%nat)
  | _ => rsum n (fun k => grad2 n D coord 1 k * u (2 * k)%nat + grad2 n D coord 0 k * u (2 * k + 1)%nat)
  end.
Definition value2 (n : nat) (N : list R) (u : nat -> R) (a : nat) : R :=
  match a with
  | O => rsum n (fun k => nth k N 0 * u (2 * k)%nat)
  | _ => rsum n (fun k => nth k N 0 * u (2 * k + 1)%nat)
  end.

Definition shape2 := R -> R -> list R * list (list R).
Definition det_at (n : nat) (sh : shape2) (coord : list (list R)) (r s : R) : R :=
  J2det (Jac n (snd (sh r s)) coord).
Definition gdat2 (n : nat) (sh : shape2) (coord : list (list R)) (c : R) (q : R * R * R) : gdat :=
  let '(r, s, w) := q in
  mkG (c * (det_at n sh coord r s * w)) (strain2 n (snd (sh r s)) coord) (value2 n (fst (sh r s))).

Definition gq_ok (gps : list (list R * R)) (gq : list (R * R * R)) : Prop :=
  gps = map (fun q => let '(r, s, w) := q in ([r; s], w)) gq.

Definition accepted2 (n : nat) (sh : shape2) (gq : list (R * R * R)) (coord : list (list R)) : Prop :=
  length coord = n /\ ncols coord = 2%nat /\
  forall r s w, In (r, s, w) gq -> 1 / 100000000 < det_at n sh coord r s.

Lemma Forall2_map_eq {A B} (f : A -> B) l l' : Forall2 (fun a b => f a = b) l l' -> l' = map f l.
Proof. induction 1; cbn; congruence. Qed.

Lemma plane_inv n sh gq coord C c sK sM dens K M :
  good2 n sh -> gq <> [] ->
  (forall det w, sK det w = c * (det * w)) -> (forall det w, sM det w = dens * (c * (det * w))) ->
  integrate 3 2 (2 * n) (diff2 coord sh) C sK sM (map (fun q => let '(r, s, w) := q in ([r; s], w)) gq) = Ok (K, M) ->
  accepted2 n sh gq coord /\ sampled 3 2 (2 * n) C dens (map (gdat2 n sh coord c) gq) K M.
Proof.
  intros Hg Hne HsK HsM Hi. pose proof (integrate_shape _ _ _ _ _ _ _ _ _ _ Hi) as [SK SM].
  apply integrate_inv in Hi. destruct Hi as [data [HF [HK HM]]].
  assert (Hrel : Forall2 (fun q d => let '(r, s, w) := q in let '(Hm, B, det, w') := (d : gpt) in
      w' = w /\ elast_diff_2d r s coord sh = Ok (Hm, B, det)) gq data).
  { clear -HF. revert data HF. induction gq as [|[[r s] w] gq IH]; intros data HF; inversion HF; subst; constructor.
    - destruct y as [[[Hm B] det] w']. cbn in H1. destruct H1 as [H1 H2]. split; [symmetry; exact H2|exact H1].
    - apply IH. assumption. }
  clear HF. split.
  - assert (Hall : forall r s w, In (r, s, w) gq -> exists Hm B det, elast_diff_2d r s coord sh = Ok (Hm, B, det)).
    { intros r s w Hin. clear -Hrel Hin. induction Hrel as [|q d gq data H HF IH]; [destruct Hin|].
      destruct Hin as [->|Hin]; [|apply IH; exact Hin]. destruct d as [[[Hm B] det] w']. destruct H as [_ H].
      exists Hm, B, det. exact H. }
    destruct gq as [|[[r0 s0] w0] gq']; [congruence|].
    split; [|split].
    + destruct (Hall r0 s0 w0) as [Hm [B [det H]]]; [left; reflexivity|].
      apply (diff2_inv n) in H; [|exact Hg]. apply H.
    + destruct (Hall r0 s0 w0) as [Hm [B [det H]]]; [left; reflexivity|].
      apply (diff2_inv n) in H; [|exact Hg]. apply H.
    + intros r s w Hin. destruct (Hall r s w Hin) as [Hm [B [det H]]].
      apply (diff2_inv n) in H; [|exact Hg]. cbv zeta in H. destruct H as [_ [_ [E [H _]]]].
      unfold det_at. rewrite <- E. exact H.
  - constructor; try assumption; intros u v.
    + rewrite HK. rewrite lsum_map. clear -Hrel HsK Hg.
      induction Hrel as [|[[r s] w] [[[Hm B] det] w'] gq data [Hw H] HF IH]; [reflexivity|].
      cbn [lsum fold_right]. f_equal; [|exact IH]. subst w'. unfold gK, vK, gdat2. cbn [g_w g_eps].
      apply (diff2_inv n) in H; [|exact Hg]. cbv zeta in H.
      destruct H as [_ [_ [E [_ [H0 [H1 [H2 _]]]]]]]. rewrite HsK. unfold det_at. rewrite <- E. f_equal.
      apply form_ext; intros j Hj; (destruct j as [|[|[|]]]; [| | |lia]); unfold strain2; auto.
    + rewrite HM. rewrite lsum_map. rewrite <- lsum_scal. clear -Hrel HsM Hg.
      induction Hrel as [|[[r s] w] [[[Hm B] det] w'] gq data [Hw H] HF IH]; [reflexivity|].
      cbn [lsum fold_right]. f_equal; [|exact IH]. subst w'. unfold gM, vM, gdat2. cbn [g_w g_val].
      apply (diff2_inv n) in H; [|exact Hg]. cbv zeta in H.
      destruct H as [_ [_ [E [_ [_ [_ [_ [H0 H1]]]]]]]]. rewrite HsM. unfold det_at. rewrite <- E. rewrite <- !Rmult_assoc. f_equal.
      cbn [rsum]. rewrite !H0, !H1. reflexivity.
Qed.

Lemma plane_total n sh gq coord C sK sM :
  good2 n sh -> accepted2 n sh gq coord ->
  exists KM, integrate 3 2 (2 * n) (diff2 coord sh) C sK sM (map (fun q => let '(r, s, w) := q in ([r; s], w)) gq) = Ok KM.
Proof.
  intros Hg [H1 [H2 H3]]. apply integrate_total. intros pw Hin. apply in_map_iff in Hin.
  destruct Hin as [[[r s] w] [<- Hin]]. cbn [fst]. unfold diff2. cbn [unpack2 bind].
  destruct (diff2_total n sh coord r s Hg H1 H2 (H3 r s w Hin)) as [Hm [B H]]. eexists. exact H.
Qed.

(** ** the five plane elements *)
Record plane := mkPlane {
  pl_f : uel_fun R;
  pl_n : nat;
  pl_sh : shape2;
  pl_gq : list (R * R * R);
  pl_c : R;
  pl_par : list R -> option (R * R * R)   (* E, nu, density *)
}.

Definition triples (g : res (list (list R) * list R)) : list (R * R * R) :=
  match g with
  | Ok (p, w) => map (fun pw => (nth 0 (fst pw) 0, nth 1 (fst pw) 0, snd pw)) (combine p w)
  | Err _ => []
  end.

Definition par_opt (params : list R) : option (R * R * R) :=
  match params with
  | E :: nu :: _ => Some (E, nu, opt_dens params)
  | _ => None
  end.
Definition par3 (params : list R) : option (R * R * R) :=
  match params with
  | [E; nu; rho] => Some (E, nu, rho)
  | _ => None
  end.

Definition pl_quad4 := mkPlane elast_quad4 4 shape_quad4 (triples (gauss_nd 2 2)) 1 par_opt.
Definition pl_tri6 := mkPlane elast_tri6 6 shape_tri6 (triples (gauss_tri 3)) (1/2) par_opt.
Definition pl_tri3 := mkPlane elast_tri3 3 shape_tri3 (triples (gauss_tri 2)) (1/2) par_opt.
Definition pl_quad9 := mkPlane elast_quad9 9 shape_quad9 (triples (gauss_nd 3 2)) 1 par_opt.
Definition pl_quad8 := mkPlane elast_quad8 8 shape_quad8 (triples (gauss_nd 3 2)) 1 par3.
Definition planes : list plane := [pl_quad4; pl_tri6; pl_tri3; pl_quad9; pl_quad8].

Lemma good2_all p : In p planes -> good2 (pl_n p) (pl_sh p).
Proof.
  intros Hin r s. repeat (destruct Hin as [<-|Hin]; [split; [reflexivity|split; [reflexivity|repeat constructor]]|]).
  destruct Hin.
Qed.

Lemma nofQ_half : @nofQ R Num_R 0.5 = 1 / 2.
Proof. cbn [nofQ Num_R]. q2r. lra. Qed.

(** the element routine as the quadrature loop *)
Lemma plane_eq p coord params K m : In p planes -> pl_f p coord params = Ok (K, m) ->
  exists E nu rho C sK sM M, pl_par p params = Some (E, nu, rho) /\ umat [E; nu] = Ok C /\
    (forall det w, sK det w = pl_c p * (det * w)) /\
    (forall det w, sM det w = rho * (pl_c p * (det * w))) /\
    integrate 3 2 (2 * pl_n p) (diff2 coord (pl_sh p)) C sK sM
      (map (fun q => let '(r, s, w) := q in ([r; s], w)) (pl_gq p)) = Ok (K, M) /\ m = M2 M.
Proof.
  intros Hin. repeat (destruct Hin as [<-|Hin]).
  - cbn [pl_f pl_quad4 pl_par pl_c pl_n pl_sh pl_gq]. unfold elast_quad4. intros Hf.
    destruct params as [|E [|nu rest]]; [discriminate|discriminate|].
    change (firstn 2 (E :: nu :: rest)) with [E; nu] in Hf. inv_ok Hf. inv_ok Hf. destruct r0 as [gp gw].
    apply wrap_integrate in Hf. destruct Hf as [M [Hi ->]].
    exists E, nu, (opt_dens (E :: nu :: rest)), r. eexists _, _, M.
    split; [reflexivity|]. split; [exact Hr|].
    split; [|split; [|split; [rewrite <- Hi; cbn in Hr0; apply Ok_pair_inj in Hr0; destruct Hr0 as [<- <-]; reflexivity|reflexivity]]];
      intros; cbv beta; numR; ring.
  - cbn [pl_f pl_tri6 pl_par pl_c pl_n pl_sh pl_gq]. unfold elast_tri6. intros Hf.
    destruct params as [|E [|nu rest]]; [discriminate|discriminate|].
    change (firstn 2 (E :: nu :: rest)) with [E; nu] in Hf. inv_ok Hf. inv_ok Hf. destruct r0 as [gp gw].
    apply wrap_integrate in Hf. destruct Hf as [M [Hi ->]].
    exists E, nu, (opt_dens (E :: nu :: rest)), r. eexists _, _, M.
    split; [reflexivity|]. split; [exact Hr|].
    split; [|split; [|split; [rewrite <- Hi; cbn in Hr0; apply Ok_pair_inj in Hr0; destruct Hr0 as [<- <-]; reflexivity|reflexivity]]];
      intros; cbv beta; rewrite nofQ_half; numR; ring.
  - cbn [pl_f pl_tri3 pl_par pl_c pl_n pl_sh pl_gq]. unfold elast_tri3. intros Hf.
    destruct params as [|E [|nu rest]]; [discriminate|discriminate|].
    change (firstn 2 (E :: nu :: rest)) with [E; nu] in Hf. inv_ok Hf. inv_ok Hf. destruct r0 as [gp gw].
    apply wrap_integrate in Hf. destruct Hf as [M [Hi ->]].
    exists E, nu, (opt_dens (E :: nu :: rest)), r. eexists _, _, M.
    split; [reflexivity|]. split; [exact Hr|].
    split; [|split; [|split; [rewrite <- Hi; cbn in Hr0; apply Ok_pair_inj in Hr0; destruct Hr0 as [<- <-]; reflexivity|reflexivity]]];
      intros; cbv beta; rewrite nofQ_half; numR; ring.
  - cbn [pl_f pl_quad9 pl_par pl_c pl_n pl_sh pl_gq]. unfold elast_quad9. intros Hf.
    destruct params as [|E [|nu rest]]; [discriminate|discriminate|].
    change (firstn 2 (E :: nu :: rest)) with [E; nu] in Hf. inv_ok Hf. inv_ok Hf. destruct r0 as [gp gw].
    apply wrap_integrate in Hf. destruct Hf as [M [Hi ->]].
    exists E, nu, (opt_dens (E :: nu :: rest)), r. eexists _, _, M.
    split; [reflexivity|]. split; [exact Hr|].
    split; [|split; [|split; [rewrite <- Hi; cbn in Hr0; apply Ok_pair_inj in Hr0; destruct Hr0 as [<- <-]; reflexivity|reflexivity]]];
      intros; cbv beta; numR; ring.
  - cbn [pl_f pl_quad8 pl_par pl_c pl_n pl_sh pl_gq]. unfold elast_quad8. intros Hf.
    destruct params as [|E [|nu [|rho [|? ?]]]]; try discriminate. cbn [params3 bind] in Hf.
    inv_ok Hf. inv_ok Hf. destruct r0 as [gp gw].
    apply wrap_integrate in Hf. destruct Hf as [M [Hi ->]].
    exists E, nu, rho, r. eexists _, _, M.
    split; [reflexivity|]. split; [exact Hr|].
    split; [|split; [|split; [rewrite <- Hi; cbn in Hr0; apply Ok_pair_inj in Hr0; destruct Hr0 as [<- <-]; reflexivity|reflexivity]]];
      intros; cbv beta; numR; ring.
  - destruct Hin.
Qed.
