(** * Property C117: derivatives of the strain energy with respect to the loads *)
From Coq Require Import Reals List Arith ZArith Lia Lra.
From Verif Require Import Num LinAlg Main LinR Spec SpecAssem SpecModel SpecElem SpecStatic ExModel2 ExSolver ExStatic CastProofs.
Import ListNotations.
Local Open Scope R_scope.

(** loads that grow along a fixed load system [g]: the energy changes at the rate of the work of [g] *)
Theorem C117_direction : forall md L sv plot strains out g,
  (forall t, solver_ok (sv t)) -> materials_ok md -> (forall t, wf_model (with_loads md (L t))) ->
  (forall t, auto (sv t) (with_loads md (L t)) (plot t) (strains t) = Ok (out t)) ->
  (forall t i d, (i < length (md_nodes md))%nat -> (d < 2)%nat -> applied (L t) i d = applied (L 0) i d + t * g i d) ->
  forall t, derivable_pt_lim (fun x => strain_energy md (table (out x))) t
    (rsum (length (md_nodes md)) (fun i => rsum 2 (fun d => g i d * table (out t) i d))).
Proof. exact castigliano. Qed.
Print Assumptions C117_direction.

(** Castigliano: the derivative by one force is the displacement of its node in its direction *)
Theorem C117_point : forall md L sv plot strains out i d,
  (forall t, solver_ok (sv t)) -> materials_ok md -> (forall t, wf_model (with_loads md (L t))) ->
  (forall t, auto (sv t) (with_loads md (L t)) (plot t) (strains t) = Ok (out t)) ->
  (i < length (md_nodes md))%nat -> (d < 2)%nat ->
  (forall t, applied (L t) i d = t) ->
  (forall t j e, (j < length (md_nodes md))%nat -> (e < 2)%nat -> (j, e) <> (i, d) -> applied (L t) j e = applied (L 0) j e) ->
  forall t, derivable_pt_lim (fun x => strain_energy md (table (out x))) t (table (out t) i d).
Proof. exact castigliano_point. Qed.
Print Assumptions C117_point.

(** the square of C70 with a growing horizontal force beside a vertical one at node 2 *)
Example C117_case : solver_ok elim_solver /\ materials_ok (sqm 0 5) /\
  (forall t, wf_model (with_loads (sqm 0 5) [[2; t; 5]])) /\
  (forall t, exists out, auto elim_solver (with_loads (sqm 0 5) [[2; t; 5]]) false false = Ok out) /\
  (2 < length (md_nodes (sqm 0 5)))%nat /\ (forall t, applied [[2; t; 5]] 2 0 = t) /\
  (forall t j e, (e < 2)%nat -> (j, e) <> (2, 0)%nat -> applied [[2; t; 5]] j e = applied [[2; 0; 5]] j e).
Proof.
  split; [exact elim_ok|]. split; [exact (sqm_materials 0 5)|]. split; [exact (fun t => sqm_wf t 5)|]. split; [exact (fun t => sqm_runs t 5)|]. split; [cbn; lia|]. split.
  - intro t. unfold applied. cbn [fold_left nth Nat.add]. destruct (Req_EM_T 2 (INR 2)) as [_|N]; [reflexivity|]. exfalso. apply N. cbn. lra.
  - intros t j e He N. unfold applied. cbn [fold_left nth]. destruct (Req_EM_T 2 (INR j)) as [E|_]; [|reflexivity].
    assert (j = 2%nat) as ->. { apply INR_eq. rewrite <- E. cbn. lra. }
    destruct e as [|[|e]]; [exfalso; apply N; reflexivity|reflexivity|lia].
Qed.
