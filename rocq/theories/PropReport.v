(** * Property C85: what a run reports, returns and draws *)
From Coq Require Import String Reals List Arith Lra Lia ZArith.
From Verif Require Import Num LinAlg Post Main Spec SpecAssem SpecModel SpecStatic SpecPost SpecReport PlotFields DriverProofs ExSolver ExPatch ExTruss ExFrame.
Import ListNotations.
Local Open Scope R_scope.

(** counts, the displacement table, strains exactly if asked for, and the drawing exactly if asked for:
    the table printed if some element has type 5 to 7, otherwise one contour per component *)
Theorem C85_report : forall sv md plot strains out,
  flags01 2 (md_cons md) -> length (md_cons md) = length (md_nodes md) -> auto sv md plot strains = Ok out ->
  out_nnodes out = length (md_nodes md) /\ out_nels out = length (md_elements md) /\ out_neq out = Z.of_nat (count_free (md_cons md)) /\
  shape (length (md_nodes md)) 2 (out_disp out) /\
  match out_strains out with
  | None => strains = false
  | Some (E, Sg) => strains = true /\ shape (length (md_nodes md)) 3 E /\ shape (length (md_nodes md)) 3 Sg /\
      strain_nodes (md_nodes md) (md_elements md) (md_mats md) (out_disp out) = Ok (E, Sg)
  end /\
  match out_plot out with
  | None => plot = false
  | Some p => plot = true /\
      (((exists e, In e (md_elements md) /\ (5 <= nth 1 e 0 <= 7)%Z) /\ p = Printed (out_disp out)) \/
       exists tri, mesh2tri (md_nodes md) (md_elements md) = Ok tri /\ p = Contours (shown tri (out_disp out) (out_strains out)))
  end.
Proof. exact report. Qed.
Print Assumptions C85_report.

(** the two flags change nothing else *)
Theorem C85_flags : forall sv md plot strains out, auto sv md plot strains = Ok out ->
  exists out0, auto sv md false false = Ok out0 /\ out_disp out0 = out_disp out /\ out_warn out0 = out_warn out /\
    out_strains out0 = None /\ out_plot out0 = None.
Proof. exact flags_only. Qed.
Print Assumptions C85_flags.

(** fields_plot alone *)
Theorem C85_shown : forall elements nodes disp st p N,
  shape N 2 disp -> (forall E Sg, st = Some (E, Sg) -> shape N 3 E /\ shape N 3 Sg) -> (1 <= N)%nat ->
  fields_plot elements nodes disp (option_map fst st) (option_map snd st) = Ok p ->
  ((exists e, In e elements /\ (5 <= nth 1 e 0 <= 7)%Z) /\ p = Printed disp) \/
  exists tri, mesh2tri nodes elements = Ok tri /\ p = Contours (shown tri disp st).
Proof. exact contours_shown. Qed.
Print Assumptions C85_shown.

(** a patch of quadrilaterals with strains and plots, and a truss with plots *)
Example C85_case : (exists out, auto elim_solver ptm true true = Ok out) /\ exists out, auto elim_solver brm true false = Ok out.
Proof.
  split.
  - exact (model_runs_full elim_solver ptm true true pt_wf pt_accepted pt_stable elim_ok elim_total pt_free (fun _ => pt_recoverable) (fun _ => pt_plottable)).
  - destruct (StaticProofs3.model_runs elim_solver brm br_wf (TrussProofs.truss_accepted brm br_wf br_truss) br_stable elim_ok elim_total br_free) as [out H].
    eexists. apply (auto_full elim_solver brm out true false None (Some (Printed (out_disp out))) H eq_refl). unfold auto_plot. reflexivity.
Qed.
