(** * Property C112: the plate of the first tutorial *)
From Coq Require Import String Reals List ZArith Arith QArith Qreals Lra Lia.
From Verif Require Import Num LinAlg Main TextIO Spec SpecModel SpecStatic SpecPre Square SpecSquare SquareProofs ExSolver.
Import ListNotations.
Local Open Scope R_scope.

(** any size, material and pull: the plate stretches uniformly *)
Theorem C112_plate : forall a b E nu P, 0 < a -> 0 < b -> 4 / 100000000 < a * b -> 0 < E -> -1 < nu < 1 ->
  forall sv plot strains, solver_ok sv -> solver_total sv -> exists out, auto sv (plate a b E nu P) plot strains = Ok out /\
    out_nnodes out = 9%nat /\ out_nels out = 4%nat /\ out_neq out = 14%Z /\ out_warn out = false /\
    out_disp out = map (fun p => [- (nu * (2 * P / a) / E) * (nth 1 p 0 - a); 2 * P / a / E * nth 2 p 0]) (md_nodes (plate a b E nu P)) /\
    (strains = true -> out_strains out = Some (repeat [- (nu * (2 * P / a) / E); 2 * P / a / E; 0] 9, repeat [0; 2 * P / a; 0] 9)).
Proof. exact plate_run. Qed.
Print Assumptions C112_plate.

(** the text files of the example, in a folder given as argument, chosen in the dialog, or typed (with its final slash) *)
Theorem C112_argument : forall sv fs gui prompt plot strains folder, solver_ok sv -> solver_total sv -> square_files fs (fun f => folder ++ f)%string ->
  exists out, solids_GUI sv fs gui prompt plot strains (Some folder) = Ok out /\ tutorial_run strains out.
Proof. exact square_argument. Qed.
Print Assumptions C112_argument.
Theorem C112_dialog : forall sv fs prompt plot strains folder, solver_ok sv -> solver_total sv -> folder <> ""%string -> square_files fs (inside folder) ->
  exists out, solids_GUI sv fs (Some (Some folder)) prompt plot strains None = Ok out /\ tutorial_run strains out.
Proof. exact square_dialog. Qed.
Print Assumptions C112_dialog.
Theorem C112_typed : forall sv fs plot strains typed, solver_ok sv -> solver_total sv -> square_files fs (fun f => typed ++ f)%string ->
  exists out, solids_GUI sv fs None typed plot strains None = Ok out /\ tutorial_run strains out.
Proof. exact square_typed. Qed.
Print Assumptions C112_typed.

(** Full statement: the tutorial's [U_mag] are the lengths of the displacements of nodes.  False: it pairs the
    horizontal displacements of two nodes on rollers; no node moves by 0.849 *)
Theorem C112_magnitude_refuted : exists m, In m tutorial_mag /\ forall sv plot strains out, solver_ok sv -> solver_total sv ->
  auto sv (plate 1 1 1 (3/10) 1) plot strains = Ok out -> forall i, (i < 9)%nat -> ~ shown_as (magnitude (out_disp out) i) (Q2R m).
Proof. exact square_magnitude. Qed.
Print Assumptions C112_magnitude_refuted.
(** the others are the lengths at nodes 2, 3, 5, 6, 7 and 8 *)
Theorem C112_magnitudes : forall sv plot strains out, solver_ok sv -> solver_total sv -> auto sv (plate 1 1 1 (3/10) 1) plot strains = Ok out ->
  Forall2 (fun i m => shown_as (magnitude (out_disp out) i) (Q2R m)) [2; 3; 5; 6; 7; 8]%nat (tl tutorial_mag) /\
  shown_as (sqrt (ent (out_disp out) 0 0 ^ 2 + ent (out_disp out) 1 0 ^ 2)) (Q2R (hd 0%Q tutorial_mag)).
Proof. exact square_magnitudes. Qed.
Print Assumptions C112_magnitudes.

(** a solver and a folder *)
Example C112_case : solver_ok elim_solver /\ solver_total elim_solver /\
  square_files (fun p => if String.eqb p "sq/nodes.txt" then Some square_nodes else if String.eqb p "sq/mater.txt" then Some square_mater
    else if String.eqb p "sq/eles.txt" then Some square_eles else if String.eqb p "sq/loads.txt" then Some square_loads else None) (inside "sq").
Proof. exact (conj elim_ok (conj elim_total (conj eq_refl (conj eq_refl (conj eq_refl eq_refl))))). Qed.
(** twice as wide, steel in compression: the top moves down by 2 * 5 / 3 / 200 * 2 *)
Example C112_case_other : exists out, auto elim_solver (plate 3 1 200 (1/4) (-5)) true true = Ok out /\ nth 2 (out_disp out) [] = [1/80; - 1/30].
Proof.
  destruct (C112_plate 3 1 200 (1/4) (-5) ltac:(lra) ltac:(lra) ltac:(lra) ltac:(lra) ltac:(lra) elim_solver true true elim_ok elim_total) as (out & H & _ & _ & _ & _ & HD & _).
  exists out. split; [exact H|]. rewrite HD. cbn [md_nodes plate map nth]. apply f_equal2; [lra|]. apply f_equal2; [lra|reflexivity].
Qed.
