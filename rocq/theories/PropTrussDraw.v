(** * Property C97: the figure of a truss *)
From Coq Require Import String Reals List ZArith Arith.
From Verif Require Import Num LinAlg Assem Post Draw PlotTruss DrawTruss Spec SpecModel SpecPlot SpecDraw ExPlot DrawTrussProofs.
Import ListNotations.
Local Open Scope R_scope.

(** at most one window is opened; without a label it is a new one *)
Theorem C97_window : forall st nodes elements mats (s : option (list R)) mx mn savefigs title figtitle filename st' g,
  truss_draw st nodes elements mats s mx mn savefigs title figtitle filename = Ok (st', g) ->
  (exists more, st' = (st ++ more)%list /\ (length more <= 1)%nat) /\ In (tg_window g) (map fst st') /\
  match figtitle with
  | None => st' = (st ++ [(tg_window g, ""%string)])%list /\ next_free st (tg_window g)
  | Some (ByNumber n) => tg_window g = n
  | Some (ByLabel l) => In (tg_window g, l) st' /\ (In l (map snd st) -> st' = st) /\ (~ In l (map snd st) -> next_free st (tg_window g))
  end /\
  tg_title g = match title with Some t => t | None => ""%string end /\
  tg_saved g = if savefigs then [match filename with Some t => t | None => "output.pdf"%string end] else [].
Proof. exact draw_window. Qed.
Print Assumptions C97_window.

(** without stresses every bar has the colour with index 1 of the table, whatever the identifiers in range *)
Theorem C97_plain : forall st nodes elements mats mx mn savefigs title figtitle filename,
  Forall (fun row => (2 < length row)%nat) nodes -> Forall (fun row => (1 < length row)%nat) mats -> mats <> [] ->
  Forall (fun e => drawable nodes mats e /\ (0 <= nth 0 e 0 < Z.of_nat (length elements))%Z) elements ->
  exists st' g ws, truss_draw st nodes elements mats None mx mn savefigs title figtitle filename = Ok (st', g) /\ truss_widths mats mx mn = Ok ws /\
  tg_lines g = map (fun e => mkLine (ent nodes (e_node e 0) 1) (ent nodes (e_node e 0) 2) (ent nodes (e_node e 1) 1) (ent nodes (e_node e 1) 2)
                     (ByIndex 1) (nth (Z.to_nat (nth 2 e 0%Z)) ws 0)) elements.
Proof. exact draw_plain. Qed.
Print Assumptions C97_plain.

Example C97_case : Forall (fun row => (2 < length row)%nat) vnodes /\ Forall (fun row => (1 < length row)%nat) vmats /\ vmats <> [] /\
  Forall (fun e => drawable vnodes vmats e /\ (0 <= nth 0 e 0 < Z.of_nat (length (vbars 1 0)))%Z) (vbars 1 0).
Proof. exact (conj v_nodes (conj v_mats (conj (fun H => nil_cons (eq_sym H)) v_plain))). Qed.
(** windows 1 and 3 are open: the figure goes to window 4 *)
Example C97_case_window : exists st' g, truss_draw [(1%Z, ""%string); (3%Z, "a"%string)] vnodes (vbars 1 0) vmats None 4 (1 / 2) true None None None = Ok (st', g) /\ tg_window g = 4%Z.
Proof.
  destruct (draw_plain [(1%Z, ""%string); (3%Z, "a"%string)] vnodes (vbars 1 0) vmats 4 (1 / 2) true None None None v_nodes v_mats (fun H => nil_cons (eq_sym H)) v_plain) as (st' & g & ws & H & _).
  exists st', g. split; [exact H|]. apply draw_inv in H as (_ & F & _). injection F as _ F. symmetry. exact F.
Qed.
