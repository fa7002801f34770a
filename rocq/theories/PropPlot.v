(** * Properties C75-C76: colours and widths of a plotted truss *)
From Coq Require Import Reals List Arith ZArith Bool Lra.
From Verif Require Import Num LinAlg Assem Post PlotTruss Spec SpecModel SpecPlot PlotProofs ExPlot.
Import ListNotations.
Local Open Scope R_scope.

(** ** C75: each bar is drawn between its nodes with the colour of its own stress.
    The full claim, for every table of bars and every list of stresses, is false: the next
    two theorems.  It holds when some stress is not zero and identifiers are positions. *)
Theorem C75_drawn_partial : forall nodes elements mats s m mx mn,
  peak s m -> m <> 0 -> length s = length elements ->
  Forall (fun row => (2 < length row)%nat) nodes -> Forall (fun row => (1 < length row)%nat) mats -> mats <> [] ->
  (forall k e, nth_error elements k = Some e -> drawable nodes mats e /\ nth 0 e 0%Z = Z.of_nat k) ->
  exists lines ws, plot_truss nodes elements mats (Some s) mx mn = Ok lines /\ truss_widths mats mx mn = Ok ws /\
    length lines = length elements /\
    forall k e, nth_error elements k = Some e -> exists c, nth_error lines k =
     Some (mkLine (ent nodes (e_node e 0) 1) (ent nodes (e_node e 0) 2) (ent nodes (e_node e 1) 1) (ent nodes (e_node e 1) 2)
                  (ByValue c) (nth (Z.to_nat (nth 2 e 0%Z)) ws 0)) /\
     0 <= c <= 1 /\ c = 1 / 2 + nth k s 0 / (2 * m).
Proof. exact plot_lines. Qed.
Print Assumptions C75_drawn_partial.

Example C75_case : peak [1; -2] 2 /\ Forall (fun row => (2 < length row)%nat) vnodes /\ Forall (fun row => (1 < length row)%nat) vmats /\
  forall k e, nth_error (vbars 0 1) k = Some e -> drawable vnodes vmats e /\ nth 0 e 0%Z = Z.of_nat k.
Proof. exact (conj v_peak (conj v_nodes (conj v_mats v_ids))). Qed.

(** an unloaded truss is not drawn: the scale divides zero by zero *)
Theorem C75_unloaded_refuted : exists nodes elements mats s, Forall (drawable nodes mats) elements /\
  length s = length elements /\ Forall (fun x => x = 0) s /\
  forall mx mn, plot_truss nodes elements mats (Some s) mx mn = Err NonFinite.
Proof.
  exact (ex_intro _ vnodes (ex_intro _ (vbars 0 1) (ex_intro _ vmats (ex_intro _ [0; 0]
    (conj (v_drawable 0 1) (conj eq_refl (conj (Forall_cons _ eq_refl (Forall_cons _ eq_refl (Forall_nil _)))
      (fun mx mn => plot_zero vnodes (vbars 0 1) vmats [0; 0] mx mn v_zero_peak)))))))).
Qed.
Print Assumptions C75_unloaded_refuted.

(** identifiers other than positions: the colours of other bars, or an exception *)
Theorem C75_numbering_refuted : exists nodes mats (bars bars' : list (list Z)) s m,
  peak s m /\ m <> 0 /\ length s = length bars /\ length s = length bars' /\
  Forall (drawable nodes mats) bars /\ Forall (drawable nodes mats) bars' /\
  (exists l0 l1, plot_truss nodes bars mats (Some s) 4 (1 / 2) = Ok [l0; l1] /\
     tl_color l0 = ByValue (1 / 2 + nth 1 s 0 / (2 * m)) /\ tl_color l1 = ByValue (1 / 2 + nth 0 s 0 / (2 * m)) /\
     tl_color l0 <> tl_color l1) /\
  plot_truss nodes bars' mats (Some s) 4 (1 / 2) = Err IndexError.
Proof. exact (ex_intro _ vnodes (ex_intro _ vmats (ex_intro _ (vbars 1 0) (ex_intro _ (vbars 1 2) (ex_intro _ [1; -2] (ex_intro _ 2 v_numbering)))))). Qed.
Print Assumptions C75_numbering_refuted.

(** ** C76: widths grow linearly with the areas, from [mn] to [mx].
    The full claim, for all areas, is false: the next theorem.  It holds when the areas
    spread over more than 1e-6. *)
Theorem C76_widths_partial : forall (mats : list (list R)) mx mn lo hi, Forall (fun row => (1 < length row)%nat) mats ->
  least (areas mats) lo -> greatest (areas mats) hi -> mn <= mx -> 1 / 1000000 < hi - lo ->
  exists ws, truss_widths mats mx mn = Ok ws /\ length ws = length mats /\
    (forall i, (i < length mats)%nat -> mn <= nth i ws 0 <= mx) /\
    (forall i, (i < length mats)%nat -> nth i (areas mats) 0 = lo -> nth i ws 0 = mn) /\
    (forall i, (i < length mats)%nat -> nth i (areas mats) 0 = hi -> nth i ws 0 = mx) /\
    (forall i j, (i < length mats)%nat -> (j < length mats)%nat ->
       nth i ws 0 - nth j ws 0 = (mx - mn) * ((nth i (areas mats) 0 - nth j (areas mats) 0) / (hi - lo))).
Proof. exact width_rules. Qed.
Print Assumptions C76_widths_partial.

Example C76_case : Forall (fun row => (1 < length row)%nat) vmats /\ least (areas vmats) 1 /\ greatest (areas vmats) 2.
Proof. exact (conj v_mats (conj v_least v_greatest)). Qed.

(** one area twice the other, both small: one width, whatever the limits asked for *)
Theorem C76_small_refuted : exists mats, nth 1 (areas mats) 0 = 2 * nth 0 (areas mats) 0 /\ 0 < nth 0 (areas mats) 0 /\
  forall mx mn, truss_widths mats mx mn = Ok [3; 3].
Proof.
  exact (ex_intro _ small_mats (conj small_double (conj small_pos small_widths))).
Qed.
Print Assumptions C76_small_refuted.
