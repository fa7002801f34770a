(** * Property C88: windows, drawings and saved figures *)
From Coq Require Import String Reals List ZArith Arith Lia.
From Verif Require Import Num LinAlg Post TextIO Draw Spec SpecPost SpecReport SpecDraw DrawProofs ExDraw.
Import ListNotations.
Local Open Scope string_scope.

(** Full claim: plot_node_field draws each component of a nodal field in a window of its own that was
    not in use before, and hands over one value per node.  It fails in two ways. *)
Theorem C88_reuse_refuted : exists st field nodes elements st' ds d,
  plot_field (T := R) st field nodes elements "contourf" 12 false None None None = Ok (st', ds) /\ In d ds /\ In (dr_window d) (map fst st).
Proof. exact reuse. Qed.
Print Assumptions C88_reuse_refuted.
Theorem C88_column_refuted : exists st m nodes elements st' ds d,
  length m = length nodes /\ Forall (fun r => length r = 1%nat) m /\
  plot_field (T := R) st (TwoAxes m) nodes elements "contourf" 12 false None None None = Ok (st', ds) /\ In d ds /\ forall v, dr_values d <> OneAxis v.
Proof. exact column_table. Qed.
Print Assumptions C88_column_refuted.

(** Missing for the full claim: open windows not numbered 1, 2, ..., n when no window titles are given, and
    titles already in use (C88_reuse_refuted). *)
Theorem C88_windows_partial : forall st field nodes elements plt_type levels savefigs title figtitle filename st' ds,
  plot_field (T := R) st field nodes elements plt_type levels savefigs title figtitle filename = Ok (st', ds) ->
  new_windows st (components field) figtitle ->
  length ds = components field /\ NoDup (map dr_window ds) /\ (forall w, In w (map dr_window ds) -> ~ In w (map fst st)) /\
  exists more, st' = (st ++ more)%list /\ map fst more = map dr_window ds.
Proof. exact own_windows. Qed.
Print Assumptions C88_windows_partial.
(** Missing for the full claim: tables of one column (C88_column_refuted). *)
Theorem C88_contents_partial : forall st field nodes elements plt_type levels savefigs title figtitle filename st' ds,
  plot_field (T := R) st field nodes elements plt_type levels savefigs title figtitle filename = Ok (st', ds) ->
  (forall m, field = TwoAxes m -> length (hd [] m) <> 1%nat) ->
  exists tri, mesh2tri nodes elements = Ok tri /\ length ds = components field /\
  forall c d, nth_error ds c = Some d ->
    ((plt_type = "pcolor" /\ dr_fun d = Tripcolor) \/ (plt_type = "contourf" /\ dr_fun d = Tricontourf)) /\
    dr_tri d = tri /\ dr_values d = OneAxis (nodal field c) /\ dr_levels d = levels /\ dr_title d = given title c "" /\
    let fn := given filename c ("output" ++ fmt_d (Z.of_nat c) ++ ".pdf") in dr_saved d = if savefigs then [fn; fn] else [].
Proof. exact contents_of. Qed.
Print Assumptions C88_contents_partial.
Theorem C88_draws : forall st field nodes elements tri plt_type levels savefigs title figtitle filename,
  mesh2tri nodes elements = Ok tri -> plt_type = "pcolor" \/ plt_type = "contourf" ->
  (forall m, field = TwoAxes m -> Forall (fun r => length r = length (hd [] m)) m) ->
  (forall l, title = Some l -> (components field <= length l)%nat) -> (forall l, figtitle = Some l -> (components field <= length l)%nat) ->
  (forall l, filename = Some l -> (components field <= length l)%nat) ->
  exists st' ds, plot_field (T := R) st field nodes elements plt_type levels savefigs title figtitle filename = Ok (st', ds).
Proof. exact draws. Qed.
Print Assumptions C88_draws.

Example C88_case : (exists tri, mesh2tri dr_nodes dr_elems = Ok tri) /\ consecutive [(1%Z, "a"); (2%Z, "")] /\
  exists st' ds, plot_field (T := R) [(1%Z, "a"); (2%Z, "")] (TwoAxes dr_disp) dr_nodes dr_elems "pcolor" 12 true None None None = Ok (st', ds).
Proof. exact (conj dr_tri_ok dr_two). Qed.

(** fields_plot: each component in the window with its label *)
Theorem C88_run : forall st elements nodes disp fs st' o N,
  shape N 2 disp -> (forall E Sg, fs = Some (E, Sg) -> shape N 3 E /\ shape N 3 Sg) -> (1 <= N)%nat ->
  fields_draw st elements nodes disp (option_map fst fs) (option_map snd fs) = Ok (st', o) ->
  match o with
  | None => st' = st /\ exists e, In e elements /\ (5 <= nth 1 e 0 <= 7)%Z
  | Some ds => exists tri, mesh2tri nodes elements = Ok tri /\
      Forall2 (fun r d => In (dr_window d, fst (fst r)) st' /\ dr_title d = snd (fst r) /\ dr_values d = OneAxis (snd r) /\ dr_tri d = tri /\
        dr_fun d = Tricontourf /\ dr_saved d = []) (requests disp fs) ds
  end.
Proof. exact run_windows. Qed.
Print Assumptions C88_run.
(** a second run draws over the windows of the first *)
Theorem C88_again : forall st elements nodes disp fs st1 ds1 N elements2 nodes2 disp2 fs2 st2 ds2 N2,
  shape N 2 disp -> (forall E Sg, fs = Some (E, Sg) -> shape N 3 E /\ shape N 3 Sg) -> (1 <= N)%nat ->
  shape N2 2 disp2 -> (forall E Sg, fs2 = Some (E, Sg) -> shape N2 3 E /\ shape N2 3 Sg) -> (1 <= N2)%nat ->
  (fs2 <> None -> fs <> None) ->
  fields_draw st elements nodes disp (option_map fst fs) (option_map snd fs) = Ok (st1, Some ds1) ->
  fields_draw st1 elements2 nodes2 disp2 (option_map fst fs2) (option_map snd fs2) = Ok (st2, Some ds2) -> st2 = st1.
Proof. exact run_again. Qed.
Print Assumptions C88_again.

Example C88_case_run : shape 3 2 dr_disp /\ exists st1 ds1 st2 ds2, fields_draw [(3%Z, "Vertical displacement")] dr_elems dr_nodes dr_disp None None = Ok (st1, Some ds1) /\
  fields_draw st1 dr_elems dr_nodes dr_disp None None = Ok (st2, Some ds2).
Proof. split; [split; [reflexivity|repeat constructor]|exact dr_run]. Qed.
