(** * Model of solidspy/solids_GUI.py *)
From Coq Require Import String QArith ZArith Arith Bool List.
From Verif Require Import Num LinAlg Gauss Fem Uel Assem Post Pre TextIO.
Import ListNotations.
Local Open Scope string_scope.
Local Open Scope nat_scope.

Section Main.
  Context {T : Type} `{Num T}.
  Local Open Scope num_scope.
  Local Notation vec := (@vec T).
  Local Notation mat := (@mat T).

  (** The two library solvers (scipy.sparse.linalg.spsolve, numpy.linalg.solve).
     (called at solutil.py:34-37) *)
  Record solvers := {
    spsolve : mat -> vec -> res vec;
    npsolve : mat -> vec -> res vec
  }.

  (** Observable result of a run: what is printed, plotted and returned.  The
      durations printed are not modelled. (solids_GUI.py:60-92, 132-165) *)
  Record outcome := {
    out_nnodes : nat;                      (* "Number of nodes" *)
    out_nels : nat;                        (* "Number of elements" *)
    out_neq : Z;                           (* "Number of equations" *)
    out_warn : bool;                       (* "The system is not in equilibrium!" *)
    out_plot : option (plot_action T);     (* None if plot_contours is False *)
    out_disp : mat;                        (* UC *)
    out_strains : option (mat * mat)       (* E_nodes, S_nodes *)
  }.

  (* entries of the matrix, for .dot and .max (solids_GUI.py:70-71, 143-144) *)
  Definition entries (m : gmat T) : mat :=
    match m with Dense a => a | Csr a => a | OtherMat a => a end.

  (* m.max() of a square array of size n; ValueError on an empty one
     (solids_GUI.py:70-71, 143-144) *)
  Definition gmax (n : nat) (a : mat) : res T :=
    match concat (mk_mat n n (mget a)) with
    | [] => Err (ValueError "zero-size array")
    | x :: t => Ok (fold_left nmax t x)
    end.

  (* np.allclose(a, b), default tolerances (solids_GUI.py:70-71, 143-144) *)
  Definition allclose (a b : vec) : bool :=
    forallb (fun p => nleb (nabs (fst p - snd p))
                           (nofQ 1e-8 + nofQ 1e-5 * nabs (snd p))) (combine a b).

  (* not np.allclose(K.dot(u)/K.max(), f/K.max()); nan compares false
     (solids_GUI.py:70-71, 143-144) *)
  Definition not_equilibrium (n : nat) (K : mat) (u f : vec) : res bool :=
    _ <- guard (length u =? n)%nat (ValueError "dimension mismatch") ;;
    mx <- gmax n K ;;
    if nis0 mx then Ok true
    else Ok (negb (allclose (map (fun x => x / mx) (mvmul n n K u))
                            (map (fun x => x / mx) f))).

  (** Steps common to both drivers (solids_GUI.py:59-92 and 131-165): [cons], the
      coordinates given to the assembler and the node table of the other steps. *)
  Definition run (sv : solvers) (cons anodes nodes mats : mat) (elements : list (list Z))
             (loads : mat) (plot_contours compute_strains : bool) : res outcome :=
    '(assem_op, bc_array, neq) <- DME cons elements 2 18 None ;;
    let n := Z.to_nat neq in
    '(stiff_mat, _) <- assembler elements mats anodes n assem_op true None ;;
    rhs_vec <- loadasem loads bc_array n 2 ;;
    disp <- static_sol (spsolve sv) (npsolve sv) stiff_mat rhs_vec ;;
    warn <- not_equilibrium n (entries stiff_mat) disp rhs_vec ;;
    disp_complete <- complete_disp bc_array nodes disp 2 ;;
    strains <- (if compute_strains
                then es <- strain_nodes nodes elements mats disp_complete ;; Ok (Some es)
                else Ok None) ;;
    plot <- (if plot_contours
             then p <- fields_plot elements nodes disp_complete
                         (option_map fst strains) (option_map snd strains) ;;
                  Ok (Some p)
             else Ok None) ;;
    Ok {| out_nnodes := length nodes;
          out_nels := length elements;
          out_neq := neq;
          out_warn := warn;
          out_plot := plot;
          out_disp := disp_complete;
          out_strains := strains |}.

  (* solids_GUI.py:96-165 solids_auto; the dictionary entries are arguments *)
  Definition solids_auto (sv : solvers) (nodes cons : mat) (elements : list (list Z))
             (mats loads : mat) (plot_contours compute_strains : bool) : res outcome :=
    run sv cons nodes nodes mats elements loads plot_contours compute_strains.

  (* row[-2:] *)
  Definition last2 (row : vec) : vec := skipn (length row - 2) row.

  (* solids_GUI.py:24-92 solids_GUI.  [folder] None asks the user.  echo is the
     constant False, so echomod is not called. *)
  Definition solids_GUI (sv : solvers) (fs : fsys) (easygui : option (option string))
             (prompt : string) (plot_contours compute_strains : bool)
             (folder : option string) : res outcome :=
    let folder := match folder with
                  | None => initial_params easygui prompt
                  | Some f => f
                  end in
    '(nodes, mats, elements, loads) <- readin fs folder ;;
    run sv (map last2 nodes) (map (firstn 3) nodes) nodes mats elements loads
        plot_contours compute_strains.
End Main.
Arguments solvers : clear implicits.
Arguments outcome : clear implicits.
