(** * Model of solidspy/postprocesor.py *)
From Coq Require Import String QArith ZArith Arith Bool List.
From Verif Require Import Num LinAlg Gauss Fem Uel Assem.
Import ListNotations.
Local Open Scope string_scope.
Local Open Scope nat_scope.

Section Post.
  Context {T : Type} `{Num T}.
  Local Open Scope num_scope.
  Local Notation vec := (@vec T).
  Local Notation mat := (@mat T).

  (** ** Triangulation and plot requests *)

  (* triangs built by the loop of mesh2tri, one element (postprocesor.py:267-286) *)
  Definition pick (elem : list Z) (ids : list Z) : res (list Z) := mapM (np_get elem) ids.

  (* one element of the loop of mesh2tri (postprocesor.py:267-286) *)
  Definition elem_triangs (elem : list Z) : res (list (list Z)) :=
    t <- np_get elem 1 ;;
    if (t =? 1)%Z then mapM (pick elem) [[3; 4; 5]; [5; 6; 3]]%Z
    else if (t =? 2)%Z then mapM (pick elem) [[3; 6; 8]; [6; 7; 8]; [6; 4; 7]; [7; 5; 8]]%Z
    else if (t =? 3)%Z then Ok [skipn 3 elem]
    else if (t =? 4)%Z then
      mapM (pick elem) [[3; 7; 11]; [7; 4; 8]; [3; 11; 10]; [7; 8; 11];
                        [10; 11; 9]; [11; 8; 5]; [10; 9; 6]; [11; 5; 9]]%Z
    else Ok [].

  (* postprocesor.py:245-289 mesh2tri.  The matplotlib Triangulation object is
     modelled by its three arrays; its constructor rejects an empty or ragged
     triangle list and indices outside the points. *)
  Definition triangulation := (vec * vec * list (list Z))%type.

  (* postprocesor.py:245-289 mesh2tri *)
  Definition mesh2tri (nodes : mat) (elements : list (list Z)) : res triangulation :=
    coord_x <- mapM (fun row => np_get row 1) nodes ;;
    coord_y <- mapM (fun row => np_get row 2) nodes ;;
    tss <- mapM elem_triangs elements ;;
    let triangs := concat tss in
    _ <- guard (negb (length triangs =? 0)%nat
                && forallb (fun t => (length t =? 3)%nat) triangs)
           (ValueError "triangles must be a (?, 3) array") ;;
    _ <- guard (forallb (forallb (fun i => (0 <=? i)%Z && (i <? Z.of_nat (length coord_x))%Z)) triangs)
           (ValueError "triangles must be valid indices") ;;
    Ok (coord_x, coord_y, triangs).

  (** What fields_plot does: print the displacements, or one contour per column.
     (postprocesor.py:53-75) *)
  Inductive plot_action :=
  | Printed (disp : mat)
  | Contours (plots : list (string * triangulation * vec)).

  (* postprocesor.py:115-172 plot_node_field for a 2-D field; matplotlib calls are
     modelled by the list of (window title, triangulation, nodal values) *)
  Definition plot_node_field (field nodes : mat) (elements : list (list Z))
             (figtitle : list string) : res (list (string * triangulation * vec)) :=
    tri <- mesh2tri nodes elements ;;
    mapM (fun cont =>
            col <- mapM (fun row => np_get row (Z.of_nat cont)) field ;;
            ti <- np_get figtitle (Z.of_nat cont) ;;
            Ok (ti, tri, col))
         (seq 0 (ncols field)).

  (* [t in elements[:, 1]] *)
  Definition has_type (types : list Z) (t : Z) : bool := existsb (Z.eqb t) types.

  (* postprocesor.py:30-75 fields_plot *)
  Definition fields_plot (elements : list (list Z)) (nodes disp : mat)
             (E_nodes S_nodes : option mat) : res plot_action :=
    types <- mapM (fun e => np_get e 1) elements ;;
    if has_type types 5 || has_type types 6 || has_type types 7
    then Ok (Printed disp)
    else
      p1 <- plot_node_field disp nodes elements
              ["Horizontal displacement"; "Vertical displacement"] ;;
      p2 <- match E_nodes with
            | Some E => plot_node_field E nodes elements
                          ["Strain epsilon-xx"; "Strain epsilon-yy"; "Strain gamma-xy"]
            | None => Ok []
            end ;;
      p3 <- match S_nodes with
            | Some Sg => plot_node_field Sg nodes elements
                          ["Stress sigma-xx"; "Stress sigma-yy"; "Stress tau-xy"]
            | None => Ok []
            end ;;
      Ok (Contours (p1 ++ p2 ++ p3)%list).

  (** ** Displacement completion *)

  (* postprocesor.py:293-322 complete_disp *)
  Definition complete_disp (bc_array : list (list Z)) (nodes : mat) (sol : vec)
             (ndof_node : nat) : res mat :=
    mapM (fun row =>
            mapM (fun col =>
                    brow <- np_get bc_array (Z.of_nat row) ;;
                    cons <- np_get brow (Z.of_nat col) ;;
                    if (cons =? -1)%Z then Ok n0 else np_get sol cons)
                 (seq 0 ndof_node))
         (seq 0 (length nodes)).

  (** ** Strains and stresses at the nodes *)

  (* a[IELCON[el, :], c] (postprocesor.py:376-379) *)
  Definition take_col (a : mat) (ids : list Z) (c : Z) : res vec :=
    mapM (fun i => np_get2 a i c) ids.

  (* dst[...] = v where dst has n entries: equal length or a single value
     (postprocesor.py:376-379) *)
  Definition fit (n : nat) (v : vec) : res vec :=
    if (length v =? n)%nat then Ok v
    else match v with
         | [x] => Ok (repeat x n)
         | _ => Err (ValueError "could not broadcast input array")
         end.

  (* postprocesor.py:380-385 *)
  Definition element_strains (iet : Z) (elcoor : mat) (ul : vec) : res mat :=
    if (iet =? 1)%Z then '(e, _) <- str_el4 elcoor ul ;; Ok e
    else if (iet =? 2)%Z then '(e, _) <- str_el6 elcoor ul ;; Ok e
    else if (iet =? 3)%Z then '(e, _) <- str_el3 elcoor ul ;; Ok e
    else Err UnboundLocalError.

  (* row += [a; b; c] (postprocesor.py:387-393) *)
  Definition add_row (d row : vec) : vec :=
    mk_vec 3 (fun k => vget row k + vget d k).

  (* E_nodes, S_nodes, el_nodes (postprocesor.py:365-367) *)
  Definition acc := (mat * mat * list Z)%type.

  (* postprocesor.py:386-393, one node of one element *)
  Definition node_acc (fact1 fact2 shear : T) (epsG : mat) (st : acc) (cn : nat * Z)
    : res acc :=
    let '(E, Sg, cnt) := st in
    let (cont, node) := cn in
    eps <- np_get epsG (Z.of_nat cont) ;;
    let e0 := vget eps 0 in
    let e1 := vget eps 1 in
    let e2 := vget eps 2 in
    E' <- np_upd E node (add_row [e0; e1; e2]) ;;
    Sg' <- np_upd Sg node (add_row [fact1*e0 + fact2*e1; fact2*e0 + fact1*e1; shear*e2]) ;;
    cnt' <- np_upd cnt node (fun k => (k + 1)%Z) ;;
    Ok (E', Sg', cnt').

  (* postprocesor.py:371-393, one element.  elcoor and ul are overwritten in
     every iteration, so they are modelled as fresh arrays. *)
  Definition strain_elem (iet : Z) (ndof nnodes_elem : nat) (nodes mats sol : mat)
             (st : acc) (elem : list Z) : res acc :=
    im <- np_get elem 2 ;;
    row <- np_get mats im ;;
    match row with
    | [young; poisson] =>
        _ <- guard (negb (nis0 (nz 2 * (n1 + poisson)))) NonFinite ;;
        _ <- guard (negb (nis0 (n1 - npow poisson 2))) NonFinite ;;
        let shear := young / (nz 2 * (n1 + poisson)) in
        let fact1 := young / (n1 - npow poisson 2) in
        let fact2 := poisson * young / (n1 - npow poisson 2) in
        let con := skipn 3 elem in
        xs <- take_col nodes con 1 ;;
        xs <- fit nnodes_elem xs ;;
        ys <- take_col nodes con 2 ;;
        ys <- fit nnodes_elem ys ;;
        let elcoor := map (fun xy => [fst xy; snd xy]) (combine xs ys) in
        us <- take_col sol con 0 ;;
        us <- fit (ndof - ndof / 2)%nat us ;;
        vs <- take_col sol con 1 ;;
        vs <- fit (ndof / 2)%nat vs ;;
        let ul := mk_vec ndof (fun k => if (k mod 2 =? 0)%nat then vget us (k / 2)
                                        else vget vs (k / 2)) in
        epsG <- element_strains iet elcoor ul ;;
        foldM (node_acc fact1 fact2 shear epsG) (combine (seq 0 (length con)) con) st
    | _ => Err (ValueError "unpack")
    end.

  (* a[:, c] /= el_nodes for the three columns (postprocesor.py:395-400); the row of a
     node in no element is 0/0, three nan, written [None] *)
  Definition average (a : mat) (cnt : list Z) : list (option vec) :=
    map (fun rc =>
           let (row, c) := (rc : vec * Z) in
           if (c =? 0)%Z then None else Some (mk_vec 3 (fun k => vget row k / nz c)))
        (combine a cnt).

  (* postprocesor.py:325-401 strain_nodes, rows of nodes in no element kept as [None] *)
  Definition strain_rows (nodes : mat) (elements : list (list Z)) (mats sol : mat)
    : res (list (option vec) * list (option vec)) :=
    let nnodes := length nodes in
    e0 <- np_get elements 0 ;;
    iet <- np_get e0 1 ;;
    '(ndof, nnodes_elem, _) <- eletype iet ;;
    '(E, Sg, cnt) <- foldM (strain_elem iet ndof nnodes_elem nodes mats sol) elements
                      (zeros nnodes 3, zeros nnodes 3, repeat 0%Z nnodes) ;;
    Ok (average E cnt, average Sg cnt).

  (* an array without nan (postprocesor.py:395-400) *)
  Definition finite_rows (a : list (option vec)) : res mat :=
    mapM (fun o => match o with Some v => Ok v | None => Err NonFinite end) a.

  (* postprocesor.py:325-401 strain_nodes, where a nan row is an error *)
  Definition strain_nodes (nodes : mat) (elements : list (list Z)) (mats sol : mat)
    : res (mat * mat) :=
    '(E, Sg) <- strain_rows nodes elements mats sol ;;
    E' <- finite_rows E ;;
    Sg' <- finite_rows Sg ;;
    Ok (E', Sg').

  (** ** Trusses *)

  (* postprocesor.py:546-555, one bar *)
  Definition stress_bar (nodes mats disp : mat) (elem : list Z) : res T :=
    ini <- np_get elem 3 ;;
    en <- np_get elem 4 ;;
    ra <- np_get nodes ini ;;
    rb <- np_get nodes en ;;
    let ca := firstn 2 (skipn 1 ra) in
    let cb := firstn 2 (skipn 1 rb) in
    let tan_vec := map (fun ba => fst ba - snd ba) (combine cb ca) in
    let len := nsqrt (fold_right nadd n0 (map (fun x => x * x) tan_vec)) in
    mat_id <- np_get elem 2 ;;
    params <- np_get mats mat_id ;;
    '(local_stiff, _) <- truss2D [ca; cb] params ;;
    da <- np_get disp ini ;;
    db <- np_get disp en ;;
    let local_disp := (da ++ db)%list in
    _ <- guard (length local_disp =? 4)%nat (ValueError "shapes not aligned") ;;
    let local_forces := mvmul 4 4 local_stiff local_disp in
    area <- np_get params 1 ;;
    _ <- guard (negb (nis0 (len * area))) NonFinite ;;
    Ok ((vget local_forces 2 * vget tan_vec 0 + vget local_forces 3 * vget tan_vec 1)
        / (len * area)).

  (* postprocesor.py:404-556 stress_truss *)
  Definition stress_truss (nodes : mat) (elements : list (list Z)) (mats disp : mat)
    : res vec :=
    mapM (stress_bar nodes mats disp) elements.

  (** ** Principal values *)

  (* np.abs(mat).max() of a 2x2 array *)
  Definition abs_max (m : mat) : T :=
    nmax (nmax (nabs (mget m 0 0)) (nabs (mget m 0 1)))
         (nmax (nabs (mget m 1 0)) (nabs (mget m 1 1))).

  (* postprocesor.py:559-617 eigvals for a 2x2 array; a NaN direction is [None] *)
  Definition eigvals (m : mat) (tol : T) : res (T * T * option vec * option vec) :=
    let a := mget m 0 0 in
    let b := mget m 0 1 in
    let d := mget m 1 1 in
    r <- (if nltb (abs_max m) tol then Ok (n0, n0, None, None)
          else
            _ <- guard (negb (nis0 (abs_max m))) NonFinite ;;
            if nltb (nabs b / abs_max m) tol
            then Ok (a, d, Some [n1; n0], Some [n0; n1])
            else
              let trace := a + d in
              let det := a*d - npow b 2 in
              let root := nsqrt (npow trace 2 - nz 4*det) in
              let eig1 := nofQ 0.5*(trace - root) in
              let eig2 := nofQ 0.5*(trace + root) in
              let v0 := a - eig2 in
              let nrm := nsqrt (npow v0 2 + npow b 2) in
              _ <- guard (negb (nis0 nrm)) NonFinite ;;
              let x := v0/nrm in
              let y := b/nrm in
              Ok (eig1, eig2, Some [x; y], Some [- y; x])) ;;
    let '(eig1, eig2, vec1, vec2) := r in
    if nltb (nabs eig1) (nabs eig2)
    then Ok (eig2, eig1, vec2, vec1)
    else Ok (eig1, eig2, vec1, vec2).

  (* postprocesor.py:620-656 principal_dirs; one result per row of the field *)
  Definition principal_dirs (field : mat)
    : res (list (T * T * option vec * option vec)) :=
    mapM (fun tensor =>
            t0 <- np_get tensor 0 ;;
            t1 <- np_get tensor 1 ;;
            t2 <- np_get tensor 2 ;;
            eigvals [[t0; t2]; [n0; t1]] (nofQ 1e-6)) field.

  (* postprocesor.py:659-678 energy, for a square stiffness of the size of disp *)
  Definition energy (disp : vec) (stiff : mat) : T :=
    let n := length disp in
    let force := mvmul n n stiff disp in
    nofQ (-0.5) * vdot n force disp.
End Post.
Arguments plot_action : clear implicits.
Arguments triangulation : clear implicits.
