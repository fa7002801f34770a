(** * Model of solidspy/femutil.py *)
From Coq Require Import String QArith ZArith Arith Bool List.
From Verif Require Import Num LinAlg Gauss.
Import ListNotations.
Local Open Scope string_scope.
Local Open Scope nat_scope.

(* femutil.py:27-67 eletype: (ndof, nnodes, ngpts) *)
Definition eletype (t : Z) : res (nat * nat * nat) :=
  match t with
  | 1%Z => Ok (8, 4, 4)
  | 2%Z => Ok (12, 6, 7)
  | 3%Z => Ok (6, 3, 3)
  | 4%Z => Ok (18, 9, 9)
  | 5%Z => Ok (4, 2, 3)
  | 6%Z => Ok (4, 2, 3)
  | 7%Z => Ok (6, 2, 3)
  | 8%Z => Ok (6, 2, 3)
  | _ => Err (ValueError "You entered an invalid type of element.")
  end.

Section Fem.
  Context {T : Type} `{Num T}.
  Local Open Scope num_scope.
  Local Notation "1" := n1 : num_scope.
  Local Notation "0" := n0 : num_scope.
  Local Notation "2" := (nz 2) : num_scope.
  Local Notation "3" := (nz 3) : num_scope.
  Local Notation "4" := (nz 4) : num_scope.
  Local Notation "8" := (nz 8) : num_scope.

  (** ** Shape functions: (N, dNdr) *)

  (* femutil.py:73-118 shape_tri3 *)
  Definition shape_tri3 (r s : T) : vec * mat :=
    ([1 - r - s; r; s],
     [[- (1); 1; 0];
      [- (1); 0; 1]]).

  (* femutil.py:121-150 shape_tri6 *)
  Definition shape_tri6 (r s : T) : vec * mat :=
    ([(1 - r - s) - 2*r*(1 - r - s) - 2*s*(1 - r - s);
      r - 2*r*(1 - r - s) - 2*r*s;
      s - 2*r*s - 2*s*(1 - r - s);
      4*r*(1 - r - s);
      4*r*s;
      4*s*(1 - r - s)],
     [[4*r + 4*s - 3; 4*r - 1; 0; - (8*r) - 4*s + 4; 4*s; - (4*s)];
      [4*r + 4*s - 3; 0; 4*s - 1; - (4*r); 4*r; - (4*r) - 8*s + 4]]).

  (* femutil.py:153-202 shape_quad4 *)
  Definition shape_quad4 (r s : T) : vec * mat :=
    (vscale (nofQ 0.25)
       [(1 - r)*(1 - s);
        (1 + r)*(1 - s);
        (1 + r)*(1 + s);
        (1 - r)*(1 + s)],
     mscale (nofQ 0.25)
       [[s - 1; - s + 1; s + 1; - s - 1];
        [r - 1; - r - 1; r + 1; - r + 1]]).

  (* femutil.py:205-253 shape_quad9 *)
  Definition shape_quad9 (r s : T) : vec * mat :=
    let q := nofQ 0.25 in
    let h := nofQ 0.5 in
    let r2 := npow r 2 in
    let s2 := npow s 2 in
    ([q*r*s*(r - 1)*(s - 1);
      q*r*s*(r + 1)*(s - 1);
      q*r*s*(r + 1)*(s + 1);
      q*r*s*(r - 1)*(s + 1);
      h*s*(- r2 + 1)*(s - 1);
      h*r*(r + 1)*(- s2 + 1);
      h*s*(- r2 + 1)*(s + 1);
      h*r*(r - 1)*(- s2 + 1);
      (- r2 + 1)*(- s2 + 1)],
     [[q*s*(2*r - 1)*(s - 1);
       q*s*(2*r + 1)*(s - 1);
       q*s*(2*r + 1)*(s + 1);
       q*s*(2*r - 1)*(s + 1);
       r*s*(- s + 1);
       - h*(2*r + 1)*(s2 - 1);
       - r*s*(s + 1);
       h*(- (2*r) + 1)*(s2 - 1);
       2*r*(s2 - 1)];
      [q*r*(r - 1)*(2*s - 1);
       q*r*(r + 1)*(2*s - 1);
       q*r*(r + 1)*(2*s + 1);
       q*r*(r - 1)*(2*s + 1);
       h*(r2 - 1)*(- (2*s) + 1);
       - r*s*(r + 1);
       - h*(r2 - 1)*(2*s + 1);
       r*s*(- r + 1);
       2*s*(r2 - 1)]]).

  (* femutil.py:257-302 shape_quad8 *)
  Definition shape_quad8 (r s : T) : vec * mat :=
    let r2 := npow r 2 in
    let s2 := npow s 2 in
    (vscale (nofQ 0.25)
       [(1 - r)*(1 - s) - (1 - r)*(1 - s2) - (1 - s)*(1 - r2);
        (1 + r)*(1 - s) - (1 + r)*(1 - s2) - (1 - s)*(1 - r2);
        (1 + r)*(1 + s) - (1 + r)*(1 - s2) - (1 + s)*(1 - r2);
        (1 - r)*(1 + s) - (1 - r)*(1 - s2) - (1 + s)*(1 - r2);
        2*(1 - s)*(1 - r2);
        2*(1 + r)*(1 - s2);
        2*(1 + s)*(1 - r2);
        2*(1 - r)*(1 - s2)],
     mscale (nofQ 0.25)
       [[- (2)*r*(s - 1) - s2 + s;
         - (2)*r*(s - 1) + s2 - s;
         - (2)*r*(- s - 1) + s2 + s;
         - (2)*r*(- s - 1) - s2 - s;
         - (2)*r*(2 - 2*s);
         2 - 2*s2;
         - (2)*r*(2*s + 2);
         2*s2 - 2];
        [- r2 + r - 2*s*(r - 1);
         - r2 - r - 2*s*(- r - 1);
         r2 + r - 2*s*(- r - 1);
         r2 - r - 2*s*(r - 1);
         2*r2 - 2;
         - (2)*s*(2*r + 2);
         2 - 2*r2;
         - (2)*s*(2 - 2*r)]]).

  (* femutil.py:306-332 shape_tet4 *)
  Definition shape_tet4 (r s t : T) : vec * mat :=
    ([1 - r - s - t; r; s; t],
     [[- (1); 1; 0; 0];
      [- (1); 0; 1; 0];
      [- (1); 0; 0; 1]]).

  (* femutil.py:335-374 shape_hex8 *)
  Definition shape_hex8 (r s t : T) : vec * mat :=
    let N :=
      [(1 - r)*(1 - s)*(1 - t); (1 - s)*(1 - t)*(r + 1);
       (1 - t)*(r + 1)*(s + 1); (1 - r)*(1 - t)*(s + 1);
       (1 - r)*(1 - s)*(t + 1); (1 - s)*(r + 1)*(t + 1);
       (r + 1)*(s + 1)*(t + 1); (1 - r)*(s + 1)*(t + 1)] in
    let dNdr :=
      [[(1 - t)*(s - 1); (1 - s)*(1 - t);
        (1 - t)*(s + 1); (1 - t)*(- s - 1);
        (1 - s)*(- t - 1); (1 - s)*(t + 1);
        (s + 1)*(t + 1); - (s + 1)*(t + 1)];
       [(1 - t)*(r - 1); (1 - t)*(- r - 1);
        (1 - t)*(r + 1); (1 - r)*(1 - t);
        - (1 - r)*(t + 1); - (r + 1)*(t + 1);
        (r + 1)*(t + 1); (1 - r)*(t + 1)];
       [- (1 - r)*(1 - s); - (1 - s)*(r + 1);
        - (r + 1)*(s + 1); - (1 - r)*(s + 1);
        (1 - r)*(1 - s); (1 - s)*(r + 1);
        (r + 1)*(s + 1); (1 - r)*(s + 1)]] in
    (vscale (nofQ 0.125) N, mscale (nofQ 0.125) dNdr).

  (** ** Jacobian *)

  (* np.linalg.det for 2x2 and 3x3 arrays (cofactor expansion; equal to the LU
     value in exact arithmetic).  Other sizes do not occur: every dNdr table
     has 2 or 3 rows. *)
  Definition det2 (J : mat) : T :=
    mget J 0 0 * mget J 1 1 - mget J 0 1 * mget J 1 0.
  (* np.linalg.det, 3x3 (femutil.py:528) *)
  Definition det3 (J : mat) : T :=
    mget J 0 0 * (mget J 1 1 * mget J 2 2 - mget J 1 2 * mget J 2 1)
    - mget J 0 1 * (mget J 1 0 * mget J 2 2 - mget J 1 2 * mget J 2 0)
    + mget J 0 2 * (mget J 1 0 * mget J 2 1 - mget J 1 1 * mget J 2 0).
  (* np.linalg.det (femutil.py:528) *)
  Definition mdet (d : nat) (J : mat) : T :=
    match d with
    | 2%nat => det2 J
    | 3%nat => det3 J
    | _ => 0
    end.

  (* np.linalg.inv for 2x2 and 3x3 arrays with determinant [det] *)
  Definition inv2 (det : T) (J : mat) : mat :=
    [[mget J 1 1 / det; - mget J 0 1 / det];
     [- mget J 1 0 / det; mget J 0 0 / det]].
  (* 2x2 minor, part of np.linalg.inv (femutil.py:532) *)
  Definition minor2 (J : mat) (i j k l : nat) : T :=
    mget J i j * mget J k l - mget J i l * mget J k j.
  (* np.linalg.inv, 3x3 (femutil.py:532) *)
  Definition inv3 (det : T) (J : mat) : mat :=
    [[minor2 J 1 1 2 2 / det; - minor2 J 0 1 2 2 / det; minor2 J 0 1 1 2 / det];
     [- minor2 J 1 0 2 2 / det; minor2 J 0 0 2 2 / det; - minor2 J 0 0 1 2 / det];
     [minor2 J 1 0 2 1 / det; - minor2 J 0 0 2 1 / det; minor2 J 0 0 1 1 / det]].
  (* np.linalg.inv (femutil.py:532) *)
  Definition minv (d : nat) (det : T) (J : mat) : mat :=
    match d with
    | 2%nat => inv2 det J
    | 3%nat => inv3 det J
    | _ => []
    end.

  (* np.isclose(x, 0.0): |x - 0| <= atol + rtol*|0| with atol = 1e-8 *)
  Definition isclose0 (x : T) : bool := nleb (nabs x) (nofQ 1e-8).

  (* femutil.py:508-536 jacoper.  The first two tests are raised by numpy:
     dNdr @ coord with mismatched shapes, det of a non-square array. *)
  Definition jacoper (dNdr coord : mat) : res (T * mat) :=
    let d := length dNdr in
    let n := ncols dNdr in
    _ <- guard (length coord =? n) (ValueError "matmul: mismatch in core dimension") ;;
    _ <- guard (ncols coord =? d) LinAlgError ;;
    let jaco := mmul d n d dNdr coord in
    let det := mdet d jaco in
    if isclose0 (nabs det)
    then Err (ValueError "Jacobian close to zero. Check the shape of your elements!")
    else
      let jaco_inv := minv d det jaco in
      if nltb det 0
      then Err (ValueError "Jacobian is negative. Check your elements orientation!")
      else Ok (det, jaco_inv).

  (** ** Interpolation and strain-displacement matrices: (H, B, det) *)

  (* femutil.py:378-413 elast_diff_2d *)
  Definition elast_diff_2d (r s : T) (coord : mat) (element : T -> T -> vec * mat)
    : res (mat * mat * T) :=
    let (N, dNdr) := element r s in
    '(det, jaco_inv) <- jacoper dNdr coord ;;
    let n := length N in
    let dNdx := mmul 2 2 n jaco_inv dNdr in
    let H0 := zeros 2 (2*n) in
    let B0 := zeros 3 (2*n) in
    let H1 := set_strided 2 (2*n) H0 0 0 2 N in
    let H2 := set_strided 2 (2*n) H1 1 1 2 N in
    let B1 := set_strided 3 (2*n) B0 0 0 2 (nth 0 dNdx []) in
    let B2 := set_strided 3 (2*n) B1 1 1 2 (nth 1 dNdx []) in
    let B3 := set_strided 3 (2*n) B2 2 0 2 (nth 1 dNdx []) in
    let B4 := set_strided 3 (2*n) B3 2 1 2 (nth 0 dNdx []) in
    Ok (H2, B4, det).

  (* femutil.py:416-456 elast_diff_axi.  N.dot(coord[:, 0]) needs as many rows as
     shape functions; x == 0 makes N/x non-finite. *)
  Definition elast_diff_axi (r s : T) (coord : mat) (element : T -> T -> vec * mat)
    : res (mat * mat * T) :=
    let (N, dNdr) := element r s in
    let n := length N in
    _ <- guard (length coord =? n) (ValueError "shapes not aligned") ;;
    let x := sumn n (fun k => vget N k * mget coord k 0) in
    if nltb x 0 then Err (ValueError "Horizontal coordinates should be non-negative.")
    else
      '(det, jaco_inv) <- jacoper dNdr coord ;;
      let dNdx := mmul 2 2 n jaco_inv dNdr in
      let H0 := zeros 2 (2*n) in
      let B0 := zeros 4 (2*n) in
      let H1 := set_strided 2 (2*n) H0 0 0 2 N in
      let H2 := set_strided 2 (2*n) H1 1 1 2 N in
      let B1 := set_strided 4 (2*n) B0 0 0 2 (nth 0 dNdx []) in
      let B2 := set_strided 4 (2*n) B1 1 1 2 (nth 1 dNdx []) in
      let B3 := set_strided 4 (2*n) B2 2 0 2 (nth 1 dNdx []) in
      let B4 := set_strided 4 (2*n) B3 2 1 2 (nth 0 dNdx []) in
      let B5 := set_strided 4 (2*n) B4 2 1 2 (nth 0 dNdx []) in
      _ <- guard (negb (nis0 x)) NonFinite ;;
      let B6 := set_strided 4 (2*n) B5 3 0 2 (map (fun v => v / x) N) in
      Ok (H2, B6, det).

  (* femutil.py:460-504 elast_diff_3d *)
  Definition elast_diff_3d (r s t : T) (coord : mat) (interp : T -> T -> T -> vec * mat)
    : res (mat * mat * T) :=
    let (N, dNdr) := interp r s t in
    '(det, jaco_inv) <- jacoper dNdr coord ;;
    let n := length N in
    let dNdx := mmul 3 3 n jaco_inv dNdr in
    let H0 := zeros 3 (3*n) in
    let B0 := zeros 6 (3*n) in
    let H1 := set_strided 3 (3*n) H0 0 0 3 N in
    let H2 := set_strided 3 (3*n) H1 1 1 3 N in
    let H3 := set_strided 3 (3*n) H2 2 2 3 N in
    let B1 := set_strided 6 (3*n) B0 0 0 3 (nth 0 dNdx []) in
    let B2 := set_strided 6 (3*n) B1 1 1 3 (nth 1 dNdx []) in
    let B3 := set_strided 6 (3*n) B2 2 2 3 (nth 2 dNdx []) in
    let B4 := set_strided 6 (3*n) B3 3 1 3 (nth 2 dNdx []) in
    let B5 := set_strided 6 (3*n) B4 3 2 3 (nth 1 dNdx []) in
    let B6 := set_strided 6 (3*n) B5 4 0 3 (nth 2 dNdx []) in
    let B7 := set_strided 6 (3*n) B6 4 2 3 (nth 0 dNdx []) in
    let B8 := set_strided 6 (3*n) B7 5 0 3 (nth 1 dNdx []) in
    let B9 := set_strided 6 (3*n) B8 5 1 3 (nth 0 dNdx []) in
    Ok (H3, B9, det).

  (** ** Material matrices *)

  (* femutil.py:540-583 umat; the argument is params = (E, nu) *)
  Definition umat (params : list T) : res mat :=
    match params with
    | [E; nu] =>
        let den := 1 - npow nu 2 in
        _ <- guard (negb (nis0 den)) NonFinite ;;
        let enu := E / den in
        let mnu := (1 - nu) / 2 in
        Ok [[enu; nu*enu; 0];
            [nu*enu; enu; 0];
            [0; 0; enu*mnu]]
    | _ => Err (ValueError "unpack")
    end.

  (* lamda and mu, femutil.py:608-609 = 638-639 = 668-669 *)
  Definition lame (params : list T) : res (T * T) :=
    match params with
    | [E; nu] =>
        _ <- guard (negb (nis0 (1 + nu))) NonFinite ;;
        _ <- guard (negb (nis0 (1 - 2*nu))) NonFinite ;;
        Ok (E*nu/(1 + nu)/(1 - 2*nu), nofQ 0.5*E/(1 + nu))
    | _ => Err (ValueError "unpack")
    end.

  (* femutil.py:586-615 elast_mat_2d *)
  Definition elast_mat_2d (params : list T) : res mat :=
    '(lamda, mu) <- lame params ;;
    Ok [[2*mu + lamda; lamda; 0; 0];
        [lamda; 2*mu + lamda; 0; 0];
        [0; 0; mu; 0];
        [0; 0; 0; 2*mu + lamda]].

  (* femutil.py:618-645 elast_mat_axi *)
  Definition elast_mat_axi (params : list T) : res mat :=
    '(lamda, mu) <- lame params ;;
    Ok [[2*mu + lamda; lamda; 0; 0];
        [lamda; 2*mu + lamda; 0; 0];
        [0; 0; mu; 0];
        [0; 0; 0; 2*mu + lamda]].

  (* femutil.py:648-677 elast_mat *)
  Definition elast_mat (params : list T) : res mat :=
    '(lamda, mu) <- lame params ;;
    Ok [[2*mu + lamda; lamda; lamda; 0; 0; 0];
        [lamda; 2*mu + lamda; lamda; 0; 0; 0];
        [lamda; lamda; 2*mu + lamda; 0; 0; 0];
        [0; 0; 0; mu; 0; 0];
        [0; 0; 0; 0; mu; 0];
        [0; 0; 0; 0; 0; mu]].

  (** ** Element strains: (epsG.T, xl) *)

  (* r, s = gpts[i, :] (femutil.py:706, uelutil.py:72) *)
  Definition unpack2 (p : list T) : res (T * T) :=
    match p with
    | [r; s] => Ok (r, s)
    | _ => Err (ValueError "unpack")
    end.

  (* Body of the loops femutil.py:705-710, 737-742, 769-774: the strain row
     B @ ul and the "position" row; both entries of the latter use coord[:, 0]. *)
  Definition str_el_point (element : T -> T -> vec * mat) (coord : mat) (ul : vec)
             (p : list T) : res (vec * vec) :=
    '(ri, si) <- unpack2 p ;;
    '(Hm, B, _) <- elast_diff_2d ri si coord element ;;
    let n := length (fst (element ri si)) in
    _ <- guard (length ul =? 2*n) (ValueError "matmul: mismatch in core dimension") ;;
    let eps := mvmul 3 (2*n) B ul in
    let xl0 := sumn n (fun k => mget Hm 0 (2*k) * mget coord k 0) in
    let xl1 := sumn n (fun k => mget Hm 0 (2*k) * mget coord k 0) in
    Ok (eps, [xl0; xl1]).

  (* The loops; [cap] is the number of columns epsG (rows of xl) is allocated
     with, rows that are not written stay zero. (femutil.py:702-711, 734-743, 766-775) *)
  Definition str_el_loop (element : T -> T -> vec * mat) (cap : nat) (gpts : list (list T))
             (coord : mat) (ul : vec) : res (mat * mat) :=
    rows <- mapM (str_el_point element coord ul) gpts ;;
    let k := (cap - length rows)%nat in
    Ok (map fst rows ++ repeat [0; 0; 0] k, map snd rows ++ repeat [0; 0] k)%list.

  (* femutil.py:682-711 str_el3 *)
  Definition str_el3 (coord : mat) (ul : vec) : res (mat * mat) :=
    '(gpts, _) <- gauss_tri 1 ;;
    str_el_loop shape_tri3 3 gpts coord ul.

  (* femutil.py:714-743 str_el6; range(7) is the number of points of the rule *)
  Definition str_el6 (coord : mat) (ul : vec) : res (mat * mat) :=
    '(gpts, _) <- gauss_tri 3 ;;
    str_el_loop shape_tri6 7 gpts coord ul.

  (* femutil.py:746-775 str_el4 *)
  Definition str_el4 (coord : mat) (ul : vec) : res (mat * mat) :=
    '(gpts, _) <- gauss_nd 2 2 ;;
    str_el_loop shape_quad4 4 gpts coord ul.
End Fem.
