(** * Model of solidspy/uelutil.py *)
From Coq Require Import String QArith ZArith Arith Bool List.
From Verif Require Import Num LinAlg Gauss Fem.
Import ListNotations.
Local Open Scope string_scope.
Local Open Scope nat_scope.

Section Uel.
  Context {T : Type} `{Num T}.
  Local Open Scope num_scope.
  Local Notation vec := (@vec T).
  Local Notation mat := (@mat T).
  Local Notation "1" := n1 : num_scope.
  Local Notation "0" := n0 : num_scope.

  (** Second component returned by an element routine: a 2-D array, or the 1-D
      array returned by [spring] (uelutil.py:445). *)
  Inductive massmat :=
  | M2 (m : mat)
  | M1 (v : vec).

  (* signature of the element routines: (coord, params) -> stiffness, mass (uelutil.py:19, 80, ..., 573) *)
  Definition uel_fun := mat -> list T -> res (mat * massmat).

  (** The quadrature loop shared by the continuum elements (uelutil.py:71-76,
      141-146, 213-218, 250-255, 284-290, 321-327, 354-361, 388-395):
      stiff_mat += sK(det, w) * (B.T @ C @ B);  mass_mat += sM(det, w) * (H.T @ H)
      with B of shape (nst, ndof), H of shape (nd, ndof).  Each element below
      passes its own factors.  Simplification: one definition instead of eight
      copies of the loop. *)
  Definition integrate (nst nd ndof : nat) (diff : list T -> res (mat * mat * T))
             (C : mat) (sK sM : T -> T -> T) (gps : list (list T * T))
    : res (mat * mat) :=
    foldM
      (fun KM pw =>
         let (K, M) := (KM : mat * mat) in
         let (p, w) := (pw : list T * T) in
         '(Hm, B, det) <- diff p ;;
         let K' := madd ndof ndof K
                     (mscale (sK det w)
                        (mmul ndof nst ndof (mmul ndof nst nst (mtr nst ndof B) C) B)) in
         let M' := madd ndof ndof M
                     (mscale (sM det w) (mmul ndof nd ndof (mtr nd ndof Hm) Hm)) in
         Ok (K', M'))
      gps (zeros ndof ndof, zeros ndof ndof).

  (* r, s, t of a row of gpts (uelutil.py:355-357, 389-391) *)
  Definition unpack3 (p : list T) : res (T * T * T) :=
    match p with
    | [r; s; t] => Ok (r, s, t)
    | _ => Err (ValueError "unpack")
    end.

  (* r, s = gpts[cont, :]; fem.elast_diff_2d(r, s, coord, shape) (uelutil.py:72-73, 142-143, 214-215, 251-252, 285-287) *)
  Definition diff2 (coord : mat) (element : T -> T -> vec * mat) (p : list T) :=
    '(r, s) <- unpack2 p ;; elast_diff_2d r s coord element.
  (* the same with fem.elast_diff_axi (uelutil.py:322-324) *)
  Definition diff_axi (coord : mat) (element : T -> T -> vec * mat) (p : list T) :=
    '(r, s) <- unpack2 p ;; elast_diff_axi r s coord element.
  (* the same with fem.elast_diff_3d (uelutil.py:355-358, 389-392) *)
  Definition diff3 (coord : mat) (element : T -> T -> T -> vec * mat) (p : list T) :=
    '(r, s, t) <- unpack3 p ;; elast_diff_3d r s t coord element.

  (* if len(params) == 2: dens = 1 else: dens = params[-1]
     (uelutil.py:66-69, 136-139, 208-211, 245-248, 502-505) *)
  Definition opt_dens (params : list T) : T :=
    if (length params =? 2)%nat then 1 else last params 1.

  (* E, nu, rho = params (uelutil.py:279, 316, 349, 383) *)
  Definition params3 (params : list T) : res (T * T * T) :=
    match params with
    | [E; nu; rho] => Ok (E, nu, rho)
    | _ => Err (ValueError "unpack")
    end.

  (* return stiff_mat, mass_mat (uelutil.py:77, 147, 219, 256, 291, 328, 362, 396) *)
  Definition wrap (KM : mat * mat) : mat * massmat := (fst KM, M2 (snd KM)).

  (* uelutil.py:19-77 elast_tri3 *)
  Definition elast_tri3 : uel_fun := fun coord params =>
    C <- umat (firstn 2 params) ;;
    let dens := opt_dens params in
    '(gpts, gwts) <- gauss_tri 2 ;;
    KM <- integrate 3 2 6 (diff2 coord shape_tri3) C
            (fun det w => nofQ 0.5 * (det * w))
            (fun det w => nofQ 0.5 * dens * (det * w)) (combine gpts gwts) ;;
    Ok (wrap KM).

  (* uelutil.py:80-147 elast_tri6 *)
  Definition elast_tri6 : uel_fun := fun coord params =>
    C <- umat (firstn 2 params) ;;
    let dens := opt_dens params in
    '(gpts, gwts) <- gauss_tri 3 ;;
    KM <- integrate 3 2 12 (diff2 coord shape_tri6) C
            (fun det w => nofQ 0.5 * (w * det))
            (fun det w => nofQ 0.5 * dens * (w * det)) (combine gpts gwts) ;;
    Ok (wrap KM).

  (* uelutil.py:151-219 elast_quad4 *)
  Definition elast_quad4 : uel_fun := fun coord params =>
    C <- umat (firstn 2 params) ;;
    let dens := opt_dens params in
    '(gpts, gwts) <- gauss_nd 2 2 ;;
    KM <- integrate 3 2 8 (diff2 coord shape_quad4) C
            (fun det w => det * w)
            (fun det w => dens * (det * w)) (combine gpts gwts) ;;
    Ok (wrap KM).

  (* uelutil.py:222-256 elast_quad9 *)
  Definition elast_quad9 : uel_fun := fun coord params =>
    C <- umat (firstn 2 params) ;;
    let dens := opt_dens params in
    '(gpts, gwts) <- gauss_nd 3 2 ;;
    KM <- integrate 3 2 18 (diff2 coord shape_quad9) C
            (fun det w => det * w)
            (fun det w => dens * (det * w)) (combine gpts gwts) ;;
    Ok (wrap KM).

  (* uelutil.py:259-291 elast_quad8 *)
  Definition elast_quad8 : uel_fun := fun coord params =>
    '(E, nu, rho) <- params3 params ;;
    C <- umat [E; nu] ;;
    '(gpts, gwts) <- gauss_nd 3 2 ;;
    KM <- integrate 3 2 16 (diff2 coord shape_quad8) C
            (fun det w => det * w)
            (fun det w => rho * (det * w)) (combine gpts gwts) ;;
    Ok (wrap KM).

  (* uelutil.py:295-328 elast_axi_quad9 *)
  Definition elast_axi_quad9 : uel_fun := fun coord params =>
    '(E, nu, rho) <- params3 params ;;
    C <- elast_mat_axi [E; nu] ;;
    '(gpts, gwts) <- gauss_nd 3 2 ;;
    KM <- integrate 4 2 18 (diff_axi coord shape_quad9) C
            (fun det w => det * w)
            (fun det w => rho * (det * w)) (combine gpts gwts) ;;
    Ok (wrap KM).

  (* uelutil.py:331-362 elast_tet4 *)
  Definition elast_tet4 : uel_fun := fun coord params =>
    '(E, nu, rho) <- params3 params ;;
    C <- elast_mat [E; nu] ;;
    '(gpts, gwts) <- gauss_tet 3 ;;
    KM <- integrate 6 3 12 (diff3 coord shape_tet4) C
            (fun det w => det * w / nz 6)
            (fun det w => rho * (det * w / nz 6)) (combine gpts gwts) ;;
    Ok (wrap KM).

  (* uelutil.py:365-396 elast_hex8 *)
  Definition elast_hex8 : uel_fun := fun coord params =>
    '(E, nu, rho) <- params3 params ;;
    C <- elast_mat [E; nu] ;;
    '(gpts, gwts) <- gauss_nd 2 3 ;;
    KM <- integrate 6 3 24 (diff3 coord shape_hex8) C
            (fun det w => det * w)
            (fun det w => rho * (det * w)) (combine gpts gwts) ;;
    Ok (wrap KM).

  (** ** Structural elements *)

  (* vec = coord[1, :] - coord[0, :]; np.linalg.norm(vec); vec[0]/norm, vec[1]/norm
     (uelutil.py:435-437, 489-492, 541-544, 599-602): (nx, ny, L) *)
  Definition axis (coord : mat) : res (T * T * T) :=
    b <- np_get coord 1 ;;
    a <- np_get coord 0 ;;
    _ <- guard (length a =? length b)%nat (ValueError "operands could not be broadcast") ;;
    let v := map (fun ba => fst ba - snd ba) (combine b a) in
    let L := nsqrt (fold_right nadd 0 (map (fun x => x * x) v)) in
    v0 <- np_get v 0 ;;
    v1 <- np_get v 1 ;;
    _ <- guard (negb (nis0 L)) NonFinite ;;
    Ok (v0 / L, v1 / L, L).

  (* Q.T @ A @ Q with A of shape (p, p) and Q of shape (p, q)
     (uelutil.py:444, 501, 568-569, 633-634) *)
  Definition congr (p q : nat) (Qm A : mat) : mat :=
    mmul q p q (mmul q p p (mtr p q Qm) A) Qm.

  (* stiff * array for a one-dimensional [stiff] (a row of mats) and an array with
     [q] columns: numpy broadcasting (uelutil.py:441-443) *)
  Definition bcast_mul (q : nat) (s : list T) (A : mat) : res mat :=
    match s with
    | [c] => Ok (mscale c A)
    | _ => if (length s =? q)%nat
           then Ok (map (fun row => map (fun p => fst p * snd p) (combine s row)) A)
           else Err (ValueError "operands could not be broadcast")
    end.

  Local Notation "2" := (nz 2) : num_scope.
  Local Notation "3" := (nz 3) : num_scope.
  Local Notation "4" := (nz 4) : num_scope.
  Local Notation "6" := (nz 6) : num_scope.
  Local Notation "12" := (nz 12) : num_scope.
  Local Notation "13" := (nz 13) : num_scope.
  Local Notation "22" := (nz 22) : num_scope.

  (* Q of spring and truss2D (uelutil.py:438-440, 493-495) *)
  Definition axial_Q (nx ny : T) : mat :=
    [[nx; ny; 0; 0];
     [0; 0; nx; ny]].
  (* [[1, -1], [-1, 1]] (uelutil.py:441-443, 498-500) *)
  Definition axial_K : mat := [[1; - (1)]; [- (1); 1]].

  (* uelutil.py:400-445 spring.  [stiff] is a row of the material array; a plain
     float argument is the one-element list. *)
  Definition spring : uel_fun := fun coord stiff =>
    '(nx, ny, _) <- axis coord ;;
    sm <- bcast_mul 2 stiff axial_K ;;
    Ok (congr 2 4 (axial_Q nx ny) sm, M1 (vzeros 4)).

  (* uelutil.py:448-512 truss2D *)
  Definition truss2D : uel_fun := fun coord params =>
    '(nx, ny, L) <- axis coord ;;
    match params with
    | young :: area :: _ =>
        let stiff := area*young/L in
        let sm := congr 2 4 (axial_Q nx ny) (mscale stiff axial_K) in
        let dens := opt_dens params in
        let mass := area * L * dens in
        Ok (sm, M2 (mscale (mass/6)
                      [[2; 0; 1; 0];
                       [0; 2; 0; 1];
                       [1; 0; 2; 0];
                       [0; 1; 0; 2]]))
    | _ => Err (ValueError "unpack")
    end.

  (* uelutil.py:515-570 beam2DU *)
  Definition beam2DU : uel_fun := fun coord params =>
    '(nx, ny, L) <- axis coord ;;
    let Qm :=
      [[ny; nx; 0; 0; 0; 0];
       [0; 0; 1; 0; 0; 0];
       [0; 0; 0; ny; nx; 0];
       [0; 0; 0; 0; 0; 1]] in
    match params with
    | young :: area_moment :: rest =>
        let bending_stiff := area_moment*young/npow L 3 in
        let L2 := npow L 2 in
        let sm := mscale bending_stiff
          [[12; 6*L; - (12); 6*L];
           [6*L; 4*L2; - (6)*L; 2*L2];
           [- (12); - (6)*L; 12; - (6)*L];
           [6*L; 2*L2; - (6)*L; 4*L2]] in
        '(dens, area) <- match rest with
                         | [] => Ok (1, 1)
                         | [d; a] => Ok (d, a)
                         | _ => Err (ValueError "unpack")
                         end ;;
        let mass := area * L * dens in
        let mm := mscale (mass/nz 420)
          [[nz 156; 22*L; nz 54; - (13)*L];
           [22*L; 4*L2; 13*L; - (3)*L2];
           [nz 54; 13*L; nz 156; - (22)*L];
           [- (13)*L; - (3)*L2; - (22)*L; 4*L2]] in
        Ok (congr 4 6 Qm sm, M2 (congr 4 6 Qm mm))
    | _ => Err (ValueError "unpack")
    end.

  (* uelutil.py:573-635 beam2D.  dens = params[3:] is an array: with one entry it
     acts as a scalar, with six it scales the columns, otherwise numpy raises.
     area_moment = 0 makes the ratio non-finite. *)
  Definition beam2D : uel_fun := fun coord params =>
    '(nx, ny, L) <- axis coord ;;
    let Qm :=
      [[nx; - ny; 0; 0; 0; 0];
       [ny; nx; 0; 0; 0; 0];
       [0; 0; 1; 0; 0; 0];
       [0; 0; 0; nx; - ny; 0];
       [0; 0; 0; ny; nx; 0];
       [0; 0; 0; 0; 0; 1]] in
    match params with
    | young :: area_moment :: area :: rest =>
        let bending_stiff := area_moment * young in
        _ <- guard (negb (nis0 area_moment)) NonFinite ;;
        let ratio := area/area_moment in
        let L2 := npow L 2 in
        let sm := mscale (bending_stiff/npow L 3)
          [[ratio*L2; 0; 0; - ratio*L2; 0; 0];
           [0; 12; 6*L; 0; - (12); 6*L];
           [0; 6*L; 4*L2; 0; - (6)*L; 2*L2];
           [- ratio*L2; 0; 0; ratio*L2; 0; 0];
           [0; - (12); - (6)*L; 0; 12; - (6)*L];
           [0; 6*L; 2*L2; 0; - (6)*L; 4*L2]] in
        let dens := match rest with [] => [1] | _ => rest end in
        let mass := map (fun d => area * L * d / nz 420) dens in
        mm <- bcast_mul 6 mass
          [[nz 140; 0; 0; nz 70; 0; 0];
           [0; nz 156; 22*L; 0; nz 54; - (13)*L];
           [0; 22*L; 4*L2; 0; 13*L; - (3)*L2];
           [nz 70; 0; 0; nz 140; 0; 0];
           [0; nz 54; 13*L; 0; nz 156; - (22)*L];
           [0; - (13)*L; - (3)*L2; 0; - (22)*L; 4*L2]] ;;
        Ok (congr 6 6 Qm sm, M2 (congr 6 6 Qm mm))
    | _ => Err (ValueError "unpack")
    end.
End Uel.
Arguments massmat : clear implicits.
Arguments uel_fun : clear implicits.
