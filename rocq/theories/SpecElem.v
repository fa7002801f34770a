(** * Vocabulary for element properties *)
From Coq Require Import Reals List ZArith.
From Verif Require Import Spec.
Import ListNotations.
Local Open Scope R_scope.

(** plane rigid motions of the nodes of an element: translation (a, b), rotation w.
    Local dof 2k is the x displacement of node k, dof 2k+1 the y displacement. *)
Definition node_x (coord : list (list R)) (k : nat) : R := ent coord k 0.
Definition node_y (coord : list (list R)) (k : nat) : R := ent coord k 1.

Definition field2 (ux uy : nat -> R) (j : nat) : R :=
  if Nat.even j then ux (Nat.div2 j) else uy (Nat.div2 j).

(** nodal values of the affine field (a0 + a1 x + a2 y, b0 + b1 x + b2 y) *)
Definition affine2 (coord : list (list R)) (a0 a1 a2 b0 b1 b2 : R) : nat -> R :=
  field2 (fun k => a0 + a1 * node_x coord k + a2 * node_y coord k)
         (fun k => b0 + b1 * node_x coord k + b2 * node_y coord k).

Definition rigid2 (coord : list (list R)) (a b w : R) : nat -> R := affine2 coord a 0 (- w) b w 0.

(** three dofs per node *)
Definition field3 (ux uy uz : nat -> R) (j : nat) : R :=
  match Nat.modulo j 3 with
  | O => ux (Nat.div j 3)
  | S O => uy (Nat.div j 3)
  | _ => uz (Nat.div j 3)
  end.

(** rigid motion of a plane beam: (u, v, rotation) at each node *)
Definition beam_rigid (coord : list (list R)) (a b w : R) : nat -> R :=
  field3 (fun k => a - w * node_y coord k) (fun k => b + w * node_x coord k) (fun _ => w).

(** distance between the end nodes, direction cosines, elongation *)
Definition bar_len (xa ya xb yb : R) : R := sqrt ((xb - xa) * (xb - xa) + (yb - ya) * (yb - ya)).
Definition bar_elong (xa ya xb yb : R) (u : nat -> R) : R :=
  ((xb - xa) * (u 2%nat - u 0%nat) + (yb - ya) * (u 3%nat - u 1%nat)) / bar_len xa ya xb yb.

(** nodal forces of a bar of stiffness k, (forces at a, then at b) *)
Definition bar_force (k : R) (xa ya xb yb : R) (u : nat -> R) (i : nat) : R :=
  k * bar_elong xa ya xb yb u *
  match i with
  | 0%nat => - ((xb - xa) / bar_len xa ya xb yb)
  | 1%nat => - ((yb - ya) / bar_len xa ya xb yb)
  | 2%nat => (xb - xa) / bar_len xa ya xb yb
  | 3%nat => (yb - ya) / bar_len xa ya xb yb
  | _ => 0
  end.

(** ** plane continuum elements *)
(** translation (a, b) of all nodes *)
Definition trans2 (a b : R) : nat -> R := field2 (fun _ => a) (fun _ => b).

(** signed area of the quadrilateral / triangle with the given corners *)
Definition area4 (coord : list (list R)) : R :=
  ((node_x coord 2 - node_x coord 0) * (node_y coord 3 - node_y coord 1)
   - (node_x coord 3 - node_x coord 1) * (node_y coord 2 - node_y coord 0)) / 2.
Definition area3 (coord : list (list R)) : R :=
  ((node_x coord 1 - node_x coord 0) * (node_y coord 2 - node_y coord 0)
   - (node_x coord 2 - node_x coord 0) * (node_y coord 1 - node_y coord 0)) / 2.

(** nodes moved by the rotation with cosine c and sine s followed by a translation;
    displacements turned by the same rotation *)
Definition move2 (c s tx ty : R) (coord : list (list R)) : list (list R) :=
  map (fun x => [c * nth 0 x 0 - s * nth 1 x 0 + tx; s * nth 0 x 0 + c * nth 1 x 0 + ty]) coord.
Definition turn2 (c s : R) (u : nat -> R) : nat -> R :=
  field2 (fun k => c * u (2 * k)%nat - s * u (2 * k + 1)%nat)
         (fun k => s * u (2 * k)%nat + c * u (2 * k + 1)%nat).

(** ** isoparametric map: matrix of the products of derivative table and coordinates,
    its determinant *)
Definition Jac (n : nat) (D coord : list (list R)) (a b : nat) : R :=
  rsum n (fun k => ent D a k * ent coord k b).
Definition J2det (J : nat -> nat -> R) : R := J 0%nat 0%nat * J 1%nat 1%nat - J 0%nat 1%nat * J 1%nat 0%nat.
Definition J3det (J : nat -> nat -> R) : R :=
  J 0%nat 0%nat * (J 1%nat 1%nat * J 2%nat 2%nat - J 1%nat 2%nat * J 2%nat 1%nat)
  - J 0%nat 1%nat * (J 1%nat 0%nat * J 2%nat 2%nat - J 1%nat 2%nat * J 2%nat 0%nat)
  + J 0%nat 2%nat * (J 1%nat 0%nat * J 2%nat 1%nat - J 1%nat 1%nat * J 2%nat 0%nat).

Definition Jdet (d : nat) (J : nat -> nat -> R) : R := match d with 2%nat => J2det J | _ => J3det J end.
(** point of the element with the given shape function values *)
Definition position (n : nat) (N : list R) (coord : list (list R)) (a : nat) : R :=
  rsum n (fun k => nth k N 0 * ent coord k a).
(** coordinates in another unit of length *)
Definition rescale (t : R) (coord : list (list R)) : list (list R) := map (map (Rmult t)) coord.

(** ** isotropic elasticity: Lame parameters *)
Definition lam (E nu : R) : R := E * nu / (1 + nu) / (1 - 2 * nu).
Definition mu (E nu : R) : R := E / (2 * (1 + nu)).

(** ** solid elements: dofs 3k, 3k+1, 3k+2 are the displacements of node k *)
(** affine field x -> t + A x, translation, rigid motion t + w x (.) *)
Definition affine3 (coord : list (list R)) (t : nat -> R) (A : nat -> nat -> R) (j : nat) : R :=
  t (Nat.modulo j 3) + rsum 3 (fun i => A (Nat.modulo j 3) i * ent coord (Nat.div j 3) i).
Definition trans3 (t : nat -> R) (j : nat) : R := t (Nat.modulo j 3).
Definition skew3 (w : nat -> R) (a b : nat) : R :=
  match a, b with
  | 0%nat, 1%nat => - w 2%nat | 0%nat, 2%nat => w 1%nat
  | 1%nat, 0%nat => w 2%nat | 1%nat, 2%nat => - w 0%nat
  | 2%nat, 0%nat => - w 1%nat | 2%nat, 1%nat => w 0%nat
  | _, _ => 0
  end.
Definition rigid3 (coord : list (list R)) (t w : nat -> R) : nat -> R := affine3 coord t (skew3 w).
(** x, y, z, yz, xz, xy strains (engineering shear) of the displacement gradient A *)
Definition voigt3 (A : nat -> nat -> R) (a : nat) : R :=
  match a with
  | 0%nat => A 0%nat 0%nat
  | 1%nat => A 1%nat 1%nat
  | 2%nat => A 2%nat 2%nat
  | 3%nat => A 1%nat 2%nat + A 2%nat 1%nat
  | 4%nat => A 0%nat 2%nat + A 2%nat 0%nat
  | _ => A 0%nat 1%nat + A 1%nat 0%nat
  end.
(** energy density (twice) of the pair of strains e, e' *)
Definition energy3 (E nu : R) (e e' : nat -> R) : R :=
  lam E nu * ((e 0%nat + e 1%nat + e 2%nat) * (e' 0%nat + e' 1%nat + e' 2%nat))
  + mu E nu * (2 * (e 0%nat * e' 0%nat + e 1%nat * e' 1%nat + e 2%nat * e' 2%nat)
               + e 3%nat * e' 3%nat + e 4%nat * e' 4%nat + e 5%nat * e' 5%nat).
(** orthogonal matrices, rigid displacement of the nodes, rotation of the vectors *)
Definition orthogonal (Q : nat -> nat -> R) : Prop :=
  forall a b, (a < 3)%nat -> (b < 3)%nat ->
    rsum 3 (fun i => Q i a * Q i b) = (if Nat.eqb a b then 1 else 0).
Definition move3 (Q : nat -> nat -> R) (t : nat -> R) (coord : list (list R)) : list (list R) :=
  map (fun x => map (fun a => rsum 3 (fun i => Q a i * nth i x 0) + t a) [0%nat; 1%nat; 2%nat]) coord.
Definition turn3 (Q : nat -> nat -> R) (u : nat -> R) (j : nat) : R :=
  rsum 3 (fun b => Q (Nat.modulo j 3) b * u (3 * Nat.div j 3 + b)%nat).
(** volume of the tetrahedron with the given corners *)
Definition vol4 (coord : list (list R)) : R :=
  J3det (fun a b => ent coord (S a) b - ent coord 0 b) / 6.

(** ** areas enclosed by quadratic edges *)
(** half the integral of x dy - y dx along the parabola through node i, node m (at its
    middle parameter) and node j *)
Definition cross (coord : list (list R)) (i j : nat) : R :=
  node_x coord i * node_y coord j - node_x coord j * node_y coord i.
Definition arc (coord : list (list R)) (i m j : nat) : R :=
  2 / 3 * (cross coord i m + cross coord m j) - 1 / 6 * cross coord i j.
Definition area6 (coord : list (list R)) : R := arc coord 0 3 1 + arc coord 1 4 2 + arc coord 2 5 0.
Definition area8 (coord : list (list R)) : R :=
  arc coord 0 4 1 + arc coord 1 5 2 + arc coord 2 6 3 + arc coord 3 7 0.
(** all nodes lie within [r] of the point (xc, yc), coordinate by coordinate *)
Definition within2 (n : nat) (coord : list (list R)) (xc yc r : R) : Prop :=
  forall k, (k < n)%nat -> Rabs (node_x coord k - xc) <= r /\ Rabs (node_y coord k - yc) <= r.

(** volume enclosed by the ruled faces of a hexahedron: six faces, each contributing the mean
    of its two triangulations *)
Definition cone (coord : list (list R)) (i j k : nat) : R :=
  J3det (fun a b => ent coord (nth a [i; j; k] 0%nat) b) / 6.
Definition face (coord : list (list R)) (i j k l : nat) : R :=
  (cone coord i j k + cone coord i k l + (cone coord i j l + cone coord j k l)) / 2.
Definition vol8 (coord : list (list R)) : R :=
  face coord 0 3 2 1 + face coord 4 5 6 7 + face coord 0 4 7 3 + face coord 1 2 6 5
  + face coord 0 1 5 4 + face coord 3 7 6 2.
Definition within3 (n : nat) (coord : list (list R)) (c : nat -> R) (r : R) : Prop :=
  forall k a, (k < n)%nat -> (a < 3)%nat -> Rabs (ent coord k a - c a) <= r.

(** strain (or stress) in plane xy, with the given zz component *)
Definition plane_strain3 (ex ey ez gxy : R) (a : nat) : R := nth a [ex; ey; ez; 0; 0; gxy] 0.

(** admissible parameters of the element types of the table (E >= 0, -1 < nu < 1, density >= 0;
    bars and beams: non-negative stiffness and mass products) *)
Definition material_ok (t : Z) (params : list R) : Prop :=
  match t with
  | 1%Z | 2%Z | 3%Z | 4%Z => exists E nu rest, params = E :: nu :: rest /\ 0 <= E /\ -1 < nu < 1 /\ (rest = [] \/ 0 <= last rest 0)
  | 6%Z => exists E A rest, params = E :: A :: rest /\ 0 <= E * A /\ (rest = [] /\ 0 <= A \/ rest <> [] /\ 0 <= A * last rest 0)
  | 7%Z => exists E I rest, params = E :: I :: rest /\ 0 <= E * I /\ (rest = [] \/ exists d A, rest = [d; A] /\ 0 <= d * A)
  | 8%Z => exists E I A rest, params = E :: I :: A :: rest /\ 0 <= E * I /\ 0 <= E * A /\ (rest = [] /\ 0 <= A \/ exists d, rest = [d] /\ 0 <= A * d)
  | _ => False
  end.
