(** * Vocabulary: energy and kinetic densities of polynomial fields on mapped reference elements *)
From Coq Require Import Reals List ZArith.
From Verif Require Import Spec SpecElem SpecQuad.
Import ListNotations.
Local Open Scope R_scope.

Notation pol := (list (R * (nat * nat))).

(** arithmetic of polynomials given as lists of terms (coefficient, (power of r, power of s)) *)
Definition pscale (k : R) (p : pol) : pol := map (fun '(c, e) => (k * c, e)) p.
Definition pmul (p q : pol) : pol :=
  flat_map (fun '(c, (i, j)) => map (fun '(d, (k, l)) => (c * d, (i + k, j + l)%nat)) q) p.
Definition d_r (p : pol) : pol :=
  flat_map (fun '(c, (i, j)) => match i with O => [] | S i' => [(INR i * c, (i', j))] end) p.
Definition d_s (p : pol) : pol :=
  flat_map (fun '(c, (i, j)) => match j with O => [] | S j' => [(INR j * c, (i, j'))] end) p.
(** the terms of [p] use only the listed powers *)
Definition within (es : list (nat * nat)) (p : pol) : Prop := Forall (fun t => In (snd t) es) p.

(** a + b r + c s *)
Definition flat (a b c : R) : pol := [(a, (0, 0)%nat); (b, (1, 0)%nat); (c, (0, 1)%nat)].

(** nodes of an element: images of the reference nodes under (r, s) |-> (X r s, Y r s);
    nodal values of the field (P, Q) *)
Definition image (X Y : pol) (nodes : list (R * R)) : list (list R) :=
  map (fun '(r, s) => [poly2 X r s; poly2 Y r s]) nodes.
Definition nodal (P Q : pol) (nodes : list (R * R)) : nat -> R :=
  field2 (fun k => poly2 P (fst (nth k nodes (0, 0))) (snd (nth k nodes (0, 0))))
         (fun k => poly2 Q (fst (nth k nodes (0, 0))) (snd (nth k nodes (0, 0)))).

(** Jacobian determinant of the map *)
Definition jac (X Y : pol) : pol := pmul (d_r X) (d_s Y) ++ pscale (-1) (pmul (d_s X) (d_r Y)).

(** derivatives along x and y of a field given in r and s, on an element whose map is
    (x0 + xr r + xs s, y0 + yr r + ys s) *)
Record frame := mkFrame { x0 : R; xr : R; xs : R; y0 : R; yr : R; ys : R }.
Definition fX (m : frame) : pol := flat (x0 m) (xr m) (xs m).
Definition fY (m : frame) : pol := flat (y0 m) (yr m) (ys m).
Definition fdet (m : frame) : R := xr m * ys m - xs m * yr m.
Definition d_x (m : frame) (p : pol) : pol := pscale (ys m / fdet m) (d_r p) ++ pscale (- yr m / fdet m) (d_s p).
Definition d_y (m : frame) (p : pol) : pol := pscale (- xs m / fdet m) (d_r p) ++ pscale (xr m / fdet m) (d_s p).

(** plane stress: stress of (P, Q) times strain of (P', Q') *)
Definition energy (E nu : R) (m : frame) (P Q P' Q' : pol) : pol :=
  let ex := d_x m P in let ey := d_y m Q in let g := d_y m P ++ d_x m Q in
  let ex' := d_x m P' in let ey' := d_y m Q' in let g' := d_y m P' ++ d_x m Q' in
  pscale (E / (1 - nu * nu))
    (pmul ex ex' ++ pmul ey ey' ++ pscale nu (pmul ex ey' ++ pmul ey ex') ++ pscale ((1 - nu) / 2) (pmul g g')).
(** density times the product of the fields *)
Definition kinetic (rho : R) (P Q P' Q' : pol) : pol := pscale rho (pmul P P' ++ pmul Q Q').

(** integral over the square -1 <= r <= 1, -1 <= s <= 1, by iteration *)
Definition integral_sq (f : R -> R -> R) (I : R) : Prop :=
  exists g, (forall x, integral (f x) (-1) 1 (g x)) /\ integral g (-1) 1 I.

(** [I] is the integral of [p] by [over], and the only one *)
Definition the_integral (over : (R -> R -> R) -> R -> Prop) (p : pol) (I : R) : Prop :=
  over (poly2 p) I /\ forall J, over (poly2 p) J -> J = I.
