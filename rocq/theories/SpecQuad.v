(** * Vocabulary for quadrature: integrals by antiderivatives, polynomials as lists of terms *)
From Coq Require Import Reals List.
From Verif Require Import Spec.
Import ListNotations.
Local Open Scope R_scope.

(** [I] is the integral of [f] from [a] to [b] *)
Definition integral (f : R -> R) (a b I : R) : Prop :=
  exists F, (forall x, derivable_pt_lim F x (f x)) /\ I = F b - F a.

(** over the triangle 0 <= x, 0 <= y, x + y <= 1 and the tetrahedron, by iteration *)
Definition integral_tri (f : R -> R -> R) (I : R) : Prop :=
  exists g, (forall x, integral (f x) 0 (1 - x) (g x)) /\ integral g 0 1 I.
Definition integral_tet (f : R -> R -> R -> R) (I : R) : Prop :=
  exists h, (forall x y, integral (f x y) 0 (1 - x - y) (h x y)) /\ integral_tri h I.

(** polynomials: lists of coefficients and exponents *)
Definition poly1 (p : list (R * nat)) (x : R) : R := lsum (fun '(c, i) => c * x ^ i) p.
Definition poly2 (p : list (R * (nat * nat))) (x y : R) : R := lsum (fun '(c, (i, j)) => c * (x ^ i * y ^ j)) p.
Definition poly3 (p : list (R * (nat * nat * nat))) (x y z : R) : R :=
  lsum (fun '(c, (i, j, k)) => c * (x ^ i * y ^ j * z ^ k)) p.
Definition size {A} (p : list (R * A)) : R := lsum (fun t => Rabs (fst t)) p.

(** value of a rule: sum of weight times value at the point *)
Definition rule1 (pts wts : list R) (f : R -> R) : R := lsum (fun '(x, w) => w * f x) (combine pts wts).
Definition rule (pts : list (list R)) (wts : list R) (f : list R -> R) : R :=
  lsum (fun '(x, w) => w * f x) (combine pts wts).
Definition rule2 pts wts (f : R -> R -> R) : R := rule pts wts (fun p => f (nth 0 p 0) (nth 1 p 0)).
Definition rule3 pts wts (f : R -> R -> R -> R) : R := rule pts wts (fun p => f (nth 0 p 0) (nth 1 p 0) (nth 2 p 0)).

(** f_0 (x_0) f_1 (x_1) ... and the product of a list *)
Fixpoint tensor (fs : list (R -> R)) (x : list R) : R :=
  match fs with
  | [] => 1
  | f :: r => f (nth 0 x 0) * tensor r (tl x)
  end.
Definition prodl (l : list R) : R := fold_right Rmult 1 l.
