(** * Vocabulary: the nodes of one element listed in another order *)
From Coq Require Import Reals List ZArith Relations.
From Verif Require Import Num LinAlg Fem Uel Assem Main Script Spec SpecAssem SpecModel SpecElem SpecScript.
Import ListNotations.
Local Open Scope R_scope.

(** entry [k] of the new list is entry [s_k] of the old one *)
Definition pick {A} (d : A) (s : list nat) (l : list A) : list A := map (fun k => nth k l d) s.
(** element routine, dofs per node, and an order of its nodes that describes the same body: the next corner first
    (midside and centre nodes follow), the brick seen from another side, the bar or beam from its other end
    (beam2D with at most one density: six would scale the columns of its mass matrix) *)
Definition turns : list (uel_fun R * nat * list nat) :=
  [(elast_quad4, 2, [1; 2; 3; 0]);
   (elast_quad8, 2, [1; 2; 3; 0; 5; 6; 7; 4]);
   (elast_quad9, 2, [1; 2; 3; 0; 5; 6; 7; 4; 8]);
   (elast_axi_quad9, 2, [1; 2; 3; 0; 5; 6; 7; 4; 8]);
   (elast_hex8, 3, [1; 2; 3; 0; 5; 6; 7; 4]);
   (elast_hex8, 3, [3; 2; 6; 7; 0; 1; 5; 4]);
   (truss2D, 2, [1; 0]);
   (beam2DU, 3, [1; 0]);
   (fun coord params => beam2D coord (firstn 4 params), 3, [1; 0])]%nat.
(** the same for the simplices: exact for the stiffness (the points of their rules are rounded to 13 decimals) *)
Definition simplex_turns : list (uel_fun R * nat * list nat) :=
  [(elast_tri3, 2, [1; 2; 0]);
   (elast_tet4, 3, [1; 2; 0; 3]);
   (elast_tet4, 3, [0; 2; 3; 1])]%nat.
(** the rows and columns of [K'] are those of [K] in the new order *)
Definition permuted (d : nat) (s : list nat) (K K' : list (list R)) : Prop :=
  forall i j a b, (i < length s)%nat -> (j < length s)%nat -> (a < d)%nat -> (b < d)%nat ->
    ent K' (d * i + a) (d * j + b) = ent K (d * nth i s 0%nat + a) (d * nth j s 0%nat + b).
Definition rectangular (coord : list (list R)) : Prop := exists c, Forall (fun r => length r = c) coord.

(** ** meshes *)
(** the routine used for the row [e] and its material is [g], whatever the coordinates *)
Definition uses (p : problem) (e : list Z) (g : uel_fun R) : Prop :=
  exists t im params f, nth_error e 1 = Some t /\ nth_error e 2 = Some im /\ np_get (p_mats p) im = Ok params /\
    (p_uel p = Some f \/ p_uel p = None /\ ele_fun t = Ok f) /\
    forall coord, length coord = e_n e -> f coord params = g coord params.
(** one element row rewritten by one of the orders *)
Definition turn (orders : list (uel_fun R * nat * list nat)) (p : problem) (e e' : list Z) : Prop :=
  exists g s, uses p e g /\ In (g, p_dofs p, s) orders /\ length s = e_n e /\ e' = firstn 3 e ++ pick 0%Z s (skipn 3 e).
(** ... any number of times *)
Definition relisted (orders : list (uel_fun R * nat * list nat)) (p : problem) : list Z -> list Z -> Prop :=
  clos_refl_trans _ (turn orders p).
Definition with_elements (p : problem) (elements : list (list Z)) : problem :=
  mkProblem (p_dofs p) (p_max p) (p_ndof p) (p_uel p) (p_nodes p) (p_cons p) elements (p_mats p) (p_loads p).
