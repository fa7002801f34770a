(** * Vocabulary for the script of the Brazilian test *)
From Coq Require Import String Reals List ZArith Arith.
From Verif Require Import Num Spec SpecPre SpecText SpecModel SpecTemplate.
Import ListNotations.
Local Open Scope R_scope.

(** the mesh that meshio returns, with the marked vertices *)
Definition brazil_mesh (points : list (list R)) (cells : list (string * list (list Z))) (cell_data : list (string * list (string * list Z)))
           (eles : list (list Z)) (maters : list Z) (lines : list (list Z)) (bounds : list Z) (marked : list nat) : Prop :=
  template_mesh points cells cell_data eles maters lines bounds /\
  has_key cells "vertex"%string (map (fun v => [Z.of_nat v]) marked) /\ Forall (fun v => (v < length points)%nat) marked.

(** the model described by the tutorial: one material number for each triangle ([mat_of] of its tag) *)
Definition brazil_model (mat_of : Z -> Z) (points : list (list R)) (eles : list (list Z)) (maters : list Z) (lines : list (list Z)) (bounds : list Z) (marked : list nat) (md : model) : Prop :=
  length (md_nodes md) = length points /\ length (md_cons md) = length points /\
  (forall i, (i < length points)%nat -> exists x y fx fy, nth i (md_nodes md) [] = [INR i; x; y] /\ nth i (md_cons md) [] = [fx; fy] /\
     rounded_to 4 (ent points i 0) x /\ rounded_to 4 (ent points i 1) y /\
     flag_is (on_line lines bounds 1 i) fx /\ flag_is (on_line lines bounds 2 i) fy) /\
  length (md_elements md) = length eles /\
  (forall e, (e < length eles)%nat -> nth e (md_elements md) [] = [Z.of_nat e; 3; mat_of (nth e maters 0%Z)]%Z ++ nth e eles []) /\
  md_mats md = [[70000000000; 35/100]; [70000000000; 35/100]] /\
  md_loads md = map (fun i => [INR i; 0; -1000000000]) marked.
(** the text: 0 for the group 4, 1 for the others *)
Definition described (mater : Z) : Z := if (mater =? 4)%Z then 0%Z else 1%Z.
(** two nodes at different heights on the lines [tx], one on the lines [ty] *)
Definition held_on (tx ty : Z) (points : list (list R)) (lines : list (list Z)) (bounds : list Z) : Prop :=
  (exists i j, on_line lines bounds tx i /\ on_line lines bounds tx j /\ 1 / 10 ^ 4 < ent points j 1 - ent points i 1) /\
  exists k, on_line lines bounds ty k.
