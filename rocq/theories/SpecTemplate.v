(** * Vocabulary for the script that writes the input files *)
From Coq Require Import String Reals List ZArith Arith Relations.
From Verif Require Import Num Spec SpecPre SpecText SpecModel.
Import ListNotations.
Local Open Scope R_scope.

(** y is x rounded to k decimals *)
Definition rounded_to (k : nat) (x y : R) : Prop := exists n, nearest_even (10 ^ k * x) n /\ y = IZR n / 10 ^ k.
(** a number as written by %.kf *)
Definition fixed_is (k : nat) (s : string) (x : R) : Prop :=
  exists p a v b w, s = (p ++ a ++ "." ++ b)%string /\ ((x < 0 /\ p = "-"%string) \/ (0 <= x /\ p = ""%string)) /\
    plain_digits a v /\ digits b w k /\ nearest_even (10 ^ k * Rabs x) (10 ^ Z.of_nat k * v + w).
(** a whole number as written by %d *)
Definition whole_is (s : string) (x : R) : Prop := exists z, x = IZR z /\ d_is s z.
(** rows with one format for each column *)
Definition columns_text (cols : list (string -> R -> Prop)) (text : string) (tab : list (list R)) : Prop :=
  Forall (fun row => length row = length cols) tab /\ file_text (fun s cx => fst cx s (snd cx)) text (map (combine cols) tab).
(** -1 when P holds, 0 otherwise *)
Definition flag_is (P : Prop) (v : R) : Prop := (P -> v = -1) /\ (~ P -> v = 0).

(** the mesh that meshio returns: points, cells and tags; [eles] are the triangles and [maters] their
    tags, [lines] the lines and [bounds] their tags *)
Definition template_mesh (points : list (list R)) (cells : list (string * list (list Z))) (cell_data : list (string * list (string * list Z)))
           (eles : list (list Z)) (maters : list Z) (lines : list (list Z)) (bounds : list Z) : Prop :=
  Forall (fun p => (2 <= length p)%nat) points /\
  has_key cells "triangle"%string eles /\ has_key cells "line"%string lines /\
  (exists d, has_key cell_data "triangle"%string d /\ has_key d "gmsh:physical"%string maters) /\
  (exists d, has_key cell_data "line"%string d /\ has_key d "gmsh:physical"%string bounds) /\
  length maters = length eles /\ length bounds = length lines /\
  Forall (fun row => length row = 3%nat /\ Forall (fun z => (0 <= z < Z.of_nat (length points))%Z) row) eles /\
  Forall (Forall (fun z => (0 <= z < Z.of_nat (length points))%Z)) lines.

(** the tables described by the mesh *)
Definition node_table (points : list (list R)) (lines : list (list Z)) (bounds : list Z) (tab : list (list R)) : Prop :=
  length tab = length points /\
  forall i, (i < length points)%nat -> exists fx fy, nth i tab [] = [INR i; ent points i 0; ent points i 1; fx; fy] /\
    flag_is (on_line lines bounds 300 i) fx /\ flag_is (on_line lines bounds 400 i) fy.
Definition element_table (eles : list (list Z)) (maters : list Z) (tab : list (list Z)) : Prop :=
  length tab = length eles /\
  forall e, (e < length eles)%nat -> nth e tab [] = [Z.of_nat e; 3; if (nth e maters 0 =? 100)%Z then 0 else 1]%Z ++ nth e eles [].
(** the nodes with loads, each once *)
Definition loaded (lines : list (list Z)) (bounds : list Z) (ids : list nat) : Prop :=
  NoDup ids /\ forall i, In i ids <-> on_line lines bounds 500 i.
(** the model of the mesh: coordinates rounded to 4 decimals, and the loads -2/n to 6 decimals *)
Definition template_model (points : list (list R)) (eles : list (list Z)) (maters : list Z) (lines : list (list Z)) (bounds : list Z) (ids : list nat) (md : model) : Prop :=
  length (md_nodes md) = length points /\ length (md_cons md) = length points /\
  (forall i, (i < length points)%nat -> exists x y fx fy, nth i (md_nodes md) [] = [INR i; x; y] /\ nth i (md_cons md) [] = [fx; fy] /\
     rounded_to 4 (ent points i 0) x /\ rounded_to 4 (ent points i 1) y /\
     flag_is (on_line lines bounds 300 i) fx /\ flag_is (on_line lines bounds 400 i) fy) /\
  element_table eles maters (md_elements md) /\ md_mats md = [[1; 3/10]; [5; 3/10]] /\
  exists p, rounded_to 6 (-2 / INR (length ids)) p /\ md_loads md = map (fun i => [INR i; 0; p]) ids.

(** ** meshes that survive the rounding *)
(** corners in counterclockwise order, not too flat for the size of the triangle *)
Definition sturdy (points : list (list R)) (row : list Z) : Prop :=
  let P k d := ent points (Z.to_nat (nth k row 0%Z)) d in
  let a := P 1%nat 0%nat - P 0%nat 0%nat in let b := P 1%nat 1%nat - P 0%nat 1%nat in
  let c := P 2%nat 0%nat - P 0%nat 0%nat in let d := P 2%nat 1%nat - P 0%nat 1%nat in
  (Rabs a + Rabs b + Rabs c + Rabs d) / 10 ^ 4 + 3 / 10 ^ 8 < a * d - b * c.
(** any two triangles are joined by a chain of triangles with common sides; every node is in a triangle *)
Definition neighbours (r r' : list Z) : Prop := exists z1 z2, z1 <> z2 /\ In z1 r /\ In z2 r /\ In z1 r' /\ In z2 r'.
Definition mesh_connected (points : list (list R)) (eles : list (list Z)) : Prop :=
  (forall r r', In r eles -> In r' eles -> clos_refl_trans _ (fun a b => In b eles /\ neighbours a b) r r') /\
  forall i, (i < length points)%nat -> exists r, In r eles /\ In (Z.of_nat i) r.
(** two nodes at different heights on the lines 300, one on the line 400 *)
Definition mesh_held (points : list (list R)) (lines : list (list Z)) (bounds : list Z) : Prop :=
  (exists i j, on_line lines bounds 300 i /\ on_line lines bounds 300 j /\ 1 / 10 ^ 4 < ent points j 1 - ent points i 1) /\
  exists k, on_line lines bounds 400 k.
