(** * Data of the first tutorial *)
From Coq Require Import String List ZArith QArith.
From Verif Require Import Num TextIO ExModel2.
Import ListNotations.
Local Open Scope string_scope.

(* examples/square-4_elements/nodes.txt:1-9; docs/tutorials/square_example.rst:40-48.  The numbers are the
   same in both, the blanks those of the file *)
Definition square_nodes : string :=
  line "0  0.00  0.00   0  -1" ++ line "1  2.00  0.00   0  -1" ++ line "2  2.00  2.00   0   0" ++
  line "3  0.00  2.00   0   0" ++ line "4  1.00  0.00  -1  -1" ++ line "5  2.00  1.00   0   0" ++
  line "6  1.00  2.00   0   0" ++ line "7  0.00  1.00   0   0" ++ line "8  1.00  1.00   0   0".
(* examples/square-4_elements/eles.txt:1-4; square_example.rst:70-73 *)
Definition square_eles : string :=
  line "0   1   0   0   4   8   7" ++ line "1   1   0   4   1   5   8" ++
  line "2   1   0   7   8   6   3" ++ line "3   1   0   8   5   2   6".
(* examples/square-4_elements/mater.txt:1-2, the second line is empty; square_example.rst:88 *)
Definition square_mater : string := line "1.0  0.3" ++ line "".
(* examples/square-4_elements/loads.txt:1-3; square_example.rst:104-106 *)
Definition square_loads : string := line "3  0.0   1.0" ++ line "6  0.0   2.0" ++ line "2  0.0   1.0".

(* square_example.rst:187, the array printed as [UC] *)
Definition tutorial_UC : list Q := [0.6; -0.6; -0.6; 4; 0.6; 4; -0.6; 2; 0; 4; 0.6; 2; 0; 2]%Q.
(* square_example.rst:197, the array printed as [U_mag] *)
Definition tutorial_mag : list Q := [0.849; 4.045; 4.045; 2.088; 4; 2.088; 2]%Q.
