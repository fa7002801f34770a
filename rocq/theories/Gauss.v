(** * Model of solidspy/gaussutil.py *)
From Coq Require Import String QArith ZArith List.
From Verif Require Import Num GaussTab.
Import ListNotations.
Local Open Scope string_scope.

Section Gauss.
  Context {T : Type} `{Num T}.

  (* gaussutil.py:21-103 gauss_1d.  Tables in GaussTab.v. *)
  Definition gauss_1d (npts : Z) : res (list T * list T) :=
    match gauss_1d_tab npts with
    | Some (p, w) => Ok (map nofQ p, map nofQ w)
    | None => Err (ValueError "The number of points should be in [2, 10]")
    end.

  (* itertools.product(l, repeat=d): last coordinate varies fastest (gaussutil.py:124) *)
  Fixpoint product {A} (l : list A) (d : nat) : list (list A) :=
    match d with
    | O => [[]]
    | S d' => flat_map (fun x => map (cons x) (product l d')) l
    end.

  (* np.prod (gaussutil.py:126) *)
  Definition nprod (l : list T) : T := fold_right nmul n1 l.

  (* gaussutil.py:106-127 gauss_nd *)
  Definition gauss_nd (npts : Z) (ndim : nat) : res (list (list T) * list T) :=
    '(pts, wts) <- gauss_1d npts ;;
    let nd_pts := product pts ndim in
    let nd_wts := product wts ndim in
    Ok (nd_pts, map nprod nd_wts).

  (* gaussutil.py:130-192 gauss_tri *)
  Definition gauss_tri (order : Z) : res (list (list T) * list T) :=
    match gauss_tri_tab order with
    | Some (p, w) => Ok (map (map nofQ) p, map nofQ w)
    | None => Err (ValueError "The order should be in [1, 7]")
    end.

  (* gaussutil.py:195-679 gauss_tet *)
  Definition gauss_tet (order : Z) : res (list (list T) * list T) :=
    match gauss_tet_tab order with
    | Some (p, w) => Ok (map (map nofQ) p, map nofQ w)
    | None => Err (ValueError "The order should be in [1, 10]")
    end.
End Gauss.
