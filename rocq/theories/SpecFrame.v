(** * Vocabulary: the same structure in another frame or in other units *)
From Coq Require Import Reals List Arith ZArith.
From Verif Require Import Num LinAlg Assem Spec SpecModel SpecElem SpecStatic.
Import ListNotations.
Local Open Scope R_scope.

(** nodal vectors turned by the rotation with cosine c and sine s *)
Definition turned (c s : R) (U : nat -> nat -> R) (i d : nat) : R :=
  match d with
  | O => c * U i 0%nat - s * U i 1%nat
  | _ => s * U i 0%nat + c * U i 1%nat
  end.
(** the model turned and moved: nodes (id, x, y) and load rows follow, the supports are given *)
Definition moved (c s tx ty : R) (cons' : list (list R)) (md : model) : model :=
  mkModel (map (fun r => [nth 0 r 0; c * nth 1 r 0 - s * nth 2 r 0 + tx; s * nth 1 r 0 + c * nth 2 r 0 + ty]) (md_nodes md))
          cons' (md_elements md) (md_mats md)
          (map (fun r => [nth 0 r 0; c * nth 1 r 0 - s * nth 2 r 0; s * nth 1 r 0 + c * nth 2 r 0]) (md_loads md)).
(** a field meets the supports of the one exactly when the turned field meets the supports of the other *)
Definition supports_follow (c s : R) (md md' : model) : Prop :=
  forall U, admissible md U <-> admissible md' (turned c s U).
(** every node is held in both directions or in none *)
Definition clamped_or_free (md : model) : Prop :=
  forall i, (i < length (md_nodes md))%nat -> ent (md_cons md) i 0 = ent (md_cons md) i 1.

(** lengths times [a], moduli times [tE], the second material entry times [tA], loads times [tF] *)
Definition rescaled (a tE tA tF : R) (md : model) : model :=
  mkModel (map (fun r => [nth 0 r 0; a * nth 1 r 0; a * nth 2 r 0]) (md_nodes md)) (md_cons md) (md_elements md)
          (map (fun r => match r with x :: y :: rest => tE * x :: tA * y :: rest | _ => r end) (md_mats md))
          (map (fun r => [nth 0 r 0; tF * nth 1 r 0; tF * nth 2 r 0]) (md_loads md)).
(** all elements of the four plane types / all elements bars *)
Definition all_plane (md : model) : Prop :=
  Forall (fun e => exists t, nth_error e 1 = Some t /\ t <> 6%Z /\ type_nodes t = Some (e_n e)) (md_elements md).
Definition all_bars (md : model) : Prop :=
  Forall (fun e => nth_error e 1 = Some 6%Z /\ e_n e = 2%nat) (md_elements md).

(** ** strains and stresses *)
(** components (xx, yy, engineering xy) of a strain, (xx, yy, xy) of a stress, in the turned frame *)
Definition turned_strain (c s : R) (e : nat -> R) (a : nat) : R :=
  match a with
  | 0%nat => c * c * e 0%nat + s * s * e 1%nat - c * s * e 2%nat
  | 1%nat => s * s * e 0%nat + c * c * e 1%nat + c * s * e 2%nat
  | _ => 2 * c * s * (e 0%nat - e 1%nat) + (c * c - s * s) * e 2%nat
  end.
Definition turned_stress (c s : R) (p : nat -> R) (a : nat) : R :=
  match a with
  | 0%nat => c * c * p 0%nat + s * s * p 1%nat - 2 * c * s * p 2%nat
  | 1%nat => s * s * p 0%nat + c * c * p 1%nat + 2 * c * s * p 2%nat
  | _ => c * s * (p 0%nat - p 1%nat) + (c * c - s * s) * p 2%nat
  end.
(** two tables of rows, empty at the same places, [f] relating the entries of the others *)
Definition rows_follow (N : nat) (f : (nat -> R) -> nat -> R) (E E' : list (option (list R))) : Prop :=
  forall i, (i < N)%nat -> (nth i E None = None /\ nth i E' None = None) \/
    exists r r', nth i E None = Some r /\ nth i E' None = Some r' /\ length r = 3%nat /\ length r' = 3%nat /\
      forall a, (a < 3)%nat -> nth a r' 0 = f (fun b => nth b r 0) a.
(** the third table is the combination of the first two *)
Definition rows_combine (N : nat) (x y : R) (E1 E2 E3 : list (option (list R))) : Prop :=
  forall i, (i < N)%nat -> (nth i E1 None = None /\ nth i E2 None = None /\ nth i E3 None = None) \/
    exists r1 r2 r3, nth i E1 None = Some r1 /\ nth i E2 None = Some r2 /\ nth i E3 None = Some r3 /\
      length r1 = 3%nat /\ length r2 = 3%nat /\ length r3 = 3%nat /\
      forall a, (a < 3)%nat -> nth a r3 0 = x * nth a r1 0 + y * nth a r2 0.
