(** What a bounding volume tree stored in an array is, independent of how it is built. *)
From Coq Require Import ZArith List Bool.
From Verif.Base Require Import Res GoNum.
From Verif.Model Require Import MeshTypes BvTree.
Import ListNotations.
Open Scope Z_scope.

Definition le3 (a b : Z * Z * Z) : Prop := c0 a <= c0 b /\ c1 a <= c1 b /\ c2 a <= c2 b.
(** The box [mn, mx] contains the item's box. *)
Definition encloses (mn mx : Z * Z * Z) (it : bvItem) : Prop := le3 mn (iMin it) /\ le3 (iMax it) mx.
(** Each of the six sides of the box touches an item. *)
Definition touches (mn mx : Z * Z * Z) (items : list bvItem) : Prop :=
  (forall c, In c [c0; c1; c2] -> exists it, In it items /\ c (iMin it) = c mn) /\
  (forall c, In c [c0; c1; c2] -> exists it, In it items /\ c (iMax it) = c mx).

(** [BvAt nodes k items e]: the array holds in [k, e) a tree, in depth-first order, with the
    leaves [items] from left to right. A leaf is a copy of its item. An inner node has the box
    around all items below it and an index that leads, negated, exactly past its subtree. *)
Inductive BvAt (nodes : list BvNode) : Z -> list bvItem -> Z -> Prop :=
| BvLeaf : forall k it, get nodes k = Ok (mkBv (iMin it) (iMax it) (iI it)) -> BvAt nodes k [it] (k + 1)
| BvInner : forall k m e l r mn mx,
    get nodes k = Ok (mkBv mn mx (- (e - k))) ->
    BvAt nodes (k + 1) l m -> BvAt nodes m r e ->
    (forall it, In it (l ++ r) -> encloses mn mx it) -> touches mn mx (l ++ r) ->
    BvAt nodes k (l ++ r) e.

(** Two boxes of integer coordinates are not separated along any axis. *)
Definition overlaps3 (amin amax bmin bmax : Z * Z * Z) : Prop := le3 amin bmax /\ le3 bmin amax.
