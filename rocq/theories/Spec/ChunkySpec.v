(** What a tree of boxes over triangles is, independent of how it is built. *)
From Coq Require Import ZArith List Bool.
From Verif.Base Require Import Res GoNum Num.
From Verif.Model Require Import ChunkyMesh.
Import ListNotations.
Open Scope Z_scope.

(** The triangles of an index array: three indices each. *)
Fixpoint triples (n : nat) (l : list Z) : list (list Z) :=
  match n with O => [] | S n' => firstn 3 l :: triples n' (skipn 3 l) end.

Section Spec.
Context {T : Type} (N : Num T).
Definition nle' (a b : T) : Prop := nlt N b a = false.

(** The x and z coordinates of the corners of a triangle. *)
Definition corners (verts : list T) (d : T) (t : list Z) : list (T * T) :=
  map (fun v => (nth (Z.to_nat (3 * v)) verts d, nth (Z.to_nat (3 * v + 2)) verts d)) t.

(** [mn, mx] is the smallest box around the points: it contains them, and each of its four
    sides goes through one of them. *)
Definition bbox (mn mx : T * T) (pts : list (T * T)) : Prop :=
  (forall p, In p pts -> nle' (fst mn) (fst p) /\ nle' (fst p) (fst mx) /\ nle' (snd mn) (snd p) /\ nle' (snd p) (snd mx)) /\
  (exists p, In p pts /\ fst p = fst mn) /\ (exists p, In p pts /\ fst p = fst mx) /\
  (exists p, In p pts /\ snd p = snd mn) /\ (exists p, In p pts /\ snd p = snd mx).

(** [ChAt t nodes k s tl e]: the array holds in [k, e) a tree, in depth-first order, over the
    triangles [tl] (given by their corners) that have the numbers s, s + 1, ... A leaf has between
    1 and [t] triangles. Each node has the smallest box around its triangles. An inner node has an
    index that leads, negated, exactly past its subtree. *)
Inductive ChAt (t : Z) (nodes : list (CNode (T := T))) : Z -> Z -> list (list (T * T)) -> Z -> Prop :=
| ChLeaf : forall k s tl mn mx, get nodes k = Ok (mkCN mn mx s (zlen tl)) -> 0 <= s ->
    1 <= zlen tl <= t -> bbox mn mx (concat tl) -> ChAt t nodes k s tl (k + 1)
| ChInner : forall k s m e l r mn mx, get nodes k = Ok (mkCN mn mx (- (e - k)) 0) ->
    ChAt t nodes (k + 1) s l m -> ChAt t nodes m (s + zlen l) r e ->
    bbox mn mx (concat (l ++ r)) -> ChAt t nodes k s (l ++ r) e.
End Spec.

(** Indices and coordinates that make a triangle soup of [n] triangles for createChunkyTriMesh
    with chunk size [t]: the sizes fit into int32, every index names a vertex. *)
Definition soup {T} (verts : list T) (tris : list Z) (n t : Z) : Prop :=
  1 <= n /\ 1 <= t /\ n + t < 2 ^ 31 /\ 4 * ((n + t - 1) / t) < 2 ^ 31 /\
  3 * n <= zlen tris < 2 ^ 31 /\ zlen verts < 2 ^ 31 /\
  forall v, In v (firstn (Z.to_nat (3 * n)) tris) -> 0 <= v /\ 3 * v + 2 < zlen verts.

(** Node [k] is a leaf whose box satisfies [Q]. *)
Definition leaf_with {T} (Q : T * T -> T * T -> Prop) (nodes : list (CNode (T := T))) (k : Z) : Prop :=
  exists nd, get nodes k = Ok nd /\ 0 <= nI nd /\ Q (nMin nd) (nMax nd).
(** The result of a query with room for [limit] entries: the first of the sorted list of nodes [L]
    at the beginning of ids. *)
Definition found (L : list Z) (limit : Z) (ids : list Z) : Z * list Z :=
  let K := firstn (Z.to_nat limit) L in (zlen K, K ++ skipn (length K) ids).
Definition overlap2 {T} (N : Num T) (rmin rmax mn mx : T * T) : Prop :=
  nle' N (fst rmin) (fst mx) /\ nle' N (fst mn) (fst rmax) /\ nle' N (snd rmin) (snd mx) /\ nle' N (snd mn) (snd rmax).
