(** What merging a hole into an outline means (C82). *)
From Coq Require Import ZArith List Permutation.
From Verif.Model Require Import Contour.
From Verif.Spec Require Import AreaSpec PlaneSpec.
Import ListNotations.
Open Scope Z_scope.

Definition ground (v : Vert) : Z * Z := (vX v, vZ v).
(** Twice the signed area of a contour. *)
Definition carea (c : list Vert) : Z := area (map ground c).

(** The closed list [l] read from position [k] on. *)
Definition turn {A} (k : nat) (l : list A) : list A := skipn k l ++ firstn k l.
(** Around [a] from vertex [p] to [p], over to vertex [q] of [b], around [b] and back to [q]. *)
Definition joined (a b : list Vert) (p q : Vert) (m : list Vert) : Prop :=
  exists i j, nth_error a i = Some p /\ nth_error b j = Some q /\ m = turn i a ++ [p] ++ turn j b ++ [q].

(** A side of a closed contour. *)
Definition side (c : list Vert) (u v : Vert) : Prop :=
  exists k, nth_error c k = Some u /\ nth_error c (if Nat.eqb (S k) (length c) then O else S k) = Some v.
(** The segment [p] [q] has no point in common with the sides of [c] that do not start or end at
    [p] or [q]. Exact for coordinates up to 16383, beyond which the code overflows. *)
Definition clear (c : list Vert) (p q : Vert) : Prop :=
  forall u v, side c u v -> small (ground p) -> small (ground q) -> small (ground u) -> small (ground v) ->
    ground p <> ground q -> ground u <> ground v ->
    ground u <> ground p -> ground u <> ground q -> ground v <> ground p -> ground v <> ground q ->
    ~ exists x, on_segment (ground p) (ground q) x /\ on_segment (ground u) (ground v) x.

(** The holes are taken in order. Each is left alone, or joined to the outline so far over a segment
    clear of itself and the holes behind it, and then empty. *)
Inductive merges : list Vert -> list (list Vert) -> list Vert -> list (list Vert) -> Prop :=
| merges_nil o : merges o [] o []
| merges_keep o h hs o' hs' : merges o hs o' hs' -> merges o (h :: hs) o' (h :: hs')
| merges_join o h hs p q m o' hs' : joined o h p q m -> Forall (fun c => clear c p q) (h :: hs) ->
    merges m hs o' hs' -> merges o (h :: hs) o' ([] :: hs').

(** Order from left to right, then by z. *)
Definition before (a b : Z * Z) : Prop := fst a < fst b \/ fst a = fst b /\ snd a < snd b.
(** The leftmost place of a contour. *)
Definition leftmost (c : list Vert) (a : Z * Z) : Prop :=
  In a (map ground c) /\ forall v, In v c -> ~ before (ground v) a.

(** What sort.Sort does for the order [less]: the same elements, and none before a smaller one. *)
Definition sorts {A} (less : A -> A -> bool) (f : list A -> list A) : Prop :=
  forall l, Permutation l (f l) /\ ForallOrdPairs (fun x y => less y x = false) (f l).

(** From [p], the directions between those to [a] and to [b]: some positive multiple of [q - p] is a
    sum of multiples of [a - p] and [b - p] that are positive (or not negative, with the borders). *)
Definition between_rays (strict : bool) (a p b q : Z * Z) : Prop :=
  exists k s t, 0 < k /\ (if strict then 0 < s /\ 0 < t else 0 <= s /\ 0 <= t) /\
    k * (fst q - fst p) = s * (fst a - fst p) + t * (fst b - fst p) /\
    k * (snd q - snd p) = s * (snd a - snd p) + t * (snd b - snd p).
(** Twice the signed area of [p], [a], [b]. *)
Definition bend (a p b : Z * Z) : Z :=
  (fst a - fst p) * (snd b - snd p) - (fst b - fst p) * (snd a - snd p).
