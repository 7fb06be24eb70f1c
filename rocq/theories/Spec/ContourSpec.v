(** What simplification of a contour has to keep. Raw points are numbered cyclically; the fourth
    element of a point describes the edge that ends in it. *)
From Coq Require Import ZArith List Bool Sorted.
From Verif.Base Require Import F32 Num.
From Verif.Model Require Import Contour SegDist.
Import ListNotations.
Open Scope Z_scope.

Definition count (points : list Vert) : Z := Z.of_nat (length points).
Definition raw (points : list Vert) (k : Z) : Vert := nth (Z.to_nat k) points vert0.
Definition place (v : Vert) : Z * Z := (vX v, vZ v).
(** The raw point after [k]. *)
Definition after (points : list Vert) (k : Z) : Z := (k + 1) mod count points.
(** Region behind the edge ending in a point (0: none), and whether the area changes there. *)
Definition behind (v : Vert) : Z := vR v mod 2 ^ 16.
Definition otherArea (v : Vert) : bool := Z.testbit (vR v) 17.
Definition changes (points : list Vert) (k : Z) : Prop :=
  behind (raw points k) <> behind (raw points (after points k)) \/ otherArea (raw points k) <> otherArea (raw points (after points k)).
(** Only walls and edges between areas are simplified and split; portals to a region of the same area are not. *)
Definition detailed (v : Vert) : Prop := behind v = 0 \/ otherArea v = true.

(** A list of distinct raw points in cyclic order. *)
Definition cyclic (n : Z) (ks : list Z) : Prop :=
  Forall (fun k => 0 <= k < n) ks /\ StronglySorted Z.lt (map (fun k => (k - hd 0 ks) mod n) ks).
(** [k'] follows [k] in the closed polygon [ks]. *)
Definition follows (ks : list Z) (k k' : Z) : Prop := exists l1 l2, ks ++ [hd 0 ks] = l1 ++ k :: k' :: l2.
(** [j] is strictly between [k] and [k']. *)
Definition inside (n k k' j : Z) : Prop := exists t, 0 < t < (k' - k) mod n /\ j = (k + t) mod n.

(** The squared distance of raw point [j] from the edge [k], [k'], the lexicographically smaller
    end first, in float32. *)
Definition before (v w : Vert) : Prop := vX v < vX w \/ vX v = vX w /\ vZ v < vZ w.
Definition off_edge (points : list Vert) (k k' j : Z) (d : f32) : Prop :=
  let dist p q := distancePtSeg numF (vX (raw points j)) (vZ (raw points j)) (vX p) (vZ p) (vX q) (vZ q) in
  before (raw points k) (raw points k') /\ d = dist (raw points k) (raw points k') \/
  ~ before (raw points k) (raw points k') /\ d = dist (raw points k') (raw points k).

(** The vertex for a kept point: place and height of the point, the edge data of the next raw
    point (the edge that begins here), the border mark of the point itself. *)
Definition out_vertex (points : list Vert) (k : Z) (v : Vert) : Prop :=
  place v = place (raw points k) /\ vY v = vY (raw points k) /\
  vR v = behind (raw points (after points k)) + (if otherArea (raw points (after points k)) then 2 ^ 17 else 0) +
         (if Z.testbit (vR (raw points k)) 16 then 2 ^ 16 else 0).

(** No point of a detailed edge is too far off. *)
Definition close (points : list Vert) (maxError : f32) (ks : list Z) : Prop :=
  forall k k' j d, follows ks k k' -> inside (count points) k k' j -> detailed (raw points j) ->
    off_edge points k k' j d -> fgt d (fmul maxError maxError) = false.
(** Long edges of the kinds chosen are split down to raw edges. The squares are int32. *)
Definition kind_chosen (buildFlags : Z) (v : Vert) : Prop :=
  Z.testbit buildFlags 0 = true /\ behind v = 0 \/ Z.testbit buildFlags 1 = true /\ otherArea v = true.
Definition wrap32 (z : Z) : Z := (z + 2 ^ 31) mod 2 ^ 32 - 2 ^ 31.
Definition long (points : list Vert) (maxEdgeLen k k' : Z) : Prop :=
  let dx := vX (raw points k') - vX (raw points k) in
  let dz := vZ (raw points k') - vZ (raw points k) in
  wrap32 (maxEdgeLen * maxEdgeLen) < wrap32 (dx * dx + dz * dz).
Definition short_enough (points : list Vert) (maxEdgeLen buildFlags : Z) (ks : list Z) : Prop :=
  forall k k', follows ks k k' -> kind_chosen buildFlags (raw points (after points k)) -> long points maxEdgeLen k k' ->
    k' = after points k.
(** A point that is kept without need of a change lies on a detailed edge, or nothing changes at all. *)
Definition portals_whole (points : list Vert) (ks : list Z) : Prop :=
  forall k, In k ks -> changes points k \/ detailed (raw points k) \/ (forall j, 0 <= j < count points -> ~ changes points j).

(** All changes are kept, if the contour touches any region. *)
Definition keeps_changes (points : list Vert) (ks : list Z) : Prop :=
  (exists j, 0 <= j < count points /\ behind (raw points j) <> 0) -> forall k, 0 <= k < count points -> changes points k -> In k ks.
Definition two_places (points : list Vert) : Prop := exists p q, In p points /\ In q points /\ place p <> place q.
Definition splits (maxEdgeLen buildFlags : Z) : Prop := 0 < maxEdgeLen /\ (Z.testbit buildFlags 0 = true \/ Z.testbit buildFlags 1 = true).

(** A border between two regions of different areas: raw points [k] to [k + len] of a contour,
    maximal, all edges of it leading to a region, all of them between areas; no point twice. *)
Definition area_border (points : list Vert) (k len : Z) : Prop :=
  let at_ t := (k + t) mod count points in
  0 <= k < count points /\ 0 < len < count points /\
  changes points k /\ changes points (at_ len) /\
  (forall t, 0 < t < len -> ~ changes points (at_ t)) /\
  (forall t, 0 < t <= len -> behind (raw points (at_ t)) <> 0 /\ otherArea (raw points (at_ t)) = true) /\
  (forall t u, 0 <= t < u -> u <= len -> place (raw points (at_ t)) <> place (raw points (at_ u))).
(** The same border seen from the other side. *)
Definition opposite (p q : list Vert) (k l len : Z) : Prop :=
  forall t, 0 <= t <= len -> place (raw q ((l + (len - t)) mod count q)) = place (raw p ((k + t) mod count p)).
