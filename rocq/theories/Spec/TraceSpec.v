(** Outlines of regions: what the tracing of contours has to find. *)
From Coq Require Import ZArith List Bool.
From Verif.Base Require Import Res GoNum F32.
From Verif.Model Require Import Heightfield Dirs Compact Contour.
From Verif.Spec Require Import HeightfieldSpec CompactSpec ErodeSpec RegionSpec.
Import ListNotations.
Open Scope Z_scope.

Definition has_region (chf : CompactHeightfield) (i r : Z) : Prop :=
  exists s, get (chf_spans chf) i = Ok s /\ csReg s = r.
Definition has_height (chf : CompactHeightfield) (i y : Z) : Prop :=
  exists s, get (chf_spans chf) i = Ok s /\ csY s = y.
Definition same_region (chf : CompactHeightfield) (i j : Z) : Prop :=
  exists r, has_region chf i r /\ has_region chf j r.
(** Regions that get contours: not 0, and not those of the border. *)
Definition proper_region (chf : CompactHeightfield) (i : Z) : Prop :=
  exists r, has_region chf i r /\ 0 < r < 32768.

(** All connections go both ways. *)
Definition mutual (chf : CompactHeightfield) : Prop := forall x y i d x' y' j,
  span_at chf x y i -> (d < 4)%nat -> linked chf d x y i x' y' j -> linked chf (Nat.modulo (d + 2) 4) x' y' j x y i.
Definition one_area (chf : CompactHeightfield) : Prop := forall i j,
  proper_region chf i -> same_region chf i j -> get (chf_areas chf) i = get (chf_areas chf) j.
Definition regions16 (chf : CompactHeightfield) : Prop := forall i r, has_region chf i r -> 0 <= r < 65536.

(** The edge in direction [eD] of the span [eI] of the cell (eX, eY). *)
Record Edge := mkEdge { eX : Z; eY : Z; eI : Z; eD : nat }.
(** The ends of the edge, clockwise around the cell. *)
Definition edge_from (e : Edge) : Z * Z :=
  match eD e with 0%nat => (eX e, eY e) | 1%nat => (eX e, eY e + 1) | 2%nat => (eX e + 1, eY e + 1) | _ => (eX e + 1, eY e) end.
Definition edge_to (e : Edge) : Z * Z :=
  match eD e with 0%nat => (eX e, eY e + 1) | 1%nat => (eX e + 1, eY e + 1) | 2%nat => (eX e + 1, eY e) | _ => (eX e, eY e) end.

(** In direction [d] the region goes on. *)
Definition goes_on (chf : CompactHeightfield) (x y i : Z) (d : nat) : Prop :=
  exists x' y' j, linked chf d x y i x' y' j /\ same_region chf i j.
(** The edge belongs to the outline of a region. *)
Definition outline (chf : CompactHeightfield) (e : Edge) : Prop :=
  span_at chf (eX e) (eY e) (eI e) /\ (eD e < 4)%nat /\ proper_region chf (eI e) /\ ~ goes_on chf (eX e) (eY e) (eI e) (eD e).
(** A span that is not connected to any other of its region. *)
Definition lone (chf : CompactHeightfield) (x y i : Z) : Prop := forall d, (d < 4)%nat -> ~ goes_on chf x y i d.

(** Turning around a corner through the spans of the region until an edge of the outline is met. *)
Inductive turn (chf : CompactHeightfield) : Z -> Z -> Z -> nat -> Edge -> Prop :=
| turn_edge : forall x y i d, outline chf (mkEdge x y i d) -> turn chf x y i d (mkEdge x y i d)
| turn_step : forall x y i d x' y' j e, linked chf d x y i x' y' j -> same_region chf i j ->
    turn chf x' y' j (Nat.modulo (d + 3) 4) e -> turn chf x y i d e.
(** The edge of the outline after [e]. *)
Definition edge_next (chf : CompactHeightfield) (e e' : Edge) : Prop :=
  turn chf (eX e) (eY e) (eI e) (Nat.modulo (eD e + 1) 4) e'.

(** The edges between cells that are passed when going around the corners of outlines. *)
Inductive passed (chf : CompactHeightfield) : Edge -> Prop :=
| passed_edge : forall e, outline chf e -> passed chf e
| passed_corner : forall e, outline chf e -> passed chf (mkEdge (eX e) (eY e) (eI e) (Nat.modulo (eD e + 1) 4))
| passed_turn : forall e x' y' j, passed chf e -> linked chf (eD e) (eX e) (eY e) (eI e) x' y' j -> same_region chf (eI e) j ->
    passed chf (mkEdge x' y' j (Nat.modulo (eD e + 3) 4)).
(** The outlines of the region [r] are short enough for one walk. *)
Definition short_outlines (chf : CompactHeightfield) (r : Z) : Prop := forall l, NoDup l ->
  (forall e, In e l -> passed chf e /\ has_region chf (eI e) r) -> zlen l <= 39996.

(** A closed line of edges of the outline of one region. *)
Definition closed_outline (chf : CompactHeightfield) (l : list Edge) : Prop :=
  l <> [] /\ Forall (outline chf) l /\
  (forall k e e', nth_error l k = Some e -> nth_error l (Nat.modulo (k + 1) (length l)) = Some e' ->
    edge_next chf e e' /\ edge_to e = edge_from e' /\ same_region chf (eI e) (eI e')).

(** The spans around the end of an edge: the span itself, those across the edge and the next one,
    and those diagonally across. *)
Definition across (chf : CompactHeightfield) (e : Edge) (d : nat) (x y j : Z) : Prop :=
  linked chf d (eX e) (eY e) (eI e) x y j.
Definition diagonal (chf : CompactHeightfield) (e : Edge) (d d' : nat) (k : Z) : Prop :=
  exists x y j x' y', across chf e d x y j /\ linked chf d' x y j x' y' k.
Definition right_of (e : Edge) : nat := Nat.modulo (eD e + 1) 4.
Definition around (chf : CompactHeightfield) (e : Edge) (j : Z) : Prop :=
  j = eI e \/ (exists x y, across chf e (eD e) x y j) \/ (exists x y, across chf e (right_of e) x y j) \/
  diagonal chf e (eD e) (right_of e) j \/ diagonal chf e (right_of e) (eD e) j.

(** Two neighbouring ones of the four regions are the same border region, the other two proper. *)
Definition two_two (r0 r1 r2 r3 : Z) : Prop :=
  let q a b c d := 32768 <= a /\ a = b /\ 0 < c < 32768 /\ 0 < d < 32768 in
  q r0 r1 r2 r3 \/ q r1 r2 r3 r0 \/ q r2 r3 r0 r1 \/ q r3 r0 r1 r2.
(** The region of a span found in some way, 0 if there is none. *)
Definition region_or_0 (chf : CompactHeightfield) (P : Z -> Prop) (r : Z) : Prop :=
  (exists j, P j /\ has_region chf j r) \/ (~ exists j, P j) /\ r = 0.
(** The four regions around the end of an edge; of two ways to the diagonal one the second counts. *)
Definition regions_around (chf : CompactHeightfield) (e : Edge) (r0 r1 r2 r3 : Z) : Prop :=
  has_region chf (eI e) r0 /\
  region_or_0 chf (fun j => exists x y, across chf e (eD e) x y j) r1 /\
  region_or_0 chf (fun j => exists x y, across chf e (right_of e) x y j) r3 /\
  region_or_0 chf (fun j => diagonal chf e (right_of e) (eD e) j \/
                            ~ (exists k, diagonal chf e (right_of e) (eD e) k) /\ diagonal chf e (eD e) (right_of e) j) r2.

(** The point for an edge: the end of the edge; the largest height there; the region across the
    edge, bit 16 for a corner at the border and bit 17 for an edge to another area. *)
Definition point_of (chf : CompactHeightfield) (e : Edge) (v : Vert) : Prop :=
  (vX v, vZ v) = edge_to e /\
  (exists j, around chf e j /\ has_height chf j (vY v)) /\ (forall j h, around chf e j -> has_height chf j h -> h <= vY v) /\
  region_or_0 chf (fun j => exists x y, across chf e (eD e) x y j) (vR v mod 2 ^ 16) /\
  0 <= vR v < 2 ^ 18 /\
  (Z.testbit (vR v) 16 = true <-> exists r0 r1 r2 r3, regions_around chf e r0 r1 r2 r3 /\ two_two r0 r1 r2 r3) /\
  (Z.testbit (vR v) 17 = true <-> exists x y j, across chf e (eD e) x y j /\ get (chf_areas chf) j <> get (chf_areas chf) (eI e)).

(** ** The contours stored *)

(** What is left of a list when elements are dropped. *)
Inductive sublist {A} : list A -> list A -> Prop :=
| sub_nil : sublist [] []
| sub_keep : forall a l k, sublist l k -> sublist (a :: l) (a :: k)
| sub_drop : forall a l k, sublist l k -> sublist l (a :: k).
(** Two, or three, consecutive points of a closed polygon at the same place. *)
Definition spot (v : Vert) : Z * Z := (vX v, vZ v).
Definition no_double (l : list Vert) : Prop := forall l1 a b l2, l ++ firstn 1 l = l1 ++ a :: b :: l2 -> spot a <> spot b.
Definition no_triple (l : list Vert) : Prop := forall l1 a b c l2, l ++ firstn 2 l = l1 ++ a :: b :: c :: l2 -> ~ (spot a = spot b /\ spot b = spot c).
(** Points at the place of the next one are dropped (of three in a row possibly just one). *)
Definition thinned (l l' : list Vert) : Prop :=
  sublist l' l /\
  ((exists v w, In v l /\ In w l /\ spot v <> spot w) -> forall v, In v l -> exists v', In v' l' /\ spot v' = spot v) /\
  (no_triple l -> (2 <= length l')%nat -> no_double l').

(** A walk: the span it starts at, its points, and how it ends; [loop] are the edges it follows. *)
Definition walk_of (chf : CompactHeightfield) (loop : list Edge) (t : Z * list Vert * WalkEnd) : Prop :=
  closed_outline chf loop /\ Forall2 (point_of chf) loop (snd (fst t)) /\ snd t = Closed /\
  exists e, hd_error loop = Some e /\ eI e = fst (fst t).
(** The walk simplified: [simplifyContour] (see C68), then points dropped. *)
Definition result_of (maxError : F32.f32) (maxEdgeLen buildFlags : Z) (t : Z * list Vert * WalkEnd) (l : list Vert) : Prop :=
  exists out, simplifyContour (snd (fst t)) maxError maxEdgeLen buildFlags = Ok out /\ thinned out l.
(** The contour of a walk: points relative to the border, region and area of the span. *)
Definition without_border (bs : Z) (v : Vert) : Vert := mkVert (vX v - Z.max 0 bs) (vY v) (vZ v - Z.max 0 bs) (vR v).
Definition contour_for (chf : CompactHeightfield) (bs : Z) (t : Z * list Vert * WalkEnd) (l : list Vert) (c : Contour) : Prop :=
  ctVerts c = map (without_border bs) l /\ ctRVerts c = map (without_border bs) (snd (fst t)) /\
  has_region chf (fst (fst t)) (ctReg c) /\ get (chf_areas chf) (fst (fst t)) = Ok (ctArea c).
(** One contour for each walk of which at least three points are left. *)
Inductive stored (chf : CompactHeightfield) (bs : Z) (maxError : F32.f32) (maxEdgeLen buildFlags : Z) : Traces -> list Contour -> Prop :=
| stored_nil : stored chf bs maxError maxEdgeLen buildFlags [] []
| stored_add : forall t tr l c cs, stored chf bs maxError maxEdgeLen buildFlags tr cs -> result_of maxError maxEdgeLen buildFlags t l ->
    (3 <= length l)%nat -> contour_for chf bs t l c -> stored chf bs maxError maxEdgeLen buildFlags (tr ++ [t]) (cs ++ [c])
| stored_skip : forall t tr l cs, stored chf bs maxError maxEdgeLen buildFlags tr cs -> result_of maxError maxEdgeLen buildFlags t l ->
    (length l < 3)%nat -> stored chf bs maxError maxEdgeLen buildFlags (tr ++ [t]) cs.
