(** What a ray cast over the polygons of a mesh meets. *)
From Coq Require Import ZArith List Bool.
From Verif.Base Require Import Res GoNum F32 Num.
From Verif.Model Require Import Status Poly MeshTypes Geom MeshLinks MeshTiles FindPath Raycast.
From Verif.Spec Require Import LinkSpec PathSpec.
Import ListNotations.
Open Scope Z_scope.

(** The corners of a polygon; the offset of a corner is computed with 16 bits. *)
Definition corners (t : MeshTile) (p : Poly) (vs : list fvec) : Prop :=
  length vs = Z.to_nat (pVertCount p) /\
  forall j v, nth_error vs j = Some v ->
    exists i x y z, nth_error (pVerts p) j = Some i /\
      get (tdVerts (tD t)) (3 * i mod 65536) = Ok x /\ get (tdVerts (tD t)) (3 * i mod 65536 + 1) = Ok y /\
      get (tdVerts (tD t)) (3 * i mod 65536 + 2) = Ok z /\
      v = (f_of_bits x, f_of_bits y, f_of_bits z).
(** The ray from [a] to [b] crosses the polygon with corners [vs], as described by [sp] (C35). *)
Definition crosses (a b : fvec) (vs : list fvec) (sp : @SegPoly f32) : Prop := IntersectSegmentPoly2D numF a b vs = (sp, true).
(** Ends of edge number [e]. *)
Definition edge_of (vs : list fvec) (e : Z) (u v : fvec) : Prop :=
  get vs e = Ok u /\ get vs (if e =? zlen vs - 1 then 0 else e + 1) = Ok v.

(** [x] lies between [u] and [v], in whichever order they are. *)
Definition between (u v x : f32) : Prop :=
  if flt v u then fle v x = true /\ fle x u = true else fle u x = true /\ fle x v = true.
(** The point at fraction [bmin]/255 .. [bmax]/255 of the edge, seen along one axis, covers the
    point of the ray at parameter [s]. *)
Definition covers (c : fvec -> f32) (u v a b : fvec) (bmin bmax : Z) (s : f32) : Prop :=
  let at_byte k := fadd (c u) (fmul (fsub (c v) (c u)) (fmul (f_of_Z k) (f_ratio 1 255))) in
  between (at_byte bmin) (at_byte bmax) (fadd (c a) (fmul (fsub (c b) (c a)) s)).
(** The ray can leave by a link with this payload: it is on the edge where the ray leaves, leads to
    an ordinary polygon that passes the filter, and is inside the tile, covers the whole edge, or
    covers the point where the ray leaves. *)
Definition takes (m : NavMesh) (flt : QueryFilter) (a b : fvec) (vs : list fvec) (sp : @SegPoly f32) (l : payload) : Prop :=
  let '(r, edge, side, bmin, bmax) := l in
  edge = spSegMax sp /\
  (exists t p, polygon_at m r t p /\ Type_ p <> polyTypeOffMeshConnection /\ qPass flt r t p = true) /\
  (side = 255 \/ (bmin = 0 /\ bmax = 255) \/
   exists u v, edge_of vs edge u v /\
     (((side = 0 \/ side = 4) /\ covers vz u v a b bmin bmax (spMax sp)) \/
      ((side = 2 \/ side = 6) /\ covers vx u v a b bmin bmax (spMax sp)))).
(** The first link of the polygon that the ray can leave by has payload [l]; there is none. *)
Definition first_link (m : NavMesh) (flt : QueryFilter) (a b : fvec) (t : MeshTile) (p : Poly) (vs : list fvec) (sp : @SegPoly f32)
    (l : payload) : Prop :=
  exists c s k, LSeg (tdLinks (tD t)) (pFirstLink p) (c ++ [(s, l)]) k /\
    takes m flt a b vs sp l /\ Forall (fun x => ~ takes m flt a b vs sp (snd x)) c.
Definition no_link (m : NavMesh) (flt : QueryFilter) (a b : fvec) (t : MeshTile) (p : Poly) (vs : list fvec) (sp : @SegPoly f32) : Prop :=
  exists c, LChain (tdLinks (tD t)) (pFirstLink p) c /\ Forall (fun x => ~ takes m flt a b vs sp (snd x)) c.

(** The ray ends at the edge: no link to take, or the link names no polygon (reference 0). *)
Definition stops (m : NavMesh) (flt : QueryFilter) (a b : fvec) (t : MeshTile) (p : Poly) (vs : list fvec) (sp : @SegPoly f32) : Prop :=
  no_link m flt a b t p vs sp \/ exists l, first_link m flt a b t p vs sp l /\ pay_ref l = 0.

(** How a ray ends: in a polygon, at an edge with this normal, or in front of a polygon it does
    not cross. *)
Inductive ray_end := Inside | Wall (normal : fvec) | Missed.
(** From polygon [r] on, the ray crosses the polygons listed, each with its entry and exit. *)
Inductive Trace (m : NavMesh) (flt : QueryFilter) (a b : fvec) : Z -> list (Z * @SegPoly f32) -> ray_end -> Prop :=
| Trace_missed : forall r t p vs, polygon_at m r t p -> corners t p vs -> (forall sp, ~ crosses a b vs sp) ->
    Trace m flt a b r [] Missed
| Trace_inside : forall r t p vs sp, polygon_at m r t p -> corners t p vs -> crosses a b vs sp -> spSegMax sp = -1 ->
    Trace m flt a b r [(r, sp)] Inside
| Trace_wall : forall r t p vs sp u v, polygon_at m r t p -> corners t p vs -> crosses a b vs sp -> spSegMax sp <> -1 ->
    stops m flt a b t p vs sp -> edge_of vs (spSegMax sp) u v ->
    Trace m flt a b r [(r, sp)] (Wall (normalize (fsub (vz v) (vz u), f0, fopp (fsub (vx v) (vx u)))))
| Trace_step : forall r t p vs sp l tr e, polygon_at m r t p -> corners t p vs -> crosses a b vs sp -> spSegMax sp <> -1 ->
    first_link m flt a b t p vs sp l -> pay_ref l <> 0 -> Trace m flt a b (pay_ref l) tr e ->
    Trace m flt a b r ((r, sp) :: tr) e.

(** The largest of the numbers, as a running maximum. *)
Fixpoint furthest (s : f32) (l : list f32) : f32 :=
  match l with [] => s | x :: l' => furthest (if flt s x then x else s) l' end.

(** VertCount is a byte in Go. *)
Definition byte_counts (m : NavMesh) : Prop := forall r t p, polygon_at m r t p -> 0 <= pVertCount p <= 255.
(** The link lists of all polygons end (what AddTile and RemoveTile keep, C14). *)
Definition lists_end (m : NavMesh) : Prop := forall r t p, polygon_at m r t p -> exists c, LChain (tdLinks (tD t)) (pFirstLink p) c.
