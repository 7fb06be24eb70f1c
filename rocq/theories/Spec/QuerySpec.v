(** What a box query delivers to its callback. *)
From Coq Require Import ZArith List Bool.
From Verif.Base Require Import Res GoNum F32 Num Grid.
From Verif.Model Require Import Status Poly Geom MeshTypes MeshLinks MeshTiles TileQuery.
Import ListNotations.
Open Scope Z_scope.

(** A call of the callback: tile, array of references, count. *)
Definition Call : Type := MeshTile * list Z * Z.
(** The references a call delivers. *)
Definition call_refs (c : Call) : list Z := let '(_, refs, n) := c in firstn (Z.to_nat n) refs.
(** Making the calls one after the other. *)
Definition run_calls {S} (process : S -> MeshTile -> list Z -> Z -> res S) (calls : list Call) (s : S) : res S :=
  foldM (fun s '(t, refs, n) => process s t refs n) calls s.
(** A callback that only remembers what it was given. *)
Definition log_process (s : list (MeshTile * Z)) (t : MeshTile) (refs : list Z) (n : Z) : res (list (MeshTile * Z)) :=
  Ok (s ++ map (fun r => (t, r)) (firstn (Z.to_nat n) refs)).

(** Batches: full ones of 32, then at most one of 1 to 31. *)
Definition batched (t : MeshTile) (calls : list Call) : Prop :=
  Forall (fun '(t', refs, n) => t' = t /\ n <= zlen refs) calls /\
  exists full last, calls = full ++ last /\
    Forall (fun '(_, _, n) => n = 32) full /\
    (last = [] \/ exists refs n, last = [(t, refs, n)] /\ 1 <= n <= 31).

(** The vertices of a polygon, read without wrapping. *)
Definition poly_verts (t : MeshTile) (p : Poly) (vs : list fvec) : Prop :=
  zlen vs = pVertCount p /\
  forall j v, nth_error vs j = Some v ->
    exists i x y z, nth_error (pVerts p) j = Some i /\
      get (tdVerts (tD t)) (3 * i) = Ok x /\ get (tdVerts (tD t)) (3 * i + 1) = Ok y /\ get (tdVerts (tD t)) (3 * i + 2) = Ok z /\
      v = (f_of_bits x, f_of_bits y, f_of_bits z).
(** The bounding box of the vertices is not separated from the box along any axis. *)
Definition touches_box (vs : list fvec) (qmin qmax : fvec) : Prop :=
  forall c, In c [@vx f32; @vy f32; @vz f32] ->
    (exists v, In v vs /\ fle (c qmin) (c v) = true) /\ (exists v, In v vs /\ fle (c v) (c qmax) = true).
Definition vec_nonnan (v : fvec) : Prop := nonnan (vx v) /\ nonnan (vy v) /\ nonnan (vz v).

(** The distance measure of FindNearestPoly for the point found on a polygon: over the polygon
    the vertical distance beyond the climb height counts, elsewhere the distance (squared). *)
Definition measure (center closest : fvec) (over : bool) (climb : f32) : f32 :=
  let '(cx, cy, cz) := center in
  let '(px, py, pz) := closest in
  if over then
    let d := fsub (fabs (fsub cy py)) climb in if flt f0 d then fmul d d else f0
  else
    let dx := fsub cx px in let dy := fsub cy py in let dz := fsub cz pz in
    fadd (fadd (fmul dx dx) (fmul dy dy)) (fmul dz dz).
