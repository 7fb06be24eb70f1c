(** recast/meshdetail.go: Delaunay triangulation of the points of a detail polygon. *)
From Coq Require Import ZArith List Bool.
From Verif.Base Require Import Res GoNum F32 Num Grid.
From Verif.Model Require Import Geom SegDist.
Import ListNotations.
Open Scope Z_scope.

Section Geo.
Context {T : Type} (N : Num T).
Local Notation "a + b" := (nadd N a b).
Local Notation "a - b" := (nsub N a b).
Local Notation "a * b" := (nmul N a b).
Local Notation "a / b" := (ndiv N a b).
Local Notation "a <? b" := (nlt N a b).
Local Notation "a <=? b" := (nle N a b).
Local Notation "0" := (nZ N 0%Z).
Local Notation "1" := (nZ N 1%Z).
Local Notation "2" := (nZ N 2%Z).

(** recast/meshdetail.go:42-44 vdot2 *)
Definition vdot2 (a b : vec T) : T := vx a * vx b + vz a * vz b.
(** recast/meshdetail.go:46-50 vdistSq2 *)
Definition vdistSq2 (p q : vec T) : T :=
  let dx := vx q - vx p in
  let dy := vz q - vz p in
  dx * dx + dy * dy.
(** recast/meshdetail.go:56-62 vcross2 *)
Definition vcross2 (p1 p2 p3 : vec T) : T :=
  let u1 := vx p2 - vx p1 in
  let v1 := vz p2 - vz p1 in
  let u2 := vx p3 - vx p1 in
  let v2 := vz p3 - vz p1 in
  u1 * v2 - v1 * u2.

(** recast/meshdetail.go:65-88 circumCircle up to the square root: the centre relative to p1 (None
    when the three points are nearly collinear, line 74). *)
Definition circumCentre (p1 p2 p3 : vec T) : option (vec T) :=
  let v1 := (0, 0, 0) in
  let v2 := vsub N p2 p1 in
  let v3 := vsub N p3 p1 in
  let cp := vcross2 v1 v2 v3 in
  if nratio N 1 1000000 <? nabs N cp then
    let v1Sq := vdot2 v1 v1 in
    let v2Sq := vdot2 v2 v2 in
    let v3Sq := vdot2 v3 v3 in
    Some ((v1Sq * (vz v2 - vz v3) + v2Sq * (vz v3 - vz v1) + v3Sq * (vz v1 - vz v2)) / (2 * cp),
          0,
          (v1Sq * (vx v3 - vx v2) + v2Sq * (vx v1 - vx v3) + v3Sq * (vx v2 - vx v1)) / (2 * cp))
  else None.

(** recast/meshdetail.go:90-115 distPtTri: None stands for math.MaxFloat32. *)
Definition distPtTri (p a b c : vec T) : option T :=
  let v0 := vsub N c a in
  let v1 := vsub N b a in
  let v2 := vsub N p a in
  let dot00 := vdot2 v0 v0 in
  let dot01 := vdot2 v0 v1 in
  let dot02 := vdot2 v0 v2 in
  let dot11 := vdot2 v1 v1 in
  let dot12 := vdot2 v1 v2 in
  let invDenom := 1 / (dot00 * dot11 - dot01 * dot01) in
  let u := (dot11 * dot02 - dot01 * dot12) * invDenom in
  let v := (dot00 * dot12 - dot01 * dot02) * invDenom in
  let eps := nratio N 1 10000 in
  if (nneg N eps <=? u) && (nneg N eps <=? v) && ((u + v) <=? (1 + eps)) then
    let y := vy a + vy v0 * u + vy v1 * v in
    Some (nabs N (y - vy p))
  else None.

(** recast/meshdetail.go:527-538 overlapSegSeg2d *)
Definition overlapSegSeg2d (a b c d : vec T) : bool :=
  let a1 := vcross2 a b d in
  let a2 := vcross2 a b c in
  if a1 * a2 <? 0 then
    let a3 := vcross2 c d a in
    let a4 := a3 + a2 - a1 in
    if a3 * a4 <? 0 then true else false
  else false.
End Geo.

(** recast/meshdetail.go:52-54 vdist2 *)
Definition vdist2 (p q : vec f32) : f32 := fsqrt (vdistSq2 numF p q).

(** recast/meshdetail.go:65-88 circumCircle: (c, r); the boolean result is not used by the callers. *)
Definition circumCircle (p1 p2 p3 : vec f32) : vec f32 * f32 :=
  match circumCentre numF p1 p2 p3 with
  | Some c => (vadd numF c p1, vdist2 c (f0, f0, f0))
  | None => (p1, f0)
  end.

(** The vertex pts[i*3:].  All three coordinates are read here; vcross2 and vdist2 read the first
    and the last of them. *)
Definition vert (pts : list f32) (i : Z) : res (vec f32) :=
  let k := i32 (i * 3) in
  let* x := get pts k in
  let* y := get pts (k + 1) in
  let* z := get pts (k + 2) in
  Ok (x, y, z).

(** recast/meshdetail.go:264-268 *)
Definition EV_UNDEF : Z := -1.
Definition EV_HULL : Z := -2.

(** An edge (edges[i*4:]): its ends, the face on the left and the face on the right.  The array
    edges of 4*maxEdges words is represented by the list of its first nedges entries; addEdge is
    the only function that writes beyond them, at index nedges < maxEdges. *)
Notation edge := (Z * Z * Z * Z)%type (only parsing).

(** recast/meshdetail.go:270-278 findEdge *)
Fixpoint findEdgeFrom (edges : list edge) (i s t : Z) : Z :=
  match edges with
  | [] => EV_UNDEF
  | (e0, e1, _, _) :: es =>
      if ((e0 =? s) && (e1 =? t)) || ((e0 =? t) && (e1 =? s)) then i else findEdgeFrom es (i + 1) s t
  end.
Definition findEdge (edges : list edge) (s t : Z) : Z := findEdgeFrom edges 0 s t.

(** recast/meshdetail.go:280-299 addEdge: the edges afterwards; the index returned is not used by
    the callers. *)
Definition addEdge (edges : list edge) (maxEdges s t l r : Z) : list edge :=
  if maxEdges <=? zlen edges then edges
  else if findEdge edges s t =? EV_UNDEF then edges ++ [(s, t, l, r)]
  else edges.

(** recast/meshdetail.go:519-525 updateLeftFace *)
Definition updateLeftFace (s t f : Z) (e : edge) : edge :=
  let '(e0, e1, e2, e3) := e in
  if (e0 =? s) && (e1 =? t) && (e2 =? EV_UNDEF) then (e0, e1, f, e3)
  else if (e1 =? s) && (e0 =? t) && (e3 =? EV_UNDEF) then (e0, e1, e2, f)
  else e.

(** recast/meshdetail.go:540-553 overlapEdges *)
Fixpoint overlapEdges (pts : list f32) (edges : list edge) (s1 t1 : Z) : res bool :=
  match edges with
  | [] => Ok false
  | (s0, t0, _, _) :: es =>
      if (s0 =? s1) || (s0 =? t1) || (t0 =? s1) || (t0 =? t1) then overlapEdges pts es s1 t1
      else
        let* a := vert pts s0 in
        let* b := vert pts t0 in
        let* c := vert pts s1 in
        let* d := vert pts t1 in
        if overlapSegSeg2d numF a b c d then Ok true else overlapEdges pts es s1 t1
  end.

(** recast/meshdetail.go:577-612: one step of the search for the best point on the left of the
    edge from s to t; the state is (pt, c, r). *)
Definition facetStep (pts : list f32) (edges : list edge) (s t : Z) (st : Z * vec f32 * f32) (u : Z)
    : res (Z * vec f32 * f32) :=
  let '(_, c, r) := st in
  if (u =? s) || (u =? t) then Ok st
  else
    let* vs := vert pts s in
    let* vt := vert pts t in
    let* vu := vert pts u in
    let circle := circumCircle vs vt vu in
    if fgt (vcross2 numF vs vt vu) (f_ratio 1 100000) then
      if flt r f0 then Ok (u, fst circle, snd circle)
      else
        let d := vdist2 c vu in
        let tol := f_ratio 1 1000 in
        if fgt d (fmul r (fadd f1 tol)) then Ok st
        else if flt d (fmul r (fsub f1 tol)) then Ok (u, fst circle, snd circle)
        else
          let* o1 := overlapEdges pts edges s u in
          if o1 then Ok st
          else
            let* o2 := overlapEdges pts edges t u in
            if o2 then Ok st
            else Ok (u, fst circle, snd circle)
    else Ok st.

(** recast/meshdetail.go:618-625 and 627-633: a side of the new triangle: a new edge, or the face of
    an edge that is there. *)
Definition linkSide (edges : list edge) (maxEdges s t f : Z) : res (list edge) :=
  let e := findEdge edges s t in
  if e =? EV_UNDEF then Ok (addEdge edges maxEdges s t f EV_UNDEF)
  else
    let* x := get edges e in
    set edges e (updateLeftFace s t f x).

(** recast/meshdetail.go:555-638 completeFacet: edges and nfaces afterwards. *)
Definition completeFacet (pts : list f32) (npts : Z) (edges : list edge) (maxEdges nfaces e : Z)
    : res (list edge * Z) :=
  let* (e0, e1, e2, e3) := get edges e in
  if negb (e2 =? EV_UNDEF) && negb (e3 =? EV_UNDEF) then Ok (edges, nfaces)
  else
    let '(s, t) := if e2 =? EV_UNDEF then (e0, e1) else (e1, e0) in
    let* (pt, _, _) :=
      foldM (facetStep pts edges s t) (zseq (Z.to_nat npts)) (npts, (f0, f0, f0), f_of_Z (-1)) in
    if pt <? npts then
      let* edges := set edges e (updateLeftFace s t nfaces (e0, e1, e2, e3)) in
      let* edges := linkSide edges maxEdges pt s nfaces in
      let* edges := linkSide edges maxEdges t pt nfaces in
      Ok (edges, i32 (nfaces + 1))
    else
      let* edges := set edges e (updateLeftFace s t EV_HULL (e0, e1, e2, e3)) in
      Ok (edges, nfaces).

(** recast/meshdetail.go:657-665: the loop over the edges, which grow meanwhile. *)
Fixpoint facetLoop (fuel : nat) (pts : list f32) (npts : Z) (edges : list edge) (maxEdges nfaces cur : Z)
    : res (list edge * Z) :=
  match fuel with
  | O => NoFuel
  | S f =>
      if cur <? zlen edges then
        let* (_, _, e2, _) := get edges cur in
        let* (edges, nfaces) :=
          if e2 =? EV_UNDEF then completeFacet pts npts edges maxEdges nfaces cur else Ok (edges, nfaces) in
        let* (_, _, _, e3) := get edges cur in
        let* (edges, nfaces) :=
          if e3 =? EV_UNDEF then completeFacet pts npts edges maxEdges nfaces cur else Ok (edges, nfaces) in
        facetLoop f pts npts edges maxEdges nfaces (cur + 1)
      else Ok (edges, nfaces)
  end.

(** recast/meshdetail.go:677-686 and 688-697: a face of an edge gives corners of its triangle; for
    the face at e[3], (x, y) is (e[0], e[1]), for the one at e[2] it is (e[1], e[0]).  The array tris
    is represented by its rows of four words. *)
Definition putSide (rows : list edge) (f x y : Z) : res (list edge) :=
  if 0 <=? f then
    let* (t0, t1, t2, t3) := get rows f in
    if t0 =? -1 then set rows f (x, y, t2, t3)
    else if t0 =? y then set rows f (t0, t1, x, t3)
    else if t1 =? x then set rows f (t0, t1, y, t3)
    else Ok rows
  else Ok rows.

(** recast/meshdetail.go:673-698 *)
Definition putEdge (rows : list edge) (e : edge) : res (list edge) :=
  let '(e0, e1, e2, e3) := e in
  let* rows := putSide rows e3 e0 e1 in
  putSide rows e2 e1 e0.

(** recast/meshdetail.go:640-714 delaunayHull: *tris as rows, and the edges.  A row that is not
    complete is a panic (line 704). *)
Definition delaunayHull (npts : Z) (pts : list f32) (nhull : Z) (hull : list Z) : res (list edge * list edge) :=
  let maxEdges := i32 (npts * 10) in
  if i32 (maxEdges * 4) <? 0 then Panic
  else
    let* (edges, _) := foldM (fun st i =>
      let* a := get hull (snd st) in
      let* b := get hull i in
      Ok (addEdge (fst st) maxEdges a b EV_HULL EV_UNDEF, i)) (zseq (Z.to_nat nhull)) ([], nhull - 1) in
    let* (edges, nfaces) := facetLoop (S (Z.to_nat maxEdges)) pts npts edges maxEdges 0 0 in
    if i32 (nfaces * 4) <? 0 then Panic
    else
      let* rows := foldM putEdge edges (repeat (-1, -1, -1, -1) (Z.to_nat nfaces)) in
      if existsb (fun '(t0, t1, t2, _) => (t0 =? -1) || (t1 =? -1) || (t2 =? -1)) rows then Panic
      else Ok (rows, edges).

(** recast/meshdetail.go:301-313 getEdgeFlags; the polygon is the list of its vertices. *)
Fixpoint edgeFlagLoop (va vb vj : vec f32) (vpoly : list (vec f32)) : Z :=
  match vpoly with
  | [] => 0
  | vi :: vs =>
      let thrSqr := f_ratio 1 1000000 in
      if flt (distancePtSeg2d numF va vj vi) thrSqr && flt (distancePtSeg2d numF vb vj vi) thrSqr then 1
      else edgeFlagLoop va vb vi vs
  end.
Definition getEdgeFlags (va vb : vec f32) (vpoly : list (vec f32)) : Z :=
  edgeFlagLoop va vb (last vpoly (f0, f0, f0)) vpoly.

(** recast/meshdetail.go:315-321 getTriFlags *)
Definition getTriFlags (va vb vc : vec f32) (vpoly : list (vec f32)) : Z :=
  let flags := Z.lor 0 (u8 (Z.shiftl (getEdgeFlags va vb vpoly) 0)) in
  let flags := Z.lor flags (u8 (Z.shiftl (getEdgeFlags vb vc vpoly) 2)) in
  Z.lor flags (u8 (Z.shiftl (getEdgeFlags vc va vpoly) 4)).
