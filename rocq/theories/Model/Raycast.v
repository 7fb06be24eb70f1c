(** Raycast of [detour/query.go]. *)
From Coq Require Import ZArith List Bool.
From Verif.Base Require Import Res GoNum F32 Num Grid.
From Verif.Model Require Import Status Poly PolyRef MeshTypes Geom MeshLinks MeshTiles FindPath.
Import ListNotations.
Open Scope Z_scope.

(** detour/query.go:34-55, type RaycastHit. A nil HitNormal is the zero vector. *)
Record RaycastHit := mkHit {
  rT : f32; rNormal : fvec; rEdge : Z; rPath : list Z; rCount : Z; rMaxPath : Z; rCost : f32
}.
Definition hit_count (n : Z) (h : RaycastHit) : RaycastHit := mkHit (rT h) (rNormal h) (rEdge h) (rPath h) n (rMaxPath h) (rCost h).
Definition hit_T (t : f32) (h : RaycastHit) : RaycastHit := mkHit t (rNormal h) (rEdge h) (rPath h) (rCount h) (rMaxPath h) (rCost h).
Definition hit_normal (v : fvec) (h : RaycastHit) : RaycastHit := mkHit (rT h) v (rEdge h) (rPath h) (rCount h) (rMaxPath h) (rCost h).
Definition hit_edge (e : Z) (h : RaycastHit) : RaycastHit := mkHit (rT h) (rNormal h) e (rPath h) (rCount h) (rMaxPath h) (rCost h).
Definition hit_path (p : list Z) (h : RaycastHit) : RaycastHit := mkHit (rT h) (rNormal h) (rEdge h) p (rCount h) (rMaxPath h) (rCost h).
Definition hit_add_cost (c : f32) (h : RaycastHit) : RaycastHit := mkHit (rT h) (rNormal h) (rEdge h) (rPath h) (rCount h) (rMaxPath h) (fadd (rCost h) c).

(** detour/query.go:20 *)
Definition RaycastUseCosts : Z := 1.
Definition use_costs (options : Z) : bool := negb (Z.land options RaycastUseCosts =? 0).

(** d3.Vec3.Normalize (external): the components times 1/sqrt of the squared length. *)
Definition normalize (v : fvec) : fvec :=
  let '(x, y, z) := v in
  let d := fdiv f1 (fsqrt (fadd (fadd (fmul x x) (fmul y y)) (fmul z z))) in
  (fmul x d, fmul y d, fmul z d).

(** detour/query.go:1561-1603: is the intersection inside a link that covers part of the edge? *)
Definition in_partial (startPos endPos : fvec) (tmax : f32) (t : MeshTile) (p : Poly) (l : Link) : res bool :=
  let* v0 := get (pVerts p) (lEdge l) in
  let* e1 := next_edge p (lEdge l) in
  let* v1 := get (pVerts p) e1 in
  let* lft := vert16 (tdVerts (tD t)) v0 in
  let* rgt := vert16 (tdVerts (tD t)) v1 in
  let s := f_ratio 1 255 in
  let within (c : fvec -> f32) :=
    let lmin := fadd (c lft) (fmul (fsub (c rgt) (c lft)) (fmul (f_of_Z (lBMin l)) s)) in
    let lmax := fadd (c lft) (fmul (fsub (c rgt) (c lft)) (fmul (f_of_Z (lBMax l)) s)) in
    let '(lmin, lmax) := if fgt lmin lmax then (lmax, lmin) else (lmin, lmax) in
    let x := fadd (c startPos) (fmul (fsub (c endPos) (c startPos)) tmax) in
    fge x lmin && fle x lmax in
  if (lSide l =? 0) || (lSide l =? 4) then Ok (within vz)
  else if (lSide l =? 2) || (lSide l =? 6) then Ok (within vx)
  else Ok false.

(** detour/query.go:1523-1604: the links of the polygon up to the first one the ray can take;
    its reference (0 without one) and the tile and polygon last looked at. *)
Fixpoint ray_link (fuel : nat) (m : NavMesh) (flt : QueryFilter) (startPos endPos : fvec) (sp : @SegPoly f32)
    (t : MeshTile) (p : Poly) (i : Z) (nx : MeshTile * Poly) : res (Z * (MeshTile * Poly)) :=
  if i =? nullLink then Ok (0, nx)
  else match fuel with
       | O => NoFuel
       | S f =>
           let* l := get (tdLinks (tD t)) i in
           if negb (lEdge l =? spSegMax sp) then ray_link f m flt startPos endPos sp t p (lNext l) nx
           else
             let* nx := TileAndPolyByRefUnsafe m (lRef l) in
             if Type_ (snd nx) =? polyTypeOffMeshConnection then ray_link f m flt startPos endPos sp t p (lNext l) nx
             else if negb (qPass flt (lRef l) (fst nx) (snd nx)) then ray_link f m flt startPos endPos sp t p (lNext l) nx
             else if lSide l =? 255 then Ok (lRef l, nx)
             else if (lBMin l =? 0) && (lBMax l =? 255) then Ok (lRef l, nx)
             else
               let* inside := in_partial startPos endPos (spMax sp) t p l in
               if inside : bool then Ok (lRef l, nx) else ray_link f m flt startPos endPos sp t p (lNext l) nx
       end.

(** detour/query.go:1610-1624: the point where the ray leaves, with the height of the edge. *)
Definition leave_point (startPos endPos : fvec) (t : f32) (vs : list fvec) (seg : Z) : res fvec :=
  let dir := vsub numF endPos startPos in
  let cur := (fadd (vx startPos) (fmul (vx dir) t), fadd (vy startPos) (fmul (vy dir) t), fadd (vz startPos) (fmul (vz dir) t)) in
  let* e1 := get vs seg in
  let* e2 := (if zlen vs =? 0 then Panic else get vs ((seg + 1) mod zlen vs)) in
  let eDir := vsub numF e2 e1 in
  let diff := vsub numF cur e1 in
  let s := if fgt (fmul (vx eDir) (vx eDir)) (fmul (vz eDir) (vz eDir)) then fdiv (vx diff) (vx eDir) else fdiv (vz diff) (vz eDir) in
  Ok (vx cur, fadd (vy e1) (fmul (vy eDir) s), vz cur).
(** detour/query.go:1630-1644: normal of the edge that was hit. *)
Definition wall_normal (vs : list fvec) (seg : Z) : res fvec :=
  let* va := get vs seg in
  let* vb := get vs (if seg + 1 <? zlen vs then seg + 1 else 0) in
  let dx := fsub (vx vb) (vx va) in
  let dz := fsub (vz vb) (vz va) in
  Ok (normalize (dz, f0, fopp dx)).

(** detour/query.go:1476-1665: the loop. [cur] is curRef with its tile and polygon, [prev] the
    one before, [nx] nextTile and nextPoly, [n] the number of polygons stored. *)
Fixpoint ray_loop (fuel : nat) (m : NavMesh) (flt : QueryFilter) (startPos endPos : fvec) (options : Z)
    (hit : RaycastHit) (n st : Z) (cur : Z) (tp : MeshTile * Poly) (prev : Side) (nx : MeshTile * Poly) (curPos : fvec)
  : res (RaycastHit * Z) :=
  if cur =? 0 then Ok (hit_count n hit, st)
  else match fuel with
       | O => NoFuel
       | S f =>
           let '(t, p) := tp in
           let* vs := load_verts (tdVerts (tD t)) (pVerts p) (Z.to_nat (pVertCount p)) 0 in
           let '(sp, ok) := IntersectSegmentPoly2D numF startPos endPos vs in
           if negb ok then Ok (hit_count n hit, st)
           else
             let hit := hit_edge (spSegMax sp) hit in
             let hit := if fgt (spMax sp) (rT hit) then hit_T (spMax sp) hit else hit in
             let* (hit, n, st) :=
               (if n <? rMaxPath hit then let* path := set (rPath hit) n cur in Ok (hit_path path hit, n + 1, st)
                else Ok (hit, n, Z.lor st BufferTooSmall)) in
             if spSegMax sp =? -1 then
               let hit := hit_count n (hit_T maxFloat32 hit) in
               if use_costs options then
                 let* c := qCost flt curPos endPos prev (cur, Some tp) (cur, Some tp) in
                 Ok (hit_add_cost c hit, st)
               else Ok (hit, st)
             else
               let* (nref, nx) := ray_link (link_fuel (tdLinks (tD t))) m flt startPos endPos sp t p (pFirstLink p) nx in
               let* (hit, curPos) :=
                 (if use_costs options then
                    let* pos := leave_point startPos endPos (rT hit) vs (spSegMax sp) in
                    let* c := qCost flt curPos pos prev (cur, Some tp) (nref, Some nx) in
                    Ok (hit_add_cost c hit, pos)
                  else Ok (hit, curPos)) in
               if nref =? 0 then
                 let* nrm := wall_normal vs (spSegMax sp) in
                 Ok (hit_count n (hit_normal nrm hit), st)
               else ray_loop f m flt startPos endPos options hit n st nref nx (cur, Some tp) nx curPos
       end.

(** detour/query.go:1435-1666 Raycast: the hit structure and the status. Positions have three
    coordinates and the hit pointer is not nil. *)
Definition Raycast (fuel : nat) (m : NavMesh) (flt : QueryFilter) (startRef : Z) (startPos endPos : fvec) (options : Z)
    (hit : RaycastHit) (prevRef : Z) : res (RaycastHit * Z) :=
  let bad := Ok (hit, Z.lor Failure InvalidParam) in
  let* vs := (if startRef =? 0 then Ok false else IsValidPolyRef m startRef) in
  if negb vs then bad
  else
    let* vp := (if prevRef =? 0 then Ok true else IsValidPolyRef m prevRef) in
    if negb vp then bad
    else
      let hit := hit_normal (f0, f0, f0) hit in
      let* tp := TileAndPolyByRefUnsafe m startRef in
      let* ptp := (if prevRef =? 0 then Ok tp else TileAndPolyByRefUnsafe m prevRef) in
      ray_loop fuel m flt startPos endPos options hit 0 Success startRef tp (prevRef, Some ptp) tp startPos.

(** detour/query.go:1701-1711 Raycast2: hit normal (of three coordinates), path, pathCount, t and status. *)
Definition Raycast2 (fuel : nat) (m : NavMesh) (flt : QueryFilter) (startRef : Z) (startPos endPos : fvec)
    (path : list Z) (maxPath : Z) : res (fvec * list Z * Z * f32 * Z) :=
  let* (hit, st) := Raycast fuel m flt startRef startPos endPos 0 (mkHit f0 (f0, f0, f0) 0 path 0 maxPath f0) 0 in
  Ok (rNormal hit, rPath hit, rCount hit, rT hit, st).

(** detour/query.go:1368-1383 NavMeshQuery.IsValidPolyRef *)
Definition query_IsValidPolyRef (m : NavMesh) (flt : QueryFilter) (ref : Z) : res bool :=
  let* (st, tp) := TileAndPolyByRef m ref in
  if StatusFailed st then Ok false
  else match tp with
       | Some (it, p) => let* t := get (mTiles m) (Z.of_nat it) in Ok (qPass flt ref t p)
       | None => Panic
       end.
