(** Box queries of [detour/query.go] and their callbacks in [detour/polyquery.go]. *)
From Coq Require Import ZArith List Bool.
From Verif.Base Require Import Res GoNum F32 Num Grid.
From Verif.Model Require Import Status Poly PolyRef Bounds Geom MeshTypes MeshLinks MeshTiles.
Import ListNotations.
Open Scope Z_scope.

(** uint16(f) for a float32: amd64 converts to int32 and keeps the low bits. *)
Definition f_to_u16 (a : f32) : Z := u16 (f_to_i32 a).
(** detour/query.go:1259-1272: quantization of one coordinate of the query box. *)
Definition q_min (q mn mx qfac : f32) : Z := Z.land (f_to_u16 (fmul qfac (fsub (fclamp q mn mx) mn))) 65534.
Definition q_max (q mn mx qfac : f32) : Z := Z.lor (f_to_u16 (fadd (fmul qfac (fsub (fclamp q mn mx) mn)) f1)) 1.
Definition quant_query (h : MeshHeader) (qmin qmax : fvec) : (Z * Z * Z) * (Z * Z * Z) :=
  let tmin := fvec_of (hBMin h) in
  let tmax := fvec_of (hBMax h) in
  let qf := f_of_bits (hBvQuantFactor h) in
  ((q_min (vx qmin) (vx tmin) (vx tmax) qf, q_min (vy qmin) (vy tmin) (vy tmax) qf, q_min (vz qmin) (vz tmin) (vz tmax) qf),
   (q_max (vx qmax) (vx tmin) (vx tmax) qf, q_max (vy qmax) (vy tmin) (vy tmax) qf, q_max (vz qmax) (vz tmin) (vz tmax) qf)).

Definition batchSize : Z := 32.

Section Query.
(** The filter (interface QueryFilter) and the callback (interface polyQuery): [process] gets
    the tile, the array of references and the count. The parallel array of polygon pointers,
    which no implementation reads, is left out. *)
Variable pass : Z -> MeshTile -> Poly -> bool.
Context {S : Type}.
Variable process : S -> MeshTile -> list Z -> Z -> res S.

(** detour/query.go:1286-1296 and 1330-1338: put a reference into the batch; the state is
    (n, polyRefs, callback state). *)
Definition emit (t : MeshTile) (st : Z * list Z * S) (ref : Z) : res (Z * list Z * S) :=
  let '(n, refs, s) := st in
  let* refs := set refs n ref in
  if n =? batchSize - 1 then
    let* s := process s t refs batchSize in Ok (0, refs, s)
  else Ok (n + 1, refs, s).

(** detour/query.go:1277-1306 *)
Fixpoint bv_loop (fuel : nat) (t : MeshTile) (qmin qmax : Z * Z * Z) (base endIdx idx : Z) (st : Z * list Z * S)
  : res (Z * list Z * S) :=
  match fuel with
  | O => NoFuel
  | Datatypes.S f =>
      if idx <? endIdx then
        let* node := get (tdBv (tD t)) idx in
        let overlap := OverlapQuantBounds qmin qmax (bMin node) (bMax node) in
        let isLeaf := 0 <=? bI node in
        let* st :=
          (if isLeaf && overlap then
             let ref := Z.lor base (bI node) in
             let* p := get (tdPolys (tD t)) (bI node) in
             if pass ref t p then emit t st ref else Ok st
           else Ok st) in
        let idx := if overlap || isLeaf then i32 (idx + 1) else i32 (idx + i32 (- bI node)) in
        bv_loop f t qmin qmax base endIdx idx st
      else Ok st
  end.

(** detour/query.go:1325-1334: the bounds of a polygon. *)
Definition poly_bounds (t : MeshTile) (p : Poly) : res (fvec * fvec) :=
  let* v0 := get (pVerts p) 0 in
  let* v := vert16 (tdVerts (tD t)) v0 in
  foldM (fun '(bmin, bmax) j =>
    let* vj := get (pVerts p) (j + 1) in
    let* v := vert16 (tdVerts (tD t)) vj in
    Ok (vmin2 bmin v, vmax2 bmax v)) (zseq (Z.to_nat (pVertCount p - 1))) (v, v).
(** detour/query.go:1311-1339: one polygon of the scan without a tree; log.Fatalf on an
    off-mesh connection. *)
Definition scan_step (t : MeshTile) (base : Z) (qmin qmax : fvec) (st : Z * list Z * S) (i : Z) : res (Z * list Z * S) :=
  let* p := get (tdPolys (tD t)) i in
  if Type_ p =? polyTypeOffMeshConnection then Exit
  else
    let ref := Z.lor base i in
    if negb (pass ref t p) then Ok st
    else
      let* (bmin, bmax) := poly_bounds t p in
      if OverlapBounds qmin qmax bmin bmax then emit t st ref else Ok st.

(** detour/query.go:1224-1348 NavMeshQuery.queryPolygonsInTile *)
Definition queryPolygonsInTile (m : NavMesh) (it : nat) (qmin qmax : fvec) (s : S) : res S :=
  let* t := tile_of m it in
  let* h := hdr_of t in
  let* base := polyRefBase m it in
  let st := (0, repeat 0 (Z.to_nat batchSize), s) in
  let* (n, refs, s) :=
    match tdBv (tD t) with
    | _ :: _ =>
        let '(bmin, bmax) := quant_query h qmin qmax in
        bv_loop (Datatypes.S (length (tdBv (tD t)))) t bmin bmax base (hBvNodeCount h) 0 st
    | [] => foldM (scan_step t base qmin qmax) (zseq (Z.to_nat (hPolyCount h))) st
    end in
  if 0 <? n then process s t refs n else Ok s.

(** detour/query.go:1193-1221 queryPolygons4. center and extents have three components, filter
    and query are not nil. A loop over int32 whose upper limit is the largest int32 never ends. *)
Definition zrange (a b : Z) : list Z := map (fun k => a + k) (zseq (Z.to_nat (b + 1 - a))).
Definition queryPolygons4 (m : NavMesh) (center ext : fvec) (s : S) : res (Z * S) :=
  let bmin := vsub numF center ext in
  let bmax := vadd numF center ext in
  let '(minx, miny) := CalcTileLoc m bmin in
  let '(maxx, maxy) := CalcTileLoc m bmax in
  if ((miny <=? maxy) && (maxy =? 2147483647)) || ((miny <=? maxy) && (minx <=? maxx) && (maxx =? 2147483647)) then NoFuel
  else
    let* s :=
      foldM (fun s y =>
        foldM (fun s x =>
          let* neis := TilesAt m x y 32 in
          foldM (fun s j => queryPolygonsInTile m j bmin bmax s) neis s)
          (zrange minx maxx) s)
        (zrange miny maxy) s in
    Ok (Success, s).
End Query.

(** detour/polyquery.go:79-109: collectPolysQuery.process ends the program. *)
Definition collect_process {S} (s : S) (t : MeshTile) (refs : list Z) (count : Z) : res S := Exit.

(** detour/query.go:1015-1037: the height of the first detail triangle over the point. Indices
    are converted to int before the slice expressions, so only the products wrap. *)
Definition q_detail_vert (t : MeshTile) (p : Poly) (pd : PolyDetail) (tk : Z) : res fvec :=
  if tk <? pVertCount p then
    let* v := get (pVerts p) tk in
    vec3_at (tdVerts (tD t)) (u16 (v * 3))
  else vec3_at (tdDVerts (tD t)) (u32 (u32 (dVertBase pd + u8 (tk - pVertCount p)) * 3)).
Fixpoint q_detail_height (t : MeshTile) (p : Poly) (pd : PolyDetail) (pt : fvec) (n : nat) (j : Z) : res (option f32) :=
  match n with
  | O => Ok None
  | Datatypes.S n' =>
      let idx := u32 (u32 (dTriBase pd + j) * 4) in
      let* t0 := get (tdDTris (tD t)) idx in
      let* t1 := get (tdDTris (tD t)) (idx + 1) in
      let* t2 := get (tdDTris (tD t)) (idx + 2) in
      let* a := q_detail_vert t p pd t0 in
      let* b := q_detail_vert t p pd t1 in
      let* c := q_detail_vert t p pd t2 in
      match closestHeightPointTriangle numF pt a b c with
      | Some h => Ok (Some h)
      | None => q_detail_height t p pd pt n' (j + 1)
      end
  end.

(** detour/query.go:941-1040 NavMeshQuery.ClosestPointOnPoly: what *closest and *posOverPoly
    hold afterwards ([closest] given, posOverPoly initially false) and the status. *)
Definition ClosestPointOnPoly (m : NavMesh) (ref : Z) (pos closest : fvec) : res (fvec * bool * Z) :=
  let* (st, tp) := TileAndPolyByRef m ref in
  if StatusFailed st then Ok (closest, false, Z.lor Failure InvalidParam)
  else
    match tp with
    | None => Ok (closest, false, Z.lor Failure InvalidParam)
    | Some (it, p) =>
        let* t := tile_of m it in
        if Type_ p =? polyTypeOffMeshConnection then
          let* a := get (pVerts p) 0 in
          let* v0 := vert16 (tdVerts (tD t)) a in
          let* b := get (pVerts p) 1 in
          let* v1 := vert16 (tdVerts (tD t)) b in
          let d0 := vdist pos v0 in
          let d1 := vdist pos v1 in
          Ok (vlerp numF v0 v1 (fdiv d0 (fadd d0 d1)), false, Success)
        else
          let* pd := get (tdDMeshes (tD t)) (decodePolyIDPoly (mBits m) ref) in
          let* vs := load_verts (tdVerts (tD t)) (pVerts p) (Z.to_nat (pVertCount p)) 0 in
          let '(inside, ds) := distancePtPolyEdgesSqr numF pos vs in
          let* c :=
            (if inside : bool then Ok pos
             else
               let* (imin, e) := nearest_edge ds in
               let* va := get vs imin in
               let* vb := get vs ((imin + 1) mod zlen vs) in
               Ok (vlerp numF va vb e)) in
          let* h := q_detail_height t p pd c (Z.to_nat (dTriCount pd)) 0 in
          match h with
          | Some y => Ok ((vx c, y, vz c), inside, Success)
          | None => Ok (c, inside, Success)
          end
    end.

(** detour/polyquery.go:21-27 findNearestPolyQuery (the query and center are fixed). *)
Record Nearest := mkNearest { nrDist : f32; nrRef : Z; nrPoint : fvec }.
(** detour/polyquery.go:29-37 *)
Definition newNearest : Nearest := mkNearest maxFloat32 0 (f0, f0, f0).
(** detour/polyquery.go:43-62: the distance measure of a candidate and the point on it. *)
Definition near_dist (m : NavMesh) (center : fvec) (t : MeshTile) (ref : Z) : res (f32 * fvec) :=
  let* (closest, over, _) := ClosestPointOnPoly m ref center (f0, f0, f0) in
  let diff := vsub numF center closest in
  if over : bool then
    let* h := hdr_of t in
    let d := fsub (fabs (vy diff)) (f_of_bits (hWalkableClimb h)) in
    Ok (if fgt d f0 then fmul d d else f0, closest)
  else Ok (vlenSqr numF diff, closest).
(** detour/polyquery.go:64-69 *)
Definition near_step (s : Nearest) (ref : Z) (d : f32) (pt : fvec) : Nearest :=
  if flt d (nrDist s) then mkNearest d ref pt else s.
(** detour/polyquery.go:39-70 findNearestPolyQuery.process *)
Definition near_process (m : NavMesh) (center : fvec) (s : Nearest) (t : MeshTile) (refs : list Z) (count : Z) : res Nearest :=
  foldM (fun s i =>
    let* ref := get refs i in
    let* (d, pt) := near_dist m center t ref in
    Ok (near_step s ref d pt)) (zseq (Z.to_nat count)) s.
(** detour/query.go:1113-1131 FindNearestPoly: status, reference and point (None: nil). *)
Definition FindNearestPoly (pass : Z -> MeshTile -> Poly -> bool) (m : NavMesh) (center ext : fvec) : res (Z * Z * option fvec) :=
  let* (st, s) := queryPolygons4 pass (near_process m center) m center ext newNearest in
  if StatusFailed st then Ok (st, 0, None)
  else Ok (Success, nrRef s, if nrRef s =? 0 then None else Some (nrPoint s)).
