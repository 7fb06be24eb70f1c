(** Polygon links of [detour/mesh.go]: link slots of a tile, internal links, links across tile
    borders and off-mesh connections. Tiles are addressed by their index in NavMesh.Tiles, so
    that two tile pointers alias exactly when their indices are equal. *)
From Coq Require Import ZArith List Bool.
From Verif.Base Require Import Res GoNum F32 Num Grid.
From Verif.Model Require Import Poly PolyRef Bounds Geom MeshTypes.
Import ListNotations.
Open Scope Z_scope.

(** &m.Tiles[i] and writing through that pointer. *)
Definition tile_of (m : NavMesh) (i : nat) : res MeshTile := getn (mTiles m) i.
Definition set_tile (m : NavMesh) (i : nat) (t : MeshTile) : NavMesh := set_mTiles m (upd (mTiles m) i t).
(** tile.Header.X etc. on a nil header panics. *)
Definition hdr_of (t : MeshTile) : res MeshHeader := of_option (tHeader t).

(** detour/mesh.go:624-631 polyRefBase and 1585-1592 TileRef (index by pointer difference). *)
Definition polyRefBase (m : NavMesh) (i : nat) : res Z :=
  let* t := tile_of m i in Ok (encodePolyID (mBits m) (tSalt t) (Z.of_nat i) 0).
Definition TileRef (m : NavMesh) (i : nat) : res Z := polyRefBase m i.

(** detour/mesh.go:642-649 *)
Definition allocLink (t : MeshTile) : res (MeshTile * Z) :=
  if tLinksFree t =? nullLink then Ok (t, nullLink)
  else
    let link := tLinksFree t in
    let* l := get (tdLinks (tD t)) link in
    Ok (set_tLinksFree t (lNext l), link).
(** detour/mesh.go:651-654 *)
Definition freeLink (t : MeshTile) (link : Z) : res MeshTile :=
  let* l := get (tdLinks (tD t)) link in
  let* ls := set (tdLinks (tD t)) link (set_lNext l (tLinksFree t)) in
  Ok (set_tLinksFree (set_tD t (set_tdLinks (tD t) ls)) link).

(** The block, repeated in connectIntLinks (593-606), baseOffMeshLinks (821-849),
    connectExtOffMeshLinks (1186-1218) and connectExtLinks (1288-1315): allocate a link, fill
    it in and put it in front of the polygon's list. [b] = None leaves BMin and BMax of the
    slot as they are. *)
Definition push_link (t : MeshTile) (ip ref edge side : Z) (b : option (Z * Z)) : res MeshTile :=
  let* (t, idx) := allocLink t in
  if idx =? nullLink then Ok t
  else
    let* p := get (tdPolys (tD t)) ip in
    let* l := get (tdLinks (tD t)) idx in
    let '(b0, b1) := match b with Some bb => bb | None => (lBMin l, lBMax l) end in
    let* ls := set (tdLinks (tD t)) idx (mkLink ref (pFirstLink p) edge side b0 b1) in
    let* ps := set (tdPolys (tD t)) ip (with_FirstLink p idx) in
    Ok (set_tD t (set_tdPolys (set_tdLinks (tD t) ls) ps)).

(** detour/mesh.go:583-608: the body of the loop over the polygons. VertCount-1 is uint8
    arithmetic; the edges run downwards. *)
Definition connectIntPoly (base : Z) (t : MeshTile) (i : Z) : res MeshTile :=
  let* p := get (tdPolys (tD t)) i in
  let* ps := set (tdPolys (tD t)) i (with_FirstLink p nullLink) in
  let t := set_tD t (set_tdPolys (tD t) ps) in
  if Type_ p =? polyTypeOffMeshConnection then Ok t
  else
    foldM (fun t j =>
      let* nei := get (pNeis p) j in
      if (nei =? 0) || negb (Z.land nei extLink =? 0) then Ok t
      else push_link t i (Z.lor base (u16 (nei - 1))) j 255 (Some (0, 0)))
      (rev (zseq (Z.to_nat (u8 (pVertCount p - 1) + 1)))) t.
(** detour/mesh.go:569-610 connectIntLinks *)
Definition connectIntLinks (m : NavMesh) (it : nat) : res NavMesh :=
  let* t := tile_of m it in
  let* h := hdr_of t in
  let* base := polyRefBase m it in
  let* t := foldM (connectIntPoly base) (zseq (Z.to_nat (hPolyCount h))) t in
  Ok (set_tile m it t).

(** ** Vertices *)
Definition fvec := vec f32.
(** A vector from three stored floats. *)
Definition vec3_at (vs : list Z) (off : Z) : res fvec :=
  let* a := get vs off in
  let* b := get vs (off + 1) in
  let* c := get vs (off + 2) in
  Ok (f_of_bits a, f_of_bits b, f_of_bits c).
(** tile.Verts[idx : idx+3] with uint16 idx = v*3 (e.g. detour/mesh.go:1355-1358). *)
Definition vert16 (vs : list Z) (v : Z) : res fvec :=
  let idx := u16 (v * 3) in
  if u16 (idx + 3) <? idx then Panic else vec3_at vs idx.
(** tile.Verts[idx:] with uint16 idx = v*3; the elements are checked when used. *)
Definition vert_tail (vs : list Z) (v : Z) : res (list Z) :=
  let idx := u16 (v * 3) in
  if idx <=? zlen vs then Ok (skipn (Z.to_nat idx) vs) else Panic.
(** tile.Verts[v*3 : 3] (detour/mesh.go:978, 983, 1026-1027): panics unless v*3 <= 3; for
    v*3 = 3 the slice is empty and its first use panics. *)
Definition vert_bad (vs : list Z) (v : Z) : res fvec :=
  if u16 (v * 3) =? 0 then vec3_at vs 0 else Panic.
(** Vec3.Assign through a slice of Verts starting at idx. *)
Definition assign_vert (t : MeshTile) (idx : Z) (v : fvec) : res MeshTile :=
  let* vs := set (tdVerts (tD t)) idx (bits_of_f (vx v)) in
  let* vs := set vs (idx + 1) (bits_of_f (vy v)) in
  let* vs := set vs (idx + 2) (bits_of_f (vz v)) in
  Ok (set_tD t (set_tdVerts (tD t) vs)).
Definition fvec_of (b : Z * Z * Z) : fvec :=
  let '(x, y, z) := b in (f_of_bits x, f_of_bits y, f_of_bits z).

(** ** Polygons of a tile near a box *)

(** The loop of queryPolygonsInTile, detour/mesh.go:945-965. [n] and [polys] as in the code:
    n is incremented before polys[n] is written. *)
Fixpoint bv_query (fuel : nat) (bv : list BvNode) (qmin qmax : Z * Z * Z) (base endIdx maxPolys idx n : Z) (polys : list Z)
  : res (Z * list Z) :=
  match fuel with
  | O => NoFuel
  | S f =>
      if idx <? endIdx then
        let* node := get bv idx in
        let overlap := OverlapQuantBounds qmin qmax (bMin node) (bMax node) in
        let isLeaf := 0 <=? bI node in
        let* (n, polys) :=
          (if isLeaf && overlap && (n <? maxPolys) then
             let* polys := set polys (n + 1) (Z.lor base (bI node)) in Ok (n + 1, polys)
           else Ok (n, polys)) in
        let idx := if overlap || isLeaf then i32 (idx + 1) else i32 (idx + i32 (- bI node)) in
        bv_query f bv qmin qmax base endIdx maxPolys idx n polys
      else Ok (n, polys)
  end.

(** detour/mesh.go:928-940: quantization of one coordinate. *)
Definition quant_min (q mn mx qfac : f32) : Z := u16 (Z.land (f_to_u32 (fmul qfac (fsub (fclamp q mn mx) mn))) 65534).
Definition quant_max (q mn mx qfac : f32) : Z :=
  u16 (Z.lor (f_to_u32 (fadd (fmul qfac (fsub (fclamp q mn mx) mn)) f1)) 1).

(** d3.Vec3Min / Vec3Max component-wise. *)
Definition vmin2 (a b : fvec) : fvec := (fminf (vx a) (vx b), fminf (vy a) (vy b), fminf (vz a) (vz b)).
Definition vmax2 (a b : fvec) : fvec := (fmaxf (vx a) (vx b), fmaxf (vy a) (vy b), fmaxf (vz a) (vz b)).

(** detour/mesh.go:901-994 NavMesh.queryPolygonsInTile: the count and the array. *)
Definition mesh_queryPolygonsInTile (m : NavMesh) (it : nat) (qmin qmax : fvec) (polys : list Z) (maxPolys : Z) : res (Z * list Z) :=
  let* t := tile_of m it in
  let* h := hdr_of t in
  let* base := polyRefBase m it in
  match tdBv (tD t) with
  | _ :: _ =>
      let tmin := fvec_of (hBMin h) in
      let tmax := fvec_of (hBMax h) in
      let qf := f_of_bits (hBvQuantFactor h) in
      let bmin := (quant_min (vx qmin) (vx tmin) (vx tmax) qf, quant_min (vy qmin) (vy tmin) (vy tmax) qf,
                   quant_min (vz qmin) (vz tmin) (vz tmax) qf) in
      let bmax := (quant_max (vx qmax) (vx tmin) (vx tmax) qf, quant_max (vy qmax) (vy tmin) (vy tmax) qf,
                   quant_max (vz qmax) (vz tmin) (vz tmax) qf) in
      bv_query (S (length (tdBv (tD t)))) (tdBv (tD t)) bmin bmax base (hBvNodeCount h) maxPolys 0 0 polys
  | [] =>
      foldM (fun '(n, polys) i =>
        let* p := get (tdPolys (tD t)) i in
        if Type_ p =? polyTypeOffMeshConnection then Ok (n, polys)
        else
          let* v0 := get (pVerts p) 0 in
          let* b := vert_bad (tdVerts (tD t)) v0 in
          let* (bmin, bmax) :=
            foldM (fun '(bmin, bmax) j =>
              let* vj := get (pVerts p) j in
              let* b := vert_bad (tdVerts (tD t)) vj in
              Ok (vmin2 bmin b, vmax2 bmax b))
              (map (fun j => j + 1) (zseq (Z.to_nat (pVertCount p - 1)))) (b, b) in
          if OverlapBounds qmin qmax bmin bmax && (n <? maxPolys) then
            let* polys := set polys (n + 1) (Z.lor base i) in Ok (n + 1, polys)
          else Ok (n, polys))
        (zseq (Z.to_nat (hPolyCount h))) (0, polys)
  end.

(** detour/mesh.go:1111-1116 *)
Definition TileAndPolyByRefUnsafe (m : NavMesh) (ref : Z) : res (MeshTile * Poly) :=
  let '(_, it, ip) := DecodePolyID (mBits m) ref in
  let* t := get (mTiles m) it in
  let* p := get (tdPolys (tD t)) ip in
  Ok (t, p).

(** detour/mesh.go:1046-1053 and query.go: the vertices of a polygon. *)
Fixpoint load_verts (vs : list Z) (pv : list Z) (n : nat) (i : Z) : res (list fvec) :=
  match n with
  | O => Ok []
  | S n' =>
      let* v := get pv i in
      let* w := vert16 vs v in
      let* l := load_verts vs pv n' (i + 1) in
      Ok (w :: l)
  end.

(** detour/mesh.go:1082-1100: the detail triangles of a polygon until one contains the point. *)
Definition detail_vert (t : MeshTile) (p : Poly) (pd : PolyDetail) (tk : Z) : res fvec :=
  if tk <? pVertCount p then
    let* v := get (pVerts p) tk in
    vert16 (tdVerts (tD t)) v
  else
    let vidx := u32 (u32 (dVertBase pd + u8 (tk - pVertCount p)) * 3) in
    if u32 (vidx + 3) <? vidx then Panic else vec3_at (tdDVerts (tD t)) vidx.
Fixpoint detail_height (t : MeshTile) (p : Poly) (pd : PolyDetail) (pt : fvec) (n : nat) (j : Z) : res (option f32) :=
  match n with
  | O => Ok None
  | S n' =>
      let vidx := u32 (u32 (dTriBase pd + j) * 4) in
      if u32 (vidx + 3) <? vidx then Panic
      else
        let* t0 := get (tdDTris (tD t)) vidx in
        let* t1 := get (tdDTris (tD t)) (vidx + 1) in
        let* t2 := get (tdDTris (tD t)) (vidx + 2) in
        let* a := detail_vert t p pd t0 in
        let* b := detail_vert t p pd t1 in
        let* c := detail_vert t p pd t2 in
        match closestHeightPointTriangle numF pt a b c with
        | Some h => Ok (Some h)
        | None => detail_height t p pd pt n' (j + 1)
        end
  end.

(** detour/mesh.go:1058-1068 and query.go:1000-1010: the edge with the smallest distance. *)
Fixpoint argmin (l : list (f32 * f32)) (i : Z) (dmin : f32) (imin : Z) (emin : f32) : Z * f32 :=
  match l with
  | [] => (imin, emin)
  | (d, e) :: l' => if flt d dmin then argmin l' (i + 1) d i e else argmin l' (i + 1) dmin imin emin
  end.
Definition nearest_edge (l : list (f32 * f32)) : res (Z * f32) :=
  match l with [] => Panic | (d, e) :: l' => Ok (argmin l' 1 d 0 e) end.

(** detour/mesh.go:1012-1102 NavMesh.closestPointOnPoly: what the caller finds in [closest]
    (initially zero) and posOverPoly. The code assigns a new slice to [closest] when the
    position is outside or on an off-mesh connection, which the caller does not see. *)
Definition mesh_closestPointOnPoly (m : NavMesh) (ref : Z) (pos : fvec) : res (fvec * bool) :=
  let* (t, p) := TileAndPolyByRefUnsafe m ref in
  if Type_ p =? polyTypeOffMeshConnection then
    let* a := get (pVerts p) 0 in
    let* _ := vert_bad (tdVerts (tD t)) a in
    let* b := get (pVerts p) 1 in
    let* _ := vert_bad (tdVerts (tD t)) b in
    Ok ((f0, f0, f0), false)
  else
    let* pd := get (tdDMeshes (tD t)) (decodePolyIDPoly (mBits m) ref) in
    let* vs := load_verts (tdVerts (tD t)) (pVerts p) (Z.to_nat (pVertCount p)) 0 in
    let '(inside, ds) := distancePtPolyEdgesSqr numF pos vs in
    if inside then
      let* h := detail_height t p pd pos (Z.to_nat (dTriCount pd)) 0 in
      match h with
      | Some y => Ok ((vx pos, y, vz pos), true)
      | None => Ok (pos, true)
      end
    else
      let* (imin, e) := nearest_edge ds in
      let* va := get vs imin in
      let* vb := get vs ((imin + 1) mod zlen vs) in
      let* _ := detail_height t p pd (vlerp numF va vb e) (Z.to_nat (dTriCount pd)) 0 in
      Ok (pos, false).

(** detour/mesh.go:854-898 NavMesh.FindNearestPolyInTile: reference and nearest point. *)
Definition mesh_FindNearestPolyInTile (m : NavMesh) (it : nat) (center ext : fvec) : res (Z * fvec) :=
  let bmin := vsub numF center ext in
  let bmax := vadd numF center ext in
  let* t := tile_of m it in
  let* h := hdr_of t in
  let* (n, polys) := mesh_queryPolygonsInTile m it bmin bmax (repeat 0 128) 128 in
  let* (best, nearest, pt) :=
    foldM (fun '(best, nearest, pt) i =>
      let* ref := get polys i in
      let* (closest, over) := mesh_closestPointOnPoly m ref center in
      let diff := vsub numF center closest in
      let d := if over : bool then
                 let d := fsub (fabs (vy diff)) (f_of_bits (hWalkableClimb h)) in
                 if fgt d f0 then fmul d d else f0
               else vlenSqr numF diff in
      if fle d best then Ok (d, ref, closest) else Ok (best, nearest, pt))
      (zseq (Z.to_nat n)) (maxFloat32, 0, (f0, f0, f0)) in
  Ok (nearest, pt).

(** ** Off-mesh connections *)

Definition pos_at (ps : list Z) (off : Z) : res fvec := vec3_at ps off.

(** detour/mesh.go:799-850: one connection of baseOffMeshLinks. *)
Definition baseOffMeshLink (it : nat) (base climb : Z) (m : NavMesh) (i : Z) : res NavMesh :=
  let* t := tile_of m it in
  let* con := get (tdCons (tD t)) i in
  let* poly := get (tdPolys (tD t)) (ocPoly con) in
  let rad := f_of_bits (ocRad con) in
  let* p := pos_at (ocPos con) 0 in
  let* (ref, pt) := mesh_FindNearestPolyInTile m it p (rad, f_of_bits climb, rad) in
  if ref =? 0 then Ok m
  else if fgt (fadd (fsqr (fsub (vx pt) (vx p))) (fsqr (fsub (vz pt) (vz p)))) (fsqr rad) then Ok m
  else
    let* v0 := get (pVerts poly) 0 in
    let idx := u16 (v0 * 3) in
    if u16 (idx + 3) <? idx then Panic
    else
      let* t := assign_vert t idx pt in
      let* t := push_link t (ocPoly con) ref 0 255 (Some (0, 0)) in
      let* t := push_link t (u16 (decodePolyIDPoly (mBits m) ref)) (Z.lor base (ocPoly con)) 255 255 (Some (0, 0)) in
      Ok (set_tile m it t).
(** detour/mesh.go:781-851 baseOffMeshLinks *)
Definition baseOffMeshLinks (m : NavMesh) (it : nat) : res NavMesh :=
  let* t := tile_of m it in
  let* h := hdr_of t in
  let* base := polyRefBase m it in
  foldM (baseOffMeshLink it base (hWalkableClimb h)) (zseq (Z.to_nat (hOffMeshConCount h))) m.

(** detour/mesh.go:1154-1219: one connection of connectExtOffMeshLinks. *)
Definition connectExtOffMeshLink (it itarget : nat) (side oppositeSide climb : Z) (m : NavMesh) (i : Z) : res NavMesh :=
  let* target := tile_of m itarget in
  let* con := get (tdCons (tD target)) i in
  if negb (ocSide con =? oppositeSide) then Ok m
  else
    let* tpoly := get (tdPolys (tD target)) (ocPoly con) in
    if pFirstLink tpoly =? nullLink then Ok m
    else
      let rad := f_of_bits (ocRad con) in
      let* p := pos_at (ocPos con) 3 in
      let* (ref, pt) := mesh_FindNearestPolyInTile m it p (rad, f_of_bits climb, rad) in
      if ref =? 0 then Ok m
      else if fgt (fadd (fsqr (fsub (vx pt) (vx p))) (fsqr (fsub (vz pt) (vz p)))) (fsqr rad) then Ok m
      else
        let* v1 := get (pVerts tpoly) 1 in
        let* target := assign_vert target (u16 (v1 * 3)) pt in
        let* target := push_link target (ocPoly con) ref 1 oppositeSide (Some (0, 0)) in
        let m := set_tile m itarget target in
        if Z.land (ocFlags con) offMeshConBidir =? 0 then Ok m
        else
          let* t := tile_of m it in
          let* tbase := polyRefBase m itarget in
          let* t := push_link t (u16 (decodePolyIDPoly (mBits m) ref)) (Z.lor tbase (ocPoly con)) 255
                      (if side =? -1 then 255 else u8 side) (Some (0, 0)) in
          Ok (set_tile m it t).
(** detour/mesh.go:1139-1221 connectExtOffMeshLinks *)
Definition connectExtOffMeshLinks (m : NavMesh) (it itarget : nat) (side : Z) : res NavMesh :=
  let oppositeSide := if side =? -1 then 255 else u8 (oppositeTile side) in
  let* target := tile_of m itarget in
  let* h := hdr_of target in
  foldM (connectExtOffMeshLink it itarget side oppositeSide (hWalkableClimb h))
        (zseq (Z.to_nat (hOffMeshConCount h))) m.

(** ** Links across tile borders *)

(** detour/mesh.go:1421-1447; None when the side is not 0, 2, 4 or 6 (nothing is written and
    the arrays keep their zeros). *)
Definition calcSlabEndPoints (va vb : list Z) (side : Z) : res (f32 * f32 * (f32 * f32)) :=
  let body (k : Z) :=
    let* a := get va k in
    let* b := get vb k in
    let* ay := get va 1 in
    let* by_ := get vb 1 in
    let a := f_of_bits a in let b := f_of_bits b in
    let ay := f_of_bits ay in let by_ := f_of_bits by_ in
    if flt a b then Ok ((a, ay), (b, by_)) else Ok ((b, by_), (a, ay)) in
  if (side =? 0) || (side =? 4) then body 2
  else if (side =? 2) || (side =? 6) then body 0
  else Ok ((f0, f0), (f0, f0)).
(** detour/mesh.go:1449-1456 *)
Definition slabCoord (va : list Z) (side : Z) : res f32 :=
  if (side =? 0) || (side =? 4) then let* a := get va 0 in Ok (f_of_bits a)
  else if (side =? 2) || (side =? 6) then let* a := get va 2 in Ok (f_of_bits a)
  else Ok f0.
(** detour/mesh.go:1458-1492 *)
Definition overlapSlabs (amin amax bmin bmax : f32 * f32) (px py : f32) : bool :=
  let minx := fmaxf (fadd (fst amin) px) (fadd (fst bmin) px) in
  let maxx := fminf (fsub (fst amax) px) (fsub (fst bmax) px) in
  if fgt minx maxx then false
  else
    let ad := fdiv (fsub (snd amax) (snd amin)) (fsub (fst amax) (fst amin)) in
    let ak := fsub (snd amin) (fmul ad (fst amin)) in
    let bd := fdiv (fsub (snd bmax) (snd bmin)) (fsub (fst bmax) (fst bmin)) in
    let bk := fsub (snd bmin) (fmul bd (fst bmin)) in
    let aminy := fadd (fmul ad minx) ak in
    let amaxy := fadd (fmul ad maxx) ak in
    let bminy := fadd (fmul bd minx) bk in
    let bmaxy := fadd (fmul bd maxx) bk in
    let dmin := fsub bminy aminy in
    let dmax := fsub bmaxy amaxy in
    if flt (fmul dmin dmax) f0 then true
    else
      let thr := fsqr (fmul py (f_of_Z 2)) in
      fle (fmul dmin dmin) thr || fle (fmul dmax dmax) thr.

(** detour/mesh.go:1347-1383: the first edge of a polygon that connects, with its extent. *)
Fixpoint connecting_edge (t : MeshTile) (p : Poly) (side : Z) (amin amax : f32 * f32) (apos climb : f32) (n : nat) (j : Z)
  : res (option (f32 * f32)) :=
  match n with
  | O => Ok None
  | S n' =>
      let* nei := get (pNeis p) j in
      if negb (nei =? Z.lor extLink (u16 side)) then connecting_edge t p side amin amax apos climb n' (j + 1)
      else
        let* v := get (pVerts p) j in
        let* w := get (pVerts p) (u8 (j + 1) mod pVertCount p) in
        let* _ := vert16 (tdVerts (tD t)) v in
        let* _ := vert16 (tdVerts (tD t)) w in
        let vc := skipn (Z.to_nat (u16 (v * 3))) (tdVerts (tD t)) in
        let vd := skipn (Z.to_nat (u16 (w * 3))) (tdVerts (tD t)) in
        let* bpos := slabCoord vc side in
        if fgt (fabs (fsub apos bpos)) (f_ratio 1 100) then connecting_edge t p side amin amax apos climb n' (j + 1)
        else
          let* (bmin, bmax) := calcSlabEndPoints vc vd side in
          if negb (overlapSlabs amin amax bmin bmax (f_ratio 1 100) climb)
          then connecting_edge t p side amin amax apos climb n' (j + 1)
          else Ok (Some (fmaxf (fst amin) (fst bmin), fminf (fst amax) (fst bmax)))
  end.
(** detour/mesh.go:1323-1388 findConnectingPolys: the connecting polygons, at most maxcon. *)
Definition findConnectingPolys (m : NavMesh) (va vb : list Z) (it : nat) (side maxcon : Z) : res (list (Z * (f32 * f32))) :=
  let* (amin, amax) := calcSlabEndPoints va vb side in
  let* apos := slabCoord va side in
  let* t := tile_of m it in
  let* h := hdr_of t in
  let* base := polyRefBase m it in
  foldM (fun acc i =>
    let* p := get (tdPolys (tD t)) i in
    let* c := connecting_edge t p side amin amax apos (f_of_bits (hWalkableClimb h)) (Z.to_nat (pVertCount p)) 0 in
    match c with
    | Some area => if zlen acc <? maxcon then Ok (acc ++ [(Z.lor base i, area)]) else Ok acc
    | None => Ok acc
    end) (zseq (Z.to_nat (hPolyCount h))) [].

(** detour/mesh.go:1297-1314: the portal limits as bytes; None when they are not written. *)
Definition portal_limits (va vb : list Z) (dir : Z) (area : f32 * f32) : res (option (Z * Z)) :=
  let body (k : Z) :=
    let* a := get va k in
    let* b := get vb k in
    let a := f_of_bits a in let b := f_of_bits b in
    let tmin := fdiv (fsub (fst area) a) (fsub b a) in
    let tmax := fdiv (fsub (snd area) a) (fsub b a) in
    let '(tmin, tmax) := if fgt tmin tmax then (tmax, tmin) else (tmin, tmax) in
    Ok (Some (f_to_u8 (fmul (fclamp tmin f0 f1) (f_of_Z 255)), f_to_u8 (fmul (fclamp tmax f0 f1) (f_of_Z 255)))) in
  if (dir =? 0) || (dir =? 4) then body 2
  else if (dir =? 2) || (dir =? 6) then body 0
  else Ok None.
(** detour/mesh.go:1267-1317: one edge of a polygon. *)
Definition connectExtEdge (it itarget : nat) (side i : Z) (m : NavMesh) (j : Z) : res NavMesh :=
  let* t := tile_of m it in
  let* p := get (tdPolys (tD t)) i in
  let* nei := get (pNeis p) j in
  if Z.land nei extLink =? 0 then Ok m
  else
    let dir := Z.land nei 255 in
    if negb (side =? -1) && negb (dir =? side) then Ok m
    else
      let* v := get (pVerts p) j in
      let* w := get (pVerts p) ((j + 1) mod pVertCount p) in
      let* va := vert_tail (tdVerts (tD t)) v in
      let* vb := vert_tail (tdVerts (tD t)) w in
      let* neis := findConnectingPolys m va vb itarget (oppositeTile dir) 4 in
      let* t := foldM (fun t '(ref, area) =>
        if tLinksFree t =? nullLink then Ok t
        else
          let* lim := portal_limits va vb dir area in
          push_link t i ref j (u8 dir) lim) neis t in
      Ok (set_tile m it t).
(** detour/mesh.go:1254-1319 connectExtLinks *)
Definition connectExtLinks (m : NavMesh) (it itarget : nat) (side : Z) : res NavMesh :=
  let* t := tile_of m it in
  let* h := hdr_of t in
  foldM (fun m i =>
    let* t := tile_of m it in
    let* p := get (tdPolys (tD t)) i in
    foldM (connectExtEdge it itarget side i) (zseq (Z.to_nat (pVertCount p))) m)
    (zseq (Z.to_nat (hPolyCount h))) m.

(** ** Removing links *)

(** detour/mesh.go:1399-1417: the inner loop over the links of polygon [i]; every step
    follows one link. [pj] is the previous link that stays. *)
Fixpoint unconnect_chain (fuel : nat) (b : IdBits) (target i : Z) (t : MeshTile) (j pj : Z) : res MeshTile :=
  if j =? nullLink then Ok t
  else match fuel with
  | O => NoFuel
  | S f =>
      let* l := get (tdLinks (tD t)) j in
      if decodePolyIDTile b (lRef l) =? target then
        let nj := lNext l in
        let* t :=
          (if pj =? nullLink then
             let* p := get (tdPolys (tD t)) i in
             let* ps := set (tdPolys (tD t)) i (with_FirstLink p nj) in
             Ok (set_tD t (set_tdPolys (tD t) ps))
           else
             let* q := get (tdLinks (tD t)) pj in
             let* ls := set (tdLinks (tD t)) pj (set_lNext q nj) in
             Ok (set_tD t (set_tdLinks (tD t) ls))) in
        let* t := freeLink t j in
        unconnect_chain f b target i t nj pj
      else unconnect_chain f b target i t (lNext l) j
  end.
(** detour/mesh.go:1390-1419 unconnectLinks *)
Definition unconnectLinks (m : NavMesh) (it itarget : nat) : res NavMesh :=
  let* tref := TileRef m itarget in
  let target := decodePolyIDTile (mBits m) tref in
  let* t := tile_of m it in
  let* h := hdr_of t in
  let* t := foldM (fun t i =>
    let* p := get (tdPolys (tD t)) i in
    unconnect_chain (S (length (tdLinks (tD t)))) (mBits m) target i t (pFirstLink p) nullLink)
    (zseq (Z.to_nat (hPolyCount h))) t in
  Ok (set_tile m it t).
