(** CreateNavMeshData of [detour/navmeshcreate.go]: the bytes of a tile from a polygon mesh. *)
From Coq Require Import ZArith List Bool.
From Verif.Base Require Import Res GoNum F32 Num Grid Bytes.
From Verif.Model Require Import Poly MeshTypes Geom MeshLinks BvTree Serial SegDist.
Import ListNotations.
Open Scope Z_scope.

(** detour/navmeshcreate.go:389-534, type NavMeshCreateParams. Slices the code compares with nil
    are options. Float32 values are bit patterns. *)
Record CreateParams := mkCP {
  cpVerts : option (list Z);      (* []uint16 *)
  cpVertCount : Z;                (* int32 *)
  cpPolys : option (list Z);      (* []uint16 *)
  cpPolyFlags : list Z;           (* []uint16 *)
  cpPolyAreas : list Z;           (* []uint8 *)
  cpPolyCount : Z; cpNvp : Z;     (* int32 *)
  cpDMeshes : option (list Z);    (* []int32 *)
  cpDVerts : option (list Z);     (* []float32 *)
  cpDVertsCount : Z;              (* int32 *)
  cpDTris : list Z;               (* []uint8 *)
  cpDTriCount : Z;                (* int32 *)
  cpOMVerts : list Z; cpOMRad : list Z;  (* []float32 *)
  cpOMFlags : list Z;             (* []uint16 *)
  cpOMAreas : list Z; cpOMDir : list Z;  (* []uint8 *)
  cpOMUserID : list Z;            (* []uint32 *)
  cpOMCount : Z;                  (* int32 *)
  cpUserID : Z;                   (* uint32 *)
  cpTileX : Z; cpTileY : Z; cpTileLayer : Z;  (* int32 *)
  cpBMin : Z * Z * Z; cpBMax : Z * Z * Z;     (* [3]float32 *)
  cpWalkableHeight : Z; cpWalkableRadius : Z; cpWalkableClimb : Z; cpCs : Z; cpCh : Z;  (* float32 *)
  cpBuildBvTree : bool
}.
Definition nilOr {A} (o : option (list A)) : list A := match o with Some l => l | None => [] end.

(** detour/navmeshcreate.go:387 *)
Definition meshNullIdx : Z := 65535.

(** l[off:]; as elsewhere the capacity of a slice is its length. *)
Definition from {A} (l : list A) (off : Z) : res (list A) := slice l off (zlen l).
(** copy(l[off:off+len(xs)], xs), which panics if the range is not in l. *)
Definition putA {A} (l : list A) (off : Z) (xs : list A) : res (list A) :=
  if (0 <=? off) && (off + zlen xs <=? zlen l)
  then Ok (firstn (Z.to_nat off) l ++ xs ++ skipn (Z.to_nat (off + zlen xs)) l)
  else Panic.

(** detour/navmeshcreate.go:574-591: bounds of the heights. f32.SetMin and SetMax (external)
    keep the smaller and the larger value. *)
Definition heightBounds (p : CreateParams) : res (f32 * f32) :=
  let start := (maxFloat32, fopp maxFloat32) in
  let detail := match cpDVerts p with Some dv => if cpDVertsCount p =? 0 then None else Some dv | None => None end in
  match detail with
  | Some dv =>
      foldM (fun '(mn, mx) i =>
        let* h := get dv (i32 (i * 3 + 1)) in
        let h := f_of_bits h in
        Ok (fminf mn h, fmaxf mx h)) (zseq (Z.to_nat (cpDVertsCount p))) start
  | None =>
      foldM (fun '(mn, mx) i =>
        let* iv := from (nilOr (cpVerts p)) (i32 (i * 3)) in
        let* y := get iv 1 in
        let h := fadd (vy (fvec_of (cpBMin p))) (fmul (f_of_Z y) (f_of_bits (cpCh p))) in
        Ok (fminf mn h, fmaxf mx h)) (zseq (Z.to_nat (cpVertCount p))) start
  end.
(** detour/navmeshcreate.go:594-611: the classes of start and end of connection i. *)
Definition classifyCon (p : CreateParams) (hmin hmax : f32) (i : Z) : res (Z * Z) :=
  let bmin := (vx (fvec_of (cpBMin p)), hmin, vz (fvec_of (cpBMin p))) in
  let bmax := (vx (fvec_of (cpBMax p)), hmax, vz (fvec_of (cpBMax p))) in
  let* p0 := vec3_at (cpOMVerts p) (i32 (i * 2 * 3)) in
  let* p1 := vec3_at (cpOMVerts p) (i32 ((i * 2 + 1) * 3)) in
  let a := classifyOffMeshPoint p0 bmin bmax in
  let b := classifyOffMeshPoint p1 bmin bmax in
  let a := if (a =? 255) && (flt (vy p0) hmin || fgt (vy p0) hmax) then 0 else a in
  Ok (a, b).
(** detour/navmeshcreate.go:565-625: all classes; [] without connections. *)
Definition classifyAll (p : CreateParams) : res (list (Z * Z)) :=
  if 0 <? cpOMCount p then
    let* _ := make_len (i32 (cpOMCount p * 2)) in
    let* (hmin, hmax) := heightBounds p in
    let hmin := fsub hmin (f_of_bits (cpWalkableClimb p)) in
    let hmax := fadd hmax (f_of_bits (cpWalkableClimb p)) in
    foldM (fun acc i => let* c := classifyCon p hmin hmax i in Ok (acc ++ [c])) (zseq (Z.to_nat (cpOMCount p))) []
  else Ok [].
(** detour/navmeshcreate.go:613-623: the counters (at most 2^30 connections, so no overflow). *)
Definition storedCount (cls : list (Z * Z)) : Z := zlen (filter (fun c => fst c =? 255) cls).
Definition endCount (cls : list (Z * Z)) : Z := storedCount cls + zlen (filter (fun c => snd c =? 255) cls).

(** detour/navmeshcreate.go:638-650: edges and portals of one polygon. *)
Fixpoint countEdges (n : nat) (q : list Z) (nvp j ec pc : Z) : res (Z * Z) :=
  match n with
  | O => Ok (ec, pc)
  | S n' =>
      let* v := get q j in
      if v =? meshNullIdx then Ok (ec, pc)
      else
        let* e := get q (nvp + j) in
        let pc := if negb (Z.land e 32768 =? 0) && negb (Z.land e 15 =? 15) then i32 (pc + 1) else pc in
        countEdges n' q nvp (j + 1) (i32 (ec + 1)) pc
  end.
(** detour/navmeshcreate.go:666-672 and 682-688: number of vertices of a polygon. *)
Fixpoint countVerts (n : nat) (q : list Z) (j nv : Z) : res Z :=
  match n with
  | O => Ok nv
  | S n' => let* v := get q j in if v =? meshNullIdx then Ok nv else countVerts n' q (j + 1) (nv + 1)
  end.
(** detour/navmeshcreate.go:631-651 *)
Definition allEdges (p : CreateParams) : res (Z * Z) :=
  foldM (fun '(ec, pc) i =>
    let* q := from (nilOr (cpPolys p)) (i32 (i * 2 * cpNvp p)) in
    countEdges (Z.to_nat (cpNvp p)) q (cpNvp p) 0 ec pc) (zseq (Z.to_nat (cpPolyCount p))) (0, 0).
(** detour/navmeshcreate.go:655-691: detail vertices that are not polygon vertices, and triangles. *)
Definition detailCounts (p : CreateParams) : res (Z * Z) :=
  match cpDMeshes p with
  | Some dm =>
      let* u := foldM (fun u i =>
        let* q := from (nilOr (cpPolys p)) (i32 (i * cpNvp p * 2)) in
        let* ndv := get dm (i32 (i * 4 + 1)) in
        let* nv := countVerts (Z.to_nat (cpNvp p)) q 0 0 in
        Ok (i32 (u + i32 (ndv - nv)))) (zseq (Z.to_nat (cpPolyCount p))) 0 in
      Ok (u, cpDTriCount p)
  | None =>
      let* d := foldM (fun d i =>
        let* q := from (nilOr (cpPolys p)) (i32 (i * cpNvp p * 2)) in
        let* nv := countVerts (Z.to_nat (cpNvp p)) q 0 0 in
        Ok (i32 (d + (nv - 2)))) (zseq (Z.to_nat (cpPolyCount p))) 0 in
      Ok (0, d)
  end.

(** detour/navmeshcreate.go:756-762: mesh vertex i. *)
Definition fillVert (p : CreateParams) (verts : list Z) (i : Z) : res (list Z) :=
  let* iv := slice (nilOr (cpVerts p)) (i32 (i * 3)) (i32 (i * 3 + 3)) in
  let* x := get iv 0 in
  let* y := get iv 1 in
  let* z := get iv 2 in
  let o := fvec_of (cpBMin p) in
  let cs := f_of_bits (cpCs p) in
  putA verts (i32 (i * 3)) [bits_of_f (fadd (vx o) (fmul (f_of_Z x) cs)); bits_of_f (fadd (vy o) (fmul (f_of_Z y) (f_of_bits (cpCh p))));
                            bits_of_f (fadd (vz o) (fmul (f_of_Z z) cs))].
(** detour/navmeshcreate.go:763-774: the end points of connection i; state (navVerts, n). *)
Definition fillConVerts (p : CreateParams) (cls : list (Z * Z)) (st : list Z * Z) (i : Z) : res (list Z * Z) :=
  let '(verts, n) := st in
  let* c := get cls i in
  if fst c =? 255 then
    let* ends := slice (cpOMVerts p) (i32 (i * 2 * 3)) (i32 (i * 2 * 3) + 6) in
    let* verts := putA verts (i32 ((cpVertCount p + n * 2) * 3)) ends in
    Ok (verts, n + 1)
  else Ok st.

(** detour/navmeshcreate.go:790-807: neighbour code of an edge; [old] stays for portal numbers 4..14. *)
Definition neiCode (e old : Z) : Z :=
  if negb (Z.land e 32768 =? 0) then
    let d := Z.land e 15 in
    if d =? 15 then 0 else if d =? 0 then Z.lor extLink 4 else if d =? 1 then Z.lor extLink 2
    else if d =? 2 then extLink else if d =? 3 then Z.lor extLink 6 else old
  else u16 (e + 1).
(** detour/navmeshcreate.go:785-810 *)
Fixpoint fillEdges (n : nat) (src : list Z) (nvp j : Z) (q : Poly) : res Poly :=
  match n with
  | O => Ok q
  | S n' =>
      let* v := get src j in
      if v =? meshNullIdx then Ok q
      else
        let* vs := set (pVerts q) j v in
        let* e := get src (nvp + j) in
        let* old := get (pNeis q) j in
        let* ns := set (pNeis q) j (neiCode e old) in
        fillEdges n' src nvp (j + 1) (mkPoly (pFirstLink q) vs ns (pFlags q) (u8 (pVertCount q + 1)) (pAreaAndType q))
  end.
(** detour/navmeshcreate.go:778-812: polygon i; state (navPolys, src). *)
Definition fillPoly (p : CreateParams) (st : list Poly * list Z) (i : Z) : res (list Poly * list Z) :=
  let '(polys, src) := st in
  let* q := get polys i in
  let* flags := get (cpPolyFlags p) i in
  let* area := get (cpPolyAreas p) i in
  let q := mkPoly (pFirstLink q) (pVerts q) (pNeis q) flags 0 (pAreaAndType q) in
  let q := SetType (SetArea q area) 0 in
  let* q := fillEdges (Z.to_nat (cpNvp p)) src (cpNvp p) 0 q in
  let* polys := set polys i q in
  let* src := from src (i32 (cpNvp p * 2)) in
  Ok (polys, src).
(** detour/navmeshcreate.go:814-828: the polygon of connection i; state (navPolys, n). *)
Definition fillConPoly (p : CreateParams) (cls : list (Z * Z)) (st : list Poly * Z) (i : Z) : res (list Poly * Z) :=
  let '(polys, n) := st in
  let* c := get cls i in
  if fst c =? 255 then
    let* q := get polys (i32 (cpPolyCount p + n)) in
    let* vs := set (pVerts q) 0 (u16 (cpVertCount p + n * 2)) in
    let* vs := set vs 1 (u16 (cpVertCount p + n * 2 + 1)) in
    let* flags := get (cpOMFlags p) i in
    let* area := get (cpOMAreas p) i in
    let q := SetType (SetArea (mkPoly (pFirstLink q) vs (pNeis q) flags 2 (pAreaAndType q)) area) polyTypeOffMeshConnection in
    let* polys := set polys (i32 (cpPolyCount p + n)) q in
    Ok (polys, n + 1)
  else Ok st.

(** copy(dst[off:], src) on any element type: copies what fits. *)
Definition copyA {A} (dst : list A) (off : Z) (src : list A) : res (list A) :=
  if (0 <=? off) && (off <=? zlen dst) then putA dst off (firstn (Z.to_nat (zlen dst - off)) src) else Panic.
(** detour/navmeshcreate.go:835-850: details of polygon i; state (navDMeshes, navDVerts, vbase).
    vbase is uint16, and so is vbase*3. *)
Definition fillDetail (p : CreateParams) (dm : list Z) (polys : list Poly) (st : list PolyDetail * list Z * Z) (i : Z)
  : res (list PolyDetail * list Z * Z) :=
  let '(dms, dvs, vbase) := st in
  let* vb := get dm (i32 (i * 4)) in
  let* ndv := get dm (i32 (i * 4 + 1)) in
  let* q := get polys i in
  let nv := pVertCount q in
  let* tb := get dm (i32 (i * 4 + 2)) in
  let* tc := get dm (i32 (i * 4 + 3)) in
  let* dms := set dms i (mkDetail vbase (u32 tb) (u8 (ndv - nv)) (u8 tc)) in
  if i32 (ndv - nv) =? 0 then Ok (dms, dvs, vbase)
  else
    let start := i32 (i32 (vb + nv) * 3) in
    let len := i32 (3 * (ndv - nv)) in
    let* src := slice (nilOr (cpDVerts p)) start (i32 (start + len)) in
    let* dvs := copyA dvs (u16 (vbase * 3)) src in
    Ok (dms, dvs, u16 (vbase + u16 (ndv - nv))).
(** detour/navmeshcreate.go:863-878: the fan of a polygon; state (navDTris, tbase). *)
Definition fillFan (nv : Z) (st : list Z * Z) (j : Z) : res (list Z * Z) :=
  let '(tris, tbase) := st in
  let* tris := putA tris (i32 (tbase * 4)) [0; u8 (j - 1); j; Z.lor (Z.lor 4 (if j =? 2 then 1 else 0)) (if j =? nv - 1 then 16 else 0)] in
  Ok (tris, i32 (tbase + 1)).
(** detour/navmeshcreate.go:854-879: dummy details of polygon i; state (navDMeshes, navDTris, tbase). *)
Definition fillDummy (polys : list Poly) (st : list PolyDetail * list Z * Z) (i : Z) : res (list PolyDetail * list Z * Z) :=
  let '(dms, tris, tbase) := st in
  let* q := get polys i in
  let nv := pVertCount q in
  let* dms := set dms i (mkDetail 0 (u32 tbase) 0 (u8 (nv - 2))) in
  let* (tris, tbase) := foldM (fillFan nv) (map (fun k => k + 2) (zseq (Z.to_nat (nv - 2)))) (tris, tbase) in
  Ok (dms, tris, tbase).
(** detour/navmeshcreate.go:887-910: connection i; state (offMeshCons, n). *)
Definition fillCon (p : CreateParams) (cls : list (Z * Z)) (st : list OffMeshCon * Z) (i : Z) : res (list OffMeshCon * Z) :=
  let '(oms, n) := st in
  let* c := get cls i in
  if fst c =? 255 then
    let* ends := slice (cpOMVerts p) (i32 (i * 2 * 3)) (i32 (i * 2 * 3) + 6) in
    let* rad := get (cpOMRad p) i in
    let* dir := get (cpOMDir p) i in
    let* uid := match cpOMUserID p with [] => Ok 0 | l => get l i end in
    let* oms := set oms n (mkCon ends rad (u16 (cpPolyCount p + n)) (if dir =? 0 then 0 else offMeshConBidir) (snd c) uid) in
    Ok (oms, n + 1)
  else Ok st.

Definition zeroPoly : Poly := mkPoly 0 (repeat 0 6) (repeat 0 6) 0 0 0.
Definition zeroLink : Link := mkLink 0 0 0 0 0 0.
Definition zeroDetail : PolyDetail := mkDetail 0 0 0 0.
Definition zeroCon : OffMeshCon := mkCon (repeat 0 6) 0 0 0 0 0.

Section Sort.
Variable sort : (bvItem -> bvItem -> bool) -> list bvItem -> list bvItem.

(** detour/navmeshcreate.go:561-917: header, sections and the number of bytes. unsafe.Sizeof
    gives 32, 12, 12, 16 and 36 bytes for Poly, Link, PolyDetail, BvNode and OffMeshConnection. *)
Definition tileSections (p : CreateParams) : res (MeshHeader * TileData * Z) :=
  let pc := cpPolyCount p in
  let* cls := classifyAll p in
  let stored := storedCount cls in
  let totPoly := i32 (pc + stored) in
  let totVert := i32 (cpVertCount p + i32 (stored * 2)) in
  let* (ec, portals) := allEdges p in
  let maxLink := i32 (i32 (ec + i32 (portals * 2)) + i32 (endCount cls * 2)) in
  let* (u, dt) := detailCounts p in
  let dataSize := 100 + 12 * totVert + 32 * totPoly + 12 * maxLink + 12 * pc + 12 * u + 4 * dt +
                  (if cpBuildBvTree p then 16 * i32 (pc * 2) else 0) + 36 * stored in
  let* nverts := make_len (3 * totVert) in
  let* npolys := make_len totPoly in
  let* ndms := make_len pc in
  let* ndvs := make_len (i32 (3 * u)) in
  let* ntris := make_len (i32 (4 * dt)) in
  let* nbv := make_len (i32 (pc * 2)) in
  let hdr := mkHeader navMeshMagic navMeshVersion (cpTileX p) (cpTileY p) (cpTileLayer p) (cpUserID p) totPoly totVert maxLink
               pc u dt (if cpBuildBvTree p then i32 (pc * 2) else 0) stored pc
               (cpWalkableHeight p) (cpWalkableRadius p) (cpWalkableClimb p) (cpBMin p) (cpBMax p)
               (bits_of_f (fdiv f1 (f_of_bits (cpCs p)))) in
  let cons_idx := zseq (Z.to_nat (cpOMCount p)) in
  let* verts := foldM (fillVert p) (zseq (Z.to_nat (cpVertCount p))) (repeat 0 nverts) in
  let* (verts, _) := foldM (fillConVerts p cls) cons_idx (verts, 0) in
  let* (polys, _) := foldM (fillPoly p) (zseq (Z.to_nat pc)) (repeat zeroPoly npolys, nilOr (cpPolys p)) in
  let* (polys, _) := foldM (fillConPoly p cls) cons_idx (polys, 0) in
  let* (dms, dvs, tris) :=
    match nilOr (cpDMeshes p) with
    | _ :: _ =>
        let* (dms, dvs, _) := foldM (fillDetail p (nilOr (cpDMeshes p)) polys) (zseq (Z.to_nat pc)) (repeat zeroDetail ndms, repeat 0 ndvs, 0) in
        let* src := slice (cpDTris p) 0 (i32 (4 * cpDTriCount p)) in
        let* tris := copyA (repeat 0 ntris) 0 src in
        Ok (dms, dvs, tris)
    | [] =>
        let* (dms, tris, _) := foldM (fillDummy polys) (zseq (Z.to_nat pc)) (repeat zeroDetail ndms, repeat 0 ntris, 0) in
        Ok (dms, repeat 0 ndvs, tris)
    end in
  let* bv :=
    (if cpBuildBvTree p then
       let* (nodes, _) := createBVTree sort pc (nilOr (cpDMeshes p)) (map f_of_bits (nilOr (cpDVerts p))) (fvec_of (cpBMin p))
                                       (f_of_bits (cpCs p)) (repeat zeroBv nbv) in Ok nodes
     else Ok (repeat zeroBv nbv)) in
  let* (oms, _) := foldM (fillCon p cls) cons_idx (repeat zeroCon (Z.to_nat stored), 0) in
  let* nlinks := make_len maxLink in
  Ok (hdr, mkTD verts polys (repeat zeroLink nlinks) dms dvs tris bv oms, dataSize).

(** detour/navmeshcreate.go:548-559: the checks of the arguments. *)
Definition rejects (p : CreateParams) : bool :=
  (cpNvp p >? VertsPerPolygon) || (cpVertCount p >=? 65535) ||
  (cpVertCount p =? 0) || (match cpVerts p with None => true | _ => false end) ||
  (cpPolyCount p =? 0) || (match cpPolys p with None => true | _ => false end).

(** detour/navmeshcreate.go:547-925 CreateNavMeshData; None is an error. *)
Definition CreateNavMeshData (p : CreateParams) : res (option (list Z)) :=
  if rejects p then Ok None
  else
    let* (hdr, td, dataSize) := tileSections p in
    let* n := make_len dataSize in
    let* buf := header_serialize (repeat 0 n) hdr in
    let* tl := from buf header_size in
    let* tl := serializeTileData tl td in
    Ok (Some (firstn (Z.to_nat header_size) buf ++ tl)).
End Sort.
