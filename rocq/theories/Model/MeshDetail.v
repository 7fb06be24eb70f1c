(** recast/meshdetail.go: BuildPolyMeshDetail. *)
From Coq Require Import ZArith List Bool.
From Verif.Base Require Import Res GoNum F32 Num Grid.
From Verif.Model Require Import Geom Raster Compact HeightSearch HeightData Delaunay PolyDetail.
Import ListNotations.
Open Scope Z_scope.

(** recast/polymesh.go:9-25: the fields of PolyMesh that are read, and recast/heightfield.go: Cs and Ch of
    the compact heightfield. *)
Record DetailInput := mkDetailInput {
  diVerts : list Z; diNVerts : Z; diPolys : list Z; diNPolys : Z; diNvp : Z; diRegs : list Z;
  diCs : f32; diCh : f32; diBMin : vec f32; diBorder : Z; diMaxEdgeError : f32;
  diChf : CompactHeightfield; diChfCs : f32; diChfCh : f32 }.

(** recast/meshdetail.go:14-21: the fields of PolyMeshDetail; Meshes in groups of four. *)
Record DetailMesh := mkDetailMesh {
  dmMeshes : list (Z * Z * Z * Z); dmVerts : list f32; dmNVerts : Z; dmTris : list Z; dmNTris : Z }.

(** The vertex numbers of polygon [i] up to meshNullIdx: entries j, j+1, ... of p, [k] more of them. *)
Fixpoint polyRow (polys : list Z) (off : Z) (k : nat) : res (list Z) :=
  match k with
  | O => Ok []
  | S k =>
      let* v := get polys off in
      if v =? 65535 then Ok []
      else let* l := polyRow polys (off + 1) k in Ok (v :: l)
  end.
(** mesh.Verts[p[j]*3:]; the product is taken in uint16. *)
Definition meshVert (verts : list Z) (p : Z) : res (Z * Z * Z) :=
  let* x := get verts (u16 (p * 3)) in
  let* y := get verts (u16 (p * 3) + 1) in
  let* z := get verts (u16 (p * 3) + 2) in
  Ok (x, y, z).

(** recast/meshdetail.go:374-398: (xmin, xmax, ymin, ymax) of a polygon. *)
Definition polyBox (I : DetailInput) (row : list Z) : res (Z * Z * Z * Z) :=
  let w := chf_w (diChf I) in
  let h := chf_h (diChf I) in
  let* (x0, x1, y0, y1) := foldM (fun b p =>
    let '(x0, x1, y0, y1) := b in
    let* (x, _, z) := meshVert (diVerts I) p in
    Ok (Z.min x0 x, Z.max x1 x, Z.min y0 z, Z.max y1 z)) row (w, 0, h, 0) in
  Ok (Z.max 0 (x0 - 1), Z.min w (x1 + 1), Z.max 0 (y0 - 1), Z.min h (y1 + 1)).

(** recast/meshdetail.go:373-406: bounds, nPolyVerts, maxhw and maxhh.  Sums and products of sizes are not
    wrapped here and below (they are int32 in the code). *)
Definition allBoxes (I : DetailInput) : res (list (Z * Z * Z * Z) * Z * Z * Z) :=
  foldM (fun st i =>
    let '(boxes, nv, mw, mh) := st in
    let* row := polyRow (diPolys I) (i * diNvp I * 2) (Z.to_nat (diNvp I)) in
    let* (x0, x1, y0, y1) := polyBox I row in
    let boxes := boxes ++ [(x0, x1, y0, y1)] in
    if (x1 <=? x0) || (y1 <=? y0) then Ok (boxes, nv + zlen row, mw, mh)
    else Ok (boxes, nv + zlen row, Z.max mw (x1 - x0), Z.max mh (y1 - y0))) (zseq (Z.to_nat (diNPolys I))) ([], 0, 0, 0).

(** recast/meshdetail.go:428-434: the vertices of a polygon.  Only the entries in use of the array poly are
    kept. *)
Definition polyPoints (I : DetailInput) (row : list Z) : res (list f32) :=
  foldM (fun l p =>
    let* (x, y, z) := meshVert (diVerts I) p in
    Ok (l ++ [fmul (f_of_Z x) (diCs I); fmul (f_of_Z y) (diCh I); fmul (f_of_Z z) (diCs I)])) row [].

(** recast/meshdetail.go:456-460 and 462-466: n vertices moved. *)
Definition movePts (d : vec f32) (n : Z) (verts : list f32) : res (list f32) :=
  foldM (fun l j =>
    let* v := vert l j in
    putVert l j (fadd (vx v) (vx d), fadd (vy v) (vy d), fadd (vz v) (vz d))) (zseq (Z.to_nat n)) verts.

(** recast/meshdetail.go:477-479 and 496-498: the capacity. *)
Fixpoint grow (fuel : nat) (need cap : Z) : res Z :=
  match fuel with
  | O => NoFuel
  | S f => if need >? cap then grow f need (cap + 256) else Ok cap
  end.
(** recast/meshdetail.go:476-493: the vertices are stored; (Verts, NVerts, vcap). *)
Definition storeVerts (verts : list f32) (n : Z) (st : list f32 * Z * Z) : res (list f32 * Z * Z) :=
  let '(dv, nv, vcap) := st in
  let* (dv, vcap) :=
    if nv + n >? vcap then
      let* cap := grow (S (Z.to_nat n)) (nv + n) vcap in
      Ok (firstn (Z.to_nat (3 * nv)) dv ++ repeat f0 (Z.to_nat (3 * cap - 3 * nv)), cap)
    else Ok (dv, vcap) in
  let* (dv, nv) := foldM (fun st j =>
    let '(dv, nv) := st in
    let* v := vert verts j in
    let* dv := putVert dv nv v in
    Ok (dv, nv + 1)) (zseq (Z.to_nat n)) (dv, nv) in
  Ok (dv, nv, vcap).
(** recast/meshdetail.go:495-511: the triangles are stored; (Tris, NTris, tcap). *)
Definition storeTris (verts : list f32) (vpoly : list (vec f32)) (ts : list (Z * Z * Z)) (st : list Z * Z * Z) : res (list Z * Z * Z) :=
  let '(dt, nt, tcap) := st in
  let* (dt, tcap) :=
    if nt + zlen ts >? tcap then
      let* cap := grow (S (length ts)) (nt + zlen ts) tcap in
      Ok (firstn (Z.to_nat (4 * nt)) dt ++ repeat 0 (Z.to_nat (4 * cap - 4 * nt)), cap)
    else Ok (dt, tcap) in
  let* (dt, nt) := foldM (fun st t =>
    let '(dt, nt) := st in
    let '(a, b, c) := t in
    let* dt := set dt (nt * 4) (u8 a) in
    let* dt := set dt (nt * 4 + 1) (u8 b) in
    let* dt := set dt (nt * 4 + 2) (u8 c) in
    let* va := vert verts a in
    let* vb := vert verts b in
    let* vc := vert verts c in
    let* dt := set dt (nt * 4 + 3) (getTriFlags va vb vc vpoly) in
    Ok (dt, nt + 1)) ts (dt, nt) in
  Ok (dt, nt, tcap).

(** The vertices of a polygon as points. *)
Fixpoint points (l : list f32) : list (vec f32) :=
  match l with x :: y :: z :: l => (x, y, z) :: points l | _ => [] end.

(** recast/meshdetail.go:421-513: one polygon; the state is (hp.data, verts, dmesh, vcap, tcap). *)
Definition detailPoly (I : DetailInput) (radius : Z) (boxes : list (Z * Z * Z * Z)) (sampleDist maxErr : f32)
    (st : list Z * list f32 * DetailMesh * Z * Z) (i : Z) : res (list Z * list f32 * DetailMesh * Z * Z) :=
  let '(data, verts, dm, vcap, tcap) := st in
  let* row := polyRow (diPolys I) (i * diNvp I * 2) (Z.to_nat (diNvp I)) in
  let* poly := polyPoints I row in
  let* (x0, x1, y0, y1) := get boxes i in
  let* reg := get (diRegs I) i in
  let* data := getHeightData (diChf I) row (diVerts I) (diBorder I) (mkPatch data x0 y0 (x1 - x0) (y1 - y0)) reg in
  let hp := mkPatch data x0 y0 (x1 - x0) (y1 - y0) in
  let* (verts, nverts, ts) := buildPolyDetail (mkHeights (diChfCs I) (diChfCh I) radius hp) poly (zlen row) sampleDist maxErr verts in
  let o := diBMin I in
  let* verts := movePts (vx o, fadd (vy o) (diChfCh I), vz o) nverts verts in
  let* poly := movePts o (zlen row) poly in
  let meshes := dmMeshes dm ++ [(dmNVerts dm, nverts, dmNTris dm, zlen ts)] in
  let* (dv, nv, vcap) := storeVerts verts nverts (dmVerts dm, dmNVerts dm, vcap) in
  let* (dt, nt, tcap) := storeTris verts (points poly) ts (dmTris dm, dmNTris dm, tcap) in
  Ok (data, verts, mkDetailMesh meshes dv nv dt nt, vcap, tcap).

(** recast/meshdetail.go:340-517 BuildPolyMeshDetail.  It never returns false. *)
Definition BuildPolyMeshDetail (I : DetailInput) (sampleDist maxErr : f32) : res DetailMesh :=
  if (diNVerts I =? 0) || (diNPolys I =? 0) then Ok (mkDetailMesh [] [] 0 [] 0)
  else
    let radius := Z.max 1 (f_ceil_i32 (diMaxEdgeError I)) in
    let* (boxes, npv, mw, mh) := allBoxes I in
    let vcap := npv + npv / 2 in
    let tcap := vcap * 2 in
    let dm := mkDetailMesh [] (repeat f0 (Z.to_nat (vcap * 3))) 0 (repeat 0 (Z.to_nat (tcap * 4))) 0 in
    let* (_, _, dm, _, _) := foldM (detailPoly I radius boxes sampleDist maxErr) (zseq (Z.to_nat (diNPolys I)))
      (repeat 0 (Z.to_nat (mw * mh)), repeat f0 768, dm, vcap, tcap) in
    Ok dm.
