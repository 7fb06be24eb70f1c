(** recast/recast.go: bounds, grid size and walkable triangles. *)
From Coq Require Import ZArith List Bool.
From Verif.Base Require Import Res GoNum F32 Num Grid.
From Verif.Model Require Import Geom Raster Heightfield Delaunay Raycast.
Import ListNotations.
Open Scope Z_scope.

(** recast/recast.go:19-30 CalcBounds.  The bounds are returned (they are written to two other slices). *)
Definition CalcBounds (verts : list f32) (nv : Z) : res (vec3 * vec3) :=
  let* v := vert verts 0 in
  foldM (fun b i =>
    let* v := vert verts (i + 1) in
    Ok (vmin (fst b) v, vmax (snd b) v)) (zseq (Z.to_nat (nv - 1))) (v, v).

(** recast/recast.go:43-47 CalcGridSize. *)
Definition CalcGridSize (bmin bmax : vec3) (cs : f32) : Z * Z :=
  (f_to_i32 (fadd (fdiv (fsub (c0 bmax) (c0 bmin)) cs) (f_ratio 1 2)),
   f_to_i32 (fadd (fdiv (fsub (c2 bmax) (c2 bmin)) cs) (f_ratio 1 2))).

(** d3.Vec3Cross (external). *)
Definition vcross (a b : vec f32) : vec f32 :=
  (fsub (fmul (vy a) (vz b)) (fmul (vz a) (vy b)),
   fsub (fmul (vz a) (vx b)) (fmul (vx a) (vz b)),
   fsub (fmul (vx a) (vy b)) (fmul (vy a) (vx b))).
(** recast/recast.go:49-52 calcTriNormal. *)
Definition calcTriNormal (v0 v1 v2 : vec f32) : vec f32 := normalize (vcross (vsub numF v1 v0) (vsub numF v2 v0)).

(** recast/config.go: WalkableArea *)
Definition WalkableArea : Z := 63.
(** The normal of triangle i; tris[i*3:] and verts[tri[k]*3:]. *)
Definition triNormal (verts : list f32) (tris : list Z) (i : Z) : res (vec f32) :=
  let* a := get tris (i32 (i * 3)) in
  let* b := get tris (i32 (i * 3) + 1) in
  let* c := get tris (i32 (i * 3) + 2) in
  let* v0 := vert verts a in
  let* v1 := vert verts b in
  let* v2 := vert verts c in
  Ok (calcTriNormal v0 v1 v2).
(** float32(math.Pi) *)
Definition pi32 : f32 := S754_finite false 13176795 (-22).
(** recast/recast.go:78 and 115.  The cosine of the package math32 is a parameter. *)
Definition walkableThr (cosf : f32 -> f32) (angle : f32) : f32 := cosf (fmul (fdiv angle (f_of_Z 180)) pi32).

(** recast/recast.go:74-89 MarkWalkableTriangles. *)
Definition MarkWalkableTriangles (cosf : f32 -> f32) (angle : f32) (verts : list f32) (tris : list Z) (nt : Z) (areas : list Z) : res (list Z) :=
  let thr := walkableThr cosf angle in
  foldM (fun areas i =>
    let* n := triNormal verts tris i in
    if fgt (vy n) thr then set areas i WalkableArea else Ok areas) (zseq (Z.to_nat nt)) areas.

(** recast/recast.go:111-127 ClearUnwalkableTriangles. *)
Definition ClearUnwalkableTriangles (cosf : f32 -> f32) (angle : f32) (verts : list f32) (tris : list Z) (nt : Z) (areas : list Z) : res (list Z) :=
  let thr := walkableThr cosf angle in
  foldM (fun areas i =>
    let* n := triNormal verts tris i in
    if fle (vy n) thr then set areas i nullArea else Ok areas) (zseq (Z.to_nat nt)) areas.
