(** The building of both meshes from a compact heightfield, as in sample/solomesh/builder.go and
    sample/tilemesh/builder.go. *)
From Coq Require Import ZArith List Bool.
From Verif.Base Require Import Res GoNum F32 Num.
From Verif.Model Require Import Geom Compact RegionMerge Contour BuildMesh MeshDetail.
Import ListNotations.
Open Scope Z_scope.

(** The fields of recast.Config (recast/recast.go) that are read. *)
Record Config := mkConfig {
  cfBorder : Z; cfMinArea : Z; cfMergeArea : Z; cfMaxError : f32; cfMaxEdgeLen : Z; cfNvp : Z;
  cfCs : f32; cfCh : f32; cfSampleDist : f32; cfSampleErr : f32 }.

(** recast/contour.go:216-224: BMin of the contour set, later of the mesh (recast/polymesh.go:98). *)
Definition contourBMin (bs : Z) (cs : f32) (bmin : vec f32) : vec f32 :=
  if 0 <? bs then let pad := fmul (f_of_Z bs) cs in (fadd (vx bmin) pad, vy bmin, fadd (vz bmin) pad) else bmin.

(** What BuildPolyMeshDetail gets. Cs, Ch, BorderSize and MaxError go from the compact heightfield and the
    arguments of BuildContours through the contour set (recast/contour.go:226-232) to the mesh
    (recast/polymesh.go:82-98). *)
Definition detailInput (cf : Config) (bmin : vec f32) (chf : CompactHeightfield) (m : PolyMesh) : DetailInput :=
  mkDetailInput (mVerts m) (mNVerts m) (mPolys m) (mNPolys m) (cfNvp cf) (mRegs m) (cfCs cf) (cfCh cf)
    (contourBMin (cfBorder cf) (cfCs cf) bmin) (cfBorder cf) (cfMaxError cf) chf (cfCs cf) (cfCh cf).

(** sample/solomesh/builder.go:236-285 (border size 0) and the same calls of sample/tilemesh/builder.go
    (any border size), with monotone partitioning. [None] stands for the return after a result false
    (BuildPolyMesh; the other functions never return false). tilemesh also returns if there are no contours:
    left out. *)
Definition buildMeshes (cf : Config) (bmin : vec f32) (chf : CompactHeightfield) : res (option (PolyMesh * DetailMesh)) :=
  let bs := cfBorder cf in
  let* (chf, mx) := BuildRegionsMonotone chf bs (cfMinArea cf) (cfMergeArea cf) in
  let* (conts, _) := BuildContours chf bs mx (cfMaxError cf) (cfMaxEdgeLen cf) 1 in
  let* r := BuildPolyMesh (cfNvp cf) bs (chf_w chf - bs * 2) (chf_h chf - bs * 2) conts in
  match r with
  | None => Ok None
  | Some m => let* dm := BuildPolyMeshDetail (detailInput cf bmin chf m) (cfSampleDist cf) (cfSampleErr cf) in Ok (Some (m, dm))
  end.
