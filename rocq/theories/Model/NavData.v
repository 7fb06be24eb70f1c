(** From both meshes to the bytes of a tile, as in sample/solomesh/builder.go and
    sample/tilemesh/builder.go. *)
From Coq Require Import ZArith List Bool.
From Verif.Base Require Import Res GoNum F32 Num Grid.
From Verif.Model Require Import Geom Compact BuildMesh MeshDetail SoloMesh BvTree Create.
Import ListNotations.
Open Scope Z_scope.

(** math.Float32bits: a uint32 for every float32 (external). *)
Definition bits32 (x : f32) : Z := bits_of_f x mod 4294967296.
Definition vecBits (v : vec f32) : Z * Z * Z := (bits32 (vx v), bits32 (vy v), bits32 (vz v)).

(** sample/solomesh/builder.go:303-320 and sample/tilemesh/builder.go:468-483: areas and flags of the polygons.
    Areas of sample/sample.go:18-23 (ground 0, water 1, road 2, door 3, grass 4), WalkableArea 63, flags
    walk 1, swim 2, door 4. Flags are zeros before (recast/polymesh.go). *)
Definition setFlags (n : Z) (areas : list Z) : res (list Z * list Z) :=
  foldM (fun '(areas, flags) i =>
    let* a := get areas i in
    let* areas := if a =? 63 then set areas i 0 else Ok areas in
    let* a := get areas i in
    let* flags := if (a =? 0) || (a =? 4) || (a =? 2) then set flags i 1
                  else if a =? 1 then set flags i 2
                  else if a =? 3 then set flags i (Z.lor 1 4)
                  else Ok flags in
    Ok (areas, flags)) (zseq (Z.to_nat n)) (areas, repeat 0 (Z.to_nat n)).

(** Off-mesh connections of the input geometry (sample/.. OffMeshConnection functions), floats as bits. *)
Record Connections := mkConns {
  cnVerts : list Z; cnRad : list Z; cnFlags : list Z; cnAreas : list Z; cnDir : list Z; cnId : list Z; cnCount : Z }.
(** Height, radius and climb of the agent. *)
Record Agent := mkAgent { agHeight : f32; agRadius : f32; agClimb : f32 }.

(** recast/contour.go:217-224: BMax of the contour set, later of the mesh (recast/polymesh.go:99). *)
Definition contourBMax (bs : Z) (cs : f32) (bmax : vec f32) : vec f32 :=
  if 0 <? bs then let pad := fmul (f_of_Z bs) cs in (fsub (vx bmax) pad, vy bmax, fsub (vz bmax) pad) else bmax.

(** sample/solomesh/builder.go:322-351, sample/tilemesh/builder.go:485-515. The slices of the meshes are nil only
    without polygons, which is refused before they are read; here they never are. *)
Definition createParams (cf : Config) (ag : Agent) (cn : Connections) (tx ty : Z) (bmin bmax : vec f32)
    (m : PolyMesh) (dm : DetailMesh) (areas flags : list Z) : CreateParams :=
  mkCP (Some (mVerts m)) (mNVerts m) (Some (mPolys m)) flags areas (mNPolys m) (cfNvp cf)
    (Some (flat_map (fun '(a, b, c, d) => [a; b; c; d]) (dmMeshes dm))) (Some (map bits32 (dmVerts dm))) (dmNVerts dm) (dmTris dm) (dmNTris dm)
    (cnVerts cn) (cnRad cn) (cnFlags cn) (cnAreas cn) (cnDir cn) (cnId cn) (cnCount cn)
    0 tx ty 0 (vecBits (contourBMin (cfBorder cf) (cfCs cf) bmin)) (vecBits (contourBMax (cfBorder cf) (cfCs cf) bmax))
    (bits32 (agHeight ag)) (bits32 (agRadius ag)) (bits32 (agClimb ag)) (bits32 (cfCs cf)) (bits32 (cfCh cf)) true.

(** sample/solomesh/builder.go:236-357 and sample/tilemesh/builder.go:405-524, up to the bytes of the tile; [None]: no
    tile. solomesh has border 0 and tile (0, 0). The checks of tilemesh for no contours and for 0xffff vertices return
    early what CreateNavMeshData refuses: left out. [sort] is sort.Sort (external). *)
Definition buildTile (sort : (bvItem -> bvItem -> bool) -> list bvItem -> list bvItem) (cf : Config) (ag : Agent) (cn : Connections) (tx ty : Z)
    (bmin bmax : vec f32) (chf : CompactHeightfield) : res (option (list Z)) :=
  let* r := buildMeshes cf bmin chf in
  match r with
  | None => Ok None
  | Some (m, dm) =>
      if 6 <? cfNvp cf then Ok None
      else
        let* (areas, flags) := setFlags (mNPolys m) (mAreas m) in
        CreateNavMeshData sort (createParams cf ag cn tx ty bmin bmax m dm areas flags)
  end.
