(** recast/inputgeom.go: the table of convex volumes, and recast/area.go: MarkConvexPolyArea. *)
From Coq Require Import ZArith List Bool.
From Verif.Base Require Import Res GoNum Grid F32 Num.
From Verif.Model Require Import Heightfield Compact.
Import ListNotations.
Open Scope Z_scope.

(** recast/inputgeom.go:8-12 *)
Definition maxVolumes : Z := 256.
Definition maxConvexVolPts : Z := 12.
(** recast/inputgeom.go:14-19 *)
Record ConvexVolume := mkVol {
  volVerts : list f32; volHMin : f32; volHMax : f32; volNVerts : Z; volArea : Z }.
Definition zeroVol : ConvexVolume := mkVol (repeat f0 (Z.to_nat (maxConvexVolPts * 3))) f0 f0 0 0.
(** recast/inputgeom.go: the fields volumes and volumeCount of InputGeom. *)
Record InputGeom := mkGeom { volumes : list ConvexVolume; volumeCount : Z }.
Definition newGeom : InputGeom := mkGeom (repeat zeroVol (Z.to_nat maxVolumes)) 0.

(** The built-in [copy(dst, src)]. *)
Definition copyInto (dst src : list f32) : list f32 :=
  firstn (length dst) src ++ skipn (length src) dst.

(** recast/inputgeom.go:213-224 *)
Definition AddConvexVolume (ig : InputGeom) (verts : list f32) (minh maxh : f32) (area : Z) : res InputGeom :=
  if volumeCount ig >=? maxVolumes then Ok ig else
  let* vol := get (volumes ig) (volumeCount ig) in
  let* vs := set (volumes ig) (volumeCount ig)
    (mkVol (copyInto (volVerts vol) verts) minh maxh (i32 (zlen verts)) area) in
  Ok (mkGeom vs (volumeCount ig + 1)).
(** recast/inputgeom.go:227-231 *)
Definition DeleteConvexVolume (ig : InputGeom) (i : Z) : res InputGeom :=
  let c := volumeCount ig - 1 in
  let* last := get (volumes ig) c in
  let* vs := set (volumes ig) i last in
  Ok (mkGeom vs c).

(** recast/area.go:291-307: [verts[i*3:]] and its elements 0 and 2. *)
Definition vert2 (verts : list f32) (i : Z) : res (f32 * f32) :=
  let o := i32 (i * 3) in
  if (o <? 0) || (o >? zlen verts) then Panic else
  let* x := get verts o in
  let* z := get verts (o + 2) in
  Ok (x, z).
Fixpoint pointInPoly_from (verts : list f32) (px pz : f32) (i j : Z) (c : bool) (k : nat) : res bool :=
  match k with
  | O => Ok c
  | S k =>
      let* vi := vert2 verts i in
      let* vj := vert2 verts j in
      let '(ix, iz) := vi in
      let '(jx, jz) := vj in
      let cross := negb (Bool.eqb (fgt iz pz) (fgt jz pz)) &&
                   flt px (fadd (fdiv (fmul (fsub jx ix) (fsub pz iz)) (fsub jz iz)) ix) in
      pointInPoly_from verts px pz (i + 1) i (if cross then negb c else c) k
  end.
Definition pointInPoly (nvert : Z) (verts : list f32) (px pz : f32) : res bool :=
  pointInPoly_from verts px pz 0 (nvert - 1) false (Z.to_nat nvert).

(** d3.Vec3Min / Vec3Max (external), on the x and z coordinates. *)
Fixpoint polyBox_from (verts : list f32) (nverts i : Z) (b : f32 * f32 * f32 * f32) (k : nat)
    : res (f32 * f32 * f32 * f32) :=
  match k with
  | O => Ok b
  | S k =>
      if i * 3 <? nverts then
        let* v := vert2 verts i in
        let '(x, z) := v in
        let '(x0, z0, x1, z1) := b in
        polyBox_from verts nverts (i + 1) (fminf x0 x, fminf z0 z, fmaxf x1 x, fmaxf z1 z) k
      else Ok b
  end.

(** recast/area.go:215-289. [bx by bz cs ch] are chf.BMin, chf.Cs and chf.Ch; the other fields
    are those of the model's compact heightfield. Result: the new areas. *)
Definition markSpan (chf : CompactHeightfield) (verts : list f32) (nverts areaID miny maxy : Z)
    (px pz : f32) (areas : list Z) (i : Z) : res (list Z) :=
  let* a := get areas i in
  if a =? nullArea then Ok areas else
  let* s := get (chf_spans chf) i in
  if (csY s >=? miny) && (csY s <=? maxy) then
    let* inside := pointInPoly nverts verts px pz in
    if inside then set areas i areaID else Ok areas
  else Ok areas.
Definition zrange (a b : Z) : list Z := map (fun k => a + k) (zseq (Z.to_nat (b + 1 - a))).
Definition MarkConvexPolyArea (verts : list f32) (nverts : Z) (hmin hmax : f32) (areaID : Z)
    (bx by_ bz cs ch : f32) (chf : CompactHeightfield) : res (list Z) :=
  let* v0 := vert2 verts 0 in
  let '(x, z) := v0 in
  let* b := polyBox_from verts nverts 1 (x, z, x, z) (Z.to_nat nverts) in
  let '(x0, z0, x1, z1) := b in
  let minx := f_to_i32 (fdiv (fsub x0 bx) cs) in
  let miny := f_to_i32 (fdiv (fsub hmin by_) ch) in
  let minz := f_to_i32 (fdiv (fsub z0 bz) cs) in
  let maxx := f_to_i32 (fdiv (fsub x1 bx) cs) in
  let maxy := f_to_i32 (fdiv (fsub hmax by_) ch) in
  let maxz := f_to_i32 (fdiv (fsub z1 bz) cs) in
  if (maxx <? 0) || (minx >=? chf_w chf) || (maxz <? 0) || (minz >=? chf_h chf) then Ok (chf_areas chf) else
  let minx := if minx <? 0 then 0 else minx in
  let maxx := if maxx >=? chf_w chf then chf_w chf - 1 else maxx in
  let minz := if minz <? 0 then 0 else minz in
  let maxz := if maxz >=? chf_h chf then chf_h chf - 1 else maxz in
  let half := f_ratio 1 2 in
  foldM (fun areas z =>
    foldM (fun areas x =>
      let* c := get (chf_cells chf) (x + z * chf_w chf) in
      foldM (markSpan chf verts nverts areaID miny maxy
               (fadd bx (fmul (fadd (f_of_Z x) half) cs)) (fadd bz (fmul (fadd (f_of_Z z) half) cs)))
        (krange (cIndex c) (cCount c)) areas)
      (zrange minx maxx) areas)
    (zrange minz maxz) (chf_areas chf).
