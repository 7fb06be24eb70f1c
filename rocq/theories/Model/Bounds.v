(** Model of the box tests of [detour/common.go], [recast/rasterization.go] and
    [recast/chunkytrimesh.go], and of [oppositeTile]. *)
From Coq Require Import ZArith Bool List.
From Verif.Base Require Import Res GoNum F32.
Open Scope Z_scope.

(** detour/common.go:49-62. Coordinates are uint16; slices of length >= 3 are
    modelled as triples. *)
Definition OverlapQuantBounds (amin amax bmin bmax : Z * Z * Z) : bool :=
  let '(an0, an1, an2) := amin in let '(ax0, ax1, ax2) := amax in
  let '(bn0, bn1, bn2) := bmin in let '(bx0, bx1, bx2) := bmax in
  if (an0 >? bx0) || (ax0 <? bn0) then false
  else if (an1 >? bx1) || (ax1 <? bn1) then false
  else if (an2 >? bx2) || (ax2 <? bn2) then false
  else true.

(** detour/common.go:74-85, on float32. *)
Definition OverlapBounds (amin amax bmin bmax : f32 * f32 * f32) : bool :=
  let '(an0, an1, an2) := amin in let '(ax0, ax1, ax2) := amax in
  let '(bn0, bn1, bn2) := bmin in let '(bx0, bx1, bx2) := bmax in
  if fgt an0 bx0 || flt ax0 bn0 then false
  else if fgt an1 bx1 || flt ax1 bn1 then false
  else if fgt an2 bx2 || flt ax2 bn2 then false
  else true.

(** recast/rasterization.go:257-268 *)
Definition recast_overlapBounds (amin amax bmin bmax : f32 * f32 * f32) : bool :=
  let '(an0, an1, an2) := amin in let '(ax0, ax1, ax2) := amax in
  let '(bn0, bn1, bn2) := bmin in let '(bx0, bx1, bx2) := bmax in
  if fgt an0 bx0 || flt ax0 bn0 then false
  else if fgt an1 bx1 || flt ax1 bn1 then false
  else if fgt an2 bx2 || flt ax2 bn2 then false
  else true.

(** recast/chunkytrimesh.go:193-202 *)
Definition checkOverlapRect (amin amax bmin bmax : f32 * f32) : bool :=
  let '(an0, an1) := amin in let '(ax0, ax1) := amax in
  let '(bn0, bn1) := bmin in let '(bx0, bx1) := bmax in
  if fgt an0 bx0 || flt ax0 bn0 then false
  else if fgt an1 bx1 || flt ax1 bn1 then false
  else true.

(** detour/common.go:204-206 (int32 argument). *)
Definition oppositeTile (side : Z) : Z := Z.land (side + 4) 7.

(** detour/mesh.go:1495-1520: the grid location of the neighbour on a side
    (the int32 wrap of the coordinates is kept). *)
Definition neighbourLoc (x y side : Z) : Z * Z :=
  if side =? 0 then (i32 (x + 1), y)
  else if side =? 1 then (i32 (x + 1), i32 (y + 1))
  else if side =? 2 then (x, i32 (y + 1))
  else if side =? 3 then (i32 (x - 1), i32 (y + 1))
  else if side =? 4 then (i32 (x - 1), y)
  else if side =? 5 then (i32 (x - 1), i32 (y - 1))
  else if side =? 6 then (x, i32 (y - 1))
  else if side =? 7 then (i32 (x + 1), i32 (y - 1))
  else (x, y).
