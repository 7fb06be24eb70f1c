(** The search for a height in a height patch (recast/meshdetail.go). *)
From Coq Require Import ZArith List Bool.
From Verif.Base Require Import Res GoNum F32 Num.
Import ListNotations.
Open Scope Z_scope.

(** HeightPatch, recast/meshdetail.go:35-38. *)
Record HeightPatch := mkPatch { hpData : list Z; hpXmin : Z; hpYmin : Z; hpWidth : Z; hpHeight : Z }.

(** unsetHeight, recast/meshdetail.go:33. *)
Definition unsetHeight : Z := 65535.

(** int32Clamp, recast/rasterization.go:270-278. *)
Definition int32Clamp (a low high : Z) : Z := if a <? low then low else if high <? a then high else a.

(** One step of the spiral: position and direction, turning at the corners.
    recast/meshdetail.go:249-256. *)
Definition spiralMove (p : Z * Z * Z * Z) : Z * Z * Z * Z :=
  let '(x, z, dx, dz) := p in
  let '(dx, dz) :=
    if (x =? z) || ((x <? 0) && (x =? i32 (- z))) || ((0 <? x) && (x =? i32 (1 - z)))
    then (i32 (- dz), dx) else (dx, dz) in
  (i32 (x + dx), i32 (z + dz), dx, dz).

(** One look at a cell: takes its height if the cell is inside the patch, is set and is closer
    to [fy] than the best so far. recast/meshdetail.go:211-223. *)
Definition lookAt (hp : HeightPatch) (fy ch : f32) (nx nz : Z) (h : Z) (dmin : f32) : res (Z * f32) :=
  if (0 <=? nx) && (0 <=? nz) && (nx <? hpWidth hp) && (nz <? hpHeight hp) then
    let* nh := get (hpData hp) (i32 (nx + i32 (nz * hpWidth hp))) in
    if nh =? unsetHeight then Ok (h, dmin)
    else
      let d := fabs (fsub (fmul (f_of_Z nh) ch) fy) in
      if flt d dmin then Ok (nh, d) else Ok (h, dmin)
  else Ok (h, dmin).

(** The loop, with [n] iterations left. recast/meshdetail.go:210-257. *)
Fixpoint searchHeight (n : nat) (hp : HeightPatch) (fy ch : f32) (ix iz i start iters : Z) (p : Z * Z * Z * Z)
  (h : Z) (dmin : f32) : res Z :=
  match n with
  | O => Ok h
  | S n =>
      let '(x, z, _, _) := p in
      let* hd := lookAt hp fy ch (i32 (ix + x)) (i32 (iz + z)) h dmin in
      let '(h, dmin) := hd in
      if i32 (i + 1) =? start then
        if h =? unsetHeight
        then searchHeight n hp fy ch ix iz (i32 (i + 1)) (i32 (start + iters)) (i32 (iters + 8)) (spiralMove p) h dmin
        else Ok h
      else searchHeight n hp fy ch ix iz (i32 (i + 1)) start iters (spiralMove p) h dmin
  end.

(** getHeight, recast/meshdetail.go:185-262. The unused argument cs is left out. *)
Definition getHeight (fx fy fz ics ch : f32) (radius : Z) (hp : HeightPatch) : res Z :=
  let ix := f_floor_i32 (fadd (fmul fx ics) (f_ratio 1 100)) in
  let iz := f_floor_i32 (fadd (fmul fz ics) (f_ratio 1 100)) in
  let ix := int32Clamp (i32 (ix - hpXmin hp)) 0 (i32 (hpWidth hp - 1)) in
  let iz := int32Clamp (i32 (iz - hpYmin hp)) 0 (i32 (hpHeight hp - 1)) in
  let* h := get (hpData hp) (i32 (ix + i32 (iz * hpWidth hp))) in
  if h =? unsetHeight then
    let maxSize := i32 (i32 (radius * 2) + 1) in
    let maxIter := i32 (i32 (maxSize * maxSize) - 1) in
    searchHeight (Z.to_nat maxIter) hp fy ch ix iz 0 8 16 (1, 0, 1, 0) h maxFloat32
  else Ok h.
