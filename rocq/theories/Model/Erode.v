(** recast/area.go: ErodeWalkableArea. *)
From Coq Require Import ZArith List Bool.
From Verif.Base Require Import Res GoNum Grid.
From Verif.Model Require Import Heightfield Dirs Compact.
Import ListNotations.
Open Scope Z_scope.

(** Index of the span that the connection [con] in direction [dir] of a span of the cell
    (x, y) leads to, with the position of its cell. recast/area.go:53-55, 85-87 and the
    repetitions of these lines. The sums are not wrapped to 32 bits: indices of more than
    2^31 spans or cells are out of the range of every slice. *)
Definition neighbour (chf : CompactHeightfield) (x y con dir : Z) : res (Z * Z * Z) :=
  let* ox := GetDirOffsetX dir in
  let* oy := GetDirOffsetY dir in
  let* c := get (chf_cells chf) (cidx (chf_w chf) (x + ox) (y + oy)) in
  Ok (x + ox, y + oy, cIndex c + GetCon con dir).

(** Number of walkable neighbours of a span. recast/area.go:50-61. *)
Definition walkableNeis (chf : CompactHeightfield) (x y con : Z) : res Z :=
  foldM (fun nc dir =>
    if GetCon con dir =? notConnected then Ok nc
    else
      let* n := neighbour chf x y con dir in
      let* a := get (chf_areas chf) (snd n) in
      Ok (if a =? nullArea then nc else nc + 1)) [0; 1; 2; 3] 0.

(** recast/area.go:45-67: one span of the marking pass. *)
Definition markSpan (chf : CompactHeightfield) (x y : Z) (dist : list Z) (i : Z) : res (list Z) :=
  let* a := get (chf_areas chf) i in
  if a =? nullArea then set dist i 0
  else
    let* s := get (chf_spans chf) i in
    let* nc := walkableNeis chf x y (csCon s) in
    if negb (nc =? 4) then set dist i 0 else Ok dist.

(** nd = uint8(iMin(int32(dist[j]+k), int32(255))); if nd < dist[i] { dist[i] = nd }: the
    addition is done in 8 bits. recast/area.go:89-92 and its repetitions. *)
Definition relax (dist : list Z) (i j k : Z) : res (list Z) :=
  let* dj := get dist j in
  let nd := u8 (iMin (u8 (dj + k)) 255) in
  let* di := get dist i in
  if nd <? di then set dist i nd else Ok dist.

(** A straight neighbour in direction [d] and from there the diagonal one in direction [e].
    recast/area.go:82-104, 106-126, 140-161 and 162-183. *)
Definition relaxDir (chf : CompactHeightfield) (x y con : Z) (i : Z) (dist : list Z) (de : Z * Z) : res (list Z) :=
  let '(d, e) := de in
  if GetCon con d =? notConnected then Ok dist
  else
    let* n := neighbour chf x y con d in
    let '(ax, ay, ai) := n in
    let* sa := get (chf_spans chf) ai in
    let* dist := relax dist i ai 2 in
    if GetCon (csCon sa) e =? notConnected then Ok dist
    else
      let* m := neighbour chf ax ay (csCon sa) e in
      relax dist i (snd m) 3.

(** One span of a distance pass. recast/area.go:78-127 with [(0,3); (3,2)] and 136-184 with
    [(2,1); (1,0)]. *)
Definition distSpan (chf : CompactHeightfield) (des : list (Z * Z)) (x y : Z) (dist : list Z) (i : Z) : res (list Z) :=
  let* s := get (chf_spans chf) i in
  foldM (relaxDir chf x y (csCon s) i) des dist.

(** A loop over the spans of the given cells. *)
Definition overSpans (chf : CompactHeightfield) (cs : list (Z * Z)) (f : Z -> Z -> list Z -> Z -> res (list Z)) (dist : list Z) : res (list Z) :=
  foldM (fun dist xy =>
    let* c := get (chf_cells chf) (cidx (chf_w chf) (fst xy) (snd xy)) in
    foldM (f (fst xy) (snd xy)) (krange (cIndex c) (cCount c)) dist) cs dist.

(** recast/area.go:24-195. The build context is left out; the result is always true. *)
Definition ErodeWalkableArea (radius : Z) (chf : CompactHeightfield) : res CompactHeightfield :=
  let grid := cells (chf_w chf) (chf_h chf) in
  let* dist := overSpans chf grid (markSpan chf) (repeat 255 (Z.to_nat (chf_spanCount chf))) in
  let* dist := overSpans chf grid (distSpan chf [(0, 3); (3, 2)]) dist in
  let* dist := overSpans chf (rev grid) (distSpan chf [(2, 1); (1, 0)]) dist in
  let thr := u8 (i32 (radius * 2)) in
  let* areas := foldM (fun areas i =>
    let* d := get dist i in
    if d <? thr then set areas i nullArea else Ok areas) (zseq (Z.to_nat (chf_spanCount chf))) (chf_areas chf) in
  Ok (mkCHF (chf_w chf) (chf_h chf) (chf_spanCount chf) (chf_wh chf) (chf_climb chf) (chf_cells chf) (chf_spans chf) areas).
