(** recast/meshdetail.go: the heights of the cells around a polygon of the mesh. *)
From Coq Require Import ZArith List Bool.
From Verif.Base Require Import Res GoNum Grid.
From Verif.Model Require Import Heightfield Dirs Compact Erode Region HeightSearch.
Import ListNotations.
Open Scope Z_scope.

(** Sums and products of cell coordinates are not wrapped to 32 bits in this file: cells and spans of
    such numbers are out of the range of every slice. *)

(** The index of the cell (hx, hy) of a patch, hx+hy*hp.width. *)
Definition patchIdx (hp : HeightPatch) (hx hy : Z) : Z := hx + hy * hpWidth hp.

(** The test that recast/meshdetail.go:1069-1070, 1166 and 1317 write in different ways (line 1317 converts to
    uint, so that negative numbers become large). *)
Definition inPatch (hp : HeightPatch) (hx hy : Z) : bool :=
  negb ((hx <? 0) || (hpWidth hp <=? hx) || (hy <? 0) || (hpHeight hp <=? hy)).

(** recast/meshdetail.go:1104-1106, 1187-1189 and 1231-1233: the cells of the patch set to one value. *)
Definition fillPatch (hp : HeightPatch) (v : Z) (data : list Z) : res (list Z) :=
  foldM (fun d i => set d i v) (zseq (Z.to_nat (hpWidth hp * hpHeight hp))) data.

(** recast/meshdetail.go:1045-1051 *)
Definition bsOffset : list (Z * Z) :=
  [(0, 0); (-1, -1); (0, -1); (1, -1); (1, 0); (1, 1); (0, 1); (-1, 1); (-1, 0)].

(** recast/meshdetail.go:1076-1082: one span; the state is (startCellX, startCellY, startSpanIndex,
    dmin).  The conditions dmin > 0 of the three loops end them; here they keep the state. *)
Definition closerSpan (chf : CompactHeightfield) (ax ay az : Z) (st : Z * Z * Z * Z) (i : Z) : res (Z * Z * Z * Z) :=
  let '(sx, sy, si, dmin) := st in
  if dmin >? 0 then
    let* s := get (chf_spans chf) i in
    let d := iAbs (ay - csY s) in
    Ok (if d <? dmin then (ax, az, i, d) else st)
  else Ok st.

(** recast/meshdetail.go:1065-1084: one of the nine cells around vertex [p] of the polygon.  The index
    poly[j]*3+k is computed in 16 bits. *)
Definition closerCell (chf : CompactHeightfield) (verts : list Z) (bs : Z) (hp : HeightPatch)
    (st : Z * Z * Z * Z) (po : Z * (Z * Z)) : res (Z * Z * Z * Z) :=
  let '(p, (ox, oz)) := po in
  let '(_, _, _, dmin) := st in
  if dmin >? 0 then
    let* vx := get verts (u16 (u16 (p * 3) + 0)) in
    let* ay := get verts (u16 (u16 (p * 3) + 1)) in
    let* vz := get verts (u16 (u16 (p * 3) + 2)) in
    let ax := vx + ox in
    let az := vz + oz in
    if negb (inPatch hp (ax - hpXmin hp) (az - hpYmin hp)) then Ok st
    else
      let* c := get (chf_cells chf) (cidx (chf_w chf) (ax + bs) (az + bs)) in
      foldM (closerSpan chf ax ay az) (krange (cIndex c) (cCount c)) st
  else Ok st.

(** recast/meshdetail.go:1092-1098: the mean of the vertices. *)
Definition polyCenter (poly : list Z) (verts : list Z) : res (Z * Z) :=
  let* (sx, sy) := foldM (fun st p =>
    let* x := get verts (u16 (u16 (p * 3) + 0)) in
    let* y := get verts (u16 (u16 (p * 3) + 2)) in
    Ok (i32 (fst st + x), i32 (snd st + y))) poly (0, 0) in
  if zlen poly =? 0 then Panic
  else Ok (Z.quot sx (zlen poly), Z.quot sy (zlen poly)).

(** recast/meshdetail.go:1156-1178: a direction; the state is hp.data and the stack, top first. *)
Definition walkDir (chf : CompactHeightfield) (bs : Z) (hp : HeightPatch) (cx cy con : Z)
    (st : list Z * list (Z * Z * Z)) (dir : Z) : res (list Z * list (Z * Z * Z)) :=
  let '(data, stack) := st in
  if GetCon con dir =? notConnected then Ok st
  else
    let* ox := GetDirOffsetX dir in
    let* oy := GetDirOffsetY dir in
    let newX := cx + ox in
    let newY := cy + oy in
    let hpx := newX - hpXmin hp in
    let hpy := newY - hpYmin hp in
    if negb (inPatch hp hpx hpy) then Ok st
    else
      let* v := get data (patchIdx hp hpx hpy) in
      if negb (v =? 0) then Ok st
      else
        let* data := set data (patchIdx hp hpx hpy) 1 in
        let* c := get (chf_cells chf) (cidx (chf_w chf) (newX + bs) (newY + bs)) in
        Ok (data, (newX, newY, cIndex c + GetCon con dir) :: stack).

(** recast/meshdetail.go:1103, 1133-1152, 1181: the four directions, with the preferred one last. *)
Definition walkDirs (cx cy pcx pcy : Z) : res (list Z) :=
  let* d := if cx =? pcx then GetDirForOffset 0 (if pcy >? cy then 1 else -1)
            else GetDirForOffset (if pcx >? cx then 1 else -1) 0 in
  let* a := get [0; 1; 2; 3] d in
  let* l := set [0; 1; 2; 3] d 3 in
  set l 3 a.

(** recast/meshdetail.go:1112-1182: the walk to the center; [cur] is the last triple popped. *)
Fixpoint walkLoop (fuel : nat) (chf : CompactHeightfield) (bs : Z) (hp : HeightPatch) (pcx pcy : Z)
    (data : list Z) (stack : list (Z * Z * Z)) (cur : Z * Z * Z) : res (list Z * (Z * Z * Z)) :=
  match fuel with
  | O => NoFuel
  | S f =>
      match stack with
      | [] => Ok (data, cur)
      | (cx, cy, ci) :: stack =>
          if (cx =? pcx) && (cy =? pcy) then Ok (data, (cx, cy, ci))
          else
            let* dirs := walkDirs cx cy pcx pcy in
            let* cs := get (chf_spans chf) ci in
            let* (data, stack) := foldM (walkDir chf bs hp cx cy (csCon cs)) dirs (data, stack) in
            walkLoop f chf bs hp pcx pcy data stack (cx, cy, ci)
      end
  end.

(** recast/meshdetail.go:1053-1192 seedArrayWithPolyCenter: hp.data and the array (one triple).
    poly is given by its first npoly entries. *)
Definition seedArrayWithPolyCenter (chf : CompactHeightfield) (poly verts : list Z) (bs : Z) (hp : HeightPatch)
    (data : list Z) : res (list Z * list (Z * Z * Z)) :=
  let* (startX, startY, startI, _) :=
    foldM (closerCell chf verts bs hp) (flat_map (fun p => map (fun o => (p, o)) bsOffset) poly) (0, 0, -1, unsetHeight) in
  if startI =? -1 then Panic
  else
    let* (pcx, pcy) := polyCenter poly verts in
    let* data := fillPatch hp 0 data in
    let* (data, (cx, cy, ci)) :=
      walkLoop (S (S (Z.to_nat (hpWidth hp * hpHeight hp)))) chf bs hp pcx pcy data [(startX, startY, startI)] (-1, -1, -1) in
    let* data := fillPatch hp 65535 data in
    let* s := get (chf_spans chf) ci in
    let* data := set data (patchIdx hp (cx - hpXmin hp) (cy - hpYmin hp)) (csY s) in
    Ok (data, [(cx + bs, cy + bs, ci)]).

(** recast/meshdetail.go:1258-1269: a neighbour is not in the region. *)
Fixpoint leavesRegion (chf : CompactHeightfield) (x y con region : Z) (dirs : list Z) : res bool :=
  match dirs with
  | [] => Ok false
  | dir :: dirs =>
      if GetCon con dir =? notConnected then leavesRegion chf x y con region dirs
      else
        let* n := neighbour chf x y con dir in
        let* s := get (chf_spans chf) (snd n) in
        if csReg s =? region then leavesRegion chf x y con region dirs else Ok true
  end.

(** recast/meshdetail.go:1249-1251: the first span of a cell in the region. *)
Fixpoint regionSpan (chf : CompactHeightfield) (region : Z) (ks : list Z) : res (option (Z * CompactSpan)) :=
  match ks with
  | [] => Ok None
  | i :: ks =>
      let* s := get (chf_spans chf) i in
      if csReg s =? region then Ok (Some (i, s)) else regionSpan chf region ks
  end.

(** recast/meshdetail.go:1244-1276: one cell of the patch; the state is (hp.data, queue, empty). *)
Definition regionCell (chf : CompactHeightfield) (bs : Z) (hp : HeightPatch) (region : Z)
    (st : list Z * list (Z * Z * Z) * bool) (h : Z * Z) : res (list Z * list (Z * Z * Z) * bool) :=
  let '(data, queue, empty) := st in
  let '(hx, hy) := h in
  let x := hpXmin hp + hx + bs in
  let y := hpYmin hp + hy + bs in
  let* c := get (chf_cells chf) (cidx (chf_w chf) x y) in
  let* o := regionSpan chf region (krange (cIndex c) (cCount c)) in
  match o with
  | None => Ok st
  | Some (i, s) =>
      let* data := set data (patchIdx hp hx hy) (csY s) in
      let* border := leavesRegion chf x y (csCon s) region [0; 1; 2; 3] in
      Ok (data, if border then queue ++ [(x, y, i)] else queue, false)
  end.

(** recast/meshdetail.go:1308-1329: a direction; the state is hp.data and the queue. *)
Definition floodDir (chf : CompactHeightfield) (bs : Z) (hp : HeightPatch) (cx cy con : Z)
    (st : list Z * list (Z * Z * Z)) (dir : Z) : res (list Z * list (Z * Z * Z)) :=
  let '(data, queue) := st in
  if GetCon con dir =? notConnected then Ok st
  else
    let* ox := GetDirOffsetX dir in
    let* oy := GetDirOffsetY dir in
    let ax := cx + ox in
    let ay := cy + oy in
    let hx := ax - hpXmin hp - bs in
    let hy := ay - hpYmin hp - bs in
    if negb (inPatch hp hx hy) then Ok st
    else
      let* v := get data (patchIdx hp hx hy) in
      if negb (v =? unsetHeight) then Ok st
      else
        let* c := get (chf_cells chf) (cidx (chf_w chf) ax ay) in
        let ai := cIndex c + GetCon con dir in
        let* s := get (chf_spans chf) ai in
        let* data := set data (patchIdx hp hx hy) (csY s) in
        Ok (data, queue ++ [(ax, ay, ai)]).

(** recast/meshdetail.go:1287-1331: the flood.  The queue is a list of triples; after RETRACT_SIZE of
    them, lines 1298-1304 move the others to the front. *)
Definition RETRACT_SIZE : Z := 256.
Fixpoint floodLoop (fuel : nat) (chf : CompactHeightfield) (bs : Z) (hp : HeightPatch)
    (data : list Z) (queue : list (Z * Z * Z)) (head : Z) : res (list Z) :=
  match fuel with
  | O => NoFuel
  | S f =>
      if head <? zlen queue then
        let* (cx, cy, ci) := get queue head in
        let '(queue, head) :=
          if head + 1 >=? RETRACT_SIZE then (skipn (Z.to_nat RETRACT_SIZE) queue, 0) else (queue, head + 1) in
        let* cs := get (chf_spans chf) ci in
        let* (data, queue) := foldM (floodDir chf bs hp cx cy (csCon cs)) [0; 1; 2; 3] (data, queue) in
        floodLoop f chf bs hp data queue head
      else Ok data
  end.

(** recast/meshdetail.go:1221-1332 getHeightData: hp.data. *)
Definition getHeightData (chf : CompactHeightfield) (poly verts : list Z) (bs : Z) (hp : HeightPatch) (region : Z)
    : res (list Z) :=
  let* data := fillPatch hp 65535 (hpData hp) in
  let* (data, queue, empty) :=
    if negb (region =? 0) then
      foldM (regionCell chf bs hp region) (rectCells 0 (hpWidth hp) 0 (hpHeight hp)) (data, [], true)
    else Ok (data, [], true) in
  let* (data, queue) := if empty : bool then seedArrayWithPolyCenter chf poly verts bs hp data else Ok (data, queue) in
  floodLoop (S (length queue + Z.to_nat (hpWidth hp * hpHeight hp))) chf bs hp data queue 0.
