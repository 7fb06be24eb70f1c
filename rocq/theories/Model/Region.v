(** recast/region.go: monotone regions. *)
From Coq Require Import ZArith List Bool.
From Verif.Base Require Import Res GoNum Grid.
From Verif.Model Require Import Heightfield Dirs Compact Erode.
Import ListNotations.
Open Scope Z_scope.

(** recast/constants.go:42 *)
Definition borderReg : Z := 32768.
(** (r & borderReg) != 0 *)
Definition isBorder (r : Z) : bool := negb (Z.land r borderReg =? 0).
(** recast/region.go:1153 RC_NULL_NEI *)
Definition nullNei : Z := 65535.
(** recast/region.go:1155-1160 *)
Record sweepSpan := mkSweep { sw_rid : Z; sw_id : Z; sw_ns : Z; sw_nei : Z }.

(** The cells of a rectangle in the order of the loops for y { for x { ... } }. *)
Definition rectCells (minx maxx miny maxy : Z) : list (Z * Z) :=
  flat_map (fun y => map (fun x => (x, y)) (krange minx (maxx - minx))) (krange miny (maxy - miny)).
(** A loop over the spans of the given cells, with any state. *)
Definition eachSpan {S} (chf : CompactHeightfield) (cs : list (Z * Z)) (f : Z -> Z -> S -> Z -> res S) (s : S) : res S :=
  foldM (fun s xy =>
    let* c := get (chf_cells chf) (cidx (chf_w chf) (fst xy) (snd xy)) in
    foldM (f (fst xy) (snd xy)) (krange (cIndex c) (cCount c)) s) cs s.

(** recast/region.go:368-381 *)
Definition paintRectRegion (minx maxx miny maxy regID : Z) (chf : CompactHeightfield) (src : list Z) : res (list Z) :=
  eachSpan chf (rectCells minx maxx miny maxy) (fun _ _ src i =>
    let* a := get (chf_areas chf) i in
    if a =? nullArea then Ok src else set src i regID) src.

(** recast/region.go:55-70: painting the four borders; the next free id. *)
Definition paintBorders (chf : CompactHeightfield) (bs : Z) (src : list Z) : res (list Z * Z) :=
  if 0 <? bs then
    let w := chf_w chf in
    let h := chf_h chf in
    let bw := iMin w bs in
    let bh := iMin h bs in
    let* src := paintRectRegion 0 bw 0 h (Z.lor 1 borderReg) chf src in
    let* src := paintRectRegion (w - bw) w 0 h (Z.lor 2 borderReg) chf src in
    let* src := paintRectRegion 0 w 0 bh (Z.lor 3 borderReg) chf src in
    let* src := paintRectRegion 0 w (h - bh) h (Z.lor 4 borderReg) chf src in
    Ok (src, 5)
  else Ok (src, 1).

(** The state of the loop over a row: srcReg, sweeps, prev, rid. *)
Definition rowState : Type := list Z * list sweepSpan * list Z * Z.

(** recast/region.go:88-99: the region of the neighbour at -x, or 0. [a] is the area of the
    span and [con] its connections. *)
Definition westReg (chf : CompactHeightfield) (x y con a : Z) (src : list Z) : res Z :=
  if GetCon con 0 =? notConnected then Ok 0
  else
    let* n := neighbour chf x y con 0 in
    let* r := get src (snd n) in
    if isBorder r then Ok 0
    else
      let* aa := get (chf_areas chf) (snd n) in
      Ok (if a =? aa then r else 0).

(** recast/region.go:101-107: a new row id if there is no region to continue. *)
Definition openSweep (previd : Z) (sweeps : list sweepSpan) (rid : Z) : res (Z * list sweepSpan * Z) :=
  if previd =? 0 then
    let* sw := get sweeps rid in
    let* sweeps := set sweeps rid (mkSweep rid (sw_id sw) 0 0) in
    Ok (rid, sweeps, u16 (rid + 1))
  else Ok (previd, sweeps, rid).

(** recast/region.go:109-125: counting the neighbours at -y. *)
Definition northNei (chf : CompactHeightfield) (x y con a : Z) (src : list Z) (previd : Z)
    (sweeps : list sweepSpan) (prv : list Z) : res (list sweepSpan * list Z) :=
  if GetCon con 3 =? notConnected then Ok (sweeps, prv)
  else
    let* n := neighbour chf x y con 3 in
    let* nr := get src (snd n) in
    if (nr =? 0) || isBorder nr then Ok (sweeps, prv)
    else
      let* aa := get (chf_areas chf) (snd n) in
      if negb (a =? aa) then Ok (sweeps, prv)
      else
        let* sw := get sweeps previd in
        if (sw_nei sw =? 0) || (sw_nei sw =? nr) then
          let* sweeps := set sweeps previd (mkSweep (sw_rid sw) (sw_id sw) (u16 (sw_ns sw + 1)) nr) in
          let* p := get prv nr in
          let* prv := set prv nr (i32 (p + 1)) in
          Ok (sweeps, prv)
        else
          let* sweeps := set sweeps previd (mkSweep (sw_rid sw) (sw_id sw) (sw_ns sw) nullNei) in
          Ok (sweeps, prv).

(** recast/region.go:81-128: one span of a row. *)
Definition sweepOne (chf : CompactHeightfield) (x y : Z) (st : rowState) (i : Z) : res rowState :=
  let '(src, sweeps, prv, rid) := st in
  let* s := get (chf_spans chf) i in
  let* a := get (chf_areas chf) i in
  if a =? nullArea then Ok st
  else
    let* west := westReg chf x y (csCon s) a src in
    let* (previd, sweeps, rid) := openSweep west sweeps rid in
    let* (sweeps, prv) := northNei chf x y (csCon s) a src previd sweeps prv in
    let* src := set src i previd in
    Ok (src, sweeps, prv, rid).

(** recast/region.go:131-138: the region id of one row id. *)
Definition uniqueOne (prv : list Z) (st : list sweepSpan * Z) (i : Z) : res (list sweepSpan * Z) :=
  let '(sweeps, id) := st in
  let* sw := get sweeps i in
  let* same := (if negb (sw_nei sw =? nullNei) && negb (sw_nei sw =? 0) then
                  let* p := get prv (sw_nei sw) in Ok (p =? sw_ns sw)
                else Ok false) in
  if (same : bool) then
    let* sweeps := set sweeps i (mkSweep (sw_rid sw) (sw_nei sw) (sw_ns sw) (sw_nei sw)) in
    Ok (sweeps, id)
  else
    let* sweeps := set sweeps i (mkSweep (sw_rid sw) id (sw_ns sw) (sw_nei sw)) in
    Ok (sweeps, u16 (id + 1)).

(** recast/region.go:146-148 *)
Definition remapOne (sweeps : list sweepSpan) (rid : Z) (src : list Z) (i : Z) : res (list Z) :=
  let* r := get src i in
  if (0 <? r) && (r <? rid) then
    let* sw := get sweeps r in
    set src i (sw_id sw)
  else Ok src.

(** The cells of the row [y] that the sweep visits. *)
Definition rowCells (chf : CompactHeightfield) (bs y : Z) : list (Z * Z) :=
  map (fun x => (x, y)) (krange bs (chf_w chf - bs - bs)).

(** recast/region.go:74-151: one row. *)
Definition sweepRow (chf : CompactHeightfield) (bs : Z) (st : list Z * list sweepSpan * Z) (y : Z) : res (list Z * list sweepSpan * Z) :=
  let '(src, sweeps, id) := st in
  let prv := repeat 0 (Z.to_nat (u16 (id + 1))) in
  let* (src, sweeps, prv, rid) := eachSpan chf (rowCells chf bs y) (sweepOne chf) (src, sweeps, prv, 1) in
  let* (sweeps, id) := foldM (uniqueOne prv) (krange 1 (rid - 1)) (sweeps, id) in
  let* src := eachSpan chf (rowCells chf bs y) (fun _ _ => remapOne sweeps rid) src in
  Ok (src, sweeps, id).

(** recast/region.go:45-151: the sweep; the regions of the spans and the next free id. A
    negative SpanCount, Width or Height (not produced by BuildCompactHeightfield) is read as 0. *)
Definition sweepRegions (chf : CompactHeightfield) (bs : Z) : res (list Z * Z) :=
  let src := repeat 0 (Z.to_nat (chf_spanCount chf)) in
  let sweeps := repeat (mkSweep 0 0 0 0) (Z.to_nat (iMax (chf_w chf) (chf_h chf))) in
  let* (src, id) := paintBorders chf bs src in
  let* (src, _, id) := foldM (sweepRow chf bs) (krange bs (chf_h chf - bs - bs)) (src, sweeps, id) in
  Ok (src, id).
