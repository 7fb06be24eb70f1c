(** recast/contour.go: contours of regions. The elements [x, y, z, r] of a vertex in the slices of
    int32 are kept together; the lengths of these slices are multiples of 4 throughout. Indices
    and grid coordinates are not wrapped to 32 bits: they are bounded by the lengths of slices. *)
From Coq Require Import ZArith List Bool.
From Verif.Base Require Import Res GoNum F32 Num Grid.
From Verif.Model Require Import Heightfield Dirs Compact Erode Region SegDist ContourGeom.
Import ListNotations.
Open Scope Z_scope.

(** recast/constants.go:7-66 *)
Definition ContourTessWallEdges : Z := 1.
Definition ContourTessAreaEdges : Z := 2.
Definition contourRegMask : Z := 65535.
Definition borderVertex : Z := 65536.
Definition areaBorder : Z := 131072.

(** A vertex: x, y, z and the fourth element. *)
Record Vert := mkVert { vX : Z; vY : Z; vZ : Z; vR : Z }.
Definition vert0 : Vert := mkVert 0 0 0 0.

(** Region and area code of a span, cut to 16 bits: recast/contour.go:18 and its repetitions. *)
Definition regCode (chf : CompactHeightfield) (i : Z) : res Z :=
  let* s := get (chf_spans chf) i in
  let* a := get (chf_areas chf) i in
  Ok (u16 (Z.lor (csReg s) (u32 (Z.shiftl a 16)))).

(** recast/contour.go:20-34 (and 35-49 with the directions exchanged): the span in direction
    [dir] and the one in direction [dir2] of it; heights and codes, if they exist. *)
Definition cornerSide (chf : CompactHeightfield) (x y con dir dir2 : Z) : res (option (Z * Z * option (Z * Z))) :=
  if GetCon con dir =? notConnected then Ok None
  else
    let* (ax, ay, ai) := neighbour chf x y con dir in
    let* s := get (chf_spans chf) ai in
    let* r := regCode chf ai in
    if GetCon (csCon s) dir2 =? notConnected then Ok (Some (csY s, r, None))
    else
      let* (_, _, ai2) := neighbour chf ax ay (csCon s) dir2 in
      let* s2 := get (chf_spans chf) ai2 in
      let* r2 := regCode chf ai2 in
      Ok (Some (csY s, r, Some (csY s2, r2))).

(** recast/contour.go:52-68: regs[j], regs[j+1] are the same exterior region and the other two
    are interior ones. *)
Definition borderQuad (r0 r1 r2 r3 : Z) : bool :=
  let at_ a b c d :=
    negb (Z.land (Z.land a b) borderReg =? 0) && (a =? b) && (Z.land (Z.lor c d) borderReg =? 0) &&
    (Z.shiftr c 16 =? Z.shiftr d 16) && (negb (a =? 0) && negb (b =? 0) && negb (c =? 0) && negb (d =? 0)) in
  at_ r0 r1 r2 r3 || at_ r1 r2 r3 r0 || at_ r2 r3 r0 r1 || at_ r3 r0 r1 r2.

(** recast/contour.go:9-71: height of the corner and whether it is a border vertex. *)
Definition cornerHeight (x y i dir : Z) (chf : CompactHeightfield) : res (Z * bool) :=
  let* s := get (chf_spans chf) i in
  let dirp := Z.land (dir + 1) 3 in
  let* r0 := regCode chf i in
  let* a := cornerSide chf x y (csCon s) dir dirp in
  let* b := cornerSide chf x y (csCon s) dirp dir in
  let ch := csY s in
  let '(ch, r1, r2) := match a with
                       | None => (ch, 0, 0)
                       | Some (h, r, None) => (iMax ch h, r, 0)
                       | Some (h, r, Some (h2, r2)) => (iMax (iMax ch h) h2, r, r2)
                       end in
  let '(ch, r3, r2) := match b with
                       | None => (ch, 0, r2)
                       | Some (h, r, None) => (iMax ch h, r, r2)
                       | Some (h, r, Some (h2, r2)) => (iMax (iMax ch h) h2, r, r2)
                       end in
  Ok (ch, borderQuad r0 r1 r2 r3).

(** recast/contour.go:248-262: the region across the edge [dir] of a span, 0 if there is none. *)
Definition regionAcross (chf : CompactHeightfield) (x y con dir : Z) : res Z :=
  if GetCon con dir =? notConnected then Ok 0
  else
    let* n := neighbour chf x y con dir in
    let* s := get (chf_spans chf) (snd n) in
    Ok (csReg s).
(** recast/contour.go:239-264: one span of the marking of boundaries. *)
Definition markOne (chf : CompactHeightfield) (x y : Z) (flags : list Z) (i : Z) : res (list Z) :=
  let* s := get (chf_spans chf) i in
  if (csReg s =? 0) || isBorder (csReg s) then set flags i 0
  else
    let* r := foldM (fun r dir =>
      let* a := regionAcross chf x y (csCon s) dir in
      Ok (if a =? csReg s then Z.lor r (Z.shiftl 1 dir) else r)) [0; 1; 2; 3] 0 in
    set flags i (Z.lxor r 15).
Definition markBoundaries (chf : CompactHeightfield) (flags : list Z) : res (list Z) :=
  eachSpan chf (rectCells 0 (chf_w chf) 0 (chf_h chf)) (markOne chf) flags.

(** recast/contour.go:438-440: the first edge that is marked. With no mark the loop does not end. *)
Fixpoint firstDir (ds : list Z) (f : Z) : res Z :=
  match ds with
  | [] => NoFuel
  | d :: ds => if Z.testbit f d then Ok d else firstDir ds f
  end.

(** recast/contour.go:454-487: the vertex for the edge [dir] of span [i]. *)
Definition corner (x y dir : Z) : Z * Z :=
  if dir =? 0 then (x, y + 1) else if dir =? 1 then (x + 1, y + 1) else if dir =? 2 then (x + 1, y) else (x, y).
Definition edgeVert (chf : CompactHeightfield) (area x y i dir : Z) : res Vert :=
  let* (py, isBorderVertex) := cornerHeight x y i dir chf in
  let* s := get (chf_spans chf) i in
  let* (r, isAreaBorder) :=
    (if GetCon (csCon s) dir =? notConnected then Ok (0, false)
     else
       let* n := neighbour chf x y (csCon s) dir in
       let* ns := get (chf_spans chf) (snd n) in
       let* a := get (chf_areas chf) (snd n) in
       Ok (csReg ns, negb (area =? a))) in
  let r := if (isBorderVertex : bool) then Z.lor r borderVertex else r in
  let r := if (isAreaBorder : bool) then Z.lor r areaBorder else r in
  Ok (mkVert (fst (corner x y dir)) py (snd (corner x y dir)) r).

(** How a walk ends: back at the start (break), at a missing neighbour (return), or after the
    last iteration. The code does not report it. *)
Inductive WalkEnd := Closed | Stuck | CutOff.

(** recast/contour.go:448-512, with [n] iterations left. *)
Fixpoint walkLoop (n : nat) (chf : CompactHeightfield) (area starti startDir x y i dir : Z) (flags : list Z) (points : list Vert)
    : res (list Z * list Vert * WalkEnd) :=
  match n with
  | O => Ok (flags, points, CutOff)
  | S n =>
      let* f := get flags i in
      if Z.testbit f dir then
        let* v := edgeVert chf area x y i dir in
        let points := points ++ [v] in
        let* flags := set flags i (Z.clearbit f dir) in
        let dir := Z.land (dir + 1) 3 in
        if (starti =? i) && (startDir =? dir) then Ok (flags, points, Closed)
        else walkLoop n chf area starti startDir x y i dir flags points
      else
        let* s := get (chf_spans chf) i in
        if GetCon (csCon s) dir =? notConnected then Ok (flags, points, Stuck)
        else
          let* (nx, ny, ni) := neighbour chf x y (csCon s) dir in
          if ni =? -1 then Ok (flags, points, Stuck)
          else
            let dir := Z.land (dir + 3) 3 in
            if (starti =? ni) && (startDir =? dir) then Ok (flags, points, Closed)
            else walkLoop n chf area starti startDir nx ny ni dir flags points
  end.
(** recast/contour.go:434-513, called with no points. *)
Definition walkContour2 (x y i : Z) (chf : CompactHeightfield) (flags : list Z) : res (list Z * list Vert * WalkEnd) :=
  let* f := get flags i in
  let* dir := firstDir [0; 1; 2; 3; 4; 5; 6; 7] f in
  let* area := get (chf_areas chf) i in
  walkLoop (Z.to_nat 39999) chf area i dir x y i dir flags [].

(** * Simplification *)

Definition isWall (r : Z) : bool := Z.land r contourRegMask =? 0.
Definition isAreaEdge (r : Z) : bool := negb (Z.land r areaBorder =? 0).

(** recast/contour.go:551-564: the points after which region or area border change. In the list
    of the simplified contour the fourth element is the index of the raw point. *)
Definition withIdx (v : Vert) (i : Z) : Vert := mkVert (vX v) (vY v) (vZ v) i.
Definition changesAt (points : list Vert) (simp : list Vert) (i : Z) : res (list Vert) :=
  let* p := get points i in
  let* q := get points ((i + 1) mod zlen points) in
  Ok (if negb (Z.land (vR p) contourRegMask =? Z.land (vR q) contourRegMask) || negb (Z.land (vR p) areaBorder =? Z.land (vR q) areaBorder)
      then simp ++ [withIdx p i] else simp).
(** recast/contour.go:567-595: lower left and upper right point. *)
Definition extremes (points : list Vert) : res (Vert * Vert) :=
  let* p0 := get points 0 in
  foldM (fun st i =>
    let '(ll, ur) := st in
    let* p := get points i in
    let ll := if (vX p <? vX ll) || (vX p =? vX ll) && (vZ p <? vZ ll) then withIdx p i else ll in
    let ur := if (vX ur <? vX p) || (vX p =? vX ur) && (vZ ur <? vZ p) then withIdx p i else ur in
    Ok (ll, ur)) (krange 0 (zlen points)) (withIdx p0 0, withIdx p0 0).
(** recast/contour.go:540-605: the initial points. *)
Definition initial (points : list Vert) : res (list Vert) :=
  let* simp := (if existsb (fun p => negb (isWall (vR p))) points then foldM (changesAt points) (krange 0 (zlen points)) [] else Ok []) in
  if zlen simp =? 0 then let* (ll, ur) := extremes points in Ok [ll; ur] else Ok simp.

(** recast/contour.go:646-653: the largest deviation from ci on to endi; [n] bounds the steps. *)
Fixpoint deviation (n : nat) (points : list Vert) (ax az bx bz ci cinc endi : Z) (maxd : f32) (maxi : Z) : res (f32 * Z) :=
  if ci =? endi then Ok (maxd, maxi)
  else
    match n with
    | O => NoFuel
    | S n =>
        let* p := get points ci in
        let d := distancePtSeg numF (vX p) (vZ p) ax az bx bz in
        let '(maxd, maxi) := if fgt d maxd then (d, ci) else (maxd, maxi) in
        deviation n points ax az bx bz ((ci + cinc) mod zlen points) cinc endi maxd maxi
    end.
(** The order of the ends: recast/contour.go:630-632. *)
Definition lexico (ax az bx bz : Z) : bool := (ax <? bx) || (bx =? ax) && (az <? bz).
(** recast/contour.go:617-660: the raw point to add to the edge from [a] to [b]. *)
Definition farthest (points : list Vert) (a b : Vert) (maxError : f32) : res (option Z) :=
  let pn := zlen points in
  let '(ax, az, bx, bz, ci, cinc, endi) :=
    if lexico (vX a) (vZ a) (vX b) (vZ b)
    then (vX a, vZ a, vX b, vZ b, (vR a + 1) mod pn, 1, vR b)
    else (vX b, vZ b, vX a, vZ a, (vR b + (pn - 1)) mod pn, pn - 1, vR a) in
  let* p := get points ci in
  let* (maxd, maxi) :=
    (if isWall (vR p) || isAreaEdge (vR p) then deviation (length points) points ax az bx bz ci cinc endi f0 (-1) else Ok (f0, -1)) in
  Ok (if negb (maxi =? -1) && fgt maxd (fmul maxError maxError) then Some maxi else None).

(** recast/contour.go:663-676 and 733-749: insert a raw point behind position [i]. *)
Definition insertAfter (points simp : list Vert) (i maxi : Z) : res (list Vert) :=
  let* p := get points maxi in
  Ok (firstn (Z.to_nat (i + 1)) simp ++ [withIdx p maxi] ++ skipn (Z.to_nat (i + 1)) simp).
(** The loops of recast/contour.go:609-680 and 684-753: [choose] gives the point to add to the edge
    behind position [i]. *)
Fixpoint refine (fuel : nat) (choose : Vert -> Vert -> res (option Z)) (points simp : list Vert) (i : Z) : res (list Vert) :=
  if negb (i <? zlen simp) then Ok simp
  else
    match fuel with
    | O => NoFuel
    | S fuel =>
        let* a := get simp i in
        let* b := get simp ((i + 1) mod zlen simp) in
        let* o := choose a b in
        match o with
        | Some k => let* simp := insertAfter points simp i k in refine fuel choose points simp i
        | None => refine fuel choose points simp (i + 1)
        end
    end.
(** recast/contour.go:685-731: the raw point that splits a long edge. The squares wrap. *)
Definition splitPoint (points : list Vert) (maxEdgeLen buildFlags : Z) (a b : Vert) : res (option Z) :=
  let pn := zlen points in
  let* p := get points ((vR a + 1) mod pn) in
  let tess := negb (Z.land buildFlags ContourTessWallEdges =? 0) && isWall (vR p) ||
              negb (Z.land buildFlags ContourTessAreaEdges =? 0) && isAreaEdge (vR p) in
  let dx := i32 (vX b - vX a) in
  let dz := i32 (vZ b - vZ a) in
  if tess && (i32 (maxEdgeLen * maxEdgeLen) <? i32 (dx * dx + dz * dz)) then
    let n := if vR b <? vR a then vR b + pn - vR a else vR b - vR a in
    if 1 <? n then
      Ok (Some (if lexico (vX a) (vZ a) (vX b) (vZ b) then (vR a + n / 2) mod pn else (vR a + (n + 1) / 2) mod pn))
    else Ok None
  else Ok None.
(** recast/contour.go:751-757: the flags of the simplified points. *)
Definition finishVert (points : list Vert) (v : Vert) : res Vert :=
  let* p := get points ((vR v + 1) mod zlen points) in
  let* q := get points (vR v) in
  Ok (withIdx v (Z.lor (Z.land (vR p) (Z.lor contourRegMask areaBorder)) (Z.land (vR q) borderVertex))).
Fixpoint mapM {A B} (f : A -> res B) (l : list A) : res (list B) :=
  match l with
  | [] => Ok []
  | a :: l => let* b := f a in let* bs := mapM f l in Ok (b :: bs)
  end.
Definition refineFuel (points : list Vert) : nat := 2 * length points + 4.
(** recast/contour.go:537-758, called with nothing simplified. *)
Definition simplifyContour (points : list Vert) (maxError : f32) (maxEdgeLen buildFlags : Z) : res (list Vert) :=
  let* simp := initial points in
  let* simp := refine (refineFuel points) (fun a b => farthest points a b maxError) points simp 0 in
  let* simp :=
    (if (0 <? maxEdgeLen) && negb (Z.land buildFlags (Z.lor ContourTessWallEdges ContourTessAreaEdges) =? 0)
     then refine (refineFuel points) (splitPoint points maxEdgeLen buildFlags) points simp 0 else Ok simp) in
  mapM (finishVert points) simp.

(** recast/contour.go:851-873. The bound of the loop is the number of points left (npts), that of
    the inner loop the same number. *)
Definition removeAt {A} (l : list A) (i : nat) : list A := firstn i l ++ skipn (S i) l.
Fixpoint dropLoop (fuel : nat) (simp : list Vert) (i : Z) : res (list Vert) :=
  match fuel with
  | O => NoFuel
  | S fuel =>
      if i <? zlen simp then
        let* a := get simp i in
        let* b := get simp (next i (zlen simp)) in
        dropLoop fuel (if vequal (vX a, vZ a) (vX b, vZ b) then removeAt simp (Z.to_nat i) else simp) (i + 1)
      else Ok simp
  end.
Definition removeDegenerateSegments (simp : list Vert) : res (list Vert) := dropLoop (S (length simp)) simp 0.

(** recast/contour.go:760-769: twice the area wraps. *)
Definition calcAreaOfPolygon2D (vs : list Vert) : Z :=
  let sum := fold_left (fun st v => let '(area, p) := st in (i32 (area + i32 (i32 (vX v * vZ p) - i32 (vX p * vZ v))), v)) vs (0, last vs vert0) in
  Z.quot (i32 (fst sum + 1)) 2.

(** recast/contour.go:74-81 *)
Record Contour := mkContour { ctVerts : list Vert; ctRVerts : list Vert; ctReg : Z; ctArea : Z }.
(** Removing the border: recast/contour.go:323-330. *)
Definition shiftVert (bs : Z) (v : Vert) : Vert := if 0 <? bs then mkVert (vX v - bs) (vY v) (vZ v - bs) (vR v) else v.

(** recast/contour.go:270-356: one span; the marks and the contours so far. The third component
    records the calls of walkContour2 (it is not in the code). *)
Definition Traces : Type := list (Z * list Vert * WalkEnd).
Definition contourOne (chf : CompactHeightfield) (bs maxContours : Z) (maxError : f32) (maxEdgeLen buildFlags : Z) (x y : Z)
    (st : list Z * list Contour * Traces) (i : Z) : res (list Z * list Contour * Traces) :=
  let '(flags, conts, tr) := st in
  let* f := get flags i in
  if (f =? 0) || (f =? 15) then let* flags := set flags i 0 in Ok (flags, conts, tr)
  else
    let* s := get (chf_spans chf) i in
    if (csReg s =? 0) || isBorder (csReg s) then Ok st
    else
      let* area := get (chf_areas chf) i in
      let* (flags, verts, e) := walkContour2 x y i chf flags in
      let* simp := simplifyContour verts maxError maxEdgeLen buildFlags in
      let* simp := removeDegenerateSegments simp in
      let tr := tr ++ [(i, verts, e)] in
      if 3 <=? zlen simp then
        if maxContours <=? zlen conts then Panic
        else Ok (flags, conts ++ [mkContour (map (shiftVert bs) simp) (map (shiftVert bs) verts) (csReg s) area], tr)
      else Ok (flags, conts, tr).

(** recast/contour.go:358-376: the winding is a uint8 and compared with "< 0", which is never
    true: no contour is counted as a hole. *)
Definition countHoles (conts : list Contour) : Z :=
  zlen (filter (fun c => (if calcAreaOfPolygon2D (ctVerts c) <? 0 then 255 else 1) <? 0) conts).

(** recast/contour.go:204-432: the contours (with the record of the walks). Of the contour set only
    the contours are modelled, not the copied bounds and sizes (212-228). Merging of holes
    (377-427) is behind a panic. *)
Definition BuildContours (chf : CompactHeightfield) (bs maxRegions : Z) (maxError : f32) (maxEdgeLen buildFlags : Z) : res (list Contour * Traces) :=
  let* flags := markBoundaries chf (repeat 0 (Z.to_nat (chf_spanCount chf))) in
  let* (_, conts, tr) := eachSpan chf (rectCells 0 (chf_w chf) 0 (chf_h chf))
    (contourOne chf bs (iMax maxRegions 8) maxError maxEdgeLen buildFlags) (flags, [], []) in
  if 0 <? countHoles conts then Panic else Ok (conts, tr).
