(** recast/meshdetail.go: the detail mesh of one polygon. *)
From Coq Require Import ZArith List Bool.
From Verif.Base Require Import Res GoNum F32 Num Grid.
From Verif.Model Require Import Geom SegDist Raster HeightSearch Hull Delaunay.
Import ListNotations.
Open Scope Z_scope.

(** recast/meshdetail.go:808-812.  edge has room for MAX_VERTS_PER_EDGE+1 points, idx for
    MAX_VERTS_PER_EDGE numbers, hull for MAX_VERTS. *)
Definition MAX_VERTS : Z := 127.
Definition MAX_TRIS : Z := 255.
Definition MAX_VERTS_PER_EDGE : Z := 32.

(** copy(verts[i*3:], v[0:3]).  copy would write less at the end of the slice; here that is a panic. *)
Definition putVert (verts : list f32) (i : Z) (v : vec f32) : res (list f32) :=
  let* l := set verts (i * 3) (vx v) in
  let* l := set l (i * 3 + 1) (vy v) in
  set l (i * 3 + 2) (vz v).

(** recast/meshdetail.go:717-738 polyMinExtent: the first loop around the second; [nverts] points. *)
Definition edgeExtent (verts : list f32) (nverts i : Z) : res f32 :=
  let ni := (i + 1) mod nverts in
  let* p1 := vert verts i in
  let* p2 := vert verts ni in
  foldM (fun m j =>
    if (j =? i) || (j =? ni) then Ok m
    else
      let* p := vert verts j in
      let d := distancePtSeg2d numF p p1 p2 in
      Ok (if fgt d m then d else m)) (zseq (Z.to_nat nverts)) f0.
Definition polyMinExtent (verts : list f32) (nverts : Z) : res f32 :=
  let* m := foldM (fun m i =>
    let* d := edgeExtent verts nverts i in
    Ok (if flt d m then d else m)) (zseq (Z.to_nat nverts)) maxFloat32 in
  Ok (fsqrt m).

(** recast/meshdetail.go:842-855: the ends in a fixed order, and whether they were swapped. *)
Definition sortEnds (vj vi : vec f32) : vec f32 * vec f32 * bool :=
  if flt (fabs (fsub (vx vj) (vx vi))) (f_ratio 1 1000000) then
    if fgt (vz vj) (vz vi) then (vi, vj, true) else (vj, vi, false)
  else
    if fgt (vx vj) (vx vi) then (vi, vj, true) else (vj, vi, false).

(** recast/meshdetail.go:857-867: the number of parts of the side. *)
Definition edgeParts (vj vi : vec f32) (sampleDist : f32) (nverts : Z) : Z :=
  let dx := fsub (vx vi) (vx vj) in
  let dz := fsub (vz vi) (vz vj) in
  let d := fsqrt (fadd (fmul dx dx) (fmul dz dz)) in
  let nn := i32 (1 + f_floor_i32 (fdiv d sampleDist)) in
  let nn := if nn >=? MAX_VERTS_PER_EDGE then MAX_VERTS_PER_EDGE - 1 else nn in
  if i32 (nverts + nn) >=? MAX_VERTS then MAX_VERTS - 1 - nverts else nn.

(** What stays the same in a call: chf.Cs, chf.Ch, heightSearchRadius and hp. *)
Record Heights := mkHeights { hCs : f32; hCh : f32; hRadius : Z; hPatch : HeightPatch }.
(** recast/meshdetail.go:828, 875 and 957: getHeight at a point. *)
Definition heightAt (H : Heights) (p : vec f32) : res Z :=
  getHeight (vx p) (vy p) (vz p) (fdiv f1 (hCs H)) (hCh H) (hRadius H) (hPatch H).

(** recast/meshdetail.go:869-876: sample [k] of [nn] on the side. *)
Definition edgeSample (H : Heights) (vj vi : vec f32) (nn k : Z) : res (vec f32) :=
  let u := fdiv (f_of_Z k) (f_of_Z nn) in
  let at_ c := fadd (c vj) (fmul (fsub (c vi) (c vj)) u) in
  let* h := heightAt H (at_ vx, at_ vy, at_ vz) in
  Ok (at_ vx, fmul (f_of_Z h) (hCh H), at_ vz).
Definition edgeSamples (H : Heights) (vj vi : vec f32) (nn : Z) : res (list (vec f32)) :=
  foldM (fun l k => let* p := edgeSample H vj vi nn k in Ok (l ++ [p])) (zseq (Z.to_nat (nn + 1))) [].

(** recast/meshdetail.go:885-894: the sample between a and b that is the furthest from the segment. *)
Definition furthest (pts : list (vec f32)) (a b : Z) (va vb : vec f32) : res (f32 * Z) :=
  foldM (fun st m =>
    let* p := get pts m in
    let dev := distancePtSeg3Pt numF p va vb in
    Ok (if fgt dev (fst st) then (dev, m) else st)) (map (Z.add (a + 1)) (zseq (Z.to_nat (b - a - 1)))) (f0, -1).

(** recast/meshdetail.go:878-906: the numbers of the samples kept. *)
Fixpoint simplify (fuel : nat) (pts : list (vec f32)) (maxErr : f32) (idx : list Z) (k : Z) : res (list Z) :=
  match fuel with
  | O => NoFuel
  | S f =>
      if k <? zlen idx - 1 then
        let* a := get idx k in
        let* b := get idx (k + 1) in
        let* va := get pts a in
        let* vb := get pts b in
        let* (maxd, maxi) := furthest pts a b va vb in
        if negb (maxi =? -1) && fgt maxd (fsqr maxErr) then
          if MAX_VERTS_PER_EDGE <=? zlen idx then Panic
          else simplify f pts maxErr (firstn (Z.to_nat (k + 1)) idx ++ maxi :: skipn (Z.to_nat (k + 1)) idx) k
        else simplify f pts maxErr idx (k + 1)
      else Ok idx
  end.

(** The points with the given numbers. *)
Fixpoint getAll (pts : list (vec f32)) (ks : list Z) : res (list (vec f32)) :=
  match ks with
  | [] => Ok []
  | k :: ks => let* p := get pts k in let* l := getAll pts ks in Ok (p :: l)
  end.

(** recast/meshdetail.go:836-924: a side of the polygon from vj to vi: the points to add, in the
    direction of the polygon. *)
Definition edgePoints (H : Heights) (sampleDist maxErr : f32) (nverts : Z) (vj vi : vec f32) : res (list (vec f32)) :=
  let '(a, b, swapped) := sortEnds vj vi in
  let nn := edgeParts a b sampleDist nverts in
  if nn <? 0 then Panic
  else
    let* pts := edgeSamples H a b nn in
    let* idx := simplify (2 * length pts + 2) pts maxErr [0; nn] 0 in
    let inner := removelast (tl idx) in
    getAll pts (if swapped : bool then rev inner else inner).

(** recast/meshdetail.go:908-924: the vertices are stored and put on the hull; the state is
    (verts, *nverts, hull[:nhull]). *)
Definition addHull (st : list f32 * Z * list Z) (v : vec f32) : res (list f32 * Z * list Z) :=
  let '(verts, nverts, hull) := st in
  let* verts := putVert verts nverts v in
  if MAX_VERTS <=? zlen hull then Panic
  else Ok (verts, nverts + 1, hull ++ [nverts]).
Definition tessEdge (H : Heights) (inp : list f32) (sampleDist maxErr : f32)
    (st : list f32 * Z * list Z) (ji : Z * Z) : res (list f32 * Z * list Z) :=
  let '(verts, nverts, hull) := st in
  let* vj := vert inp (fst ji) in
  let* vi := vert inp (snd ji) in
  let* new := edgePoints H sampleDist maxErr nverts vj vi in
  if MAX_VERTS <=? zlen hull then Panic
  else foldM addHull new (verts, nverts, hull ++ [fst ji]).

(** The sides (j, i) of a polygon of n vertices, from (n-1, 0). *)
Definition sides (n : Z) : list (Z * Z) := map (fun i => (if i =? 0 then n - 1 else i - 1, i)) (zseq (Z.to_nat n)).

(** recast/meshdetail.go:820-822 and 833-926: copy of the polygon and tessellation of its outline. *)
Definition copyPoly (inp : list f32) (nin : Z) (verts : list f32) : res (list f32) :=
  foldM (fun l i => let* v := vert inp i in putVert l i v) (zseq (Z.to_nat nin)) verts.
Definition outline (H : Heights) (inp : list f32) (nin : Z) (sampleDist maxErr : f32) (verts : list f32) : res (list f32 * Z * list Z) :=
  if fgt sampleDist f0 then foldM (tessEdge H inp sampleDist maxErr) (sides nin) (verts, nin, [])
  else Ok (verts, nin, []).

(** recast/meshdetail.go:1194-1219 distToPoly *)
Definition distToPoly (inp : list f32) (nvert : Z) (p : vec f32) : res f32 :=
  let* (c, dmin) := foldM (fun st ji =>
    let '(c, dmin) := st in
    let* vj := vert inp (fst ji) in
    let* vi := vert inp (snd ji) in
    let c := if xorb (fgt (vz vi) (vz p)) (fgt (vz vj) (vz p)) &&
                flt (vx p) (fadd (fdiv (fmul (fsub (vx vj) (vx vi)) (fsub (vz p) (vz vi))) (fsub (vz vj) (vz vi))) (vx vi))
             then negb c else c in
    let d := distancePtSeg2d numF p vj vi in
    Ok (c, if flt d dmin then d else dmin)) (sides nvert) (false, maxFloat32) in
  Ok (if c : bool then fopp dmin else dmin).

(** recast/meshdetail.go:947-977: the samples (x, height, z) inside the polygon.  Columns and rows of
    the grid are numbered by 32-bit integers. *)
Definition polyBounds (inp : list f32) (nin : Z) : res (vec f32 * vec f32) :=
  let* v := vert inp 0 in
  foldM (fun mM i => let* w := vert inp (i + 1) in Ok (vmin (fst mM) w, vmax (snd mM) w)) (zseq (Z.to_nat (nin - 1))) (v, v).
Definition gridSamples (H : Heights) (inp : list f32) (nin : Z) (sampleDist : f32) : res (list (Z * Z * Z)) :=
  let* (bmin, bmax) := polyBounds inp nin in
  let x0 := f_floor_i32 (fdiv (vx bmin) sampleDist) in
  let x1 := f_ceil_i32 (fdiv (vx bmax) sampleDist) in
  let z0 := f_floor_i32 (fdiv (vz bmin) sampleDist) in
  let z1 := f_ceil_i32 (fdiv (vz bmax) sampleDist) in
  let y := fmul (fadd (vy bmax) (vy bmin)) (f_ratio 1 2) in
  foldM (fun l zx =>
    let '(z, x) := zx in
    let pt := (fmul (f_of_Z x) sampleDist, y, fmul (f_of_Z z) sampleDist) in
    let* d := distToPoly inp nin pt in
    if fgt d (fdiv (fopp sampleDist) (f_of_Z 2)) then Ok l
    else
      let* h := heightAt H pt in
      Ok (l ++ [(x, h, z)])) (flat_map (fun z => map (fun x => (z, x)) (range x0 (x1 - 1))) (range z0 (z1 - 1))) [].

(** recast/meshdetail.go:795-801 jitterX, jitterY: the product is taken modulo 2^16. *)
Definition jitter (c i : Z) : f32 :=
  fsub (fmul (fdiv (f_of_Z (Z.land (i * c) 65535)) (f_of_Z 65535)) (f_of_Z 2)) f1.
Definition jitterX (i : Z) : f32 := jitter 2376512323 i.
Definition jitterY (i : Z) : f32 := jitter 3625334849 i.

(** recast/meshdetail.go:1001-1003: the point of sample [i]. *)
Definition samplePoint (H : Heights) (sampleDist : f32) (i : Z) (s : Z * Z * Z) : vec f32 :=
  let '(x, h, z) := s in
  (fadd (fmul (f_of_Z x) sampleDist) (fmul (fmul (jitterX i) (hCs H)) (f_ratio 1 10)),
   fmul (f_of_Z h) (hCh H),
   fadd (fmul (f_of_Z z) sampleDist) (fmul (fmul (jitterY i) (hCs H)) (f_ratio 1 10))).

(** recast/meshdetail.go:164-179 distToTriMesh.  The fourth number of a triangle is not read. *)
Definition distToTriMesh (p : vec f32) (verts : list f32) (tris : list (Z * Z * Z)) : res f32 :=
  let* dmin := foldM (fun dmin t =>
    let '(a, b, c) := t in
    let* va := vert verts a in
    let* vb := vert verts b in
    let* vc := vert verts c in
    let d := match distPtTri numF p va vb vc with Some d => d | None => maxFloat32 end in
    Ok (if flt d dmin then d else dmin)) tris maxFloat32 in
  Ok (if feq dmin maxFloat32 then f_of_Z (-1) else dmin).

(** recast/meshdetail.go:986-1014: the sample with most error, (besti, bestd, bestpt).  A sample
    carries whether it was added (s[3] of the code). *)
Definition bestSample (H : Heights) (sampleDist : f32) (verts : list f32) (tris : list (Z * Z * Z)) (samples : list (Z * Z * Z * bool))
    : res (Z * f32 * vec f32) :=
  foldM (fun st i =>
    let '(besti, bestd, bestpt) := st in
    let* (s, added) := get samples i in
    if added : bool then Ok st
    else
      let pt := samplePoint H sampleDist i s in
      let* d := distToTriMesh pt verts tris in
      if flt d f0 then Ok st
      else Ok (if fgt d bestd then (i, d, pt) else st)) (zseq (length samples)) (-1, f0, (f0, f0, f0)).

(** The hull array: the entries after nhull are zero (they are not read). *)
Definition hullArr (hull : list Z) : list Z := hull ++ repeat 0 (Z.to_nat MAX_VERTS - length hull).
(** The triangles in the list of quadruples that triangulateHull appends to. *)
Fixpoint quadTris (l : list Z) : list (Z * Z * Z) :=
  match l with a :: b :: c :: _ :: l => (a, b, c) :: quadTris l | _ => [] end.

(** recast/meshdetail.go:982-1031: at most [n] samples are added; the result is
    (verts, nverts, tris, samples). *)
Fixpoint refine (n : nat) (H : Heights) (sampleDist maxErr : f32) (hull : list Z)
    (verts : list f32) (nverts : Z) (tris : list (Z * Z * Z)) (samples : list (Z * Z * Z * bool))
    : res (list f32 * Z * list (Z * Z * Z) * list (Z * Z * Z * bool)) :=
  match n with
  | O => Ok (verts, nverts, tris, samples)
  | S n =>
      if nverts >=? MAX_VERTS then Ok (verts, nverts, tris, samples)
      else
        let* (besti, bestd, bestpt) := bestSample H sampleDist verts tris samples in
        if fle bestd maxErr || (besti =? -1) then Ok (verts, nverts, tris, samples)
        else
          let* (s, _) := get samples besti in
          let* samples := set samples besti (s, true) in
          let* verts := putVert verts nverts bestpt in
          let* (rows, _) := delaunayHull (nverts + 1) verts (zlen hull) (hullArr hull) in
          refine n H sampleDist maxErr hull verts (nverts + 1) (map (fun '(a, b, c, _) => (a, b, c)) rows) samples
  end.

(** recast/meshdetail.go:803-1043 buildPolyDetail: (verts, nverts, tris), or Panic.  It never returns
    false.  The case of no triangle (lines 941-945) does not occur after triangulateHull.  The panic of
    line 1036 is for more than 255 triangles. *)
Definition buildPolyDetail (H : Heights) (inp : list f32) (nin : Z) (sampleDist maxErr : f32) (verts : list f32)
    : res (list f32 * Z * list (Z * Z * Z)) :=
  let* verts := copyPoly inp nin verts in
  let* minExtent := polyMinExtent verts nin in
  let* (verts, nverts, hull) := outline H inp nin sampleDist maxErr verts in
  let* tl := triangulateHull verts (zlen hull) (hullArr hull) [] in
  let tris := quadTris tl in
  if flt minExtent (fmul sampleDist (f_of_Z 2)) then Ok (verts, nverts, tris)
  else
    let* (verts, nverts, tris) :=
      if fgt sampleDist f0 then
        let* samples := gridSamples H inp nin sampleDist in
        let* (verts, nverts, tris, _) :=
          refine (length samples) H sampleDist maxErr hull verts nverts tris (map (fun s => (s, false)) samples) in
        Ok (verts, nverts, tris)
      else Ok (verts, nverts, tris) in
    if MAX_TRIS <? zlen tris then Panic
    else Ok (verts, nverts, tris).
