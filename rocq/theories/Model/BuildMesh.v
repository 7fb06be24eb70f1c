(** recast/polymesh.go and recast/mesh.go: building the polygon mesh from contours.

    A buffer of polygons is kept as the list of its used rows (npolys or NPolys of them), each
    with the first nvp elements of the Go slice that starts there. The elements behind the used
    rows are left over from earlier uses; they are overwritten before they are read. Together
    with its row a polygon of the mesh has the elements of Regs and Areas with its number. The
    number nvp of places per polygon is at least 3 (the documentation demands it; with fewer, the
    rows would overlap). Counters and indices are not wrapped to 32 bits: they are bounded by the
    lengths of slices. Log messages and timers are left out. *)
From Coq Require Import ZArith List Bool.
From Verif.Base Require Import Res GoNum Grid.
From Verif.Model Require Import Heightfield Contour Triangulate PolyMeshOps.
Import ListNotations.
Open Scope Z_scope.

(** A row of the buffer and what belongs to it. *)
Definition prow (X : Type) : Type := (list Z * X)%type.

(** * Initial polygons and merging *)

(** recast/polymesh.go:160-175 and recast/mesh.go:718-742: the triangles as polygons, without
    those that name a vertex of the contour twice. [info] gives what belongs to the triangle. *)
Definition initialPolys {X} (nvp : Z) (indices : list Z) (info : Z * Z * Z -> res X) (tris : list (Z * Z * Z))
    : res (list (prow X)) :=
  foldM (fun rows t =>
    let '(t0, t1, t2) := t in
    if negb (t0 =? t1) && negb (t0 =? t2) && negb (t1 =? t2) then
      let* a := get indices t0 in
      let* b := get indices t1 in
      let* c := get indices t2 in
      let* x := info t in
      Ok (rows ++ [([u16 a; u16 b; u16 c] ++ repeat meshNullIdx (Z.to_nat (nvp - 3)), x)])
    else Ok rows) tris [].

(** (bestMergeVal, bestPa, bestPb, bestEa, bestEb) *)
Record mergeBest := mkBest { mbVal : Z; mbPa : Z; mbPb : Z; mbEa : Z; mbEb : Z }.

(** recast/polymesh.go:183-203 and recast/mesh.go:750-770 *)
Definition findBest {X} (nvp : Z) (verts : list Z) (rows : list (prow X)) : res mergeBest :=
  let n := zlen rows in
  foldM (fun best j =>
    let* pj := get rows j in
    foldM (fun best k =>
      let* pk := get rows k in
      let* (v, ea, eb) := getPolyMergeValue (fst pj) (fst pk) verts nvp in
      Ok (if v >? mbVal best then mkBest v j k ea eb else best))
      (map (fun d => j + 1 + d) (zseq (Z.to_nat (n - (j + 1))))) best)
    (zseq (Z.to_nat (n - 1))) (mkBest 0 0 0 0 0).

(** recast/polymesh.go:180-221 and recast/mesh.go:747-797 (the loop). The last row takes the place of
    row bestPb; when it is that row itself the Go code skips the copy, which has no effect.
    [join] is what belongs to the merged polygon. [tmp] is tmpPoly. *)
Fixpoint mergeLoop {X} (fuel : nat) (nvp : Z) (verts : list Z) (join : X -> X -> X) (tmp : list Z) (rows : list (prow X))
    : res (list (prow X)) :=
  match fuel with
  | O => NoFuel
  | S fuel =>
      let* b := findBest nvp verts rows in
      if mbVal b >? 0 then
        let* pa := get rows (mbPa b) in
        let* pb := get rows (mbPb b) in
        let* (pa', tmp) := mergePolyVerts (fst pa) (fst pb) (mbEa b) (mbEb b) tmp nvp in
        let* rows := set rows (mbPa b) (pa', join (snd pa) (snd pb)) in
        let* l := get rows (zlen rows - 1) in
        let* rows := set rows (mbPb b) l in
        mergeLoop fuel nvp verts join tmp (removelast rows)
      else Ok rows
  end.
Definition mergePolys {X} (nvp : Z) (verts : list Z) (join : X -> X -> X) (rows : list (prow X)) : res (list (prow X)) :=
  if nvp >? 3 then mergeLoop (S (length rows)) nvp verts join (repeat meshNullIdx (Z.to_nat nvp)) rows else Ok rows.

(** * The mesh while it is built *)

(** Verts and NVerts; the polygons with region and area. *)
Record PMesh := mkPMesh { pmVerts : list Z; pmNVerts : Z; pmPolys : list (prow (Z * Z)) }.

(** recast/polymesh.go:68-76: maxVertices, maxTris, maxVertsPerCont *)
Definition countVerts (conts : list Contour) : Z * Z * Z :=
  fold_left (fun '(mv, mt, mc) c =>
    let n := zlen (ctVerts c) in
    if n <? 3 then (mv, mt, mc) else (mv + n, mt + (n - 2), iMax mc n)) conts (0, 0, 0).

(** The elements of the vertices one after the other, as triangulate reads them. *)
Definition flat4 (vs : list Vert) : list Z := flat_map (fun v => [vX v; vY v; vZ v; vR v]) vs.

(** recast/polymesh.go:149-158: the vertex numbers, the tables and vflags. *)
Fixpoint addContour (vs : list Vert) (s : weld) (vflags : list Z) : res (list Z * weld * list Z) :=
  match vs with
  | [] => Ok ([], s, vflags)
  | v :: vs =>
      let* (i, s) := addVertex (u16 (vX v)) (u16 (vY v)) (u16 (vZ v)) s in
      let* vflags := if Z.land (vR v) borderVertex =? 0 then Ok vflags else set vflags i 1 in
      let* (is, s, vflags) := addContour vs s vflags in
      Ok (i :: is, s, vflags)
  end.

(** recast/polymesh.go:223-237. The assignments are outside the slices when maxTris polygons are
    stored already; so the test NPolys > maxTris never holds. *)
Definition storePolys (maxTris : Z) (reg area : Z) (rows : list (prow unit)) (polys : list (prow (Z * Z))) : res (list (prow (Z * Z))) :=
  foldM (fun polys q => if zlen polys >=? maxTris then Panic else Ok (polys ++ [(fst q, (reg, area))])) rows polys.

(** The state of the loop over the contours: the tables of vertices, vflags, the buffer indices
    and the polygons. *)
Record bstate := mkB { bsWeld : weld; bsFlags : list Z; bsInd : list Z; bsPolys : list (prow (Z * Z)) }.

(** recast/polymesh.go:119-238: one contour. *)
Definition buildContour (nvp maxTris maxVertsPerCont : Z) (st : bstate) (c : Contour) : res bstate :=
  let n := zlen (ctVerts c) in
  if n <? 3 then Ok st else
  let ind := zseq (Z.to_nat n) ++ skipn (Z.to_nat n) (bsInd st) in
  let* (ntris, tris) := triangulate n (flat4 (ctVerts c)) ind (maxVertsPerCont * 3) in
  let ntris := if ntris <=? 0 then - ntris else ntris in
  let* (is, w, vflags) := addContour (ctVerts c) (bsWeld st) (bsFlags st) in
  let ind := is ++ skipn (Z.to_nat n) (bsInd st) in
  let* rows := initialPolys nvp ind (fun _ => Ok tt) (firstn (Z.to_nat ntris) tris) in
  if zlen rows =? 0 then Ok (mkB w vflags ind (bsPolys st)) else
  let* rows := mergePolys nvp (wVerts w) (fun _ _ => tt) rows in
  let* polys := storePolys maxTris (ctReg c) (ctArea c) rows (bsPolys st) in
  Ok (mkB w vflags ind polys).

(** * Removing a vertex *)

(** The number of times [rem] occurs among the first [nv] vertices of [p]. *)
Definition countRem (rem nv : Z) (p : list Z) : res Z :=
  foldM (fun c j => let* x := get p j in Ok (if x =? rem then c + 1 else c)) (zseq (Z.to_nat nv)) 0.

(** recast/mesh.go:459-481: (numTouchedVerts, numRemainingEdges) *)
Definition countTouched (nvp rem : Z) (polys : list (prow (Z * Z))) : res (Z * Z) :=
  foldM (fun '(touched, remaining) p =>
    let* nv := polyVerts (fst p) nvp in
    let* removed := countRem rem nv (fst p) in
    Ok (touched + removed, if removed =? 0 then remaining else remaining + (nv - (removed + 1)))) polys (0, 0).

(** An edge of canRemoveVertex: a, b and the share count. *)
Definition redge : Type := (Z * Z * Z)%type.
(** recast/mesh.go:508-526. [maxEdges] edges are allocated. *)
Definition shareEdge (maxEdges : Z) (edges : list redge) (a b : Z) : res (list redge) :=
  if existsb (fun '(_, e1, _) => e1 =? b) edges
  then Ok (map (fun '(e0, e1, n) => if e1 =? b then (e0, e1, n + 1) else (e0, e1, n)) edges)
  else if zlen edges >=? maxEdges then Panic else Ok (edges ++ [(a, b, 1)]).
(** recast/mesh.go:495-530; [k] is the index before [j]. *)
Definition touchingEdges (nvp rem maxEdges : Z) (edges : list redge) (p : list Z) : res (list redge) :=
  let* nv := polyVerts p nvp in
  let* (edges, _) := foldM (fun '(edges, k) j =>
    let* pj := get p j in
    let* pk := get p k in
    let* edges := if (pj =? rem) || (pk =? rem)
                  then let '(a, b) := if pk =? rem then (pk, pj) else (pj, pk) in shareEdge maxEdges edges a b
                  else Ok edges in
    Ok (edges, j)) (zseq (Z.to_nat nv)) (edges, nv - 1) in
  Ok edges.
(** recast/mesh.go:455-545 *)
Definition canRemoveVertex (nvp : Z) (m : PMesh) (rem : Z) : res bool :=
  let* (touched, remaining) := countTouched nvp rem (pmPolys m) in
  if remaining <=? 2 then Ok false else
  let maxEdges := touched * 2 in
  let* edges := foldM (fun edges p => touchingEdges nvp rem maxEdges edges (fst p)) (pmPolys m) [] in
  let open := fold_left (fun n e => if snd e <? 2 then n + 1 else n) edges 0 in
  Ok (negb (open >? 2)).

(** An edge of removeVertex: from, to, region, area. *)
Notation hedge := (Z * Z * (Z * Z))%type.
(** recast/mesh.go:584-596: the edges of a polygon that do not touch the vertex; [cap] fit. *)
Definition collectEdges (rem nv cap : Z) (p : prow (Z * Z)) (edges : list hedge) : res (list hedge) :=
  let* (edges, _) := foldM (fun '(edges, k) j =>
    let* pj := get (fst p) j in
    let* pk := get (fst p) k in
    let* edges := if negb (pj =? rem) && negb (pk =? rem)
                  then if zlen edges >=? cap then Panic else Ok (edges ++ [(pk, pj, snd p)])
                  else Ok edges in
    Ok (edges, j)) (zseq (Z.to_nat nv)) (edges, nv - 1) in
  Ok edges.
(** recast/mesh.go:573-613: from polygon [i] on; a removed polygon is replaced by the last one.
    (The loop at 604 has no iteration; the compared slices are the same only if polygon [i] is
    the last one, and the copy would have no effect then.) *)
Fixpoint removePolys (fuel : nat) (nvp rem cap i : Z) (polys : list (prow (Z * Z))) (edges : list hedge)
    : res (list (prow (Z * Z)) * list hedge) :=
  if i <? zlen polys then
    match fuel with
    | O => NoFuel
    | S fuel =>
        let* p := get polys i in
        let* nv := polyVerts (fst p) nvp in
        let* c := countRem rem nv (fst p) in
        if c =? 0 then removePolys fuel nvp rem cap (i + 1) polys edges else
        let* edges := collectEdges rem nv cap p edges in
        let* l := get polys (zlen polys - 1) in
        let* polys := set polys i l in
        removePolys fuel nvp rem cap i (removelast polys) edges
    end
  else Ok (polys, edges).

(** recast/mesh.go:616-620 *)
Definition dropVert (rem nverts : Z) (verts : list Z) : res (list Z) :=
  foldM (fun verts i =>
    let* x := get verts ((i + 1) * 3) in
    let* verts := set verts (i * 3) x in
    let* x := get verts ((i + 1) * 3 + 1) in
    let* verts := set verts (i * 3 + 1) x in
    let* x := get verts ((i + 1) * 3 + 2) in
    set verts (i * 3 + 2) x) (map (fun d => rem + d) (zseq (Z.to_nat (nverts - 1 - rem)))) verts.

(** recast/mesh.go:629-631, 635-640 *)
Definition lower (rem v : Z) : Z := if v >? rem then v - 1 else v.
(** recast/mesh.go:624-633 *)
Definition lowerPoly (nvp rem : Z) (p : prow (Z * Z)) : res (prow (Z * Z)) :=
  let* nv := polyVerts (fst p) nvp in
  Ok (map (lower rem) (firstn (Z.to_nat nv) (fst p)) ++ skipn (Z.to_nat nv) (fst p), snd p).
Definition lowerPolys (nvp rem : Z) (polys : list (prow (Z * Z))) : res (list (prow (Z * Z))) :=
  foldM (fun l p => let* q := lowerPoly nvp rem p in Ok (l ++ [q])) polys [].
Definition lowerEdge (rem : Z) (e : hedge) : hedge := let '(a, b, x) := e in (lower rem a, lower rem b, x).

(** recast/mesh.go:442-453: the slices hole, hreg and harea grow together; [cap] elements fit. *)
Definition pushFront {A} (cap : Z) (v : A) (arr : list A) : res (list A) := if zlen arr >=? cap then Panic else Ok (v :: arr).
Definition pushBack {A} (cap : Z) (v : A) (arr : list A) : res (list A) := if zlen arr >=? cap then Panic else Ok (arr ++ [v]).

(** recast/mesh.go:655-687: one pass over the edges from number [i] on; hole entries are (vertex,
    (region, area)). *)
Fixpoint holePass (fuel : nat) (cap i : Z) (edges : list hedge) (hole : list (Z * (Z * Z))) (match_ : bool)
    : res (list hedge * list (Z * (Z * Z)) * bool) :=
  if i <? zlen edges then
    match fuel with
    | O => NoFuel
    | S fuel =>
        let* (ea, eb, x) := get edges i in
        let* first := get hole 0 in
        let* last := get hole (zlen hole - 1) in
        let drop edges := let* l := get edges (zlen edges - 1) in
                          let* edges := set edges i l in Ok (removelast edges) in
        if fst first =? eb then
          let* hole := pushFront cap (ea, x) hole in
          let* edges := drop edges in
          holePass fuel cap i edges hole true
        else if fst last =? ea then
          let* hole := pushBack cap (eb, x) hole in
          let* edges := drop edges in
          holePass fuel cap i edges hole true
        else holePass fuel cap (i + 1) edges hole match_
    end
  else Ok (edges, hole, match_).
(** recast/mesh.go:652-692 *)
Fixpoint holeLoop (fuel : nat) (cap : Z) (edges : list hedge) (hole : list (Z * (Z * Z))) : res (list (Z * (Z * Z))) :=
  if zlen edges =? 0 then Ok hole else
  match fuel with
  | O => NoFuel
  | S fuel =>
      let* (edges, hole, m) := holePass (length edges) cap 0 edges hole false in
      if m then holeLoop fuel cap edges hole else Ok hole
  end.

(** recast/mesh.go:698-707 *)
Definition holeVerts (verts : list Z) (hole : list (Z * (Z * Z))) : res (list Z) :=
  foldM (fun t h =>
    let* x := get verts (fst h * 3) in
    let* y := get verts (fst h * 3 + 1) in
    let* z := get verts (fst h * 3 + 2) in
    Ok (t ++ [x; y; z; 0])) hole [].

(** recast/mesh.go:730-739: region and area of a triangle. multipleRegs is 0. *)
Definition holeInfo (hole : list (Z * (Z * Z))) (t : Z * Z * Z) : res (Z * Z) :=
  let '(t0, t1, t2) := t in
  let* a := get hole t0 in
  let* b := get hole t1 in
  let* c := get hole t2 in
  let hreg (h : Z * (Z * Z)) := fst (snd h) in
  Ok (if negb (hreg a =? hreg b) || negb (hreg b =? hreg c) then 0 else u16 (hreg a), u8 (snd (snd a))).
(** recast/mesh.go:776-778 *)
Definition joinRegs (a b : Z * Z) : Z * Z := (if fst a =? fst b then fst a else 0, snd a).

(** recast/mesh.go:547-817. It returns true always: the test at 810 cannot hold after the one
    at 792. *)
Definition removeVertex (nvp maxTris : Z) (m : PMesh) (rem : Z) : res PMesh :=
  let* removed := foldM (fun n p => let* nv := polyVerts (fst p) nvp in
                                    let* c := countRem rem nv (fst p) in Ok (n + c)) (pmPolys m) 0 in
  let cap := removed * nvp in
  let* (polys, edges) := removePolys (length (pmPolys m)) nvp rem cap 0 (pmPolys m) [] in
  let* verts := dropVert rem (pmNVerts m) (pmVerts m) in
  let nverts := pmNVerts m - 1 in
  let* polys := lowerPolys nvp rem polys in
  let edges := map (lowerEdge rem) edges in
  match edges with
  | [] => Ok (mkPMesh verts nverts polys)
  | (ea, _, x) :: _ =>
      let* hole := pushBack cap (ea, x) [] in
      let* hole := holeLoop (S (length edges)) cap edges hole in
      let nhole := zlen hole in
      let* tverts := holeVerts verts hole in
      let* (ntris, tris) := triangulate nhole tverts (zseq (Z.to_nat nhole)) (nhole * 3) in
      let ntris := if ntris <? 0 then - ntris else ntris in
      let* rows := initialPolys nvp (map fst hole) (holeInfo hole) (firstn (Z.to_nat ntris) tris) in
      if zlen rows =? 0 then Ok (mkPMesh verts nverts polys) else
      let* rows := mergePolys nvp verts joinRegs rows in
      let polys := fold_left (fun polys q => if zlen polys >=? maxTris then polys else polys ++ [q]) rows polys in
      Ok (mkPMesh verts nverts polys)
  end.

(** recast/polymesh.go:241-259: from vertex [i] on. *)
Definition dropFlag (i nverts : Z) (vflags : list Z) : res (list Z) :=
  foldM (fun fl j => let* x := get fl (j + 1) in set fl j x) (map (fun d => i + d) (zseq (Z.to_nat (nverts - i)))) vflags.
Fixpoint removeFlagged (fuel : nat) (nvp maxTris i : Z) (m : PMesh) (vflags : list Z) : res PMesh :=
  if i <? pmNVerts m then
    match fuel with
    | O => NoFuel
    | S fuel =>
        let* f := get vflags i in
        if f =? 0 then removeFlagged fuel nvp maxTris (i + 1) m vflags else
        let* c := canRemoveVertex nvp m (u16 i) in
        if negb c then removeFlagged fuel nvp maxTris (i + 1) m vflags else
        let* m := removeVertex nvp maxTris m (u16 i) in
        let* vflags := dropFlag i (pmNVerts m) vflags in
        removeFlagged fuel nvp maxTris i m vflags
    end
  else Ok m.

(** * Adjacency and portals *)

(** mesh.Polys: per polygon its row and nvp places for the neighbours. *)
Definition polyTable (nvp : Z) (polys : list (prow (Z * Z))) : list Z :=
  flat_map (fun p => fst p ++ repeat meshNullIdx (Z.to_nat nvp)) polys.

(** recast/polymesh.go:285-296: the new value of p[nvp+j], if any. *)
Definition portalSide (w h : Z) (a b : Z * Z) : option Z :=
  if (fst a =? 0) && (fst b =? 0) then Some 32768
  else if (snd a =? h) && (snd b =? h) then Some 32769
  else if (fst a =? w) && (fst b =? w) then Some 32770
  else if (snd a =? 0) && (snd b =? 0) then Some 32771
  else None.
(** recast/polymesh.go:273-297: the edges of polygon [i] from [j] on. *)
Fixpoint markPortals (cnt : nat) (nvp w h i : Z) (verts : list Z) (j : Z) (t : list Z) : res (list Z) :=
  match cnt with
  | O => Ok t
  | S cnt =>
      let o := i * 2 * nvp in
      let* pj := get t (o + j) in
      if pj =? meshNullIdx then Ok t else
      let* nb := get t (o + (nvp + j)) in
      if negb (nb =? meshNullIdx) then markPortals cnt nvp w h i verts (j + 1) t else
      let* nj := if j + 1 >=? nvp then Ok 0
                 else let* x := get t (o + (j + 1)) in Ok (if x =? meshNullIdx then 0 else j + 1) in
      let* a := corner verts pj in
      let* pn := get t (o + nj) in
      let* b := corner verts pn in
      let* t := match portalSide w h a b with Some v => set t (o + (nvp + j)) v | None => Ok t end in
      markPortals cnt nvp w h i verts (j + 1) t
  end.

(** The result: Verts (all maxVertices of them), NVerts, Polys (NPolys blocks), Regs and Areas. *)
Record PolyMesh := mkPolyMesh { mVerts : list Z; mNVerts : Z; mPolys : list Z; mRegs : list Z; mAreas : list Z; mNPolys : Z }.

(** recast/polymesh.go:55-311. [None] stands for the return of false. buildMeshAdjacency returns
    true always. The fields Cs, Ch, BorderSize, MaxEdgeError, BMin, BMax, Nvp, MaxPolys are copied
    from the arguments, Flags is a new slice of NPolys zeros: all left out. *)
Definition BuildPolyMesh (nvp borderSize w h : Z) (conts : list Contour) : res (option PolyMesh) :=
  let '(maxVertices, maxTris, maxVertsPerCont) := countVerts conts in
  if maxVertices >=? 65534 then Ok None else
  let* st := foldM (buildContour nvp maxTris maxVertsPerCont) conts
               (mkB (newWeld maxVertices) (repeat 0 (Z.to_nat maxVertices)) (repeat 0 (Z.to_nat maxVertsPerCont)) []) in
  let m := mkPMesh (wVerts (bsWeld st)) (wNv (bsWeld st)) (bsPolys st) in
  let* m := removeFlagged (S (Z.to_nat (2 * pmNVerts m))) nvp maxTris 0 m (bsFlags st) in
  let npolys := zlen (pmPolys m) in
  let* t := buildMeshAdjacency (polyTable nvp (pmPolys m)) npolys (pmNVerts m) nvp in
  let* t := if borderSize >? 0
            then foldM (fun t i => markPortals (Z.to_nat nvp) nvp w h i (pmVerts m) 0 t) (zseq (Z.to_nat npolys)) t
            else Ok t in
  Ok (Some (mkPolyMesh (pmVerts m) (pmNVerts m) t (map (fun p => fst (snd p)) (pmPolys m))
              (map (fun p => snd (snd p)) (pmPolys m)) npolys)).
