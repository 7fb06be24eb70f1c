(** recast/mesh.go: vertex welding, polygon merging and adjacency of the polygon mesh. *)
From Coq Require Import ZArith List Bool.
From Verif.Base Require Import Res GoNum Grid.
Import ListNotations.
Open Scope Z_scope.

(** recast/polymesh.go: meshNullIdx *)
Definition meshNullIdx : Z := 65535.

(** * Welding of vertices *)

(** recast/mesh.go:97-107. The products are int64 (they do not overflow for int32 arguments). *)
Definition vertexBucketCount : Z := 4096.
Definition computeVertexHash (x y z : Z) : Z :=
  Z.land (u32 (2376512323 * x + 3625334849 * y + 3407524639 * z)) (vertexBucketCount - 1).

(** The arguments [verts], [firstVert], [nextVert], [nv] of addVertex. *)
Record weld := mkWeld { wVerts : list Z; wFirst : list Z; wNext : list Z; wNv : Z }.

(** [iAbs(int32(v[1]-y)) <= 2]: the difference is taken in uint16, before the conversion. *)
Definition nearY (vy y : Z) : bool := Z.abs (i32 (u16 (vy - y))) <=? 2.

(** recast/mesh.go:113-119: the walk along the bucket; [Some i] is a hit. *)
Fixpoint findVertex (fuel : nat) (x y z i : Z) (s : weld) : res (option Z) :=
  if i =? -1 then Ok None else
  match fuel with
  | O => NoFuel
  | S fuel =>
      let* vx := get (wVerts s) (i * 3) in
      let* vy := get (wVerts s) (i * 3 + 1) in
      let* vz := get (wVerts s) (i * 3 + 2) in
      if (vx =? x) && nearY vy y && (vz =? z) then Ok (Some i) else
      let* i := get (wNext s) i in
      findVertex fuel x y z i s
  end.
(** recast/mesh.go:109-132. In Go the elements of [v] are read only as far as the condition
    needs them; all three exist whenever one does in a vertex array. *)
Definition addVertex (x y z : Z) (s : weld) : res (Z * weld) :=
  let bucket := computeVertexHash x 0 z in
  let* i := get (wFirst s) bucket in
  let* r := findVertex (S (Z.to_nat (wNv s))) x y z i s in
  match r with
  | Some i => Ok (u16 i, s)
  | None =>
      let i := wNv s in
      let* verts := set (wVerts s) (i * 3) x in
      let* verts := set verts (i * 3 + 1) y in
      let* verts := set verts (i * 3 + 2) z in
      let* f := get (wFirst s) bucket in
      let* next := set (wNext s) i f in
      let* first := set (wFirst s) bucket i in
      Ok (u16 i, mkWeld verts first next (i + 1))
  end.

(** recast/polymesh.go:102-106: the tables before the first vertex. *)
Definition newWeld (maxVertices : Z) : weld :=
  mkWeld (repeat 0 (Z.to_nat (maxVertices * 3))) (repeat (-1) (Z.to_nat vertexBucketCount))
    (repeat 0 (Z.to_nat maxVertices)) 0.
(** recast/polymesh.go:149-157: adding the vertices of the contours, one after the other. *)
Fixpoint addVertices (ps : list (Z * Z * Z)) (s : weld) : res (list Z * weld) :=
  match ps with
  | [] => Ok ([], s)
  | (x, y, z) :: ps =>
      let* (i, s) := addVertex x y z s in
      let* (is, s) := addVertices ps s in
      Ok (i :: is, s)
  end.

(** * Merging of polygons *)

(** recast/mesh.go:312-319. A polygon [p] stands for the first nvp elements of the Go slice. *)
Fixpoint countPolyVerts (p : list Z) (nvp : nat) (i : Z) : res Z :=
  match nvp with
  | O => Ok i
  | S k => let* x := get p i in if x =? meshNullIdx then Ok i else countPolyVerts p k (i + 1)
  end.
Definition polyVerts (p : list Z) (nvp : Z) : res Z := countPolyVerts p (Z.to_nat nvp) 0.

(** [verts[v*3:]] with the multiplication in uint16: elements 0 and 2. *)
Definition corner (verts : list Z) (v : Z) : res (Z * Z) :=
  let o := u16 (v * 3) in
  let* x := get verts o in
  let* z := get verts (o + 2) in
  Ok (x, z).
(** recast/mesh.go:321-324 *)
Definition uleft (a b c : Z * Z) : bool :=
  i32 (i32 ((fst b - fst a) * (snd c - snd a)) - i32 ((fst c - fst a) * (snd b - snd a))) <? 0.

Definition sorted2 (a b : Z) : Z * Z := if a >? b then (b, a) else (a, b).
(** recast/mesh.go:376-387: the inner loop; it ends at the first common edge. *)
Fixpoint matchEdge (pb : list Z) (nb : Z) (va : Z * Z) (js : list Z) : res (option Z) :=
  match js with
  | [] => Ok None
  | j :: js =>
      let* b0 := get pb j in
      let* b1 := get pb ((j + 1) mod nb) in
      let vb := sorted2 b0 b1 in
      if (fst va =? fst vb) && (snd va =? snd vb) then Ok (Some j) else matchEdge pb nb va js
  end.
(** recast/mesh.go:366-389: (ea, eb) *)
Definition commonEdge (pa pb : list Z) (na nb : Z) : res (Z * Z) :=
  foldM (fun e i =>
    let* a0 := get pa i in
    let* a1 := get pa ((i + 1) mod na) in
    let* m := matchEdge pb nb (sorted2 a0 a1) (zseq (Z.to_nat nb)) in
    match m with
    | Some j => Ok (i, j)
    | None => Ok e
    end) (zseq (Z.to_nat na)) (-1, -1).
(** recast/mesh.go:352-416: (value, ea, eb), with ea and eb 0 before. *)
Definition getPolyMergeValue (pa pb verts : list Z) (nvp : Z) : res (Z * Z * Z) :=
  let* na := polyVerts pa nvp in
  let* nb := polyVerts pb nvp in
  if na + nb - 2 >? nvp then Ok (-1, 0, 0) else
  let* e := commonEdge pa pb na nb in
  let '(ea, eb) := e in
  if (ea =? -1) || (eb =? -1) then Ok (-1, ea, eb) else
  let* va := get pa ((ea + na - 1) mod na) in
  let* vb := get pa ea in
  let* vc := get pb ((eb + 2) mod nb) in
  let* qa := corner verts va in
  let* qb := corner verts vb in
  let* qc := corner verts vc in
  if negb (uleft qa qb qc) then Ok (-1, ea, eb) else
  let* va := get pb ((eb + nb - 1) mod nb) in
  let* vb := get pb eb in
  let* vc := get pa ((ea + 2) mod na) in
  let* qa := corner verts va in
  let* qb := corner verts vb in
  let* qc := corner verts vc in
  if negb (uleft qa qb qc) then Ok (-1, ea, eb) else
  let* va := get pa ea in
  let* vb := get pa ((ea + 1) mod na) in
  let* qa := corner verts va in
  let* qb := corner verts vb in
  let dx := fst qa - fst qb in
  let dy := snd qa - snd qb in
  Ok (i32 (i32 (dx * dx) + i32 (dy * dy)), ea, eb).

(** recast/mesh.go:429-438: copying [cnt] vertices of a polygon after edge [e] to tmp. *)
Definition addVerts (p : list Z) (e np cnt : Z) (s : list Z * Z) : res (list Z * Z) :=
  foldM (fun '(tmp, n) i =>
    let* x := get p ((e + 1 + i) mod np) in
    let* tmp := set tmp n x in
    Ok (tmp, n + 1)) (zseq (Z.to_nat cnt)) s.
(** recast/mesh.go:418-441: the new pa and tmp. *)
Definition mergePolyVerts (pa pb : list Z) (ea eb : Z) (tmp : list Z) (nvp : Z) : res (list Z * list Z) :=
  let* na := polyVerts pa nvp in
  let* nb := polyVerts pb nvp in
  let* tmp := foldM (fun tmp i => set tmp i 65535) (zseq (Z.to_nat nvp)) tmp in
  let* s := addVerts pa ea na (na - 1) (tmp, 0) in
  let* s := addVerts pb eb nb (nb - 1) s in
  let* t := slice (fst s) 0 nvp in
  Ok (t, fst s).

(** * Adjacency *)

(** recast/mesh.go:3-7 *)
Record medge := mkMEdge { me_v0 : Z; me_v1 : Z; me_p0 : Z; me_p1 : Z; me_e0 : Z; me_e1 : Z }.

(** The state of the first loop: [tbl] is firstEdge, whose tail from nverts on is nextEdge;
    [edges] holds the edges made so far (edgeCount of them, of maxEdgeCount allocated). *)
Definition edgeState : Type := (list Z * list medge)%type.

(** recast/mesh.go:31-40: the directed edge (v0, v1) number [j] of polygon [i], or the end of
    the polygon. *)
Definition polyEdge (polys : list Z) (nvp i j : Z) : res (option (Z * Z)) :=
  let o := i * nvp * 2 in
  let* v0 := get polys (o + j) in
  if v0 =? meshNullIdx then Ok None else
  let* t0 := get polys o in
  if j + 1 >=? nvp then Ok (Some (v0, t0)) else
  let* t1 := get polys (o + (j + 1)) in
  Ok (Some (v0, if t1 =? meshNullIdx then t0 else t1)).
(** The loop over the edges of polygon [i], leaving at the end of the polygon. *)
Fixpoint forEdges {S} (polys : list Z) (nvp i : Z) (f : S -> Z -> Z -> Z -> res S) (cnt : nat) (j : Z) (s : S) : res S :=
  match cnt with
  | O => Ok s
  | Datatypes.S cnt =>
      let* e := polyEdge polys nvp i j in
      match e with
      | None => Ok s
      | Some (v0, v1) => let* s := f s j v0 v1 in forEdges polys nvp i f cnt (j + 1) s
      end
  end.
Definition forAllEdges {S} (polys : list Z) (npolys nvp : Z) (f : S -> Z -> Z -> Z -> Z -> res S) (s : S) : res S :=
  foldM (fun s i => forEdges polys nvp i (fun s j v0 v1 => f s i j v0 v1) (Z.to_nat nvp) 0 s)
    (zseq (Z.to_nat npolys)) s.

(** recast/mesh.go:42-54 *)
Definition insertEdge (nverts maxEdges : Z) (st : edgeState) (i j v0 v1 : Z) : res edgeState :=
  let '(tbl, edges) := st in
  if v0 <? v1 then
    let cnt := zlen edges in
    if cnt >=? maxEdges then Panic else
    let* f := get tbl v0 in
    let* tbl := set tbl (nverts + cnt) f in
    let* tbl := set tbl v0 (u16 cnt) in
    Ok (tbl, edges ++ [mkMEdge v0 v1 (u16 i) (u16 i) (u16 j) 0])
  else Ok st.

(** recast/mesh.go:71-78. Indices up to maxEdgeCount are allocated in Go; an edge number is
    always below edgeCount. *)
Fixpoint matchHalf (fuel : nat) (nverts : Z) (tbl : list Z) (i j v0 : Z) (e : Z) (edges : list medge)
    : res (list medge) :=
  if e =? meshNullIdx then Ok edges else
  match fuel with
  | O => NoFuel
  | S fuel =>
      let* d := get edges e in
      if (me_v1 d =? v0) && (me_p0 d =? me_p1 d)
      then set edges e (mkMEdge (me_v0 d) (me_v1 d) (me_p0 d) (u16 i) (me_e0 d) (u16 j))
      else let* e := get tbl (nverts + e) in matchHalf fuel nverts tbl i j v0 e edges
  end.
Definition matchEdges (nverts : Z) (tbl : list Z) (edges : list medge) (i j v0 v1 : Z) : res (list medge) :=
  if v0 >? v1 then
    let* e := get tbl v1 in
    matchHalf (S (length edges)) nverts tbl i j v0 e edges
  else Ok edges.

(** recast/mesh.go:83-92 *)
Definition storeEdge (nvp : Z) (polys : list Z) (e : medge) : res (list Z) :=
  if me_p0 e =? me_p1 e then Ok polys else
  let* polys := set polys (me_p0 e * nvp * 2 + (nvp + me_e0 e)) (me_p1 e) in
  set polys (me_p1 e * nvp * 2 + (nvp + me_e1 e)) (me_p0 e).

(** recast/mesh.go:9-95 *)
Definition buildMeshAdjacency (polys : list Z) (npolys nverts nvp : Z) : res (list Z) :=
  let maxEdges := npolys * nvp in
  let tbl := repeat meshNullIdx (Z.to_nat nverts) ++ repeat 0 (Z.to_nat maxEdges) in
  let* st := forAllEdges polys npolys nvp (insertEdge nverts maxEdges) (tbl, []) in
  let '(tbl, edges) := st in
  let* edges := forAllEdges polys npolys nvp (matchEdges nverts tbl) edges in
  foldM (storeEdge nvp) edges polys.
