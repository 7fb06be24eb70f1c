(** recast/chunkytrimesh.go: the triangles of a mesh in a tree of boxes over the xz-plane. The
    code works on float32 (instance [numF]); the operations are a parameter. *)
From Coq Require Import ZArith List Bool.
From Verif.Base Require Import Res GoNum F32 Num Grid.
Import ListNotations.
Open Scope Z_scope.

Section Chunky.
Context {T : Type} (N : Num T).

(** recast/chunkytrimesh.go:9-13 ChunkyTriMeshNode *)
Record CNode := mkCN {
  nMin : T * T;
  nMax : T * T;
  nI : Z;
  nN : Z
}.
(** recast/chunkytrimesh.go:23-27 BoundsItem *)
Record BItem := mkBI {
  bmin : T * T;
  bmax : T * T;
  bi : Z
}.
(** recast/chunkytrimesh.go:15-21 ChunkyTriMesh *)
Record ChunkyMesh := mkCM {
  cmNodes : list CNode;
  cmNnodes : Z;
  cmTris : list Z;
  cmNtris : Z;
  cmMaxTris : Z
}.

Definition nmin2 (a b : T) : T := if nlt N a b then a else b.
Definition nmax2 (a b : T) : T := if nlt N b a then a else b.
(** recast/chunkytrimesh.go:36-51: the body of the loop of calcExtends. *)
Definition ext_step (b : (T * T) * (T * T)) (it : BItem) : (T * T) * (T * T) :=
  let '(mn, mx) := b in
  ((nmin2 (fst (bmin it)) (fst mn), nmin2 (snd (bmin it)) (snd mn)),
   (nmax2 (fst (bmax it)) (fst mx), nmax2 (snd (bmax it)) (snd mx))).
(** recast/chunkytrimesh.go:29-52 calcExtends: the values written to bmin and bmax. *)
Definition calcExtends (items : list BItem) (imin imax : Z) : res ((T * T) * (T * T)) :=
  let* it := get items imin in
  foldM (fun b k => let* it := get items (imin + 1 + k) in Ok (ext_step b it))
        (zseq (Z.to_nat (imax - imin - 1))) (bmin it, bmax it).

(** recast/chunkytrimesh.go:54-59 longestAxis *)
Definition longestAxis (x y : T) : Z := if nlt N x y then 1 else 0.

(** recast/chunkytrimesh.go:85-88: copy one triangle. The slice expressions panic if they start
    beyond the end; inTris has no spare capacity. *)
Definition copyTri (out inT : list Z) (src dst : Z) : res (list Z) :=
  if (zlen inT <? src) || (src <? 0) || (zlen out <? dst) || (dst <? 0) then Panic
  else
    let* a := get inT src in
    let* b := get inT (src + 1) in
    let* c := get inT (src + 2) in
    let put := fun o k v => if k <? zlen out then set o k v else Ok o in
    let* o := put out dst a in
    let* o := put o (dst + 1) b in
    put o (dst + 2) c.

(** recast/chunkytrimesh.go:84-89: copy the triangles of the items [imin, imax). *)
Definition copyTris (items : list BItem) (imin imax : Z) (inT : list Z) (curTri : Z) (out : list Z)
  : res (Z * list Z) :=
  foldM (fun '(ct, o) k =>
    let* it := get items (imin + k) in
    let* o := copyTri o inT (i32 (bi it * 3)) (i32 (ct * 3)) in
    Ok (i32 (ct + 1), o)) (zseq (Z.to_nat (imax - imin))) (curTri, out).

(** sort.SliceStable (standard library): a parameter; the theorems assume that it rearranges. *)
Variable sort : (BItem -> BItem -> bool) -> list BItem -> list BItem.
Definition sort_range (less : BItem -> BItem -> bool) (items : list BItem) (a b : Z) : res (list BItem) :=
  let* mid := slice items a b in
  Ok (firstn (Z.to_nat a) items ++ sort less mid ++ skipn (Z.to_nat b) items).
(** recast/chunkytrimesh.go:97-105: the two comparisons. *)
Definition less_axis (axis : Z) (a b : BItem) : bool :=
  if axis =? 0 then nlt N (fst (bmin a)) (fst (bmin b)) else nlt N (snd (bmin a)) (snd (bmin b)).

(** recast/chunkytrimesh.go:61-118 subdivide. The state is items, *curNode, nodes, *curTri and
    outTris. The fuel bounds the depth of the recursion. *)
Definition CState : Type := list BItem * Z * list CNode * Z * list Z.
Fixpoint subdivide (fuel : nat) (inT : list Z) (tpc maxNodes imin imax : Z) (st : CState) : res CState :=
  match fuel with
  | O => NoFuel
  | S f =>
      let '(items, cur, nodes, curTri, out) := st in
      let inum := i32 (imax - imin) in
      let icur := cur in
      if cur >? maxNodes then Ok st
      else
        let* node := get nodes cur in
        let cur := i32 (cur + 1) in
        let* (mn, mx) := calcExtends items imin imax in
        if inum <=? tpc then
          let* nodes := set nodes icur (mkCN mn mx curTri inum) in
          let* (curTri, out) := copyTris items imin imax inT curTri out in
          Ok (items, cur, nodes, curTri, out)
        else
          let* nodes := set nodes icur (mkCN mn mx (nI node) (nN node)) in
          let axis := longestAxis (nsub N (fst mx) (fst mn)) (nsub N (snd mx) (snd mn)) in
          let* items := sort_range (less_axis axis) items imin (i32 (imin + inum)) in
          let isplit := i32 (imin + Z.quot inum 2) in
          let* st := subdivide f inT tpc maxNodes imin isplit (items, cur, nodes, curTri, out) in
          let* (items, cur, nodes, curTri, out) := subdivide f inT tpc maxNodes isplit imax st in
          let* node := get nodes icur in
          let* nodes := set nodes icur (mkCN (nMin node) (nMax node) (i32 (- i32 (cur - icur))) (nN node)) in
          Ok (items, cur, nodes, curTri, out)
  end.

(** recast/chunkytrimesh.go:144-171: the box of triangle i. *)
Definition vert_xz (verts : list T) (t : Z) : res (T * T) :=
  let* v := slice verts (i32 (t * 3)) (i32 (3 + i32 (t * 3))) in
  let* x := get v 0 in
  let* z := get v 2 in
  Ok (x, z).
Definition tri_item (verts : list T) (tris : list Z) (i : Z) : res BItem :=
  let* t := slice tris (i32 (i * 3)) (i32 (i32 (i * 3) + 3)) in
  let* t0 := get t 0 in
  let* x := get verts (i32 (i32 (t0 * 3) + 0)) in
  let* z := get verts (i32 (i32 (t0 * 3) + 2)) in
  let* (mn, mx) :=
    foldM (fun '(mn, mx) j =>
      let* tj := get t (j + 1) in
      let* v := vert_xz verts tj in
      Ok ((nmin2 (fst v) (fst mn), nmin2 (snd v) (snd mn)), (nmax2 (fst v) (fst mx), nmax2 (snd v) (snd mx))))
      (zseq 2) ((x, z), (x, z)) in
  Ok (mkBI mn mx i).

Definition zeroCN : CNode := mkCN (nZ N 0, nZ N 0) (nZ N 0, nZ N 0) 0 0.
(** recast/chunkytrimesh.go:178-188: the loop computing MaxTrisPerChunk. *)
Definition max_tris (nodes : list CNode) (nnodes : Z) : res Z :=
  foldM (fun m i => let* node := get nodes i in
    if 0 <=? nI node then (if nN node >? m then Ok (nN node) else Ok m) else Ok m)
    (zseq (Z.to_nat nnodes)) 0.
(** recast/chunkytrimesh.go:122-191 createChunkyTriMesh: [None] if it returns false (what has
    been stored in cm until then is left out). make panics on a negative size. *)
Definition createChunkyTriMesh (verts : list T) (tris : list Z) (ntris tpc : Z) : res (option ChunkyMesh) :=
  if tpc =? 0 then Panic
  else
    let nchunks := i32 (Z.quot (i32 (i32 (ntris + tpc) - 1)) tpc) in
    let n4 := i32 (nchunks * 4) in
    if n4 <? 0 then Panic
    else if n4 =? 0 then Ok None
    else
      let n3 := i32 (ntris * 3) in
      if n3 <? 0 then Panic
      else if n3 =? 0 then Ok None
      else if ntris <? 0 then Panic
      else
        let* items := foldM (fun acc i => let* it := tri_item verts tris i in Ok (acc ++ [it])) (zseq (Z.to_nat ntris)) [] in
        let* (_, cur, nodes, _, out) :=
          subdivide (S (length items)) tris tpc n4 0 ntris
            (items, 0, repeat zeroCN (Z.to_nat n4), 0, repeat 0 (Z.to_nat n3)) in
        let* mx := max_tris nodes cur in
        Ok (Some (mkCM nodes cur out ntris mx)).

(** recast/chunkytrimesh.go:193-203 checkOverlapRect *)
Definition checkOverlapRect (amin amax bmn bmx : T * T) : bool :=
  if nlt N (fst bmx) (fst amin) || nlt N (fst amax) (fst bmn) then false
  else if nlt N (snd bmx) (snd amin) || nlt N (snd amax) (snd bmn) then false
  else true.

(** recast/chunkytrimesh.go:234-269 checkOverlapSegment: one axis of the loop; [None] is
    "return false". The two axes are the two calls. *)
Definition seg_axis (tr : T * T) (p q mn mx : T) : option (T * T) :=
  let '(tmin, tmax) := tr in
  let d := nsub N q p in
  if nlt N (nabs N d) (nratio N 1 1000000) then
    if nlt N p mn || nlt N mx p then None else Some (tmin, tmax)
  else
    let ood := ndiv N (nZ N 1) d in
    let t1 := nmul N (nsub N mn p) ood in
    let t2 := nmul N (nsub N mx p) ood in
    let '(t1, t2) := if nlt N t2 t1 then (t2, t1) else (t1, t2) in
    let tmin := if nlt N tmin t1 then t1 else tmin in
    let tmax := if nlt N t2 tmax then t2 else tmax in
    if nlt N tmax tmin then None else Some (tmin, tmax).
Definition checkOverlapSegment (p q bmn bmx : T * T) : bool :=
  match seg_axis (nZ N 0, nZ N 1) (fst p) (fst q) (fst bmn) (fst bmx) with
  | None => false
  | Some tr =>
      match seg_axis tr (snd p) (snd q) (snd bmn) (snd bmx) with
      | None => false
      | Some _ => true
      end
  end.

(** recast/chunkytrimesh.go:206-232 and 272-296: the traversal that both queries share;
    [ov] is the overlap test, [limit] is len(ids) or maxIds. The result is n and ids. *)
Fixpoint walk (ov : CNode -> bool) (limit nnodes : Z) (nodes : list CNode) (fuel : nat) (i n : Z) (ids : list Z)
  : res (Z * list Z) :=
  match fuel with
  | O => NoFuel
  | S f =>
      if i <? nnodes then
        let* node := get nodes i in
        let overlap := ov node in
        let isLeaf := 0 <=? nI node in
        let* (n, ids) :=
          (if isLeaf && overlap then
             if n <? limit then let* ids := set ids n i in Ok (n + 1, ids) else Ok (n, ids)
           else Ok (n, ids)) in
        let i := if overlap || isLeaf then i32 (i + 1) else i32 (i + i32 (- nI node)) in
        walk ov limit nnodes nodes f i n ids
      else Ok (n, ids)
  end.
(** recast/chunkytrimesh.go:206-232 ChunksOverlappingRect *)
Definition ChunksOverlappingRect (cm : ChunkyMesh) (rmin rmax : T * T) (ids : list Z) : res (Z * list Z) :=
  walk (fun node => checkOverlapRect rmin rmax (nMin node) (nMax node)) (zlen ids) (cmNnodes cm) (cmNodes cm)
    (S (length (cmNodes cm))) 0 0 ids.
(** recast/chunkytrimesh.go:272-296 chunksOverlappingSegment *)
Definition chunksOverlappingSegment (cm : ChunkyMesh) (p q : T * T) (ids : list Z) (maxIds : Z) : res (Z * list Z) :=
  walk (fun node => checkOverlapSegment p q (nMin node) (nMax node)) maxIds (cmNnodes cm) (cmNodes cm)
    (S (length (cmNodes cm))) 0 0 ids.
End Chunky.
Arguments mkCN {T}. Arguments nMin {T}. Arguments nMax {T}. Arguments nI {T}. Arguments nN {T}.
Arguments mkBI {T}. Arguments bmin {T}. Arguments bmax {T}. Arguments bi {T}.
Arguments mkCM {T}. Arguments cmNodes {T}. Arguments cmNnodes {T}. Arguments cmTris {T}. Arguments cmNtris {T}. Arguments cmMaxTris {T}.
