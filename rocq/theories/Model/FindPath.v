(** Model of the path search of [detour/query.go]: portals between polygons, FindPath and
    pathToNode. Node pointers are positions in the node pool. *)
From Coq Require Import ZArith List Bool.
From Verif.Base Require Import Res GoNum F32 Num Grid.
From Verif.Model Require Import Status Poly PolyRef MeshTypes Geom MeshLinks MeshTiles Node NodeQueue.
Import ListNotations.
Open Scope Z_scope.

(** ** Link lists *)

(** for i := first; i != nullLink; i = links[i].Next { body } without break. The fuel exceeds the
    number of slots, so that it only runs out on a cyclic list, where the code does not end. *)
Fixpoint each_link {S} (fuel : nat) (links : list Link) (body : S -> Link -> res S) (i : Z) (s : S) : res S :=
  if i =? nullLink then Ok s
  else match fuel with
       | O => NoFuel
       | Datatypes.S f =>
           let* l := get links i in
           let* s := body s l in
           each_link f links body (lNext l) s
       end.
Definition link_fuel (links : list Link) : nat := Datatypes.S (length links).
(** The same loop ended by the first link with reference [to]. *)
Fixpoint find_link (fuel : nat) (links : list Link) (to i : Z) : res (option Link) :=
  if i =? nullLink then Ok None
  else match fuel with
       | O => NoFuel
       | Datatypes.S f =>
           let* l := get links i in
           if lRef l =? to then Ok (Some l) else find_link f links to (lNext l)
       end.

(** ** Filters *)

(** A polygon reference with its tile and polygon (nil for reference 0). *)
Definition Side : Type := Z * option (MeshTile * Poly).
(** detour/queryfilter.go:20-49, interface QueryFilter: two functions of their arguments (a filter
    with state of its own is not modelled). *)
Record QueryFilter := mkQF {
  qPass : Z -> MeshTile -> Poly -> bool;
  qCost : fvec -> fvec -> Side -> Side -> Side -> res f32
}.
(** detour/queryfilter.go:116-141, the standard filter as a QueryFilter. *)
Definition standard (qf : Filter) : QueryFilter :=
  mkQF (fun _ _ p => PassFilter qf p)
       (fun pa pb _ cur _ => match snd cur with Some (_, p) => Cost qf pa pb p | None => Panic end).

(** ** Portals *)

(** (link.Edge+1) % VertCount on uint8; a zero divisor panics. *)
Definition next_edge (p : Poly) (e : Z) : res Z :=
  if pVertCount p =? 0 then Panic else Ok (u8 (e + 1) mod pVertCount p).

(** detour/query.go:808-880 portalPoints8: status and the contents of left and right, which are
    unchanged on failure. In the branch for an off-mesh target the code reads fromPoly.Verts
    (line 847) and the vertices of the target tile. *)
Definition portalPoints8 (from : Z) (fromPoly : Poly) (fromTile : MeshTile) (to : Z) (toPoly : Poly) (toTile : MeshTile)
    (left right : fvec) : res (Z * fvec * fvec) :=
  let links := tdLinks (tD fromTile) in
  let bad := Ok (Z.lor Failure InvalidParam, left, right) in
  let* link := find_link (link_fuel links) links to (pFirstLink fromPoly) in
  match link with
  | None => bad
  | Some link =>
      if Type_ fromPoly =? polyTypeOffMeshConnection then
        let* v := get (pVerts fromPoly) (lEdge link) in
        let* w := vert16 (tdVerts (tD fromTile)) v in
        Ok (Success, w, w)
      else if Type_ toPoly =? polyTypeOffMeshConnection then
        let tlinks := tdLinks (tD toTile) in
        let* back := find_link (link_fuel tlinks) tlinks from (pFirstLink toPoly) in
        match back with
        | None => bad
        | Some back =>
            let* v := get (pVerts fromPoly) (lEdge back) in
            let* w := vert16 (tdVerts (tD toTile)) v in
            Ok (Success, w, w)
        end
      else
        let* v0 := get (pVerts fromPoly) (lEdge link) in
        let* e1 := next_edge fromPoly (lEdge link) in
        let* v1 := get (pVerts fromPoly) e1 in
        let* a := vert16 (tdVerts (tD fromTile)) v0 in
        let* b := vert16 (tdVerts (tD fromTile)) v1 in
        if negb (lSide link =? 255) && (negb (lBMin link =? 0) || negb (lBMax link =? 255)) then
          let s := f_ratio 1 255 in
          let tmin := fmul (f_of_Z (lBMin link)) s in
          let tmax := fmul (f_of_Z (lBMax link)) s in
          Ok (Success, vlerp numF a b tmin, vlerp numF a b tmax)
        else Ok (Success, a, b)
  end.

(** detour/query.go:766-780 edgeMidPoint: status and the contents of mid. *)
Definition edgeMidPoint (from : Z) (fromPoly : Poly) (fromTile : MeshTile) (to : Z) (toPoly : Poly) (toTile : MeshTile)
    (mid : fvec) : res (Z * fvec) :=
  let z := (f0, f0, f0) in
  let* (st, l, r) := portalPoints8 from fromPoly fromTile to toPoly toTile z z in
  if StatusFailed st then Ok (Z.lor Failure InvalidParam, mid)
  else
    let half := f_ratio 1 2 in
    Ok (Success, (fmul (fadd (vx l) (vx r)) half, fmul (fadd (vy l) (vy r)) half, fmul (fadd (vz l) (vz r)) half)).

(** detour/query.go:16 *)
Definition HScale : f32 := f_ratio 999 1000.

(** ** FindPath *)

(** Local variables of FindPath together with the pool and the open list of the query. *)
Record Search := mkSearch {
  sPool : NodePool; sOpen : nodeQueue;
  sBest : Z;          (* lastBestNode *)
  sBestCost : f32;    (* lastBestNodeCost *)
  sOut : bool         (* outOfNodes *)
}.
Definition set_pool (s : Search) (np : NodePool) : Search := mkSearch np (sOpen s) (sBest s) (sBestCost s) (sOut s).
(** Total read through a node pointer; nil panics. *)
Definition total_of (np : NodePool) (k : Z) : res f32 := let* n := get (np_nodes np) k in Ok (nTotal n).

Definition with_pos (p : fvec) (n : Node) : Node :=
  mkNode p (nCost n) (nTotal n) (nPIdx n) (nState n) (nFlags n) (nID n).
Definition with_flags (f : Z) (n : Node) : Node :=
  mkNode (nPos n) (nCost n) (nTotal n) (nPIdx n) (nState n) f (nID n).
Definition isOpen (n : Node) : bool := negb (Z.land (nFlags n) nodeOpen =? 0).
Definition isClosed (n : Node) : bool := negb (Z.land (nFlags n) nodeClosed =? 0).

(** detour/query.go:307-327: cost to the neighbour and heuristic. *)
Definition step_cost (flt : QueryFilter) (endRef : Z) (endPos : fvec) (best nb : Node) (parent cur next : Side) : res (f32 * f32) :=
  let* c := qCost flt (nPos best) (nPos nb) parent cur next in
  if fst next =? endRef then
    let* e := qCost flt (nPos nb) endPos cur next (0, None) in
    Ok (fadd (fadd (nCost best) c) e, f0)
  else Ok (fadd (nCost best) c, fmul (vdist (nPos nb) endPos) HScale).

(** detour/query.go:331-364: keep the old entry of node [k] or store the new one. *)
Definition relax (s : Search) (b k ref : Z) (cost heuristic : f32) : res Search :=
  let np := sPool s in
  let* n := get (np_nodes np) k in
  let total := fadd cost heuristic in
  if (isOpen n || isClosed n) && fge total (nTotal n) then Ok s
  else
    let opened := isOpen n in
    let flags := Z.lor (Z.land (nFlags n) 253) nodeOpen in
    let* np := pool_update np k (fun n => mkNode (nPos n) cost total (pool_NodeIdx (Some b)) (nState n) flags ref) in
    let* q := (if opened then q_modify (total_of np) (sOpen s) k else q_push (total_of np) (sOpen s) k) in
    if F32.flt heuristic (sBestCost s) then Ok (mkSearch np q k heuristic (sOut s))
    else Ok (mkSearch np q (sBest s) (sBestCost s) (sOut s)).

(** detour/query.go:263-365: one link of the best node [b]. The open flag is set together with
    the other fields (line 355 sets it just before the push; the queue only reads Total). *)
Definition visit_link (m : NavMesh) (flt : QueryFilter) (endRef : Z) (endPos : fvec) (b bestRef : Z) (bestTile : MeshTile)
    (bestPoly : Poly) (parent : Side) (s : Search) (l : Link) : res Search :=
  let ref := lRef l in
  if (ref =? 0) || (ref =? fst parent) then Ok s
  else
    let* (nt, npoly) := TileAndPolyByRefUnsafe m ref in
    if negb (qPass flt ref nt npoly) then Ok s
    else
      let crossSide := if lSide l =? 255 then 0 else Z.shiftr (lSide l) 1 in
      let* (np, k) := pool_Node (sPool s) ref crossSide in
      match k with
      | None => Ok (mkSearch np (sOpen s) (sBest s) (sBestCost s) true)
      | Some k =>
          let* n := get (np_nodes np) k in
          let* np :=
            (if nFlags n =? 0 then
               let* (_, mid) := edgeMidPoint bestRef bestPoly bestTile ref npoly nt (nPos n) in
               pool_update np k (with_pos mid)
             else Ok np) in
          let* best := get (np_nodes np) b in
          let* n := get (np_nodes np) k in
          let* (cost, heuristic) :=
            step_cost flt endRef endPos best n parent (bestRef, Some (bestTile, bestPoly)) (ref, Some (nt, npoly)) in
          relax (set_pool s np) b k ref cost heuristic
      end.

(** detour/query.go:240-252: the parent of a node with its tile and polygon. *)
Definition parent_side (m : NavMesh) (np : NodePool) (n : Node) : res Side :=
  let* parentRef :=
    (if nPIdx n =? 0 then Ok 0
     else
       let* k := pool_NodeAtIdx np (i32 (nPIdx n)) in
       let* k := of_option k in
       let* p := get (np_nodes np) k in Ok (nID p)) in
  if parentRef =? 0 then Ok (0, None)
  else let* tp := TileAndPolyByRefUnsafe m parentRef in Ok (parentRef, Some tp).

(** detour/query.go:227-366: expand the node [b], which is not the goal. *)
Definition expand (m : NavMesh) (flt : QueryFilter) (endRef : Z) (endPos : fvec) (s : Search) (b : Z) : res Search :=
  let* best := get (np_nodes (sPool s)) b in
  let bestRef := nID best in
  let* (bestTile, bestPoly) := TileAndPolyByRefUnsafe m bestRef in
  let* parent := parent_side m (sPool s) best in
  let links := tdLinks (tD bestTile) in
  each_link (link_fuel links) links (visit_link m flt endRef endPos b bestRef bestTile bestPoly parent) (pFirstLink bestPoly) s.

(** detour/query.go:217-221: take the best node from the open list and close it. *)
Definition pop_best (s : Search) : res (Search * Z) :=
  let* (q, b) := q_pop (total_of (sPool s)) (sOpen s) in
  let* np := pool_update (sPool s) b (fun n => with_flags (Z.lor (Z.land (nFlags n) 254) nodeClosed) n) in
  Ok (mkSearch np q (sBest s) (sBestCost s) (sOut s), b).

(** detour/query.go:215-367 *)
Fixpoint search_loop (fuel : nat) (m : NavMesh) (flt : QueryFilter) (endRef : Z) (endPos : fvec) (s : Search) : res Search :=
  if q_empty (sOpen s) then Ok s
  else match fuel with
       | O => NoFuel
       | Datatypes.S f =>
           let* (s, b) := pop_best s in
           let* best := get (np_nodes (sPool s)) b in
           if nID best =? endRef then Ok (mkSearch (sPool s) (sOpen s) b (sBestCost s) (sOut s))
           else
             let* s := expand m flt endRef endPos s b in
             search_loop f m flt endRef endPos s
       end.

(** ** pathToNode *)

(** Following PIdx; nil is None. *)
Definition parent_of (np : NodePool) (k : Z) : res (option Z) :=
  let* n := get (np_nodes np) k in pool_NodeAtIdx np (i32 (nPIdx n)).
(** detour/query.go:894-900: number of nodes up to the root. The fuel exceeds the number of
    nodes, so that it only runs out when the parents form a cycle, where the code does not end. *)
Fixpoint path_length (fuel : nat) (np : NodePool) (k : Z) : res Z :=
  match fuel with
  | O => NoFuel
  | Datatypes.S f =>
      let* p := parent_of np k in
      match p with
      | None => Ok 1
      | Some k' => let* n := path_length f np k' in Ok (n + 1)
      end
  end.
(** detour/query.go:905-908: [n] steps towards the root; a nil node panics. *)
Fixpoint ascend (n : nat) (np : NodePool) (k : option Z) : res (option Z) :=
  match n with
  | O => Ok k
  | Datatypes.S n' =>
      let* k := of_option k in
      let* p := parent_of np k in ascend n' np p
  end.
(** detour/query.go:911-917: write the nodes into path[n-1], ..., path[0]. *)
Fixpoint write_path (n : nat) (np : NodePool) (k : option Z) (path : list Z) : res (list Z) :=
  match n with
  | O => Ok path
  | Datatypes.S n' =>
      let* k := of_option k in
      let* nd := get (np_nodes np) k in
      let* path := set path (Z.of_nat n') (nID nd) in
      let* p := parent_of np k in
      write_path n' np p path
  end.
(** detour/query.go:883-932 pathToNode: the path slice, pathCount and status. *)
Definition pathToNode (np : NodePool) (endNode : Z) (path : list Z) : res (list Z * Z * Z) :=
  let* len := path_length (pool_fuel np) np endNode in
  let over := Z.to_nat (len - zlen path) in
  let* k := ascend over np (Some endNode) in
  let* path' := write_path (Z.to_nat len - over) np k path in
  if len >? zlen path then Ok (path', zlen path, Z.lor Success BufferTooSmall)
  else Ok (path', len, Success).

(** detour/query.go:200-213: clear pool and open list and enter the start node. *)
Definition start_search (np : NodePool) (q : nodeQueue) (startRef : Z) (startPos endPos : fvec) : res Search :=
  let np := pool_Clear np in
  let q := q_clear q in
  let* (np, k) := pool_Node np startRef 0 in
  let* k := of_option k in
  let total := fmul (vdist startPos endPos) HScale in
  let* np := pool_update np k (fun n => mkNode startPos f0 total 0 (nState n) nodeOpen startRef) in
  let* q := q_push (total_of np) q k in
  Ok (mkSearch np q k total false).

(** detour/query.go:179-372 FindPath. Positions have three coordinates and the filter is not
    nil; a nil path is the empty slice. Result: pool and open list as left in the query, the path
    slice, pathCount and status. *)
Definition FindPath (fuel : nat) (m : NavMesh) (np : NodePool) (q : nodeQueue) (flt : QueryFilter) (startRef endRef : Z)
    (startPos endPos : fvec) (path : list Z) : res (NodePool * nodeQueue * list Z * Z * Z) :=
  let* vs := IsValidPolyRef m startRef in
  let* ve := (if vs : bool then IsValidPolyRef m endRef else Ok false) in
  if negb vs || negb ve || (zlen path =? 0) then Ok (np, q, path, 0, Z.lor Failure InvalidParam)
  else if startRef =? endRef then
    let* path := set path 0 startRef in
    Ok (np, q, path, 1, Success)
  else
    let* s := start_search np q startRef startPos endPos in
    let* s := search_loop fuel m flt endRef endPos s in
    let* (path, count, st) := pathToNode (sPool s) (sBest s) path in
    let* last := get (np_nodes (sPool s)) (sBest s) in
    let st := if nID last =? endRef then st else Z.lor st PartialResult in
    let st := if sOut s then Z.lor st OutOfNodes else st in
    Ok (sPool s, sOpen s, path, count, st).

(** detour/query.go:111-153 NewNavMeshQuery: node pool and open list; None is the failure
    status. The second pool (tinyNodePool) is not used by the modelled functions. *)
Definition NewNavMeshQuery (maxNodes : Z) : res (option (NodePool * nodeQueue)) :=
  if (65535 <? maxNodes) || (2 ^ 24 - 1 <? maxNodes) then Ok None
  else
    let* np := newNodePool maxNodes (i32 (NextPow2 (u32 (Z.quot maxNodes 4)))) in
    Ok (Some (np, newnodeQueue (Z.to_nat maxNodes))).
