(** The sliced path search of [detour/query.go]. *)
From Coq Require Import ZArith List Bool.
From Verif.Base Require Import Res GoNum F32 Num Grid.
From Verif.Model Require Import Status Poly PolyRef MeshTypes Geom MeshLinks MeshTiles Node NodeQueue FindPath Raycast StraightPath.
Import ListNotations.
Open Scope Z_scope.

(** detour/query.go:25, 29 *)
Definition FindPathAnyAngle : Z := 2.
Definition RaycastLimitProportions : f32 := f_of_Z 50.

(** The request part of detour/query.go:81-90 queryData; a nil filter is not modelled. *)
Record Request := mkRequest {
  qStartRef : Z; qEndRef : Z; qStartPos : fvec; qEndPos : fvec;
  qFilter : QueryFilter; qOptions : Z; qLimit : f32   (* raycastLimitSqr *)
}.
(** Node pool, open list and query state of a NavMeshQuery. The node pointer lastBestNode is a
    position in the pool, nil is -1. The zero value queryData{} has no request. *)
Record Query := mkQuery {
  qPool : NodePool; qOpen : nodeQueue;
  qStatus : Z; qBest : Z; qBestCost : f32; qReq : option Request
}.

(** d3.Vec3.DistSqr (external). *)
Definition vdistSqr (a b : fvec) : f32 :=
  let '(ax, ay, az) := a in
  let '(bx, by_, bz) := b in
  let dx := fsub bx ax in let dy := fsub by_ ay in let dz := fsub bz az in
  fadd (fadd (fmul dx dx) (fmul dy dy)) (fmul dz dz).

Definition any_angle (options : Z) : bool := negb (Z.land options FindPathAnyAngle =? 0).

(** detour/query.go:1737-1801 InitSlicedFindPath; pool and open list are not nil. *)
Definition InitSlicedFindPath (m : NavMesh) (q : Query) (startRef endRef : Z) (startPos endPos : fvec) (flt : QueryFilter) (options : Z)
  : res (Query * Z) :=
  let req limit := Some (mkRequest startRef endRef startPos endPos flt options limit) in
  let failed := mkQuery (qPool q) (qOpen q) Failure (-1) f0 (req maxFloat32) in
  if (startRef =? 0) || (endRef =? 0) then Ok (failed, Z.lor Failure InvalidParam)
  else
    let* vs := IsValidPolyRef m startRef in
    let* ve := (if vs : bool then IsValidPolyRef m endRef else Ok false) in
    if negb vs || negb ve then Ok (failed, Z.lor Failure InvalidParam)
    else
      let* limit :=
        (if any_angle options then
           let* i := TileByRef m startRef in
           let* i := of_option i in
           let* t := get (mTiles m) (Z.of_nat i) in
           let* h := of_option (tHeader t) in
           let r := f_of_bits (hWalkableRadius h) in
           Ok (fmul (fmul (fmul r r) RaycastLimitProportions) RaycastLimitProportions)
         else Ok maxFloat32) in
      if startRef =? endRef then Ok (mkQuery (qPool q) (qOpen q) Success (-1) f0 (req limit), Success)
      else
        let* s := start_search (qPool q) (qOpen q) startRef startPos endPos in
        Ok (mkQuery (sPool s) (sOpen s) InProgress (sBest s) (sBestCost s) (req limit), InProgress).

(** detour/query.go:1974-2006: keep the old entry of node [k] or store the new one. *)
Definition relax_sliced (s : Search) (b k ref : Z) (short : bool) (cost heuristic : f32) : res Search :=
  let np := sPool s in
  let* n := get (np_nodes np) k in
  let total := fadd cost heuristic in
  if (isOpen n || isClosed n) && fge total (nTotal n) then Ok s
  else
    let* best := get (np_nodes np) b in
    let opened := isOpen n in
    let pidx := if short then nPIdx best else pool_NodeIdx (Some b) in
    let flags := Z.land (nFlags n) 249 in
    let flags := Z.lor (if short then Z.lor flags nodeParentDetached else flags) nodeOpen in
    let* np := pool_update np k (fun n => mkNode (nPos n) cost total pidx (nState n) flags ref) in
    let* q := (if opened then q_modify (total_of np) (sOpen s) k else q_push (total_of np) (sOpen s) k) in
    if F32.flt heuristic (sBestCost s) then Ok (mkSearch np q k heuristic (sOut s))
    else Ok (mkSearch np q (sBest s) (sBestCost s) (sOut s)).

(** rayHit with MaxPath 0 before each call: T and PathCost are reset; the code keeps normal, edge
    and count of the last call, which Raycast overwrites and does not read (C27_ray_fields). *)
Definition ray_hit0 : RaycastHit := mkHit f0 (f0, f0, f0) 0 [] 0 0 f0.

(** detour/query.go:1896-2007: one link of the best node [b]. [pk] is parentNode (nil is None);
    [rfuel] bounds the steps of Raycast. *)
Definition visit_sliced (rfuel : nat) (m : NavMesh) (flt : QueryFilter) (endRef : Z) (endPos : fvec) (b bestRef : Z) (bestTile : MeshTile)
    (bestPoly : Poly) (parent : Side) (pk : option Z) (grandpaRef : Z) (tryLOS : bool) (s : Search) (l : Link) : res Search :=
  let ref := lRef l in
  if (ref =? 0) || (ref =? fst parent) then Ok s
  else
    let* (nt, npoly) := TileAndPolyByRefUnsafe m ref in
    if negb (qPass flt ref nt npoly) then Ok s
    else
      let* (np, k) := pool_Node (sPool s) ref 0 in
      match k with
      | None => Ok (mkSearch np (sOpen s) (sBest s) (sBestCost s) true)
      | Some k =>
          let* n := get (np_nodes np) k in
          let* best := get (np_nodes np) b in
          if negb (nPIdx n =? 0) && (nPIdx n =? nPIdx best) then Ok (set_pool s np)
          else
            let* np :=
              (if nFlags n =? 0 then
                 let* (_, mid) := edgeMidPoint bestRef bestPoly bestTile ref npoly nt (nPos n) in
                 pool_update np k (with_pos mid)
               else Ok np) in
            let* best := get (np_nodes np) b in
            let* n := get (np_nodes np) k in
            let* (short, shortCost) :=
              (if tryLOS then
                 let* pk := of_option pk in
                 let* pn := get (np_nodes np) pk in
                 let* (hit, _) := Raycast rfuel m flt (fst parent) (nPos pn) (nPos n) RaycastUseCosts ray_hit0 grandpaRef in
                 Ok (fge (rT hit) f1, fadd (nCost pn) (rCost hit))
               else Ok (false, f0)) in
            let cur := (bestRef, Some (bestTile, bestPoly)) in
            let next := (ref, Some (nt, npoly)) in
            let* cost :=
              (if short : bool then Ok shortCost
               else let* c := qCost flt (nPos best) (nPos n) parent cur next in Ok (fadd (nCost best) c)) in
            let* (cost, heuristic) :=
              (if ref =? endRef then let* e := qCost flt (nPos n) endPos cur next (0, None) in Ok (fadd cost e, f0)
               else Ok (cost, fmul (vdist (nPos n) endPos) HScale)) in
            relax_sliced (set_pool s np) b k ref short cost heuristic
      end.

(** detour/query.go:1860-1885: parent and grandparent of a node; None if one of them has
    disappeared from the mesh. *)
Definition parents (m : NavMesh) (np : NodePool) (n : Node) : res (option (Side * option Z * Z)) :=
  if nPIdx n =? 0 then Ok (Some ((0, None), None, 0))
  else
    let* k := pool_NodeAtIdx np (i32 (nPIdx n)) in
    let* k := of_option k in
    let* p := get (np_nodes np) k in
    let* g :=
      (if nPIdx p =? 0 then Ok 0
       else
         let* j := pool_NodeAtIdx np (i32 (nPIdx p)) in
         let* j := of_option j in
         let* gn := get (np_nodes np) j in Ok (nID gn)) in
    if nID p =? 0 then Ok (Some ((0, None), Some k, g))
    else
      let* o := lookup m (nID p) in
      match o with
      | None => Ok None
      | Some tp =>
          let* vg := (if g =? 0 then Ok true else IsValidPolyRef m g) in
          if vg : bool then Ok (Some ((nID p, Some tp), Some k, g)) else Ok None
      end.

(** What an iteration leads to: the next one, the goal, or failure. *)
Inductive Stop := GoOn | Reached | Vanished.

(** detour/query.go:1829-2008: one iteration with a non-empty open list. *)
Definition slice_step (rfuel : nat) (m : NavMesh) (r : Request) (s : Search) : res (Search * Stop) :=
  let* (s, b) := pop_best s in
  let* best := get (np_nodes (sPool s)) b in
  if nID best =? qEndRef r then Ok (mkSearch (sPool s) (sOpen s) b (sBestCost s) (sOut s), Reached)
  else
    let bestRef := nID best in
    let* o := lookup m bestRef in
    match o with
    | None => Ok (s, Vanished)
    | Some (bestTile, bestPoly) =>
        let* ps := parents m (sPool s) best in
        match ps with
        | None => Ok (s, Vanished)
        | Some (parent, pk, g) =>
            let* tryLOS :=
              (if any_angle (qOptions r) && negb (fst parent =? 0) then
                 let* pk := of_option pk in
                 let* pn := get (np_nodes (sPool s)) pk in
                 Ok (F32.flt (vdistSqr (nPos pn) (nPos best)) (qLimit r))
               else Ok false) in
            let links := tdLinks (tD bestTile) in
            let* s := each_link (link_fuel links) links
                        (visit_sliced rfuel m (qFilter r) (qEndRef r) (qEndPos r) b bestRef bestTile bestPoly parent pk g tryLOS)
                        (pFirstLink bestPoly) s in
            Ok (s, GoOn)
        end
    end.

(** detour/query.go:1825-2008: at most [n] iterations; state, number of iterations and outcome. *)
Fixpoint slice_loop (n : nat) (rfuel : nat) (m : NavMesh) (r : Request) (s : Search) : res (Search * Z * Stop) :=
  match n with
  | O => Ok (s, 0, GoOn)
  | S n' =>
      if q_empty (sOpen s) then Ok (s, 0, GoOn)
      else
        let* (s, o) := slice_step rfuel m r s in
        match o with
        | GoOn => let* (s, i, o) := slice_loop n' rfuel m r s in Ok (s, i + 1, o)
        | _ => Ok (s, 1, o)
        end
  end.

(** status |= OutOfNodes, collected in sOut. *)
Definition with_out (st : Z) (out : bool) : Z := if out then Z.lor st OutOfNodes else st.

(** detour/query.go:1811-2031 UpdateSlicedFindPath: the query, the returned status and doneIters
    if it is written. An in-progress query has a request. *)
Definition UpdateSlicedFindPath (rfuel : nat) (m : NavMesh) (q : Query) (maxIter : Z) : res (Query * Z * option Z) :=
  if negb (StatusInProgress (qStatus q)) then Ok (q, qStatus q, None)
  else
    let* r := of_option (qReq q) in
    let* vs := IsValidPolyRef m (qStartRef r) in
    let* ve := (if vs : bool then IsValidPolyRef m (qEndRef r) else Ok false) in
    if negb vs || negb ve then Ok (mkQuery (qPool q) (qOpen q) Failure (qBest q) (qBestCost q) (qReq q), Failure, None)
    else
      let* (s, i, o) := slice_loop (Z.to_nat maxIter) rfuel m r (mkSearch (qPool q) (qOpen q) (qBest q) (qBestCost q) false) in
      let st := with_out (qStatus q) (sOut s) in
      let ended := Z.lor Success (Z.land st StatusDetailMask) in
      let st := match o with
                | Reached => ended
                | Vanished => Failure
                | GoOn => if q_empty (sOpen s) then ended else st
                end in
      Ok (mkQuery (sPool s) (sOpen s) st (sBest s) (sBestCost s) (qReq q), st, Some i).

(** detour/query.go:2073-2084 and 2187-2200: turn the parent links from node [k] to the root
    around; the result is the root. *)
Fixpoint reverse_path (fuel : nat) (np : NodePool) (prev : option Z) (k : Z) (ray : Z) : res (NodePool * Z) :=
  match fuel with
  | O => NoFuel
  | S f =>
      let* n := get (np_nodes np) k in
      let* next := pool_NodeAtIdx np (i32 (nPIdx n)) in
      let* np := pool_update np k (fun n => mkNode (nPos n) (nCost n) (nTotal n) (pool_NodeIdx prev) (nState n)
                                             (Z.lor (Z.land (nFlags n) 251) ray) (nID n)) in
      let ray := Z.land (nFlags n) nodeParentDetached in
      match next with
      | None => Ok (np, k)
      | Some k' => reverse_path f np (Some k) k' ray
      end
  end.

(** detour/query.go:2087-2119 and 2203-2234: store the path from node [k] on behind path[n-1];
    [fuel] bounds the nodes and [rfuel] the steps of Raycast. Result: path, count and details. *)
Fixpoint store_path (fuel rfuel : nat) (m : NavMesh) (flt : QueryFilter) (np : NodePool) (k : Z) (path : list Z) (n maxPath : Z)
  : res (list Z * Z * Z) :=
  match fuel with
  | O => NoFuel
  | S f =>
      let* nd := get (np_nodes np) k in
      let* next := pool_NodeAtIdx np (i32 (nPIdx nd)) in
      let* (path, n, st) :=
        (if negb (Z.land (nFlags nd) nodeParentDetached =? 0) then
           let* k' := of_option next in
           let* nx := get (np_nodes np) k' in
           if zlen path <? n then Panic
           else
             let* (_, rest, c, _, st) := Raycast2 rfuel m flt (nID nd) (nPos nd) (nPos nx) (skipn (Z.to_nat n) path) (maxPath - n) in
             let path := firstn (Z.to_nat n) path ++ rest in
             let n := n + c in
             let* last := get path (n - 1) in
             Ok (path, if last =? nID nx then n - 1 else n, st)
         else
           let* path := set path n (nID nd) in
           Ok (path, n + 1, if maxPath <=? n + 1 then BufferTooSmall else 0)) in
      let details := Z.land st StatusDetailMask in
      if negb (details =? 0) then Ok (path, n, details)
      else match next with
           | None => Ok (path, n, 0)
           | Some k' => store_path f rfuel m flt np k' path n maxPath
           end
  end.

(** The query after q.query = queryData{} *)
Definition reset_query (np : NodePool) (q : Query) : Query := mkQuery np (qOpen q) 0 (-1) f0 None.
(** startRef and endRef of a query, 0 for the zero value. *)
Definition refs_of (q : Query) : Z * Z := match qReq q with Some r => (qStartRef r, qEndRef r) | None => (0, 0) end.

(** detour/query.go:2066-2126 and 2185-2241: reverse and store the path that ends at node [k]. *)
Definition deliver (fuel rfuel : nat) (m : NavMesh) (q : Query) (k st : Z) (path : list Z) (maxPath : Z) : res (Query * list Z * Z * Z) :=
  let* r := of_option (qReq q) in
  let* (np, root) := reverse_path fuel (qPool q) None k 0 in
  let* (path, n, details) := store_path fuel rfuel m (qFilter r) np root path 0 maxPath in
  Ok (reset_query np q, path, n, Z.lor Success (Z.land (Z.lor st details) StatusDetailMask)).

(** detour/query.go:2045-2127 FinalizeSlicedFindPath: query, path, pathCount and status. *)
Definition FinalizeSlicedFindPath (fuel rfuel : nat) (m : NavMesh) (q : Query) (path : list Z) (maxPath : Z) : res (Query * list Z * Z * Z) :=
  let st := qStatus q in
  let '(a, b) := refs_of q in
  if StatusFailed st then Ok (reset_query (qPool q) q, path, 0, Failure)
  else if a =? b then
    let* path := set path 0 a in
    Ok (reset_query (qPool q) q, path, 1, Z.lor Success (Z.land st StatusDetailMask))
  else
    let* n := get (np_nodes (qPool q)) (qBest q) in
    let st := if nID n =? b then st else Z.lor st PartialResult in
    deliver fuel rfuel m q (qBest q) st path maxPath.

(** detour/query.go:2173-2178: the first node found for existing[i], existing[i-1], ..., existing[0]. *)
Fixpoint find_existing (n : nat) (np : NodePool) (existing : list Z) : res (option Z) :=
  match n with
  | O => Ok None
  | S n' =>
      let* ref := get existing (Z.of_nat n') in
      let* l := pool_FindNodes np ref 1 in
      match l with
      | k :: _ => Ok (Some k)
      | [] => find_existing n' np existing
      end
  end.
(** detour/query.go:2144-2242 FinalizeSlicedFindPathPartial *)
Definition FinalizeSlicedFindPathPartial (fuel rfuel : nat) (m : NavMesh) (q : Query) (existing : list Z) (existingSize : Z)
    (path : list Z) (maxPath : Z) : res (Query * list Z * Z * Z) :=
  let st := qStatus q in
  let '(a, b) := refs_of q in
  if existingSize =? 0 then Ok (q, path, 0, Failure)
  else if StatusFailed st then Ok (reset_query (qPool q) q, path, 0, Failure)
  else if a =? b then
    let* path := set path 0 a in
    Ok (reset_query (qPool q) q, path, 1, Z.lor Success (Z.land st StatusDetailMask))
  else
    let* found := find_existing (Z.to_nat existingSize) (qPool q) existing in
    match found with
    | Some k => deliver fuel rfuel m q k st path maxPath
    | None =>
        let* _ := get (np_nodes (qPool q)) (qBest q) in
        deliver fuel rfuel m q (qBest q) (Z.lor st PartialResult) path maxPath
    end.
