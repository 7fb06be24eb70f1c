(** FindStraightPath of [detour/query.go]. The vectors in the buffers are separate and have three
    coordinates. [approx] is d3.Vec3.Approx (external). *)
From Coq Require Import ZArith List Bool.
From Verif.Base Require Import Res GoNum F32 Num Grid.
From Verif.Model Require Import Status Poly PolyRef MeshTypes Geom MeshLinks MeshTiles FindPath.
Import ListNotations.
Open Scope Z_scope.

(** detour/query.go:374-390 *)
Definition StraightPathStart : Z := 1.
Definition StraightPathEnd : Z := 2.
Definition StraightPathOffMeshConnection : Z := 4.
Definition StraightPathAreaCrossings : Z := 1.
Definition StraightPathAllCrossings : Z := 2.
Definition crossings (options : Z) : bool := negb (Z.land options (Z.lor StraightPathAreaCrossings StraightPathAllCrossings) =? 0).

(** detour/mesh.go:749, type of ordinary polygons. *)
Definition polyTypeGround : Z := 0.

(** The buffers straightPath, straightPathFlags and straightPathRefs and the count. *)
Record Buf := mkBuf { bPts : list fvec; bFlags : list Z; bRefs : list Z; bCount : Z }.

(** detour/mesh.go:1622-1640 TileAndPolyByRef as its callers use it: tile and polygon, or failure. *)
Definition lookup (m : NavMesh) (ref : Z) : res (option (MeshTile * Poly)) :=
  let* (st, o) := TileAndPolyByRef m ref in
  if StatusFailed st then Ok None
  else match o with
       | Some (it, p) => let* t := get (mTiles m) (Z.of_nat it) in Ok (Some (t, p))
       | None => Panic
       end.

(** if len(s) > 0 { s[i] = v } *)
Definition set_opt (s : list Z) (i v : Z) : res (list Z) := if 0 <? zlen s then set s i v else Ok s.

Section Straight.
Variable approx : fvec -> fvec -> bool.
Variable m : NavMesh.

(** detour/query.go:724-763 appendVertex *)
Definition appendVertex (pos : fvec) (flags ref : Z) (b : Buf) : res (Buf * Z) :=
  let* same := (if 0 <? bCount b then let* v := get (bPts b) (bCount b - 1) in Ok (approx pos v) else Ok false) in
  if same : bool then
    let* fl := set_opt (bFlags b) (bCount b - 1) flags in
    let* rf := set_opt (bRefs b) (bCount b - 1) ref in
    Ok (mkBuf (bPts b) fl rf (bCount b), InProgress)
  else
    let* pts := set (bPts b) (bCount b) pos in
    let* fl := set_opt (bFlags b) (bCount b) flags in
    let* rf := set_opt (bRefs b) (bCount b) ref in
    let b := mkBuf pts fl rf (bCount b + 1) in
    if zlen pts <=? bCount b then Ok (b, Z.lor Success BufferTooSmall)
    else if flags =? StraightPathEnd then Ok (b, Success)
    else Ok (b, InProgress).

(** detour/query.go:1051-1093 ClosestPointOnPolyBoundary: status and the contents of closest. *)
Definition ClosestPointOnPolyBoundary (ref : Z) (pos closest : fvec) : res (Z * fvec) :=
  let* o := lookup m ref in
  match o with
  | None => Ok (Z.lor Failure InvalidParam, closest)
  | Some (t, p) =>
      let* vs := load_verts (tdVerts (tD t)) (pVerts p) (Z.to_nat (pVertCount p)) 0 in
      let '(inside, ds) := distancePtPolyEdgesSqr numF pos vs in
      if inside then Ok (Success, pos)
      else
        let* (imin, e) := nearest_edge ds in
        let* va := get vs imin in
        let* vb := get vs ((imin + 1) mod zlen vs) in
        Ok (Success, vlerp numF va vb e)
  end.

(** detour/query.go:783-806 portalPoints6: status, left, right and toType. *)
Definition portalPoints6 (from to : Z) : res (Z * fvec * fvec * Z) :=
  let z := (f0, f0, f0) in
  let* o := lookup m from in
  match o with
  | None => Ok (Z.lor Failure InvalidParam, z, z, 0)
  | Some (ft, fp) =>
      let* o := lookup m to in
      match o with
      | None => Ok (Z.lor Failure InvalidParam, z, z, 0)
      | Some (tt_, tp) =>
          let* (st, l, r) := portalPoints8 from fp ft to tp tt_ z z in
          Ok (st, l, r, Type_ tp)
      end
  end.

(** detour/query.go:676-720: the loop of appendPortals; [n] iterations from [i] on. *)
Fixpoint portals_loop (n : nat) (i : Z) (startPos endPos : fvec) (path : list Z) (options : Z) (b : Buf) : res (Buf * Z) :=
  match n with
  | O => Ok (b, InProgress)
  | S n' =>
      let z := (f0, f0, f0) in
      let* from := get path i in
      let* o := lookup m from in
      match o with
      | None => Ok (b, Z.lor Failure InvalidParam)
      | Some (ft, fp) =>
          let* to := get path (i + 1) in
          let* o := lookup m to in
          match o with
          | None => Ok (b, Z.lor Failure InvalidParam)
          | Some (tt_, tp) =>
              let* (st, l, r) := portalPoints8 from fp ft to tp tt_ z z in
              if StatusFailed st then Ok (b, InProgress)
              else if negb (Z.land options StraightPathAreaCrossings =? 0) && (Area fp =? Area tp)
              then portals_loop n' (i + 1) startPos endPos path options b
              else
                let '(hit, _, t) := IntersectSegSeg2D numF startPos endPos l r in
                if hit then
                  let* (b, st) := appendVertex (vlerp numF l r t) 0 to b in
                  if negb (st =? InProgress) then Ok (b, st)
                  else portals_loop n' (i + 1) startPos endPos path options b
                else portals_loop n' (i + 1) startPos endPos path options b
          end
      end
  end.
(** detour/query.go:660-721 appendPortals *)
Definition appendPortals (startIdx endIdx : Z) (endPos : fvec) (path : list Z) (options : Z) (b : Buf) : res (Buf * Z) :=
  let* startPos := get (bPts b) (bCount b - 1) in
  portals_loop (Z.to_nat (endIdx - startIdx)) startIdx startPos endPos path options b.
(** ... called if one of the crossing options is set. *)
Definition maybePortals (startIdx endIdx : Z) (endPos : fvec) (path : list Z) (options : Z) (b : Buf) : res (Buf * Z) :=
  if crossings options then appendPortals startIdx endIdx endPos path options b else Ok (b, InProgress).

(** detour/query.go:454-470: variables of the funnel. *)
Record Funnel := mkFunnel {
  fApex : fvec; fLeft : fvec; fRight : fvec;
  fApexIdx : Z; fLeftIdx : Z; fRightIdx : Z;
  fLeftRef : Z; fRightRef : Z; fLeftType : Z; fRightType : Z
}.
Definition set_right (F : Funnel) (v : fvec) (i ref ty : Z) : Funnel :=
  mkFunnel (fApex F) (fLeft F) v (fApexIdx F) (fLeftIdx F) i (fLeftRef F) ref (fLeftType F) ty.
Definition set_left (F : Funnel) (v : fvec) (i ref ty : Z) : Funnel :=
  mkFunnel (fApex F) v (fRight F) (fApexIdx F) i (fRightIdx F) ref (fRightRef F) ty (fRightType F).
Definition reset (F : Funnel) (v : fvec) (i : Z) : Funnel :=
  mkFunnel v v v i i i (fLeftRef F) (fRightRef F) (fLeftType F) (fRightType F).

(** What a part of FindStraightPath does: return (count, status, buffers) or go on. *)
Definition Ret : Type := Z * Z * Buf.

(** detour/query.go:534-575 and 589-630: the point [v] (portalLeft or portalRight) becomes the apex. *)
Definition restart (F : Funnel) (v : fvec) (idx ref ty : Z) (path : list Z) (options : Z) (b : Buf) : res (Ret + Funnel * Buf) :=
  let* (b, st) := maybePortals (fApexIdx F) idx v path options b in
  if negb (st =? InProgress) then Ok (inl (bCount b, st, b))
  else
    let flags := if ref =? 0 then StraightPathEnd else if ty =? polyTypeOffMeshConnection then StraightPathOffMeshConnection else 0 in
    let* (b, st) := appendVertex v flags ref b in
    if negb (st =? InProgress) then Ok (inl (bCount b, st, b))
    else Ok (inr (reset F v idx, b)).

(** path[i+1] or 0 (detour/query.go:527-531, 582-586). *)
Definition next_ref (path : list Z) (i : Z) : res Z := if i + 1 <? zlen path then get path (i + 1) else Ok 0.

(** A restart and the index of the next iteration. *)
Definition restart_at (F : Funnel) (v : fvec) (idx ref ty : Z) (path : list Z) (options : Z) (b : Buf) : res (Ret + Z * Funnel * Buf) :=
  let* x := restart F v idx ref ty path options b in
  match x with inl y => Ok (inl y) | inr (F, b) => Ok (inr (idx + 1, F, b)) end.
(** detour/query.go:577-632: the left side of the portal number [i]. *)
Definition left_step (F : Funnel) (l : fvec) (ty i : Z) (path : list Z) (options : Z) (b : Buf) : res (Ret + Z * Funnel * Buf) :=
  if fge (TriArea2D numF (fApex F) (fLeft F) l) f0 then
    if approx (fApex F) (fLeft F) || flt (TriArea2D numF (fApex F) (fRight F) l) f0 then
      let* ref := next_ref path i in
      Ok (inr (i + 1, set_left F l i ref ty, b))
    else restart_at F (fRight F) (fRightIdx F) (fRightRef F) (fRightType F) path options b
  else Ok (inr (i + 1, F, b)).
(** detour/query.go:522-632: the portal [l], [r] number [i]; [inl] returns, [inr] gives the index
    of the next iteration. *)
Definition funnel_step (F : Funnel) (l r : fvec) (ty i : Z) (path : list Z) (options : Z) (b : Buf) : res (Ret + Z * Funnel * Buf) :=
  if fle (TriArea2D numF (fApex F) (fRight F) r) f0 then
    if approx (fApex F) (fRight F) || fgt (TriArea2D numF (fApex F) (fLeft F) r) f0 then
      let* ref := next_ref path i in
      left_step (set_right F r i ref ty) l ty i path options b
    else restart_at F (fLeft F) (fLeftIdx F) (fLeftRef F) (fLeftType F) path options b
  else left_step F l ty i path options b.

(** detour/query.go:481-501: path[i+1] cannot be entered; the path ends on path[i]. *)
Definition clamp_end (F : Funnel) (endPos closestEnd : fvec) (i : Z) (path : list Z) (options : Z) (b : Buf) : res Ret :=
  let* from := get path i in
  let* (st, ce) := ClosestPointOnPolyBoundary from endPos closestEnd in
  if StatusFailed st then Ok (0, Z.lor Failure InvalidParam, b)
  else
    let* (b, _) := maybePortals (fApexIdx F) i ce path options b in
    let* (b, _) := appendVertex ce 0 from b in
    let st := Z.lor Success PartialResult in
    Ok (bCount b, if zlen (bPts b) <=? bCount b then Z.lor st BufferTooSmall else st, b).

(** detour/query.go:472-633: the loop from iteration [i] on. *)
Fixpoint funnel_loop (fuel : nat) (endPos closestEnd : fvec) (path : list Z) (options : Z) (i : Z) (F : Funnel) (b : Buf)
  : res (Ret + Funnel * Buf) :=
  if zlen path <=? i then Ok (inr (F, b))
  else match fuel with
       | O => NoFuel
       | S f =>
           if i + 1 <? zlen path then
             let* from := get path i in
             let* to := get path (i + 1) in
             let* (st, l, r, ty) := portalPoints6 from to in
             if StatusFailed st then
               let* x := clamp_end F endPos closestEnd i path options b in
               Ok (inl x)
             else if (i =? 0) && flt (fst (distancePtSegSqr2D numF (fApex F) l r)) (fmul (f_ratio 1 1000) (f_ratio 1 1000))
             then funnel_loop f endPos closestEnd path options (i + 1) F b
             else
               let* x := funnel_step F l r ty i path options b in
               match x with
               | inl y => Ok (inl y)
               | inr (i, F, b) => funnel_loop f endPos closestEnd path options i F b
               end
           else
             let* x := funnel_step F closestEnd closestEnd polyTypeGround i path options b in
             match x with
             | inl y => Ok (inl y)
             | inr (i, F, b) => funnel_loop f endPos closestEnd path options i F b
             end
       end.

(** detour/query.go:645-656: the end point. *)
Definition finish (closestEnd : fvec) (b : Buf) : res Ret :=
  let* (b, _) := appendVertex closestEnd StraightPathEnd 0 b in
  Ok (bCount b, if zlen (bPts b) <=? bCount b then Z.lor Success BufferTooSmall else Success, b).

(** detour/query.go:415-657 FindStraightPath: count, status and the buffers. *)
Definition FindStraightPath (fuel : nat) (startPos endPos : fvec) (path : list Z) (pts : list fvec) (flags refs : list Z) (options : Z) : res Ret :=
  let b := mkBuf pts flags refs 0 in
  let z := (f0, f0, f0) in
  let bad := Ok (0, Z.lor Failure InvalidParam, b) in
  if zlen pts =? 0 then bad
  else if zlen path =? 0 then bad
  else
    let* first := get path 0 in
    let* (st, cs) := ClosestPointOnPolyBoundary first startPos z in
    if StatusFailed st then bad
    else
      let* final := get path (zlen path - 1) in
      let* (st, ce) := ClosestPointOnPolyBoundary final endPos z in
      if StatusFailed st then bad
      else
        let* (b, st) := appendVertex cs StraightPathStart first b in
        if negb (st =? InProgress) then Ok (bCount b, st, b)
        else if 1 <? zlen path then
          let* x := funnel_loop fuel endPos ce path options 0 (mkFunnel cs cs cs 0 0 0 first first 0 0) b in
          match x with
          | inl y => Ok y
          | inr (F, b) =>
              let* (b, st) := maybePortals (fApexIdx F) (zlen path - 1) ce path options b in
              if negb (st =? InProgress) then Ok (bCount b, st, b) else finish ce b
          end
        else finish ce b.
End Straight.
