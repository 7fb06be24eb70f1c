(** What FindStraightPath puts into its buffers. *)
From Coq Require Import ZArith List Bool Floats.SpecFloat.
From Verif.Base Require Import Res GoNum F32 Num.
From Verif.Model Require Import Status Poly MeshTypes Geom MeshLinks MeshTiles FindPath StraightPath.
From Verif.Spec Require Import LinkSpec PathSpec RaySpec.
Import ListNotations.
Open Scope Z_scope.

(** ** Portals *)

(** [r] is a valid reference of polygon [p] of tile [t]. *)
Definition valid_at (m : NavMesh) (r : Z) (t : MeshTile) (p : Poly) : Prop := IsValidPolyRef m r = Ok true /\ polygon_at m r t p.
(** Vertex number [i] of a tile; its offset is computed with 16 bits. *)
Definition tile_vertex (t : MeshTile) (i : Z) (v : fvec) : Prop :=
  exists x y z, get (tdVerts (tD t)) (3 * i mod 65536) = Ok x /\ get (tdVerts (tD t)) (3 * i mod 65536 + 1) = Ok y /\
    get (tdVerts (tD t)) (3 * i mod 65536 + 2) = Ok z /\ v = (f_of_bits x, f_of_bits y, f_of_bits z).
(** Corner number [j] of a polygon. *)
Definition corner (t : MeshTile) (p : Poly) (j : Z) (v : fvec) : Prop := exists i, get (pVerts p) j = Ok i /\ tile_vertex t i v.
(** The first link of the polygon that leads to [to]. *)
Definition first_to (t : MeshTile) (p : Poly) (to : Z) (l : payload) : Prop :=
  exists c s k, LSeg (tdLinks (tD t)) (pFirstLink p) (c ++ [(s, l)]) k /\ pay_ref l = to /\ Forall (fun x => pay_ref (snd x) <> to) c.

(** The portal from polygon [a] to polygon [b] reaches from [l] to [r]; [b] has type [ty].
    Between ordinary polygons it is the part of the edge that the link covers. From an off-mesh
    connection it is the end point with the number in the link. To an off-mesh connection, the code
    looks the number of the link back up in the vertices of [a] (not of [b]) and takes that vertex of
    the tile of [b]. *)
Inductive portal (m : NavMesh) (a b : Z) : fvec -> fvec -> Z -> Prop :=
| portal_whole : forall t p t' p' edge side bmin bmax u v, valid_at m a t p -> valid_at m b t' p' ->
    Type_ p <> polyTypeOffMeshConnection -> Type_ p' <> polyTypeOffMeshConnection ->
    first_to t p b (b, edge, side, bmin, bmax) -> (side = 255 \/ (bmin = 0 /\ bmax = 255)) ->
    corner t p edge u -> corner t p ((edge + 1) mod 256 mod pVertCount p) v ->
    portal m a b u v (Type_ p')
| portal_part : forall t p t' p' edge side bmin bmax u v, valid_at m a t p -> valid_at m b t' p' ->
    Type_ p <> polyTypeOffMeshConnection -> Type_ p' <> polyTypeOffMeshConnection ->
    first_to t p b (b, edge, side, bmin, bmax) -> side <> 255 -> ~ (bmin = 0 /\ bmax = 255) ->
    corner t p edge u -> corner t p ((edge + 1) mod 256 mod pVertCount p) v ->
    portal m a b (vlerp numF u v (fmul (f_of_Z bmin) (f_ratio 1 255))) (vlerp numF u v (fmul (f_of_Z bmax) (f_ratio 1 255))) (Type_ p')
| portal_from : forall t p t' p' edge side bmin bmax u, valid_at m a t p -> valid_at m b t' p' ->
    Type_ p = polyTypeOffMeshConnection -> first_to t p b (b, edge, side, bmin, bmax) ->
    corner t p edge u -> portal m a b u u (Type_ p')
| portal_to : forall t p t' p' l edge side bmin bmax i u, valid_at m a t p -> valid_at m b t' p' ->
    Type_ p <> polyTypeOffMeshConnection -> Type_ p' = polyTypeOffMeshConnection -> first_to t p b l ->
    first_to t' p' a (a, edge, side, bmin, bmax) -> get (pVerts p) edge = Ok i -> tile_vertex t' i u ->
    portal m a b u u (Type_ p').

(** ** Points *)

(** Position, flag and reference. *)
Notation point := (fvec * Z * Z)%type.
(** A point that is approximately equal to the last one only changes its flag and reference. *)
Definition add_point (approx : fvec -> fvec -> bool) (l : list point) (w : point) : list point :=
  let '(pos, flag, ref) := w in
  match l with
  | [] => [w]
  | _ => let '(p, _, _) := last l w in if approx pos p then removelast l ++ [(p, flag, ref)] else l ++ [w]
  end.
Definition add_points (approx : fvec -> fvec -> bool) (l ws : list point) : list point := fold_left (add_point approx) ws l.

(** Buffer [s] now starts with the values [l] and is otherwise as [s0]; empty buffers are not used. *)
Definition starts_with {A} (s0 : list A) (l : list A) (s : list A) : Prop := length s = length s0 /\ s = l ++ skipn (length l) s0.
Definition starts_opt (s0 l s : list Z) : Prop := (s0 = [] /\ s = []) \/ starts_with s0 l s.
(** The buffers hold the points [l]. *)
Definition holds (pts : list fvec) (flags refs : list Z) (l : list point) (b : Buf) : Prop :=
  starts_with pts (map (fun w => fst (fst w)) l) (bPts b) /\
  starts_opt flags (map (fun w => snd (fst w)) l) (bFlags b) /\
  starts_opt refs (map snd l) (bRefs b) /\ bCount b = zlen l.

(** A point of the path on the portal from path[k] to path[k+1]: an end of the portal, or a
    crossing on its line. *)
Inductive on_portal (m : NavMesh) (path : list Z) : Z -> point -> Prop :=
| on_corner : forall k a b l r ty pos, get path k = Ok a -> get path (k + 1) = Ok b -> portal m a b l r ty -> (pos = l \/ pos = r) ->
    on_portal m path k (pos, if ty =? polyTypeOffMeshConnection then StraightPathOffMeshConnection else 0, b)
| on_crossing : forall k a b l r ty t, get path k = Ok a -> get path (k + 1) = Ok b -> portal m a b l r ty ->
    on_portal m path k (vlerp numF l r t, 0, b).
(** Points on portals in the order of the corridor, from portal [k] to portal [k'] at most. *)
Inductive along (m : NavMesh) (path : list Z) : Z -> list point -> Z -> Prop :=
| along_nil : forall k k', k <= k' -> along m path k [] k'
| along_cons : forall k j w ws k', k <= j -> on_portal m path j w -> along m path j ws k' -> along m path k (w :: ws) k'.

(** ** Nearest points *)

(** Squared distance in the plane of [pos] from the segment from [va] to [vb] (C31), and the
    parameter of the nearest point. *)
Definition seg_dist (pos va vb : fvec) : f32 := fst (distancePtSegSqr2D numF pos va vb).
Definition seg_par (pos va vb : fvec) : f32 := snd (distancePtSegSqr2D numF pos va vb).
(** Edge number [j] of the polygon with corners [vs]. *)
Definition polygon_edge (vs : list fvec) (j : nat) (va vb : fvec) : Prop :=
  nth_error vs j = Some va /\ nth_error vs ((j + 1) mod length vs) = Some vb.
(** [c] is the point of polygon [r] nearest to [pos]: [pos] itself if it is inside (by the crossing
    parity of its edges), otherwise the nearest point of an edge at the smallest distance. *)
Definition nearest (m : NavMesh) (r : Z) (pos c : fvec) : Prop := exists t p vs, valid_at m r t p /\ corners t p vs /\
  if fst (distancePtPolyEdgesSqr numF pos vs) then c = pos
  else exists j va vb, polygon_edge vs j va vb /\ c = vlerp numF va vb (seg_par pos va vb) /\
       forall k ua ub, polygon_edge vs k ua ub -> fle (seg_dist pos va vb) (seg_dist pos ua ub) = true.

(** Coordinates of magnitude at most 2^60. *)
Definition modest (x : f32) : Prop := valid_binary fprec femax x = true /\ fle (fabs x) (f_of_Z (2 ^ 60)) = true.
Definition modest_pos (v : fvec) : Prop := modest (fst (fst v)) /\ modest (snd (fst v)) /\ modest (snd v).
(** ... of all vertices of the loaded tiles; the limits of links are bytes (their Go type). *)
Definition modest_mesh (m : NavMesh) : Prop := forall i t h, nth_error (mTiles m) i = Some t -> tHeader t = Some h ->
  Forall (fun b => fle (fabs (f_of_bits b)) (f_of_Z (2 ^ 60)) = true) (tdVerts (tD t)) /\
  Forall (fun l => is_u8 (lBMin l) /\ is_u8 (lBMax l)) (tdLinks (tD t)).

(** ** The straight path *)

(** The path reaches the end, or the buffer is full, or the corridor is broken after path[i] and
    the path ends at the nearest point of path[i]. *)
Inductive outcome (approx : fvec -> fvec -> bool) (m : NavMesh) (path : list Z) (len : Z) (endPos : fvec) (start finish : point) : list point -> Z -> Prop :=
| reaches : forall ws, along m path 0 ws (zlen path - 1) ->
    outcome approx m path len endPos start finish (add_points approx [] (start :: ws ++ [finish]))
      (if len =? zlen (add_points approx [] (start :: ws ++ [finish])) then Z.lor Success BufferTooSmall else Success)
| fills : forall ws, along m path 0 ws (zlen path - 1) -> zlen (add_points approx [] (start :: ws)) = len ->
    outcome approx m path len endPos start finish (add_points approx [] (start :: ws)) (Z.lor Success BufferTooSmall)
| breaks : forall ws i from to w, 0 <= i -> get path i = Ok from -> get path (i + 1) = Ok to -> (forall l r ty, ~ portal m from to l r ty) ->
    nearest m from endPos w -> along m path 0 ws i ->
    outcome approx m path len endPos start finish (add_points approx [] (start :: ws ++ [(w, 0, from)]))
      (if len =? zlen (add_points approx [] (start :: ws ++ [(w, 0, from)])) then Z.lor (Z.lor Success PartialResult) BufferTooSmall else Z.lor Success PartialResult).
