(** Specification side of path searches: the polygon graph of a mesh. *)
From Coq Require Import ZArith List Bool.
From Coq Require Import Floats.SpecFloat.
From Verif.Base Require Import Res GoNum F32 Num.
From Verif.Model Require Import Status Poly PolyRef MeshTypes MeshLinks MeshTiles Node NodeQueue FindPath.
From Verif.Spec Require Import LinkSpec.
Import ListNotations.
Open Scope Z_scope.

(** Reference [r] names polygon [p] of tile [t] (slot and polygon number are bit fields of [r]). *)
Definition polygon_at (m : NavMesh) (r : Z) (t : MeshTile) (p : Poly) : Prop :=
  get (mTiles m) (decodePolyIDTile (mBits m) r) = Ok t /\
  get (tdPolys (tD t)) (decodePolyIDPoly (mBits m) r) = Ok p.

(** Polygon [r] has a link to polygon [r']. *)
Definition linked (m : NavMesh) (r r' : Z) : Prop :=
  r' <> 0 /\ exists t p c, polygon_at m r t p /\ LChain (tdLinks (tD t)) (pFirstLink p) c /\
    In r' (map (fun x => pay_ref (snd x)) c).
(** The filter lets polygon [r] pass. *)
Definition passes (m : NavMesh) (flt : QueryFilter) (r : Z) : Prop :=
  exists t p, polygon_at m r t p /\ qPass flt r t p = true.

(** From [r] one can go along links through the polygons [l], which all pass the filter. *)
Fixpoint corridor (m : NavMesh) (flt : QueryFilter) (r : Z) (l : list Z) : Prop :=
  match l with
  | [] => True
  | r' :: l' => linked m r r' /\ passes m flt r' /\ corridor m flt r' l'
  end.

(** The state (node pool and open list) of a query object: made by NewNavMeshQuery, then used by
    any calls of FindPath that return. *)
Inductive QueryState : NodePool -> nodeQueue -> Prop :=
| QS_new : forall maxNodes np q, 4 <= maxNodes ->
    NewNavMeshQuery maxNodes = Ok (Some (np, q)) -> QueryState np q
| QS_find : forall fuel m np q flt startRef endRef startPos endPos path np' q' path' n st,
    QueryState np q ->
    FindPath fuel m np q flt startRef endRef startPos endPos path = Ok (np', q', path', n, st) -> QueryState np' q'.

(** ** Conditions for the search to end *)

(** Finite float32 values; float32 values from 0 to +infinity. *)
Definition finite32 (a : f32) : Prop :=
  valid_binary fprec femax a = true /\ match a with S754_zero _ | S754_finite _ _ _ => True | _ => False end.
Definition nonneg32 (a : f32) : Prop := valid_binary fprec femax a = true /\ fle f0 a = true.
Definition finite_pos (v : fvec) : Prop := finite32 (fst (fst v)) /\ finite32 (snd (fst v)) /\ finite32 (snd v).
(** Every node of the pool, used or not, holds a finite position (new pools hold zeros). *)
Definition finite_pool (np : NodePool) : Prop := forall n, In n (np_nodes np) -> finite_pos (nPos n).
(** The cost function of the filter returns, and returns no negative number and no NaN. *)
Definition fair (flt : QueryFilter) : Prop := forall pa pb prev cur next, finite_pos pa -> finite_pos pb ->
  match qCost flt pa pb prev cur next with Ok c => nonneg32 c | NoFuel => False | _ => True end.
(** ... and does not panic for an existing polygon. *)
Definition never_panics (flt : QueryFilter) : Prop := forall pa pb prev r t p next,
  exists c, qCost flt pa pb prev (r, Some (t, p)) next = Ok c.
(** Vertex coordinates of the loaded tiles have magnitude at most 2^100; the limits of links are
    bytes (their Go type). *)
Definition small_mesh (m : NavMesh) : Prop := forall i t h, nth_error (mTiles m) i = Some t -> tHeader t = Some h ->
  Forall (fun b => fle (fabs (f_of_bits b)) (f_of_Z (2 ^ 100)) = true) (tdVerts (tD t)) /\
  Forall (fun l => is_u8 (lBMin l) /\ is_u8 (lBMax l)) (tdLinks (tD t)).
(** Polygons of the loaded tiles are not off-mesh connections and links name edges of their polygon. *)
Definition edges_named (m : NavMesh) : Prop := forall i t h p, nth_error (mTiles m) i = Some t -> tHeader t = Some h ->
  In p (tdPolys (tD t)) -> Type_ p <> polyTypeOffMeshConnection /\
  forall c r edge side bmin bmax s, LChain (tdLinks (tD t)) (pFirstLink p) c -> In (s, (r, edge, side, bmin, bmax)) c -> 0 <= edge < pVertCount p.
