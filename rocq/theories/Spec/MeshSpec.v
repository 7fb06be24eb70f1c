(** Specification side of the tile table: slots as one free list and one list per hash bucket,
    and histories of AddTile and RemoveTile with the set of tiles they should leave. *)
From Coq Require Import ZArith List Bool.
From Verif.Base Require Import Res GoNum.
From Verif.Model Require Import Status Poly PolyRef Bounds MeshTypes Serial MeshLinks MeshTiles.
From Verif.Spec Require Import SerialSpec.
Import ListNotations.
Open Scope Z_scope.

(** Following Next from a tile pointer one meets the slots [l], then nil. *)
Inductive TChain (ts : list MeshTile) : option nat -> list nat -> Prop :=
| TChain_nil : TChain ts None []
| TChain_cons : forall i t l, nth_error ts i = Some t -> TChain ts (tNext t) l -> TChain ts (Some i) (i :: l).

(** Slot [i] holds a tile with header [h]. *)
Definition live (m : NavMesh) (i : nat) (h : MeshHeader) : Prop :=
  exists t, nth_error (mTiles m) i = Some t /\ tHeader t = Some h.
Definition loc (h : MeshHeader) : Z * Z * Z := (hX h, hY h, hLayer h).

(** Tiles at the same location (on other layers) or on one of the eight sides. *)
Definition adjacent (h h' : MeshHeader) : Prop :=
  (hX h', hY h') = (hX h, hY h) \/
  exists side, 0 <= side < 8 /\ neighbourLoc (hX h) (hY h) side = (hX h', hY h').

(** The slots are partitioned into the free list [free], slots being moved [out] (none between
    calls) and the buckets; every tile is in the bucket of its location. *)
Definition TableView (m : NavMesh) (free out : list nat) (buckets : list (list nat)) : Prop :=
  TChain (mTiles m) (mNextFree m) free /\
  Forall2 (TChain (mTiles m)) (mPosLookup m) buckets /\
  NoDup (free ++ out ++ concat buckets) /\
  (forall i, (i < length (mTiles m))%nat -> In i (free ++ out ++ concat buckets)) /\
  (forall i, In i free -> exists t, nth_error (mTiles m) i = Some t /\ tHeader t = None /\ tDataSize t = 0) /\
  (forall k b i, nth_error buckets k = Some b -> In i b ->
     exists h, live m i h /\ computeTileHash (hX h) (hY h) (mLUTMask m) = Z.of_nat k) /\
  (forall i j h h', In i (concat buckets) -> In j (concat buckets) -> live m i h -> live m j h' -> loc h = loc h' -> i = j).

(** A tile that should be in the mesh. *)
Record entry := mkEntry { eLoc : Z * Z * Z; eRef : Z; eData : list Z }.

(** Parameters whose references fit into 32 bits (cf. C06). *)
Definition good_params (p : NavMeshParams) : Prop :=
  0 <= npMaxTiles p < 2 ^ 31 /\ 0 <= npMaxPolys p <= 2 ^ 31 /\
  Z.log2_up (npMaxTiles p) + Z.log2_up (npMaxPolys p) <= 24.

(** Do two references name the same tile (salt and slot)? *)
Definition same_tile (b : IdBits) (r r' : Z) : bool :=
  (decodePolyIDTile b r =? decodePolyIDTile b r') && (decodePolyIDSalt b r =? decodePolyIDSalt b r').

(** Histories: a new mesh, then any calls of AddTile and RemoveTile that return. The list has
    the tiles added and not removed since. A non-zero lastRef must carry a salt, as every
    reference returned before does. [ok] is a condition on the tiles loaded after an addition. *)
Inductive Run (ok : NavMesh -> list entry -> Prop) : NavMesh -> list entry -> Prop :=
| Run_init : forall p m st, good_params p -> Init p = Ok (m, st) -> Run ok m []
| Run_add : forall m A data lastRef m' ref h, Run ok m A ->
    (lastRef = 0 \/ decodePolyIDSalt (mBits m) lastRef <> 0) ->
    AddTile m data lastRef = Ok (m', Success, ref) -> header_unserialize data = Ok h ->
    ok m' (mkEntry (loc h) ref data :: A) ->
    Run ok m' (mkEntry (loc h) ref data :: A)
| Run_add_fail : forall m A data lastRef m' st ref, Run ok m A ->
    AddTile m data lastRef = Ok (m', st, ref) -> st <> Success -> Run ok m' A
| Run_remove : forall m A ref m' data, Run ok m A ->
    RemoveTile m ref = Ok (m', data, Success) ->
    Run ok m' (filter (fun e => negb (same_tile (mBits m) (eRef e) ref)) A)
| Run_remove_fail : forall m A ref m' data st, Run ok m A ->
    RemoveTile m ref = Ok (m', data, st) -> st <> Success -> Run ok m' A.
Definition any : NavMesh -> list entry -> Prop := fun _ _ => True.

(** Tile data whose polygon numbers exist: neighbours over inner edges and leaves of the
    bounding volume tree are polygons of the tile, and there are not more polygons than the
    references can address. *)
Definition sound_data (p : NavMeshParams) (data : list Z) : Prop :=
  forall h td, header_unserialize data = Ok h -> tile_unserialize h (skipn 100 data) = Ok td ->
    hPolyCount h <= npMaxPolys p /\
    Forall (fun n => bI n < hPolyCount h) (tdBv td) /\
    Forall (fun q => Forall (fun nei => nei = 0 \/ Z.land nei extLink <> 0 \/ 1 <= nei <= hPolyCount h) (pNeis q)) (tdPolys td).
(** ... and at most 32 tiles (layers) at one location. *)
Definition at_loc (x y : Z) (e : entry) : bool :=
  let '(ex, ey, _) := eLoc e in (ex =? x) && (ey =? y).
Definition sound (m : NavMesh) (A : list entry) : Prop :=
  Forall (fun e => sound_data (mParams m) (eData e)) A /\
  forall x y, (length (filter (at_loc x y) A) <= 32)%nat.

(** Tile data AddTile can work with: right magic and version, all sections present, at least
    one link slot, no off-mesh connections, and polygons of at most six vertices whose first
    coordinate's number fits into 16 bits. *)
Definition fit_poly (nverts : Z) (p : Poly) : Prop :=
  length (pVerts p) = 6%nat /\ length (pNeis p) = 6%nat /\ 1 <= pVertCount p <= 6 /\
  forall j v, 0 <= j < pVertCount p -> get (pVerts p) j = Ok v -> 0 <= v /\ 3 * v + 3 <= nverts /\ 3 * v + 3 <= 65535.
Definition fit_data (data : list Z) (h : MeshHeader) : Prop :=
  header_unserialize data = Ok h /\ hMagic h = navMeshMagic /\ hVersion h = navMeshVersion /\
  exists td, tile_unserialize h (skipn 100 data) = Ok td /\ 1 <= hMaxLinkCount h /\ hOffMeshConCount h = 0 /\
    Forall (fit_poly (zlen (tdVerts td))) (tdPolys td).
Definition fits (_ : NavMesh) (A : list entry) : Prop := Forall (fun e => exists h, fit_data (eData e) h) A.

(** Any further calls after a state, counting the successful removals of tile slot [i]. Tiles
    added to this slot get a fresh reference (lastRef is zero or names another slot). *)
Inductive After (i : Z) : nat -> NavMesh -> NavMesh -> Prop :=
| After_here : forall m, After i 0 m m
| After_add : forall n m m' data lastRef m'' st ref, After i n m m' ->
    (lastRef = 0 \/ decodePolyIDSalt (mBits m') lastRef <> 0 /\ decodePolyIDTile (mBits m') lastRef <> i) ->
    AddTile m' data lastRef = Ok (m'', st, ref) -> After i n m m''
| After_remove : forall n m m' ref m'' data st, After i n m m' ->
    RemoveTile m' ref = Ok (m'', data, st) ->
    After i (if (st =? Success) && (decodePolyIDTile (mBits m') ref =? i) then S n else n) m m''.

(** The links inside a tile: for every edge with a neighbour polygon in the tile, in order of
    the edges, a link to that polygon. *)
Definition inner_edge (nei : Z) : bool := negb (nei =? 0) && (Z.land nei extLink =? 0).
Definition inner_links (b : IdBits) (salt it : Z) (p : Poly) : list (Z * Z * Z * Z * Z) :=
  if Type_ p =? polyTypeOffMeshConnection then []
  else flat_map (fun j => let nei := nth (Z.to_nat j) (pNeis p) 0 in
         if inner_edge nei then [(encodePolyID b salt it (nei - 1), j, 255, 0, 0)] else [])
       (zseq (Z.to_nat (pVertCount p))).

(** Tile data that can be written again: bytes, sizes as int32, and every section the header
    announces is present. *)
Definition saveable (data : list Z) : Prop :=
  Forall is_u8 data /\ zlen data < 2147483648 /\
  forall h td, header_unserialize data = Ok h -> tile_unserialize h (skipn 100 data) = Ok td ->
    counts_match h td /\ 100 + data_bytes td <= zlen data.
(** Two tiles with the same contents: everything but the links, which depend on the order in
    which tiles are added. *)
Definition same_contents (a b : TileData) : Prop :=
  tdVerts a = tdVerts b /\ map (fun p => with_FirstLink p 0) (tdPolys a) = map (fun p => with_FirstLink p 0) (tdPolys b) /\
  length (tdLinks a) = length (tdLinks b) /\ tdDMeshes a = tdDMeshes b /\ tdDVerts a = tdDVerts b /\
  tdDTris a = tdDTris b /\ tdBv a = tdBv b /\ tdCons a = tdCons b.
