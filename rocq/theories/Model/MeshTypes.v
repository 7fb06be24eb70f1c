(** Data structures of [detour/mesh.go], [detour/tile.go] and [detour/structs.go].
    Float32 fields that are stored are kept as their bit patterns (uint32), so that no NaN
    payload is lost; [f_of_bits] gives their value. *)
From Coq Require Import ZArith List.
From Verif.Base Require Import GoNum.
From Verif.Model Require Import Poly PolyRef.
Open Scope Z_scope.

(** detour/mesh.go:674-681, type Link. *)
Record Link := mkLink {
  lRef : Z;      (* PolyRef *)
  lNext : Z;     (* uint32 *)
  lEdge : Z;     (* uint8 *)
  lSide : Z;     (* uint8 *)
  lBMin : Z;     (* uint8 *)
  lBMax : Z      (* uint8 *)
}.
(** detour/mesh.go:684-689, type PolyDetail. *)
Record PolyDetail := mkDetail {
  dVertBase : Z; (* uint32 *)
  dTriBase : Z;  (* uint32 *)
  dVertCount : Z;(* uint8 *)
  dTriCount : Z  (* uint8 *)
}.
(** detour/mesh.go:695-699, type BvNode. *)
Record BvNode := mkBv {
  bMin : Z * Z * Z; (* [3]uint16 *)
  bMax : Z * Z * Z; (* [3]uint16 *)
  bI : Z            (* int32 *)
}.
(** detour/mesh.go:706-730, type OffMeshConnection. *)
Record OffMeshCon := mkCon {
  ocPos : list Z;   (* [6]float32 *)
  ocRad : Z;        (* float32 *)
  ocPoly : Z;       (* uint16 *)
  ocFlags : Z;      (* uint8 *)
  ocSide : Z;       (* uint8 *)
  ocUserID : Z      (* uint32 *)
}.
(** detour/structs.go:86-108, type MeshHeader. *)
Record MeshHeader := mkHeader {
  hMagic : Z; hVersion : Z; hX : Z; hY : Z; hLayer : Z;  (* int32 *)
  hUserID : Z;                                            (* uint32 *)
  hPolyCount : Z; hVertCount : Z; hMaxLinkCount : Z; hDetailMeshCount : Z; hDetailVertCount : Z;
  hDetailTriCount : Z; hBvNodeCount : Z; hOffMeshConCount : Z; hOffMeshBase : Z;  (* int32 *)
  hWalkableHeight : Z; hWalkableRadius : Z; hWalkableClimb : Z;   (* float32 *)
  hBMin : Z * Z * Z; hBMax : Z * Z * Z; hBvQuantFactor : Z        (* float32 *)
}.
(** detour/structs.go:50-56, type NavMeshParams. *)
Record NavMeshParams := mkParams {
  npOrig : Z * Z * Z; npTileWidth : Z; npTileHeight : Z;  (* float32 *)
  npMaxTiles : Z; npMaxPolys : Z                          (* uint32 *)
}.
(** The data sections of detour/tile.go:44-95, type MeshTile. *)
Record TileData := mkTD {
  tdVerts : list Z;            (* []float32 *)
  tdPolys : list Poly;
  tdLinks : list Link;
  tdDMeshes : list PolyDetail;
  tdDVerts : list Z;           (* []float32 *)
  tdDTris : list Z;            (* []uint8 *)
  tdBv : list BvNode;
  tdCons : list OffMeshCon
}.
(** Sections of a tile without data (all slices nil). *)
Definition noData : TileData := mkTD nil nil nil nil nil nil nil nil.
(** detour/tile.go:44-95, type MeshTile. [tNext] is the index of the next tile in Tiles. A
    nil and an empty BvTree are not distinguished: AddTile makes an empty one nil. *)
Record MeshTile := mkTile {
  tSalt : Z;                   (* uint32 *)
  tLinksFree : Z;              (* uint32 *)
  tHeader : option MeshHeader;
  tD : TileData;
  tData : list Z;              (* raw bytes *)
  tDataSize : Z;               (* int32 *)
  tFlags : Z;                  (* int32 *)
  tNext : option nat
}.
(** detour/mesh.go:49-63, type NavMesh. Orig, TileWidth, TileHeight are copies of the
    fields of Params and are read from there. *)
Record NavMesh := mkMesh {
  mParams : NavMeshParams;
  mMaxTiles : Z;               (* int32 *)
  mLUTSize : Z;                (* int32 *)
  mLUTMask : Z;                (* int32 *)
  mPosLookup : list (option nat);
  mNextFree : option nat;
  mTiles : list MeshTile;
  mBits : IdBits
}.

(** Functional field updates. *)
Definition set_tD (t : MeshTile) (d : TileData) : MeshTile :=
  mkTile (tSalt t) (tLinksFree t) (tHeader t) d (tData t) (tDataSize t) (tFlags t) (tNext t).
Definition set_tNext (t : MeshTile) (n : option nat) : MeshTile :=
  mkTile (tSalt t) (tLinksFree t) (tHeader t) (tD t) (tData t) (tDataSize t) (tFlags t) n.
Definition set_tSalt (t : MeshTile) (s : Z) : MeshTile :=
  mkTile s (tLinksFree t) (tHeader t) (tD t) (tData t) (tDataSize t) (tFlags t) (tNext t).
Definition set_tLinksFree (t : MeshTile) (f : Z) : MeshTile :=
  mkTile (tSalt t) f (tHeader t) (tD t) (tData t) (tDataSize t) (tFlags t) (tNext t).
Definition set_tHeader (t : MeshTile) (h : option MeshHeader) : MeshTile :=
  mkTile (tSalt t) (tLinksFree t) h (tD t) (tData t) (tDataSize t) (tFlags t) (tNext t).
Definition set_tData (t : MeshTile) (data : list Z) (size : Z) : MeshTile :=
  mkTile (tSalt t) (tLinksFree t) (tHeader t) (tD t) data size (tFlags t) (tNext t).
Definition set_tFlags (t : MeshTile) (f : Z) : MeshTile :=
  mkTile (tSalt t) (tLinksFree t) (tHeader t) (tD t) (tData t) (tDataSize t) f (tNext t).
Definition set_tdLinks (d : TileData) (l : list Link) : TileData :=
  mkTD (tdVerts d) (tdPolys d) l (tdDMeshes d) (tdDVerts d) (tdDTris d) (tdBv d) (tdCons d).
Definition set_tdPolys (d : TileData) (l : list Poly) : TileData :=
  mkTD (tdVerts d) l (tdLinks d) (tdDMeshes d) (tdDVerts d) (tdDTris d) (tdBv d) (tdCons d).
Definition set_tdVerts (d : TileData) (l : list Z) : TileData :=
  mkTD l (tdPolys d) (tdLinks d) (tdDMeshes d) (tdDVerts d) (tdDTris d) (tdBv d) (tdCons d).
Definition with_FirstLink (p : Poly) (l : Z) : Poly :=
  mkPoly l (pVerts p) (pNeis p) (pFlags p) (pVertCount p) (pAreaAndType p).
Definition set_lNext (l : Link) (n : Z) : Link :=
  mkLink (lRef l) n (lEdge l) (lSide l) (lBMin l) (lBMax l).

Definition set_mTiles (m : NavMesh) (ts : list MeshTile) : NavMesh :=
  mkMesh (mParams m) (mMaxTiles m) (mLUTSize m) (mLUTMask m) (mPosLookup m) (mNextFree m) ts (mBits m).
Definition set_mPosLookup (m : NavMesh) (l : list (option nat)) : NavMesh :=
  mkMesh (mParams m) (mMaxTiles m) (mLUTSize m) (mLUTMask m) l (mNextFree m) (mTiles m) (mBits m).
Definition set_mNextFree (m : NavMesh) (f : option nat) : NavMesh :=
  mkMesh (mParams m) (mMaxTiles m) (mLUTSize m) (mLUTMask m) (mPosLookup m) f (mTiles m) (mBits m).

(** detour/mesh.go:754-761 *)
Definition extLink : Z := 32768.
Definition nullLink : Z := 4294967295.
(** detour/mesh.go:731-735: 'D'<<24 | 'N'<<16 | 'A'<<8 | 'V' *)
Definition navMeshMagic : Z := 1145979222.
Definition navMeshVersion : Z := 7.
(** detour/constants.go:3-6: 'M'<<24 | 'S'<<16 | 'E'<<8 | 'T' *)
Definition navMeshSetMagic : Z := 1297302868.
Definition navMeshSetVersion : Z := 1.
(** detour/constants.go:13 *)
Definition offMeshConBidir : Z := 1.
(** detour/mesh.go:747-752 *)
Definition polyTypeOffMeshConnection : Z := 1.
