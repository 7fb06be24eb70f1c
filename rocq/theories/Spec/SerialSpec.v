(** Specification side of serialization: when a structure holds values of its Go types, and
    when a header describes a tile's sections. *)
From Coq Require Import ZArith List.
From Verif.Base Require Import GoNum.
From Verif.Model Require Import Poly MeshTypes.
Open Scope Z_scope.

Definition u32x3 (v : Z * Z * Z) : Prop := let '(a, b, c) := v in is_u32 a /\ is_u32 b /\ is_u32 c.
Definition u16x3 (v : Z * Z * Z) : Prop := let '(a, b, c) := v in is_u16 a /\ is_u16 b /\ is_u16 c.

Definition typed_header (h : MeshHeader) : Prop :=
  Forall is_i32 (hMagic h :: hVersion h :: hX h :: hY h :: hLayer h :: hPolyCount h :: hVertCount h ::
     hMaxLinkCount h :: hDetailMeshCount h :: hDetailVertCount h :: hDetailTriCount h :: hBvNodeCount h ::
     hOffMeshConCount h :: hOffMeshBase h :: nil) /\
  Forall is_u32 (hUserID h :: hWalkableHeight h :: hWalkableRadius h :: hWalkableClimb h :: hBvQuantFactor h :: nil) /\
  u32x3 (hBMin h) /\ u32x3 (hBMax h).
Definition typed_params (p : NavMeshParams) : Prop :=
  u32x3 (npOrig p) /\ Forall is_u32 (npTileWidth p :: npTileHeight p :: npMaxTiles p :: npMaxPolys p :: nil).
Definition typed_poly (p : Poly) : Prop :=
  is_u32 (pFirstLink p) /\ length (pVerts p) = 6%nat /\ Forall is_u16 (pVerts p) /\
  length (pNeis p) = 6%nat /\ Forall is_u16 (pNeis p) /\ is_u16 (pFlags p) /\ is_u8 (pVertCount p) /\ is_u8 (pAreaAndType p).
Definition typed_link (l : Link) : Prop :=
  is_u32 (lRef l) /\ is_u32 (lNext l) /\ is_u8 (lEdge l) /\ is_u8 (lSide l) /\ is_u8 (lBMin l) /\ is_u8 (lBMax l).
Definition typed_detail (d : PolyDetail) : Prop :=
  is_u32 (dVertBase d) /\ is_u32 (dTriBase d) /\ is_u8 (dVertCount d) /\ is_u8 (dTriCount d).
Definition typed_bv (b : BvNode) : Prop := u16x3 (bMin b) /\ u16x3 (bMax b) /\ is_i32 (bI b).
Definition typed_con (c : OffMeshCon) : Prop :=
  length (ocPos c) = 6%nat /\ Forall is_u32 (ocPos c) /\ is_u32 (ocRad c) /\ is_u16 (ocPoly c) /\
  is_u8 (ocFlags c) /\ is_u8 (ocSide c) /\ is_u32 (ocUserID c).
Definition typed_tile (t : TileData) : Prop :=
  Forall is_u32 (tdVerts t) /\ Forall typed_poly (tdPolys t) /\ Forall typed_link (tdLinks t) /\
  Forall typed_detail (tdDMeshes t) /\ Forall is_u32 (tdDVerts t) /\ Forall is_u8 (tdDTris t) /\
  Forall typed_bv (tdBv t) /\ Forall typed_con (tdCons t).

(** The header's counts are those of the sections, and small enough for the int32 products
    in the reader. *)
Definition counts_match (h : MeshHeader) (t : TileData) : Prop :=
  zlen (tdVerts t) = 3 * hVertCount h /\ zlen (tdPolys t) = hPolyCount h /\ zlen (tdLinks t) = hMaxLinkCount h /\
  zlen (tdDMeshes t) = hDetailMeshCount h /\ zlen (tdDVerts t) = 3 * hDetailVertCount h /\
  zlen (tdDTris t) = 4 * hDetailTriCount h /\ zlen (tdBv t) = hBvNodeCount h /\ zlen (tdCons t) = hOffMeshConCount h /\
  3 * hVertCount h < 2147483648 /\ 3 * hDetailVertCount h < 2147483648 /\ 4 * hDetailTriCount h < 2147483648.

(** Number of bytes of the tile data. *)
Definition data_bytes (t : TileData) : Z :=
  4 * zlen (tdVerts t) + 32 * zlen (tdPolys t) + 12 * zlen (tdLinks t) + 12 * zlen (tdDMeshes t) +
  4 * zlen (tdDVerts t) + zlen (tdDTris t) + 16 * zlen (tdBv t) + 36 * zlen (tdCons t).
