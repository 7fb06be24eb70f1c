(** Byte-level serializers of [detour/structs.go] and [detour/tile.go]. *)
From Coq Require Import ZArith List Bool.
From Verif.Base Require Import Res GoNum Bytes Grid.
From Verif.Model Require Import Poly PolyRef MeshTypes.
Import ListNotations.
Open Scope Z_scope.

(** A sequence of writes at [off + d] for the listed [d]. *)
Fixpoint puts (dst : list Z) (off : Z) (ws : list (Z * list Z)) : res (list Z) :=
  match ws with
  | [] => Ok dst
  | (d, bs) :: ws' => let* dst' := put dst (off + d) bs in puts dst' off ws'
  end.

(** Conversions uint32(x) of an int32. *)
Definition lei (v : Z) : list Z := le32 (u32 v).

(** detour/tile.go:30-41 navMeshTileHeader.Serialize *)
Definition tileHeader_size : Z := 8.
Definition tileHeader_serialize (dst : list Z) (ref dataSize : Z) : res (list Z) :=
  if zlen dst <? 8 then Panic
  else puts dst 0 [(0, le32 ref); (4, lei dataSize)].

(** detour/structs.go:59-61, 66-83 NavMeshParams.serialize *)
Definition params_size : Z := 28.
Definition params_serialize (dst : list Z) (p : NavMeshParams) : res (list Z) :=
  if zlen dst <? 28 then Panic
  else
    let '(o0, o1, o2) := npOrig p in
    puts dst 0 [(0, le32 o0); (4, le32 o1); (8, le32 o2); (12, le32 (npTileWidth p));
                (16, le32 (npTileHeight p)); (20, le32 (npMaxTiles p)); (24, le32 (npMaxPolys p))].

(** detour/structs.go:16-34 navMeshSetHeader.serialize; the parameters are written into the
    sub-slice dst[12:]. *)
Definition setHeader_size : Z := 12 + params_size.
Definition setHeader_serialize (dst : list Z) (magic version numTiles : Z) (p : NavMeshParams) : res (list Z) :=
  if zlen dst <? setHeader_size then Panic
  else
    let* dst := puts dst 0 [(0, le32 magic); (4, le32 version); (8, le32 numTiles)] in
    let* tl := params_serialize (skipn 12 dst) p in
    Ok (firstn 12 dst ++ tl).

(** detour/structs.go:110-149 MeshHeader.serialize *)
Definition header_size : Z := 100.
Definition header_serialize (dst : list Z) (s : MeshHeader) : res (list Z) :=
  if zlen dst <? 100 then Panic
  else
    let '(n0, n1, n2) := hBMin s in
    let '(x0, x1, x2) := hBMax s in
    puts dst 0
      [(0, lei (hMagic s)); (4, lei (hVersion s)); (8, lei (hX s)); (12, lei (hY s)); (16, lei (hLayer s));
       (20, le32 (hUserID s)); (24, lei (hPolyCount s)); (28, lei (hVertCount s)); (32, lei (hMaxLinkCount s));
       (36, lei (hDetailMeshCount s)); (40, lei (hDetailVertCount s)); (44, lei (hDetailTriCount s));
       (48, lei (hBvNodeCount s)); (52, lei (hOffMeshConCount s)); (56, lei (hOffMeshBase s));
       (60, le32 (hWalkableHeight s)); (64, le32 (hWalkableRadius s)); (68, le32 (hWalkableClimb s));
       (72, le32 n0); (76, le32 n1); (80, le32 n2); (84, le32 x0); (88, le32 x1); (92, le32 x2);
       (96, le32 (hBvQuantFactor s))].

(** detour/structs.go:151-186 MeshHeader.unserialize *)
Definition header_unserialize (src : list Z) : res MeshHeader :=
  if zlen src <? 100 then Panic
  else
    let* magic := rdi32 src 0 in
    let* version := rdi32 src 4 in
    let* x := rdi32 src 8 in
    let* y := rdi32 src 12 in
    let* layer := rdi32 src 16 in
    let* uid := rd32 src 20 in
    let* pc := rdi32 src 24 in
    let* vc := rdi32 src 28 in
    let* mlc := rdi32 src 32 in
    let* dmc := rdi32 src 36 in
    let* dvc := rdi32 src 40 in
    let* dtc := rdi32 src 44 in
    let* bvc := rdi32 src 48 in
    let* omc := rdi32 src 52 in
    let* omb := rdi32 src 56 in
    let* wh := rd32 src 60 in
    let* wr := rd32 src 64 in
    let* wc := rd32 src 68 in
    let* n0 := rd32 src 72 in
    let* n1 := rd32 src 76 in
    let* n2 := rd32 src 80 in
    let* x0 := rd32 src 84 in
    let* x1 := rd32 src 88 in
    let* x2 := rd32 src 92 in
    let* q := rd32 src 96 in
    Ok (mkHeader magic version x y layer uid pc vc mlc dmc dvc dtc bvc omc omb wh wr wc
                 (n0, n1, n2) (x0, x1, x2) q).

(** binary.Read(r, binary.LittleEndian, &hdr) as used by detour/mesh.go:75 (navMeshSetHeader)
    and detour/mesh.go:101 (navMeshTileHeader): the struct's fields in declaration order,
    without padding, from exactly 40 resp. 8 bytes (declared at detour/structs.go:9-14, 50-56
    and detour/tile.go:12-15). encoding/binary itself is not part of the repository. *)
Definition params_decode (src : list Z) (off : Z) : res NavMeshParams :=
  let* o0 := rd32 src off in
  let* o1 := rd32 src (off + 4) in
  let* o2 := rd32 src (off + 8) in
  let* tw := rd32 src (off + 12) in
  let* th := rd32 src (off + 16) in
  let* mt := rd32 src (off + 20) in
  let* mp := rd32 src (off + 24) in
  Ok (mkParams (o0, o1, o2) tw th mt mp).
Definition setHeader_decode (src : list Z) : res (Z * Z * Z * NavMeshParams) :=
  let* magic := rd32 src 0 in
  let* version := rd32 src 4 in
  let* numTiles := rd32 src 8 in
  let* ps := params_decode src 12 in
  Ok (magic, version, numTiles, ps).
Definition tileHeader_decode (src : list Z) : res (Z * Z) :=
  let* ref := rd32 src 0 in
  let* size := rdi32 src 4 in
  Ok (ref, size).

(** ** Tile data *)

(** One loop of serializeTileData: a writer per element and its stride. *)
Fixpoint write_all {A} (wr : list Z -> Z -> A -> res (list Z)) (stride : Z) (dst : list Z) (off : Z) (l : list A) : res (list Z * Z) :=
  match l with
  | [] => Ok (dst, off)
  | x :: l' => let* dst' := wr dst off x in write_all wr stride dst' (off + stride) l'
  end.
(** One loop of unserialize: [n] elements at [off], [off + stride], ... *)
Fixpoint read_all {A} (rd : Z -> res A) (stride : Z) (n : nat) (off : Z) : res (list A) :=
  match n with
  | O => Ok []
  | S n' =>
      let* x := rd off in
      let* l := read_all rd stride n' (off + stride) in
      Ok (x :: l)
  end.
(** make([]T, n): panics for negative n. *)
Definition make_len (n : Z) : res nat := if n <? 0 then Panic else Ok (Z.to_nat n).

(** detour/tile.go:214-217, 251-254 *)
Definition write_f32 (dst : list Z) (off : Z) (b : Z) : res (list Z) := put32 dst off b.
(** detour/tile.go:218-236; the arrays have VertsPerPolygon = 6 elements. *)
Definition write_poly (dst : list Z) (off : Z) (p : Poly) : res (list Z) :=
  let* dst := put32 dst off (pFirstLink p) in
  let* (dst, off) := write_all put16 2 dst (off + 4) (pVerts p) in
  let* (dst, off) := write_all put16 2 dst off (pNeis p) in
  puts dst off [(0, le16 (pFlags p)); (2, [pVertCount p]); (3, [pAreaAndType p])].
(** detour/tile.go:237-248 *)
Definition write_link (dst : list Z) (off : Z) (l : Link) : res (list Z) :=
  puts dst off [(0, le32 (lRef l)); (4, le32 (lNext l)); (8, [lEdge l]); (9, [lSide l]); (10, [lBMin l]); (11, [lBMax l])].
(** detour/tile.go:250-258; two bytes of padding are left as they are. *)
Definition write_detail (dst : list Z) (off : Z) (m : PolyDetail) : res (list Z) :=
  puts dst off [(0, le32 (dVertBase m)); (4, le32 (dTriBase m)); (8, [dVertCount m]); (9, [dTriCount m])].
(** detour/tile.go:266-276 *)
Definition write_bv (dst : list Z) (off : Z) (t : BvNode) : res (list Z) :=
  let '(n0, n1, n2) := bMin t in
  let '(x0, x1, x2) := bMax t in
  puts dst off [(0, le16 n0); (2, le16 n1); (4, le16 n2); (6, le16 x0); (8, le16 x1); (10, le16 x2); (12, lei (bI t))].
(** detour/tile.go:277-291; Flags and Side go to dst[30] and dst[31], not relative to off. *)
Definition write_con (dst : list Z) (off : Z) (o : OffMeshCon) : res (list Z) :=
  let* dst := (match ocPos o with
               | [p0; p1; p2; p3; p4; p5] =>
                   puts dst off [(0, le32 p0); (4, le32 p1); (8, le32 p2); (12, le32 p3); (16, le32 p4); (20, le32 p5);
                                 (24, le32 (ocRad o)); (28, le16 (ocPoly o))]
               | _ => Panic (* not an array of 6 *)
               end) in
  let* dst := put8 dst 30 (ocFlags o) in
  let* dst := put8 dst 31 (ocSide o) in
  puts dst off [(32, le32 (ocUserID o))].
(** detour/tile.go:262 copy(dst[off:], dtris): copies what fits. *)
Definition copy_at (dst : list Z) (off : Z) (bs : list Z) : res (list Z) :=
  if (0 <=? off) && (off <=? zlen dst)
  then put dst off (firstn (Z.to_nat (zlen dst - off)) bs)
  else Panic.

(** detour/tile.go:201-295 serializeTileData *)
Definition serializeTileData (dst : list Z) (t : TileData) : res (list Z) :=
  let* (dst, off) := write_all write_f32 4 dst 0 (tdVerts t) in
  let* (dst, off) := write_all write_poly 32 dst off (tdPolys t) in
  let* (dst, off) := write_all write_link 12 dst off (tdLinks t) in
  let* (dst, off) := write_all write_detail 12 dst off (tdDMeshes t) in
  let* (dst, off) := write_all write_f32 4 dst off (tdDVerts t) in
  let* dst := copy_at dst off (tdDTris t) in
  let off := off + zlen (tdDTris t) in
  let* (dst, off) := write_all write_bv 16 dst off (tdBv t) in
  let* (dst, off) := write_all write_con 36 dst off (tdCons t) in
  Ok dst.

(** detour/tile.go:118-136 *)
Definition read_poly (src : list Z) (off : Z) : res Poly :=
  let* fl := rd32 src off in
  let* vs := read_all (rd16 src) 2 6 (off + 4) in
  let* ns := read_all (rd16 src) 2 6 (off + 16) in
  let* flags := rd16 src (off + 28) in
  let* vc := rd8 src (off + 30) in
  let* at_ := rd8 src (off + 31) in
  Ok (mkPoly fl vs ns flags vc at_).
(** detour/tile.go:138-149 *)
Definition read_link (src : list Z) (off : Z) : res Link :=
  let* r := rd32 src off in
  let* n := rd32 src (off + 4) in
  let* e := rd8 src (off + 8) in
  let* s := rd8 src (off + 9) in
  let* a := rd8 src (off + 10) in
  let* b := rd8 src (off + 11) in
  Ok (mkLink r n e s a b).
(** detour/tile.go:151-160 *)
Definition read_detail (src : list Z) (off : Z) : res PolyDetail :=
  let* v := rd32 src off in
  let* t := rd32 src (off + 4) in
  let* vc := rd8 src (off + 8) in
  let* tc := rd8 src (off + 9) in
  Ok (mkDetail v t vc tc).
(** detour/tile.go:172-182 *)
Definition read_bv (src : list Z) (off : Z) : res BvNode :=
  let* n0 := rd16 src off in
  let* n1 := rd16 src (off + 2) in
  let* n2 := rd16 src (off + 4) in
  let* x0 := rd16 src (off + 6) in
  let* x1 := rd16 src (off + 8) in
  let* x2 := rd16 src (off + 10) in
  let* i := rdi32 src (off + 12) in
  Ok (mkBv (n0, n1, n2) (x0, x1, x2) i).
(** detour/tile.go:183-198; Flags and Side are read from src[30] and src[31]. *)
Definition read_con (src : list Z) (off : Z) : res OffMeshCon :=
  let* ps := read_all (rd32 src) 4 6 off in
  let* r := rd32 src (off + 24) in
  let* p := rd16 src (off + 28) in
  let* f := rd8 src 30 in
  let* s := rd8 src 31 in
  let* u := rd32 src (off + 32) in
  Ok (mkCon ps r p f s u).
(** detour/tile.go:168-169: make + copy(s.DetailTris, src[off:]). *)
Definition read_copy (src : list Z) (off : Z) (n : nat) : res (list Z) :=
  if (0 <=? off) && (off <=? zlen src)
  then let b := firstn n (skipn (Z.to_nat off) src) in Ok (b ++ repeat 0 (n - length b))
  else Panic.

(** detour/tile.go:105-199 MeshTile.unserialize (the sections it fills); products such as
    3*hdr.VertCount are int32. *)
Definition tile_unserialize (hdr : MeshHeader) (src : list Z) : res TileData :=
  let* nv := make_len (i32 (3 * hVertCount hdr)) in
  let* verts := read_all (rd32 src) 4 nv 0 in
  let off := 4 * Z.of_nat nv in
  let* np := make_len (hPolyCount hdr) in
  let* polys := read_all (read_poly src) 32 np off in
  let off := off + 32 * Z.of_nat np in
  let* nl := make_len (hMaxLinkCount hdr) in
  let* links := read_all (read_link src) 12 nl off in
  let off := off + 12 * Z.of_nat nl in
  let* nd := make_len (hDetailMeshCount hdr) in
  let* dms := read_all (read_detail src) 12 nd off in
  let off := off + 12 * Z.of_nat nd in
  let* ndv := make_len (i32 (3 * hDetailVertCount hdr)) in
  let* dvs := read_all (rd32 src) 4 ndv off in
  let off := off + 4 * Z.of_nat ndv in
  let* ndt := make_len (i32 (4 * hDetailTriCount hdr)) in
  let* dts := read_copy src off ndt in
  let off := off + Z.of_nat ndt in
  let* nb := make_len (hBvNodeCount hdr) in
  let* bvs := read_all (read_bv src) 16 nb off in
  let off := off + 16 * Z.of_nat nb in
  let* nc := make_len (hOffMeshConCount hdr) in
  let* ocs := read_all (read_con src) 36 nc off in
  Ok (mkTD verts polys links dms dvs dts bvs ocs).
