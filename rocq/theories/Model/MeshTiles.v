(** The tile table of [detour/mesh.go]: Init, AddTile, RemoveTile, lookups and references. *)
From Coq Require Import ZArith List Bool.
From Verif.Base Require Import Res GoNum F32 Num Grid.
From Verif.Model Require Import Status Poly PolyRef Bounds Geom MeshTypes Serial MeshLinks.
Import ListNotations.
Open Scope Z_scope.

(** detour/mesh.go:633-640; only the low 32 bits of the int64 sum matter. *)
Definition computeTileHash (x y mask : Z) : Z := Z.land (i32 (2376512323 * x + 3625334849 * y)) mask.

Definition freshTile (next : option nat) : MeshTile := mkTile 1 0 None noData [] 0 0 next.

(** detour/mesh.go:244-283 NavMesh.Init. make panics for a negative length; the loop running
    down from MaxTiles-1 links every slot to the following one. *)
Definition Init (p : NavMeshParams) : res (NavMesh * Z) :=
  let maxTiles := i32 (npMaxTiles p) in
  let lut := i32 (NextPow2 (npMaxTiles p / 4)) in
  let lut := if lut =? 0 then 1 else lut in
  let* n := make_len maxTiles in
  let* nl := make_len lut in
  let bits := init_bits (npMaxTiles p) (npMaxPolys p) in
  let m := mkMesh p maxTiles lut (i32 (lut - 1)) (repeat None nl) (match n with O => None | _ => Some O end)
             (map (fun i => freshTile (if Nat.ltb (S i) n then Some (S i) else None)) (seq 0 n)) bits in
  Ok (m, init_status bits).

(** Is the tile's header at this location (and layer)? *)
Definition at_xy (t : MeshTile) (x y : Z) : bool :=
  match tHeader t with Some h => (hX h =? x) && (hY h =? y) | None => false end.
Definition at_xyl (t : MeshTile) (x y layer : Z) : bool :=
  match tHeader t with Some h => (hX h =? x) && (hY h =? y) && (hLayer h =? layer) | None => false end.

(** Walking a chain of tiles: the first one satisfying [f]. *)
Fixpoint chain_find (fuel : nat) (ts : list MeshTile) (f : MeshTile -> bool) (cur : option nat) : res (option nat) :=
  match cur with
  | None => Ok None
  | Some i =>
      match fuel with
      | O => NoFuel
      | S k => let* t := getn ts i in if f t then Ok (Some i) else chain_find k ts f (tNext t)
      end
  end.
Definition chain_fuel (m : NavMesh) : nat := S (length (mTiles m)).

(** detour/mesh.go:548-567 TileAt: the index of the tile, or None for nil. *)
Definition TileAt (m : NavMesh) (x y layer : Z) : res (option nat) :=
  let* cur := get (mPosLookup m) (computeTileHash x y (mLUTMask m)) in
  chain_find (chain_fuel m) (mTiles m) (fun t => at_xyl t x y layer) cur.
(** detour/mesh.go:1534-1548 TileRefAt *)
Definition TileRefAt (m : NavMesh) (x y layer : Z) : res Z :=
  let* o := TileAt m x y layer in
  match o with Some i => TileRef m i | None => Ok 0 end.

(** detour/mesh.go:1235-1251 TilesAt: the tiles written to the array, at most maxTiles. *)
Fixpoint chain_filter (fuel : nat) (ts : list MeshTile) (f : MeshTile -> bool) (max : Z) (n : Z) (cur : option nat) : res (list nat) :=
  match cur with
  | None => Ok []
  | Some i =>
      match fuel with
      | O => NoFuel
      | S k =>
          let* t := getn ts i in
          if f t && (n <? max) then
            let* l := chain_filter k ts f max (n + 1) (tNext t) in Ok (i :: l)
          else chain_filter k ts f max n (tNext t)
      end
  end.
Definition TilesAt (m : NavMesh) (x y maxTiles : Z) : res (list nat) :=
  let* cur := get (mPosLookup m) (computeTileHash x y (mLUTMask m)) in
  chain_filter (chain_fuel m) (mTiles m) (fun t => at_xy t x y) maxTiles 0 cur.
(** detour/mesh.go:1495-1523 neighbourTilesAt *)
Definition neighbourTilesAt (m : NavMesh) (x y side maxTiles : Z) : res (list nat) :=
  let '(nx, ny) := neighbourLoc x y side in TilesAt m nx ny maxTiles.

(** Search for a tile in a chain, keeping the previous one: [Some prev] when found. *)
Fixpoint chain_prev (fuel : nat) (ts : list MeshTile) (target : nat) (prev cur : option nat) : res (option (option nat)) :=
  match cur with
  | None => Ok None
  | Some i =>
      if Nat.eqb i target then Ok (Some prev)
      else match fuel with
      | O => NoFuel
      | S k => let* t := getn ts i in chain_prev k ts target (Some i) (tNext t)
      end
  end.

(** prev.Next = next *)
Definition set_next (m : NavMesh) (i : nat) (next : option nat) : res NavMesh :=
  let* t := tile_of m i in Ok (set_tile m i (set_tNext t next)).

(** detour/mesh.go:328-374: taking a slot from the free list. Failures end in log.Fatalln,
    which exits the process. *)
Definition alloc_slot (m : NavMesh) (lastRef : Z) : res (NavMesh * nat) :=
  if lastRef =? 0 then
    match mNextFree m with
    | Some i =>
        let* t := tile_of m i in
        Ok (set_tile (set_mNextFree m (tNext t)) i (set_tNext t None), i)
    | None => Exit
    end
  else
    let tileIndex := i32 (decodePolyIDTile (mBits m) lastRef) in
    if mMaxTiles m <=? tileIndex then Exit
    else
      let* _ := get (mTiles m) tileIndex in
      let target := Z.to_nat tileIndex in
      let* o := chain_prev (chain_fuel m) (mTiles m) target None (mNextFree m) in
      match o with
      | None => Exit
      | Some prev =>
          let* t := tile_of m target in
          let* m := (match prev with
                     | None => Ok (set_mNextFree m (tNext t))
                     | Some p => set_next m p (tNext t)
                     end) in
          let* t := tile_of m target in
          Ok (set_tile m target (set_tSalt t (decodePolyIDSalt (mBits m) lastRef)), target)
      end.

(** detour/mesh.go:388-396: the link slots chained 0, 1, 2, ...; Links[MaxLinkCount-1] panics
    for MaxLinkCount = 0. *)
Definition free_links (ls : list Link) : res (list Link) :=
  match ls with
  | [] => Panic
  | _ => Ok (map (fun '(i, l) => set_lNext l (if i =? zlen ls - 1 then nullLink else u32 (i + 1)))
                 (combine (zseq (length ls)) ls))
  end.

(** detour/mesh.go:376-404: put the tile into its bucket and fill it from the data. *)
Definition install (m : NavMesh) (i : nat) (hdr : MeshHeader) (data : list Z) : res NavMesh :=
  let h := computeTileHash (hX hdr) (hY hdr) (mLUTMask m) in
  let* head := get (mPosLookup m) h in
  let* lut := set (mPosLookup m) h (Some i) in
  let* t := tile_of m i in
  let* td := tile_unserialize hdr (skipn 100 data) in
  let* ls := free_links (tdLinks td) in
  let t := mkTile (tSalt t) 0 (Some hdr) (set_tdLinks td ls) data (i32 (zlen data)) 0 head in
  Ok (set_tile (set_mPosLookup m lut) i t).

(** detour/mesh.go:414-427: connections with the other layers at the same location. *)
Definition link_layer (i : nat) (m : NavMesh) (j : nat) : res NavMesh :=
  if Nat.eqb j i then Ok m
  else
    let* m := connectExtLinks m i j (-1) in
    let* m := connectExtLinks m j i (-1) in
    let* m := connectExtOffMeshLinks m i j (-1) in
    connectExtOffMeshLinks m j i (-1).
(** detour/mesh.go:430-438: connections with the tiles on one side. *)
Definition link_side (x y : Z) (i : nat) (m : NavMesh) (side : Z) : res NavMesh :=
  let* neis := neighbourTilesAt m x y side 32 in
  foldM (fun m j =>
    let* m := connectExtLinks m i j side in
    let* m := connectExtLinks m j i (oppositeTile side) in
    let* m := connectExtOffMeshLinks m i j side in
    connectExtOffMeshLinks m j i (oppositeTile side)) neis m.

(** detour/mesh.go:406-438 *)
Definition link_tile (m : NavMesh) (i : nat) (hdr : MeshHeader) : res NavMesh :=
  let* m := connectIntLinks m i in
  let* m := baseOffMeshLinks m i in
  let* m := connectExtOffMeshLinks m i i (-1) in
  let* neis := TilesAt m (hX hdr) (hY hdr) 32 in
  let* m := foldM (link_layer i) neis m in
  foldM (link_side (hX hdr) (hY hdr) i) (zseq 8) m.

(** detour/mesh.go:310-442 AddTile: the mesh, the status and the tile reference. *)
Definition AddTile (m : NavMesh) (data : list Z) (lastRef : Z) : res (NavMesh * Z * Z) :=
  let* hdr := header_unserialize data in
  if negb (hMagic hdr =? navMeshMagic) then Ok (m, Z.lor Failure WrongMagic, 0)
  else if negb (hVersion hdr =? navMeshVersion) then Ok (m, Z.lor Failure WrongVersion, 0)
  else
    let* o := TileAt m (hX hdr) (hY hdr) (hLayer hdr) in
    match o with
    | Some _ => Ok (m, Failure, 0)
    | None =>
        let* (m, i) := alloc_slot m lastRef in
        let* m := install m i hdr data in
        let* m := link_tile m i hdr in
        let* ref := TileRef m i in
        Ok (m, Success, ref)
    end.

(** detour/mesh.go:469-490: take the tile out of its bucket. *)
Definition unhash (m : NavMesh) (i : nat) (hdr : MeshHeader) : res NavMesh :=
  let h := computeTileHash (hX hdr) (hY hdr) (mLUTMask m) in
  let* head := get (mPosLookup m) h in
  let* o := chain_prev (chain_fuel m) (mTiles m) i None head in
  let* t := tile_of m i in
  match o with
  | None => Ok m
  | Some (Some p) => set_next m p (tNext t)
  | Some None =>
      let* lut := set (mPosLookup m) h (tNext t) in
      Ok (set_mPosLookup m lut)
  end.
(** detour/mesh.go:499-514 *)
Definition unlink_tile (m : NavMesh) (i : nat) (hdr : MeshHeader) : res NavMesh :=
  let* neis := TilesAt m (hX hdr) (hY hdr) 32 in
  let* m := foldM (fun m j => if Nat.eqb j i then Ok m else unconnectLinks m j i) neis m in
  foldM (fun m side =>
    let* neis := neighbourTilesAt m (hX hdr) (hY hdr) side 32 in
    foldM (fun m j => unconnectLinks m j i) neis m) (zseq 8) m.
(** detour/mesh.go:530-534 *)
Definition next_salt (b : IdBits) (salt : Z) : Z :=
  let s := Z.land (u32 (salt + 1)) (u32 (shl32 1 (saltBits b) - 1)) in
  if s =? 0 then 1 else s.
(** detour/mesh.go:516-538 *)
Definition release (m : NavMesh) (i : nat) : res NavMesh :=
  let* t := tile_of m i in
  Ok (set_mNextFree (set_tile m i (mkTile (next_salt (mBits m) (tSalt t)) 0 None noData [] 0 0 (mNextFree m))) (Some i)).

(** detour/mesh.go:453-541 RemoveTile: the mesh, the data and the status. *)
Definition RemoveTile (m : NavMesh) (ref : Z) : res (NavMesh * list Z * Z) :=
  if ref =? 0 then Ok (m, [], Z.lor Failure InvalidParam)
  else
    let tileIndex := decodePolyIDTile (mBits m) ref in
    let tileSalt := decodePolyIDSalt (mBits m) ref in
    if u32 (mMaxTiles m) <=? tileIndex then Ok (m, [], Z.lor Failure InvalidParam)
    else
      let* t := get (mTiles m) tileIndex in
      if negb (tSalt t =? tileSalt) then Ok (m, [], Z.lor Failure InvalidParam)
      else
        let i := Z.to_nat tileIndex in
        let* hdr := hdr_of t in
        let* m := unhash m i hdr in
        let* m := unlink_tile m i hdr in
        let* m := release m i in
        Ok (m, tData t, Success).

(** detour/mesh.go:1550-1564 TileByRef *)
Definition TileByRef (m : NavMesh) (ref : Z) : res (option nat) :=
  if ref =? 0 then Ok None
  else
    let tileIndex := decodePolyIDTile (mBits m) ref in
    if mMaxTiles m <=? i32 tileIndex then Ok None
    else
      let* t := get (mTiles m) tileIndex in
      if negb (tSalt t =? decodePolyIDSalt (mBits m) ref) then Ok None
      else Ok (Some (Z.to_nat tileIndex)).
(** detour/mesh.go:1595-1611 IsValidPolyRef *)
Definition IsValidPolyRef (m : NavMesh) (ref : Z) : res bool :=
  if ref =? 0 then Ok false
  else
    let '(salt, it, ip) := DecodePolyID (mBits m) ref in
    if u32 (mMaxTiles m) <=? it then Ok false
    else
      let* t := get (mTiles m) it in
      match tHeader t with
      | Some h =>
          if negb (tSalt t =? salt) then Ok false
          else if u32 (hPolyCount h) <=? ip then Ok false
          else Ok true
      | None => Ok false
      end.
(** detour/mesh.go:1622-1640 TileAndPolyByRef: status, tile index and polygon. *)
Definition TileAndPolyByRef (m : NavMesh) (ref : Z) : res (Z * option (nat * Poly)) :=
  if ref =? 0 then Ok (Failure, None)
  else
    let '(salt, it, ip) := DecodePolyID (mBits m) ref in
    if u32 (mMaxTiles m) <=? it then Ok (Z.lor Failure InvalidParam, None)
    else
      let* t := get (mTiles m) it in
      match tHeader t with
      | Some h =>
          if negb (tSalt t =? salt) then Ok (Z.lor Failure InvalidParam, None)
          else if u32 (hPolyCount h) <=? ip then Ok (Z.lor Failure InvalidParam, None)
          else
            let* p := get (tdPolys (tD t)) ip in
            Ok (Success, Some (Z.to_nat it, p))
      | None => Ok (Z.lor Failure InvalidParam, None)
      end.
(** detour/mesh.go:1649-1653 CalcTileLoc *)
Definition CalcTileLoc (m : NavMesh) (pos : fvec) : Z * Z :=
  let '(ox, _, oz) := npOrig (mParams m) in
  (f_floor_i32 (fdiv (fsub (vx pos) (f_of_bits ox)) (f_of_bits (npTileWidth (mParams m)))),
   f_floor_i32 (fdiv (fsub (vz pos) (f_of_bits oz)) (f_of_bits (npTileHeight (mParams m))))).

(** detour/mesh.go:210-236 InitForSingleTile; the flags are passed on as the reference. *)
Definition InitForSingleTile (data : list Z) (flags : Z) : res (option NavMesh * Z) :=
  let* hdr := header_unserialize data in
  if negb (hMagic hdr =? navMeshMagic) then Ok (None, Z.lor Failure WrongMagic)
  else if negb (hVersion hdr =? navMeshVersion) then Ok (None, Z.lor Failure WrongVersion)
  else
    let '(n0, n1, n2) := hBMin hdr in
    let '(x0, x1, x2) := hBMax hdr in
    let params := mkParams (n0, n1, n2)
        (bits_of_f (fsub (f_of_bits x0) (f_of_bits n0))) (bits_of_f (fsub (f_of_bits x2) (f_of_bits n2)))
        1 (u32 (hPolyCount hdr)) in
    let* (m, st) := Init params in
    if StatusFailed st then Ok (Some m, st)
    else
      let* (m, st, _) := AddTile m data (u32 flags) in
      Ok (Some m, st).

(** ** Saving and loading *)

(** detour/mesh.go:158-174: the record of one tile; the header is serialized first, then the
    sections behind it. *)
Definition tile_record (m : NavMesh) (i : nat) : res (list Z) :=
  let* t := tile_of m i in
  if tDataSize t =? 0 then Ok []
  else
    let* ref := TileRef m i in
    let* th := tileHeader_serialize (repeat 0 8) ref (tDataSize t) in
    let* n := make_len (tDataSize t) in
    let* h := hdr_of t in
    let* data := header_serialize (repeat 0 n) h in
    let* rest := serializeTileData (skipn 100 data) (tD t) in
    Ok (th ++ firstn 100 data ++ rest).
Fixpoint tile_records (m : NavMesh) (l : list Z) : res (list Z) :=
  match l with
  | [] => Ok []
  | i :: l' =>
      let* _ := get (mTiles m) i in
      let* r := tile_record m (Z.to_nat i) in
      let* rs := tile_records m l' in
      Ok (r ++ rs)
  end.
(** detour/mesh.go:137-178 ToWriter: the bytes written (the writer is assumed to accept
    everything). *)
Definition live_tiles (m : NavMesh) : res Z :=
  foldM (fun n i => let* t := get (mTiles m) i in Ok (if tDataSize t =? 0 then n else u32 (n + 1)))
        (zseq (Z.to_nat (mMaxTiles m))) 0.
Definition ToWriter (m : NavMesh) : res (list Z) :=
  let* n := live_tiles m in
  let* h := setHeader_serialize (repeat 0 40) navMeshSetMagic navMeshSetVersion n (mParams m) in
  let* rs := tile_records m (zseq (Z.to_nat (mMaxTiles m))) in
  Ok (h ++ rs).
(** detour/mesh.go:181-198 Size (int32 sums) *)
Definition Size (m : NavMesh) : res Z :=
  let* s := foldM (fun s i => let* t := get (mTiles m) i in
      Ok (if tDataSize t =? 0 then s else i32 (s + i32 (8 + tDataSize t))))
      (zseq (Z.to_nat (mMaxTiles m))) 0 in
  Ok (i32 (40 + s)).

(** An io.Reader as the sequence of chunks it delivers. io.ReadFull (used by binary.Read)
    gathers chunks until it has enough bytes. *)
Fixpoint read_full (fuel : nat) (r : list (list Z)) (n : nat) : res (option (list Z * list (list Z))) :=
  match fuel with
  | O => NoFuel
  | S f =>
      match n with
      | O => Ok (Some ([], r))
      | _ =>
          match r with
          | [] => Ok None (* EOF or ErrUnexpectedEOF *)
          | c :: r' =>
              if Nat.leb (length c) n then
                let* o := read_full f r' (n - length c) in
                match o with
                | Some (b, r'') => Ok (Some (c ++ b, r''))
                | None => Ok None
                end
              else Ok (Some (firstn n c, skipn n c :: r'))
          end
      end
  end.
Definition ReadFull (r : list (list Z)) (n : nat) := read_full (S (length r)) r n.
(** One call of Read(buf) with a zeroed buffer of n bytes: at most one chunk. *)
Definition read_once (r : list (list Z)) (n : nat) : option (list Z * list (list Z)) :=
  match r with
  | [] => None
  | c :: r' =>
      if Nat.leb (length c) n then Some (c ++ repeat 0 (n - length c), r')
      else Some (firstn n c, skipn n c :: r')
  end.

(** detour/mesh.go:92-122: the loop over the tiles; [None] stands for a returned error. *)
Fixpoint decode_tiles (n : nat) (m : NavMesh) (r : list (list Z)) : res (option NavMesh) :=
  match n with
  | O => Ok (Some m)
  | S n' =>
      let* o := ReadFull r 8 in
      match o with
      | None => Ok None
      | Some (b, r) =>
          let* (ref, size) := tileHeader_decode b in
          if (ref =? 0) || (size =? 0) then Ok (Some m)
          else
            let* k := make_len size in
            match read_once r k with
            | None => Ok None
            | Some (data, r) =>
                let* (m, st, _) := AddTile m data ref in
                if negb (Z.land st Failure =? 0) then Ok None
                else decode_tiles n' m r
            end
      end
  end.
(** detour/mesh.go:68-124 Decode *)
Definition Decode (r : list (list Z)) : res (option NavMesh) :=
  let* o := ReadFull r 40 in
  match o with
  | None => Ok None
  | Some (b, r) =>
      let* (magic, version, n, p) := setHeader_decode b in
      if negb (magic =? navMeshSetMagic) then Ok None
      else if negb (version =? navMeshSetVersion) then Ok None
      else
        let* (m, st) := Init p in
        if StatusFailed st then Ok None
        else decode_tiles (Z.to_nat n) m r
  end.
