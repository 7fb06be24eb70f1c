(** The tile made from a polygon mesh and its detail mesh. *)
From Coq Require Import ZArith List Bool.
From Verif.Base Require Import Res GoNum F32 Num Grid.
From Verif.Model Require Import Geom Poly MeshTypes BuildMesh MeshDetail SoloMesh NavData.
From Verif.Spec Require Import SerialSpec MeshOpsSpec.
From Verif.Spec Require BuildSpec MeshDetailSpec.
Import ListNotations.
Open Scope Z_scope.

(** A float32 is given by its bits. *)
Definition float32 (x : f32) : Prop := f_of_bits (bits32 x) = x.

(** Area and flags of a polygon in the tile: walkable (63) becomes ground (0); ground, road (2) and grass (4) can be
    walked, water (1) swum, doors (3) walked and opened; others have no flags. *)
Definition tile_area (a : Z) : Z := if a =? 63 then 0 else a.
Definition tile_flags (a : Z) : Z := match a with 63 | 0 | 2 | 4 => 1 | 1 => 2 | 3 => 5 | _ => 0 end.

(** Connections, complete and in the range of their types, with room for them beside [nv] vertices and [np] polygons
    of a tile from [lo] to [hi]. *)
Record conns_ok (cn : Connections) (nv np : Z) (lo hi : vec f32) : Prop := {
  cn_room : 0 <= cnCount cn /\ nv + 2 * cnCount cn <= 65536 /\ (0 < cnCount cn -> np + cnCount cn <= 65536);
  cn_verts : 6 * cnCount cn <= zlen (cnVerts cn) /\ Forall is_u32 (cnVerts cn);
  cn_rad : cnCount cn <= zlen (cnRad cn) /\ Forall is_u32 (cnRad cn);
  cn_flags : cnCount cn <= zlen (cnFlags cn) /\ Forall is_u16 (cnFlags cn);
  cn_areas : cnCount cn <= zlen (cnAreas cn) /\ Forall is_u8 (cnAreas cn);
  cn_dir : cnCount cn <= zlen (cnDir cn);
  cn_id : (cnId cn = [] \/ cnCount cn <= zlen (cnId cn)) /\ Forall is_u32 (cnId cn);
  cn_box : 0 < cnCount cn -> (float32 (vx lo) /\ float32 (vx hi) /\ fle (vx lo) (vx hi) = true) /\
                             (float32 (vz lo) /\ float32 (vz hi) /\ fle (vz lo) (vz hi) = true) }.

(** The inner corners of a field with a border of [bs] cells. *)
Definition low_corner (bs : Z) (cs : f32) (b : vec f32) : vec f32 :=
  if bs =? 0 then b else (fadd (vx b) (fmul (f_of_Z bs) cs), vy b, fadd (vz b) (fmul (f_of_Z bs) cs)).
Definition high_corner (bs : Z) (cs : f32) (b : vec f32) : vec f32 :=
  if bs =? 0 then b else (fsub (vx b) (fmul (f_of_Z bs) cs), vy b, fsub (vz b) (fmul (f_of_Z bs) cs)).

(** Polygon [i] of the tile has the vertices [l], with area and flags after [ar]; neighbours are stored plus one,
    sides 0 to 3 of the tile as 4, 2, 0, 6 above 32768, and 0 stands for none. [e j] is entry j of the mesh. *)
Definition stored_nei (e : Z) : Z :=
  if e =? 65535 then 0 else if e <? 32768 then e + 1 else 32768 + nth (Z.to_nat (e - 32768)) [4; 2; 0; 6] 0.
Definition tile_polygon (P : Poly) (l : list Z) (ar : Z) (e : Z -> Z) : Prop :=
  pVertCount P = zlen l /\ firstn (length l) (pVerts P) = l /\ firstn (length l) (pNeis P) = map (fun j => stored_nei (e j)) (zseq (length l)) /\
  pAreaAndType P = tile_area ar mod 64 /\ pFlags P = tile_flags ar.
(** Detail [d] of a polygon with the vertices [l]: the other vertices of its sub-mesh, and the triangles. *)
Definition tile_detail (t : TileData) (d : PolyDetail) (l : list Z) (sub : list (vec f32) * list (Z * Z * Z * Z)) : Prop :=
  dVertCount d = zlen (fst sub) - zlen l /\ dTriCount d = zlen (snd sub) /\
  firstn (Z.to_nat (3 * dVertCount d)) (skipn (Z.to_nat (3 * dVertBase d)) (tdDVerts t)) = map bits32 (MeshDetailSpec.flat (skipn (length l) (fst sub))) /\
  firstn (Z.to_nat (4 * dTriCount d)) (skipn (Z.to_nat (4 * dTriBase d)) (tdDTris t)) = flat_map (fun '(a, b, c, f) => [a; b; c; f]) (snd sub).
(** The tile [t] has the polygons [Q] first, with the neighbours in the table [ps] ([nvp] places), and their sub-meshes [subs]. *)
Definition tile_polys (t : TileData) (nvp : Z) (ps : list Z) (Q : list (list Z * (Z * Z))) (subs : list (list (vec f32) * list (Z * Z * Z * Z))) : Prop :=
  (forall i l r ar, nth_error Q i = Some (l, (r, ar)) ->
   exists P, nth_error (tdPolys t) i = Some P /\ tile_polygon P l ar (fun j => nth (Z.to_nat (BuildSpec.nslot nvp (Z.of_nat i) j)) ps 0)) /\
  (forall i q sub, nth_error Q i = Some q -> nth_error subs i = Some sub ->
   exists d, nth_error (tdDMeshes t) i = Some d /\ tile_detail t d (fst q) sub).
(** With corner [lo] and cells of size [cs], height [ch], it holds the vertices [V] in world units, and nothing else. *)
Definition tile_holds (t : TileData) (lo : vec f32) (cs ch : f32) (V : list vert) (Q : list (list Z * (Z * Z))) : Prop :=
  (length (tdVerts t) = 3 * length V /\ length (tdPolys t) = length Q /\ length (tdDMeshes t) = length Q)%nat /\ tdCons t = [] /\
  (float32 (vx lo) -> float32 (vy lo) -> float32 (vz lo) -> float32 cs -> float32 ch ->
   forall i x y z, nth_error V i = Some (x, y, z) ->
   firstn 3 (skipn (3 * i) (tdVerts t)) = map bits_of_f [fadd (vx lo) (fmul (f_of_Z x) cs); fadd (vy lo) (fmul (f_of_Z y) ch); fadd (vz lo) (fmul (f_of_Z z) cs)]).
(** Connection [k] starts between the corners [lo] and [hi] (seen from above). *)
Definition starts_inside (cn : Connections) (lo hi : vec f32) (k : Z) : Prop :=
  let x := f_of_bits (nth (Z.to_nat (6 * k)) (cnVerts cn) 0) in let z := f_of_bits (nth (Z.to_nat (6 * k + 2)) (cnVerts cn) 0) in
  flt x (vx lo) = false /\ fge x (vx hi) = false /\ flt z (vz lo) = false /\ fge z (vz hi) = false.
(** After [nv] vertices and [np] polygons, the tile has the connections [ks]: each a polygon of two vertices with its
    area and flags, and an entry with its ends, radius and number. *)
Definition tile_conns (t : TileData) (cn : Connections) (nv np : nat) (ks : list Z) : Prop :=
  (length (tdPolys t) = np + length ks /\ length (tdCons t) = length ks)%nat /\
  forall n k, nth_error ks n = Some k -> let at_ l := nth (Z.to_nat k) l 0 in
    (exists P, nth_error (tdPolys t) (np + n) = Some P /\ pVertCount P = 2 /\ firstn 2 (pVerts P) = [Z.of_nat (nv + 2 * n); Z.of_nat (nv + 2 * n + 1)] /\
       pFlags P = at_ (cnFlags cn) /\ pAreaAndType P = 64 + at_ (cnAreas cn) mod 64) /\
    (exists c, nth_error (tdCons t) n = Some c /\ ocPos c = firstn 6 (skipn (Z.to_nat (6 * k)) (cnVerts cn)) /\ ocRad c = at_ (cnRad cn) /\
       ocPoly c = Z.of_nat (np + n) /\ ocUserID c = at_ (cnId cn)).
(** Its header: place, counts, agent and corners; two nodes of the tree for a polygon. *)
Definition header_holds (hd : MeshHeader) (ag : Agent) (tx ty : Z) (lo hi : vec f32) (V : list vert) (Q : list (list Z * (Z * Z)))
    (subs : list (list (vec f32) * list (Z * Z * Z * Z))) : Prop :=
  hX hd = tx /\ hY hd = ty /\ hLayer hd = 0 /\ hOffMeshBase hd = zlen Q /\ hPolyCount hd = zlen Q + hOffMeshConCount hd /\ hVertCount hd = zlen V + 2 * hOffMeshConCount hd /\
  hDetailMeshCount hd = zlen Q /\ hDetailVertCount hd = zlen (concat (map fst subs)) - zlen (concat (map fst Q)) /\ hDetailTriCount hd = zlen (concat (map snd subs)) /\ hBvNodeCount hd = 2 * zlen Q /\
  (hWalkableHeight hd, hWalkableRadius hd, hWalkableClimb hd) = (bits32 (agHeight ag), bits32 (agRadius ag), bits32 (agClimb ag)) /\
  hBMin hd = vecBits lo /\ hBMax hd = vecBits hi.
