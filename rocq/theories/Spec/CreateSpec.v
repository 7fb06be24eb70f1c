(** What a tile made by CreateNavMeshData has to contain, written section by section as list
    comprehensions over the input (no buffers, no offsets, no running counters). *)
From Coq Require Import ZArith List Bool.
From Verif.Base Require Import GoNum F32 Num Grid.
From Verif.Model Require Import Poly MeshTypes Geom MeshLinks Create.
From Verif.Spec Require Import SerialSpec.
Import ListNotations.
Open Scope Z_scope.

Definition elt (l : list Z) (i : Z) : Z := nth (Z.to_nat i) l 0.
Definition part {A} (l : list A) (off n : Z) : list A := firstn (Z.to_nat n) (skipn (Z.to_nat off) l).
Definition upto (n : Z) : list Z := zseq (Z.to_nat n).
Definition sum_up (l : list Z) : Z := fold_right Z.add 0 l.

(** ** Polygons *)
(** The vertices of a row end at the first 0xffff. *)
Fixpoint before_null (l : list Z) : list Z :=
  match l with [] => [] | v :: l' => if v =? 65535 then [] else v :: before_null l' end.
Definition verts_of (p : CreateParams) (i : Z) : list Z :=
  before_null (part (nilOr (cpPolys p)) (2 * cpNvp p * i) (cpNvp p)).
Definition edges_of (p : CreateParams) (i : Z) : list Z :=
  part (nilOr (cpPolys p)) (2 * cpNvp p * i + cpNvp p) (zlen (verts_of p i)).
(** Below 0x8000: the neighbour polygon, stored plus one. Otherwise a side of the tile: the low
    four bits give portals to x-, z+, x+, z- (stored as direction 4, 2, 0, 6 of an external link),
    or no neighbour. *)
Definition nei_of (e : Z) : Z :=
  if e <? 32768 then e + 1
  else match e mod 16 with 0 => 32768 + 4 | 1 => 32768 + 2 | 2 => 32768 | 3 => 32768 + 6 | _ => 0 end.
Definition is_portal (e : Z) : bool := (32768 <=? e) && negb (e mod 16 =? 15).
Definition six (l : list Z) : list Z := l ++ repeat 0 (6 - length l).
Definition ground (p : CreateParams) (i : Z) : Poly :=
  mkPoly 0 (six (verts_of p i)) (six (map nei_of (edges_of p i))) (elt (cpPolyFlags p) i) (zlen (verts_of p i))
         (elt (cpPolyAreas p) i mod 64).
(** Mesh vertices in world units. *)
Definition world (p : CreateParams) (i : Z) : list Z :=
  let v := elt (nilOr (cpVerts p)) in
  let '(x, y, z) := fvec_of (cpBMin p) in
  [bits_of_f (fadd x (fmul (f_of_Z (v (3 * i))) (f_of_bits (cpCs p))));
   bits_of_f (fadd y (fmul (f_of_Z (v (3 * i + 1))) (f_of_bits (cpCh p))));
   bits_of_f (fadd z (fmul (f_of_Z (v (3 * i + 2))) (f_of_bits (cpCs p))))].

(** ** Off-mesh connections *)
Definition start_pt (p : CreateParams) (i : Z) : fvec :=
  let v k := f_of_bits (elt (cpOMVerts p) (6 * i + k)) in (v 0, v 1, v 2).
Definition end_pt (p : CreateParams) (i : Z) : fvec :=
  let v k := f_of_bits (elt (cpOMVerts p) (6 * i + k)) in (v 3, v 4, v 5).
Definition ends (p : CreateParams) (i : Z) : list Z := part (cpOMVerts p) (6 * i) 6.
Definition side1 (x lo hi : f32) : comparison := if fge x hi then Gt else if flt x lo then Lt else Eq.
(** The eight directions counted from x+ to z+, and 255 for inside. *)
Definition sector (p : CreateParams) (pt : fvec) : Z :=
  match side1 (vx pt) (vx (fvec_of (cpBMin p))) (vx (fvec_of (cpBMax p))),
        side1 (vz pt) (vz (fvec_of (cpBMin p))) (vz (fvec_of (cpBMax p))) with
  | Gt, Eq => 0 | Gt, Gt => 1 | Eq, Gt => 2 | Lt, Gt => 3 | Lt, Eq => 4 | Lt, Lt => 5 | Eq, Lt => 6 | Gt, Lt => 7
  | Eq, Eq => 255
  end.
(** The heights of the detail vertices, or else of the mesh vertices. *)
Definition heights (p : CreateParams) : list f32 :=
  let mesh := map (fun i => fadd (vy (fvec_of (cpBMin p))) (fmul (f_of_Z (elt (nilOr (cpVerts p)) (3 * i + 1))) (f_of_bits (cpCh p)))) (upto (cpVertCount p)) in
  match cpDVerts p with
  | Some dv => if cpDVertsCount p =? 0 then mesh else map (fun i => f_of_bits (elt dv (3 * i + 1))) (upto (cpDVertsCount p))
  | None => mesh
  end.
Definition hlow (p : CreateParams) : f32 := fsub (fold_left fminf (heights p) maxFloat32) (f_of_bits (cpWalkableClimb p)).
Definition hhigh (p : CreateParams) : f32 := fadd (fold_left fmaxf (heights p) (fopp maxFloat32)) (f_of_bits (cpWalkableClimb p)).
(** A connection is stored in the tile its start point is in. *)
Definition starts_here (p : CreateParams) (i : Z) : bool :=
  (sector p (start_pt p i) =? 255) && negb (flt (vy (start_pt p i)) (hlow p)) && negb (fgt (vy (start_pt p i)) (hhigh p)).
Definition kept (p : CreateParams) : list Z := filter (starts_here p) (upto (cpOMCount p)).
Definition ends_here (p : CreateParams) : list Z := filter (fun i => sector p (end_pt p i) =? 255) (upto (cpOMCount p)).
(** The n-th stored connection is number i of the input. *)
Definition numbered (l : list Z) : list (Z * Z) := combine (zseq (length l)) l.
Definition con_poly (p : CreateParams) (ni : Z * Z) : Poly :=
  let '(n, i) := ni in
  mkPoly 0 (six [cpVertCount p + 2 * n; cpVertCount p + 2 * n + 1]) (six []) (elt (cpOMFlags p) i) 2
         (64 + elt (cpOMAreas p) i mod 64).
Definition con_of (p : CreateParams) (ni : Z * Z) : OffMeshCon :=
  let '(n, i) := ni in
  mkCon (ends p i) (elt (cpOMRad p) i) (cpPolyCount p + n) (if elt (cpOMDir p) i =? 0 then 0 else 1) (sector p (end_pt p i))
        (elt (cpOMUserID p) i).

(** ** Details: of each polygon the vertices after those of the polygon itself. *)
Definition extra (p : CreateParams) (i : Z) : Z := elt (nilOr (cpDMeshes p)) (4 * i + 1) - zlen (verts_of p i).
Definition extra_total (p : CreateParams) (n : Z) : Z := sum_up (map (extra p) (upto n)).
Definition detail_of (p : CreateParams) (i : Z) : PolyDetail :=
  let dm := elt (nilOr (cpDMeshes p)) in mkDetail (extra_total p i) (dm (4 * i + 2)) (extra p i) (dm (4 * i + 3)).
Definition extra_verts (p : CreateParams) (i : Z) : list Z :=
  part (nilOr (cpDVerts p)) (3 * (elt (nilOr (cpDMeshes p)) (4 * i) + zlen (verts_of p i))) (3 * extra p i).

(** ** The whole tile; [bv] are the nodes of the tree. *)
Definition all_edges (p : CreateParams) : list Z := flat_map (edges_of p) (upto (cpPolyCount p)).
(** One link per edge, two more per portal, two per end of a connection inside. *)
Definition link_room (p : CreateParams) : Z :=
  zlen (all_edges p) + 2 * zlen (filter is_portal (all_edges p)) + 2 * (zlen (kept p) + zlen (ends_here p)).
Definition spec_tile (p : CreateParams) (bv : list BvNode) : TileData :=
  mkTD (flat_map (world p) (upto (cpVertCount p)) ++ flat_map (ends p) (kept p))
       (map (ground p) (upto (cpPolyCount p)) ++ map (con_poly p) (numbered (kept p)))
       (repeat zeroLink (Z.to_nat (link_room p)))
       (map (detail_of p) (upto (cpPolyCount p)))
       (flat_map (extra_verts p) (upto (cpPolyCount p)))
       (part (cpDTris p) 0 (4 * cpDTriCount p))
       bv
       (map (con_of p) (numbered (kept p))).
Definition spec_header (p : CreateParams) : MeshHeader :=
  mkHeader navMeshMagic navMeshVersion (cpTileX p) (cpTileY p) (cpTileLayer p) (cpUserID p)
    (cpPolyCount p + zlen (kept p)) (cpVertCount p + 2 * zlen (kept p)) (link_room p)
    (cpPolyCount p) (extra_total p (cpPolyCount p)) (cpDTriCount p) (2 * cpPolyCount p) (zlen (kept p)) (cpPolyCount p)
    (cpWalkableHeight p) (cpWalkableRadius p) (cpWalkableClimb p) (cpBMin p) (cpBMax p)
    (bits_of_f (fdiv f1 (f_of_bits (cpCs p)))).

(** ** Input the function is meant for: the sizes documented in NavMeshCreateParams, detail
    meshes present, and the numbers within the integer types they are stored in. *)
Record sized (p : CreateParams) : Prop := {
  z_nvp : 1 <= cpNvp p <= 6;
  z_vc : 1 <= cpVertCount p < 65535;
  z_pc : 1 <= cpPolyCount p < 67108864;
  z_verts : exists vs, cpVerts p = Some vs /\ 3 * cpVertCount p <= zlen vs;
  z_polys : exists ps, cpPolys p = Some ps /\ 2 * cpNvp p * cpPolyCount p <= zlen ps /\ forall k, 0 <= k < 2 * cpNvp p * cpPolyCount p -> is_u16 (elt ps k);
  z_pflags : cpPolyCount p <= zlen (cpPolyFlags p) /\ Forall is_u16 (cpPolyFlags p);
  z_pareas : cpPolyCount p <= zlen (cpPolyAreas p) /\ Forall is_u8 (cpPolyAreas p);
  z_om : 0 <= cpOMCount p /\ cpVertCount p + 2 * cpOMCount p <= 65536;
  z_ompoly : 0 < cpOMCount p -> cpPolyCount p + cpOMCount p <= 65536;
  z_omverts : 6 * cpOMCount p <= zlen (cpOMVerts p) /\ Forall is_u32 (cpOMVerts p);
  z_omrad : cpOMCount p <= zlen (cpOMRad p) /\ Forall is_u32 (cpOMRad p);
  z_omflags : cpOMCount p <= zlen (cpOMFlags p) /\ Forall is_u16 (cpOMFlags p);
  z_omareas : cpOMCount p <= zlen (cpOMAreas p) /\ Forall is_u8 (cpOMAreas p);
  z_omdir : cpOMCount p <= zlen (cpOMDir p);
  z_omuid : (cpOMUserID p = [] \/ cpOMCount p <= zlen (cpOMUserID p)) /\ Forall is_u32 (cpOMUserID p);
  z_dcount : 0 <= cpDVertsCount p /\ 3 * cpDVertsCount p <= zlen (nilOr (cpDVerts p)) /\ 3 * cpDVertsCount p < 2147483648;
  z_tricount : 0 <= cpDTriCount p /\ 4 * cpDTriCount p <= zlen (cpDTris p) /\ 4 * cpDTriCount p < 2147483648;
  z_dvu32 : Forall is_u32 (nilOr (cpDVerts p));
  z_triu8 : Forall is_u8 (part (cpDTris p) 0 (4 * cpDTriCount p));
  z_scalars : Forall is_i32 [cpTileX p; cpTileY p; cpTileLayer p] /\
              Forall is_u32 [cpUserID p; cpWalkableHeight p; cpWalkableRadius p; cpWalkableClimb p; cpCs p; cpCh p] /\
              u32x3 (cpBMin p) /\ u32x3 (cpBMax p);
  z_box : 0 < cpOMCount p -> fle (vx (fvec_of (cpBMin p))) (vx (fvec_of (cpBMax p))) = true /\
                             fle (vz (fvec_of (cpBMin p))) (vz (fvec_of (cpBMax p))) = true
}.
(** Polygon i: its detail mesh holds its own vertices first, and lies in the detail vertices. *)
Record detailed (p : CreateParams) : Prop := {
  d_some : exists dm, cpDMeshes p = Some dm /\ 4 * cpPolyCount p <= zlen dm /\ Forall is_i32 dm;
  d_each : forall i, 0 <= i < cpPolyCount p ->
    let dm := elt (nilOr (cpDMeshes p)) in
    0 <= dm (4 * i) /\ 1 <= dm (4 * i + 1) /\ zlen (verts_of p i) <= dm (4 * i + 1) <= zlen (verts_of p i) + 255 /\
    3 * (dm (4 * i) + dm (4 * i + 1)) <= zlen (nilOr (cpDVerts p)) /\ 3 * (dm (4 * i) + dm (4 * i + 1)) < 2147483648 /\ 0 <= dm (4 * i + 2) /\ 0 <= dm (4 * i + 3) <= 255;
  d_total : 3 * extra_total p (cpPolyCount p) <= 65535
}.
