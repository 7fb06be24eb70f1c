(** The detail mesh of a polygon mesh. *)
From Coq Require Import ZArith List Bool.
From Verif.Base Require Import Res GoNum F32 Num Grid.
From Verif.Model Require Import Geom Raster Compact HeightSearch HeightData Delaunay PolyDetail MeshDetail.
From Verif.Spec Require Import HeightfieldSpec CompactSpec ErodeSpec HeightSpec PolyDetailSpec.
Import ListNotations.
Open Scope Z_scope.

(** ** The polygons *)

(** The entries before the first 65535. *)
Fixpoint upto (l : list Z) : list Z :=
  match l with v :: l => if v =? 65535 then [] else v :: upto l | [] => [] end.
(** The vertex numbers of polygon [i]: in the first half of its 2 nvp entries. *)
Definition polygon (I : DetailInput) (i : Z) : list Z :=
  upto (firstn (Z.to_nat (diNvp I)) (skipn (Z.to_nat (i * diNvp I * 2)) (diPolys I))).
Definition coord (I : DetailInput) (k p : Z) : Z := nth (Z.to_nat (3 * p + k)) (diVerts I) 0.
(** A vertex of the mesh, from the corner of the mesh. *)
Definition corner (I : DetailInput) (p : Z) : vec f32 :=
  (fmul (f_of_Z (coord I 0 p)) (diCs I), fmul (f_of_Z (coord I 1 p)) (diCh I), fmul (f_of_Z (coord I 2 p)) (diCs I)).
(** From and to, along one axis, of the vertices and one cell around, in a field of [size] cells. *)
Definition span_from (size : Z) (xs : list Z) : Z := Z.max 0 (fold_left Z.min xs size - 1).
Definition span_to (size : Z) (xs : list Z) : Z := Z.min size (fold_left Z.max xs 0 + 1).
(** The patch of heights of polygon [i]. *)
Definition patch_of (I : DetailInput) (i : Z) (data : list Z) : HeightPatch :=
  let xs := map (coord I 0) (polygon I i) in
  let zs := map (coord I 2) (polygon I i) in
  let x0 := span_from (chf_w (diChf I)) xs in
  let z0 := span_from (chf_h (diChf I)) zs in
  mkPatch data x0 z0 (span_to (chf_w (diChf I)) xs - x0) (span_to (chf_h (diChf I)) zs - z0).
Definition flat (l : list (vec f32)) : list f32 := flat_map (fun v => [vx v; vy v; vz v]) l.
Definition heights_of (I : DetailInput) (hp : HeightPatch) : Heights :=
  mkHeights (diChfCs I) (diChfCh I) (Z.max 1 (f_ceil_i32 (diMaxEdgeError I))) hp.

(** The mesh is well formed and lies in the field; sample distance [sd]. *)
Record detail_ok (I : DetailInput) (sd : f32) : Prop := {
  do_chf : chf_wf (diChf I);
  do_unset : forall i s, get (chf_spans (diChf I)) i = Ok s -> 0 <= csY s < 65535;
  do_size : 0 < chf_w (diChf I) /\ 0 < chf_h (diChf I) /\ chf_w (diChf I) * chf_h (diChf I) <= 1073741824;
  do_border : 0 <= diBorder I;
  do_counts : 0 < diNVerts I /\ 0 < diNPolys I /\ 3 <= diNvp I <= 126;
  do_polys : diNPolys I * diNvp I * 2 <= zlen (diPolys I);
  do_regs : diNPolys I <= zlen (diRegs I);
  do_u16 : forall i p k, 0 <= i < diNPolys I -> In p (polygon I i) -> 0 <= k <= 2 -> 0 <= coord I k p < 65536;
  do_three : forall i, 0 <= i < diNPolys I -> 3 <= zlen (polygon I i);
  (* vertex numbers whose triple fits in 16 bits *)
  do_verts : forall i p, 0 <= i < diNPolys I -> In p (polygon I i) -> 0 <= p <= 21844 /\ 3 * p + 3 <= zlen (diVerts I) /\
    coord I 0 p <= chf_w (diChf I) - 2 * diBorder I /\ coord I 2 p <= chf_h (diChf I) - 2 * diBorder I;
  do_radius : f_ceil_i32 (diMaxEdgeError I) <= 23169;
  do_sample : fgt sd f0 = true;
  do_steps : forall i p q, 0 <= i < diNPolys I -> In p (polygon I i) -> In q (polygon I i) -> 0 <= steps sd (corner I p) (corner I q) < 2147483647 }.

(** ** A sub-mesh *)
Definition shift (d v : vec f32) : vec f32 := (fadd (vx v) (vx d), fadd (vy v) (vy d), fadd (vz v) (vz d)).
(** The offset of the vertices. *)
Definition offset (I : DetailInput) : vec f32 := (vx (diBMin I), fadd (vy (diBMin I)) (diChfCh I), vz (diBMin I)).

(** The heights found for a polygon (see C76). *)
Definition heights_found (I : DetailInput) (i : Z) (hp : HeightPatch) (reg : Z) (data : list Z) : Prop :=
  exists own,
    (reg <> 0 /\ (exists p, lowest (diChf I) (diBorder I) hp reg p) /\
     heights (diChf I) (diBorder I) hp (lowest (diChf I) (diBorder I) hp reg) own data) \/
    (exists q, (reg <> 0 -> forall p, ~ lowest (diChf I) (diBorder I) hp reg p) /\
     central (diChf I) (polygon I i) (diVerts I) (diBorder I) hp (mean (polygon I i) (diVerts I) 0) (mean (polygon I i) (diVerts I) 2) q /\
     heights (diChf I) (diBorder I) hp (eq q) own data).

(** No heights can be found: no span of the region in the patch, and no span near a vertex. *)
Definition heights_lost (I : DetailInput) (i : Z) (hp : HeightPatch) (reg : Z) : Prop :=
  (reg <> 0 -> forall p, ~ lowest (diChf I) (diBorder I) hp reg p) /\
  (forall x y k d, near (diChf I) (polygon I i) (diVerts I) (diBorder I) hp x y k d -> 65535 <= d).

(** The vertices [fst sub] and triangles [snd sub] (with flags) of polygon [i]: those of its detail mesh
    over the heights found for it, moved to the place of the mesh. *)
Definition submesh (I : DetailInput) (sd err : f32) (i : Z) (sub : list (vec f32) * list (Z * Z * Z * Z)) : Prop :=
  exists data0 data room room' n ts reg,
    get (diRegs I) i = Ok reg /\ patch_ok (diChf I) (diBorder I) (patch_of I i data0) /\ zlen room = 768 /\
    heights_found I i (patch_of I i data0) reg data /\
    buildPolyDetail (heights_of I (patch_of I i data)) (flat (map (corner I) (polygon I i))) (zlen (polygon I i)) sd err room = Ok (room', n, ts) /\
    fst sub = map (fun j => shift (offset I) (pos room' j)) (zseq (Z.to_nat n)) /\
    snd sub = map (fun '(a, b, c) => (a, b, c,
      let at_ := fun k => shift (offset I) (pos room' k) in
      getTriFlags (at_ a) (at_ b) (at_ c) (map (fun p => shift (diBMin I) (corner I p)) (polygon I i)))) ts.
(** What makes the detail mesh of polygon [i] panic: no heights, or a panic of buildPolyDetail (see C77). *)
Definition submesh_panics (I : DetailInput) (sd err : f32) (i : Z) : Prop :=
  exists data0 reg, get (diRegs I) i = Ok reg /\ patch_ok (diChf I) (diBorder I) (patch_of I i data0) /\
    (heights_lost I i (patch_of I i data0) reg \/
     exists data room, heights_found I i (patch_of I i data0) reg data /\ zlen room = 768 /\
       buildPolyDetail (heights_of I (patch_of I i data)) (flat (map (corner I) (polygon I i))) (zlen (polygon I i)) sd err room = Panic).
(** Sizes and numbers: the first vertices are those of the polygon, all fit in bytes. *)
Definition submesh_sane (I : DetailInput) (i : Z) (sub : list (vec f32) * list (Z * Z * Z * Z)) : Prop :=
  zlen (polygon I i) <= zlen (fst sub) <= 127 /\ zlen (snd sub) <= 255 /\
  (forall k p, nth_error (polygon I i) k = Some p -> nth_error (fst sub) k = Some (shift (offset I) (corner I p))) /\
  (forall a b c f, In (a, b, c, f) (snd sub) -> 0 <= a < zlen (fst sub) /\ 0 <= b < zlen (fst sub) /\ 0 <= c < zlen (fst sub)).

(** ** All of them, one after the other *)
Fixpoint offsets (nv nt : Z) (subs : list (list (vec f32) * list (Z * Z * Z * Z))) : list (Z * Z * Z * Z) :=
  match subs with
  | [] => []
  | (v, t) :: subs => (nv, zlen v, nt, zlen t) :: offsets (nv + zlen v) (nt + zlen t) subs
  end.
Definition packed (dm : DetailMesh) (subs : list (list (vec f32) * list (Z * Z * Z * Z))) : Prop :=
  dmMeshes dm = offsets 0 0 subs /\
  dmNVerts dm = zlen (concat (map fst subs)) /\
  firstn (Z.to_nat (3 * dmNVerts dm)) (dmVerts dm) = flat (concat (map fst subs)) /\
  dmNTris dm = zlen (concat (map snd subs)) /\
  firstn (Z.to_nat (4 * dmNTris dm)) (dmTris dm) = flat_map (fun '(a, b, c, f) => [a; b; c; f]) (concat (map snd subs)).
