(** From the regions of a field to polygons with details. *)
From Coq Require Import ZArith List Bool.
From Verif.Base Require Import Res GoNum F32 Num.
From Verif.Model Require Import Geom Raster Heightfield Compact HeightSearch Contour PolyMeshOps PolyDetail MeshDetail SoloMesh.
From Verif.Spec Require Import HeightfieldSpec CompactSpec ErodeSpec RegionSpec TraceSpec MeshOpsSpec PolyDetailSpec MeshDetailSpec.
Import ListNotations.
Open Scope Z_scope.

(** Heights are below the mark for an unset one, areas are bytes. *)
Definition heights_in (chf : CompactHeightfield) : Prop := forall i y, has_height chf i y -> 0 <= y < 65535.
Definition areas_in (chf : CompactHeightfield) : Prop := forall i a, get (chf_areas chf) i = Ok a -> 0 <= a <= 255.
(** A field as BuildCompactHeightfield makes it. *)
Record field_ok (chf : CompactHeightfield) : Prop := {
  fo_wf : chf_wf chf;
  fo_mutual : mutual chf;
  fo_heights : heights_in chf;
  fo_areas : areas_in chf;
  fo_count : chf_spanCount chf < 2 ^ 31 }.
(** The same field with other areas. *)
Definition with_areas (chf : CompactHeightfield) (areas : list Z) : CompactHeightfield :=
  mkCHF (chf_w chf) (chf_h chf) (chf_spanCount chf) (chf_wh chf) (chf_climb chf) (chf_cells chf) (chf_spans chf) areas.

(** Proper regions keep out of the border of [bs] cells. *)
Definition inner (chf : CompactHeightfield) (bs : Z) : Prop := forall x y i,
  span_at chf x y i -> proper_region chf i -> interior chf bs x y.
(** No border regions. *)
Definition borderless (chf : CompactHeightfield) : Prop := forall i r, has_region chf i r -> r < 32768.

(** The point (x, z) of the grid is one of the four corners of a cell with a span of the region [r]. *)
Definition corner_of (chf : CompactHeightfield) (r x z : Z) : Prop :=
  exists cx cz i, span_at chf cx cz i /\ has_region chf i r /\ cx <= x <= cx + 1 /\ cz <= z <= cz + 1.

(** All vertices of a polygon with a region are at corners of that region. *)
Definition fits (chf : CompactHeightfield) (bs : Z) (V : list vert) (q : list Z * (Z * Z)) : Prop :=
  fst (snd q) = 0 \/ forall v, In v (fst q) -> 0 <= v /\ exists x y z, nth_error V (Z.to_nat v) = Some (x, y, z) /\ corner_of chf (fst (snd q)) (x + bs) (z + bs).

(** A contour: at least three vertices, all at corners of its region, with heights of the field. *)
Record contour_ok (chf : CompactHeightfield) (bs : Z) (c : Contour) : Prop := {
  co_three : (3 <= length (ctVerts c))%nat;
  co_region : 0 < ctReg c < 32768;
  co_area : exists i, has_region chf i (ctReg c) /\ get (chf_areas chf) i = Ok (ctArea c);
  co_verts : forall v, In v (ctVerts c) -> corner_of chf (ctReg c) (vX v + bs) (vZ v + bs) /\ exists i, has_height chf i (vY v) }.

(** The lengths of sides, in samples, fit in an int32: for any two points of the grid at heights of the field. *)
Definition countable (chf : CompactHeightfield) (cs ch sd : f32) : Prop := forall x y z x' y' z' i i',
  0 <= x <= chf_w chf -> 0 <= x' <= chf_w chf -> 0 <= z <= chf_h chf -> 0 <= z' <= chf_h chf ->
  has_height chf i y -> has_height chf i' y' ->
  0 <= steps sd (fmul (f_of_Z x) cs, fmul (f_of_Z y) ch, fmul (f_of_Z z) cs) (fmul (f_of_Z x') cs, fmul (f_of_Z y') ch, fmul (f_of_Z z') cs) < 2147483647.

(** The detail mesh of polygon [i] panics although its heights were found: a panic of buildPolyDetail (see C77). *)
Definition detail_panics (I : DetailInput) (sd err : f32) (i : Z) : Prop :=
  exists data0 reg data room, get (diRegs I) i = Ok reg /\ heights_found I i (patch_of I i data0) reg data /\ zlen room = 768 /\
    buildPolyDetail (heights_of I (patch_of I i data)) (flat (map (corner I) (polygon I i))) (zlen (polygon I i)) sd err room = Panic.

(** Sizes the code can handle. *)
Record config_ok (cf : Config) (chf : CompactHeightfield) : Prop := {
  cg_border : 0 <= cfBorder cf;
  cg_nvp : 3 <= cfNvp cf <= 126;
  cg_w : chf_w chf <= 65535; cg_h : chf_h chf <= 65535; cg_area : chf_w chf * chf_h chf <= 1073741824;
  cg_radius : f_ceil_i32 (cfMaxError cf) <= 23169;
  cg_sample : fgt (cfSampleDist cf) f0 = true;
  cg_steps : countable chf (cfCs cf) (cfCh cf) (cfSampleDist cf) }.
(** Few enough spans begin a run (see C48): below the size of the grid in each row, and 32760 in all. *)
Definition few_runs (chf : CompactHeightfield) (bs : Z) : Prop :=
  (forall y, at_most (Z.max (chf_w chf) (chf_h chf) - 1) (fun i => exists x, run_start chf bs x y i)) /\
  at_most 32760 (fun i => exists x y, run_start chf bs x y i).
