(** Model of [detour/poly.go] (packed area/type byte) and of
    [detour/queryfilter.go] (standard filter). *)
From Coq Require Import ZArith Bool List.
From Verif.Base Require Import Res GoNum F32.
Import ListNotations.
Open Scope Z_scope.

(** detour/structs.go / mesh.go constants: VertsPerPolygon, maxAreas. *)
Definition VertsPerPolygon : Z := 6.
Definition maxAreas : Z := 64.

(** detour/poly.go:5-31, type Poly. *)
Record Poly := mkPoly {
  pFirstLink : Z;            (* uint32 *)
  pVerts : list Z;           (* [6]uint16 *)
  pNeis : list Z;            (* [6]uint16 *)
  pFlags : Z;                (* uint16 *)
  pVertCount : Z;            (* uint8 *)
  pAreaAndType : Z           (* uint8 *)
}.

Definition with_AreaAndType (p : Poly) (b : Z) : Poly :=
  mkPoly (pFirstLink p) (pVerts p) (pNeis p) (pFlags p) (pVertCount p) b.

(** detour/poly.go:33-36 *)
Definition SetArea (p : Poly) (a : Z) : Poly :=
  with_AreaAndType p (Z.lor (Z.land (pAreaAndType p) 192) (Z.land a 63)).
(** detour/poly.go:38-41; the shift is on uint8. *)
Definition SetType (p : Poly) (t : Z) : Poly :=
  with_AreaAndType p (Z.lor (Z.land (pAreaAndType p) 63) (u8 (Z.shiftl t 6))).
(** detour/poly.go:43-46 *)
Definition Area (p : Poly) : Z := Z.land (pAreaAndType p) 63.
(** detour/poly.go:48-51 *)
Definition Type_ (p : Poly) : Z := Z.shiftr (pAreaAndType p) 6.

(** detour/queryfilter.go:63-72, type StandardQueryFilter. *)
Record Filter := mkFilter {
  areaCost : list f32;       (* [64]float32 *)
  includeFlags : Z;          (* uint16 *)
  excludeFlags : Z           (* uint16 *)
}.

(** detour/queryfilter.go:74-84 *)
Definition NewStandardQueryFilter : Filter :=
  mkFilter (repeat f1 64) 65535 0.
(** detour/queryfilter.go:87; indexing a fixed-size array with a bad index panics. *)
Definition AreaCost (qf : Filter) (i : Z) : res f32 := get (areaCost qf) i.
(** detour/queryfilter.go:90 *)
Definition SetAreaCost (qf : Filter) (i : Z) (c : f32) : res Filter :=
  let* l := set (areaCost qf) i c in Ok (mkFilter l (includeFlags qf) (excludeFlags qf)).
(** detour/queryfilter.go:99 *)
Definition SetIncludeFlags (qf : Filter) (flags : Z) : Filter :=
  mkFilter (areaCost qf) flags (excludeFlags qf).
(** detour/queryfilter.go:108 *)
Definition SetExcludeFlags (qf : Filter) (flags : Z) : Filter :=
  mkFilter (areaCost qf) (includeFlags qf) flags.
(** detour/queryfilter.go:116-118; ref and tile are not used by the code. *)
Definition PassFilter (qf : Filter) (p : Poly) : bool :=
  negb (Z.land (pFlags p) (includeFlags qf) =? 0) && (Z.land (pFlags p) (excludeFlags qf) =? 0).

(** d3.Vec3.Dist (gogeo, not in the repository): Euclidean distance computed in
    float32 as sqrt(dx*dx + dy*dy + dz*dz). *)
Definition vdist (a b : f32 * f32 * f32) : f32 :=
  let '(ax, ay, az) := a in
  let '(bx, by_, bz) := b in
  let dx := fsub bx ax in let dy := fsub by_ ay in let dz := fsub bz az in
  fsqrt (fadd (fadd (fmul dx dx) (fmul dy dy)) (fmul dz dz)).

(** detour/queryfilter.go:134-141, Cost; the previous and next polygons are not used. *)
Definition Cost (qf : Filter) (pa pb : f32 * f32 * f32) (cur : Poly) : res f32 :=
  let* c := get (areaCost qf) (Area cur) in Ok (fmul (vdist pa pb) c).
