(** Distances from a point to a segment in recast, and the outcode of an off-mesh end point. *)
From Coq Require Import ZArith Bool List.
From Verif.Base Require Import GoNum F32 Num.
From Verif.Model Require Import Geom.
Open Scope Z_scope.

Section SegDist.
Context {T : Type} (N : Num T).
Local Notation "a + b" := (nadd N a b).
Local Notation "a - b" := (nsub N a b).
Local Notation "a * b" := (nmul N a b).
Local Notation "a / b" := (ndiv N a b).
Local Notation "a <? b" := (nlt N a b).
Local Notation "0" := (nZ N 0%Z).
Local Notation "1" := (nZ N 1%Z).

(** recast/meshdetail.go:117-140 *)
Definition distancePtSeg3Pt (pt p q : vec T) : T :=
  let pqx := vx q - vx p in
  let pqy := vy q - vy p in
  let pqz := vz q - vz p in
  let dx := vx pt - vx p in
  let dy := vy pt - vy p in
  let dz := vz pt - vz p in
  let d := pqx * pqx + pqy * pqy + pqz * pqz in
  let t := pqx * dx + pqy * dy + pqz * dz in
  let t := if 0 <? d then t / d else t in
  let t := if t <? 0 then 0 else if 1 <? t then 1 else t in
  let dx := vx p + t * pqx - vx pt in
  let dy := vy p + t * pqy - vy pt in
  let dz := vz p + t * pqz - vz pt in
  dx * dx + dy * dy + dz * dz.

(** recast/meshdetail.go:142-162 *)
Definition distancePtSeg2d (pt p q : vec T) : T :=
  let pqx := vx q - vx p in
  let pqz := vz q - vz p in
  let dx := vx pt - vx p in
  let dz := vz pt - vz p in
  let d := pqx * pqx + pqz * pqz in
  let t := pqx * dx + pqz * dz in
  let t := if 0 <? d then t / d else t in
  let t := if t <? 0 then 0 else if 1 <? t then 1 else t in
  let dx := vx p + t * pqx - vx pt in
  let dz := vz p + t * pqz - vz pt in
  dx * dx + dz * dz.

(** recast/contour.go:515-535: int32 coordinates, differences wrap. *)
Definition distancePtSeg (x z px pz qx qz : Z) : T :=
  let pqx := nZ N (i32 (qx - px)%Z) in
  let pqz := nZ N (i32 (qz - pz)%Z) in
  let dx := nZ N (i32 (x - px)%Z) in
  let dz := nZ N (i32 (z - pz)%Z) in
  let d := pqx * pqx + pqz * pqz in
  let t := pqx * dx + pqz * dz in
  let t := if 0 <? d then t / d else t in
  let t := if t <? 0 then 0 else if 1 <? t then 1 else t in
  let dx := nZ N px + t * pqx - nZ N x in
  let dz := nZ N pz + t * pqz - nZ N z in
  dx * dx + dz * dz.
End SegDist.

(** detour/navmeshcreate.go:341-385 *)
Definition classifyOffMeshPoint (pt bmin bmax : vec f32) : Z :=
  let oc := 0 in
  let oc := if fge (vx pt) (vx bmax) then Z.lor oc 1 else oc in
  let oc := if fge (vz pt) (vz bmax) then Z.lor oc 2 else oc in
  let oc := if flt (vx pt) (vx bmin) then Z.lor oc 4 else oc in
  let oc := if flt (vz pt) (vz bmin) then Z.lor oc 8 else oc in
  if oc =? 1 then 0 else if oc =? 3 then 1 else if oc =? 2 then 2 else if oc =? 6 then 3
  else if oc =? 4 then 4 else if oc =? 12 then 5 else if oc =? 8 then 6 else if oc =? 9 then 7
  else 255.
