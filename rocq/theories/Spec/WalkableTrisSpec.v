(** Triangles and slopes. *)
From Coq Require Import ZArith List Bool.
From Verif.Base Require Import Res GoNum F32 Num Grid.
From Verif.Model Require Import Geom Raster.
From Verif.Spec Require Import PolyDetailSpec.
Import ListNotations.
Open Scope Z_scope.

(** Corner k of triangle i. *)
Definition tri_corner (verts : list f32) (tris : list Z) (i k : Z) : vec f32 :=
  pos verts (nth (Z.to_nat (3 * i + k)) tris 0).
(** Every triangle has three corners among the vertices. *)
Definition tris_ok (verts : list f32) (tris : list Z) (nt : Z) : Prop :=
  0 <= nt < 600000000 /\ 3 * nt <= zlen tris /\ forall v, In v tris -> 0 <= v < 600000000 /\ 3 * v + 3 <= zlen verts.
(** The upward component of the unit normal of a triangle, (v1 - v0) x (v2 - v0) over its length. *)
Definition up (v0 v1 v2 : vec f32) : f32 :=
  let d := fun c : vec f32 -> f32 => fun v : vec f32 => fsub (c v) (c v0) in
  let nx := fsub (fmul (d vy v1) (d vz v2)) (fmul (d vz v1) (d vy v2)) in
  let ny := fsub (fmul (d vz v1) (d vx v2)) (fmul (d vx v1) (d vz v2)) in
  let nz := fsub (fmul (d vx v1) (d vy v2)) (fmul (d vy v1) (d vx v2)) in
  fmul ny (fdiv f1 (fsqrt (fadd (fadd (fmul nx nx) (fmul ny ny)) (fmul nz nz)))).
Definition tri_up (verts : list f32) (tris : list Z) (i : Z) : f32 :=
  up (tri_corner verts tris i 0) (tri_corner verts tris i 1) (tri_corner verts tris i 2).

(** Finite: neither NaN nor infinite. *)
Definition finite32 (a : f32) : Prop := match a with S754_zero _ | S754_finite _ _ _ => True | _ => False end.
Definition finite_vec (v : vec f32) : Prop := finite32 (vx v) /\ finite32 (vy v) /\ finite32 (vz v).
