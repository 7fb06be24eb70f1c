(** Model of the polygon/tile reference arithmetic of [detour/mesh.go]. *)
From Coq Require Import ZArith Bool.
From Verif.Base Require Import GoNum.
From Verif.Model Require Import Status.
Open Scope Z_scope.

(** math32.NextPow2 (external): the next power of two of a uint32, computed with
    the usual bit smearing; 0 maps to 0 and values above 2^31 wrap to 0. *)
Definition NextPow2 (v : Z) : Z := if v =? 0 then 0 else u32 (2 ^ Z.log2_up v).
(** math32.Ilog2 (external): integer logarithm of a uint32, 0 for 0. *)
Definition Ilog2 (v : Z) : Z := Z.log2 v.

(** The bit widths kept in NavMesh (detour/mesh.go:52-56: saltBits, tileBits, polyBits uint32). *)
Record IdBits := mkIdBits { saltBits : Z; tileBits : Z; polyBits : Z }.

(** detour/mesh.go:267-276, the ID generator part of NavMesh.Init; [32-tileBits-polyBits]
    is uint32 arithmetic. *)
Definition init_bits (maxTiles maxPolys : Z) : IdBits :=
  let tb := Ilog2 (NextPow2 maxTiles) in
  let pb := Ilog2 (NextPow2 maxPolys) in
  let rest := u32 (32 - tb - pb) in
  mkIdBits (if 31 <? rest then 31 else rest) tb pb.

(** detour/mesh.go:278-283, the status returned by NavMesh.Init. *)
Definition init_status (b : IdBits) : Z :=
  if saltBits b <? 8 then Z.lor Failure InvalidParam else Success.

(** Go shift of a uint32: bits shifted beyond the width are lost. *)
Definition shl32 (x n : Z) : Z := u32 (Z.shiftl x n).

(** detour/mesh.go:662-665 *)
Definition encodePolyID (b : IdBits) (salt it ip : Z) : Z :=
  Z.lor (Z.lor (shl32 salt (u32 (polyBits b + tileBits b))) (shl32 it (polyBits b))) ip.
(** detour/mesh.go:767-770 *)
Definition decodePolyIDTile (b : IdBits) (ref : Z) : Z :=
  Z.land (Z.shiftr ref (polyBits b)) (u32 (shl32 1 (tileBits b) - 1)).
(** detour/mesh.go:775-778 *)
Definition decodePolyIDSalt (b : IdBits) (ref : Z) : Z :=
  Z.land (Z.shiftr ref (u32 (polyBits b + tileBits b))) (u32 (shl32 1 (saltBits b) - 1)).
(** detour/mesh.go:1000-1003 *)
Definition decodePolyIDPoly (b : IdBits) (ref : Z) : Z :=
  Z.land ref (u32 (shl32 1 (polyBits b) - 1)).
(** detour/mesh.go:1128-1136, the three out parameters. *)
Definition DecodePolyID (b : IdBits) (ref : Z) : Z * Z * Z :=
  (decodePolyIDSalt b ref, decodePolyIDTile b ref, decodePolyIDPoly b ref).
