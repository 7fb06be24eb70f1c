(** recast/recast.go: direction tables and the packed connections of a compact span. *)
From Coq Require Import ZArith List Bool.
From Verif.Base Require Import Res GoNum.
Import ListNotations.
Open Scope Z_scope.

(** recast/recast.go:221-230 *)
Definition xOffset : list Z := [-1; 0; 1; 0].
Definition yOffset : list Z := [0; 1; 0; -1].
Definition dirOffset : list Z := [3; 0; -1; 2; 1].

(** recast/recast.go:265-267 *)
Definition GetDirOffsetX (dir : Z) : res Z := get xOffset (Z.land dir 3).
(** recast/recast.go:277-279 *)
Definition GetDirOffsetY (dir : Z) : res Z := get yOffset (Z.land dir 3).
(** recast/recast.go:289-291 *)
Definition GetDirForOffset (x y : Z) : res Z := get dirOffset (Z.shiftl (y + 1) 1 + x).

(** recast/constants.go:35 *)
Definition notConnected : Z := 63.

(** recast/recast.go:238-242, on the [Con] word of the span. A shift count of 32 or more
    gives 0 in Go; [u32] of the shifted value models that. *)
Definition SetCon (con dir i : Z) : Z :=
  let shift := u32 (dir * 6) in
  Z.lor (Z.lxor con (u32 (Z.shiftl 63 shift))) (u32 (Z.shiftl (u32 (Z.land i 63)) shift)).

(** recast/recast.go:252-255 *)
Definition GetCon (con dir : Z) : Z :=
  let shift := u32 (dir * 6) in
  Z.land (Z.shiftr con shift) 63.
