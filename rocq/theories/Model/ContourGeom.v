(** recast/contour.go:771-849: integer geometry on contours. A point stands for the elements
    0 and 2 of the slice passed in Go (x and z); all arithmetic is int32 and wraps. *)
From Coq Require Import ZArith List Bool.
From Verif.Base Require Import Res GoNum.
Import ListNotations.
Open Scope Z_scope.

Definition pt : Type := Z * Z.

(** recast/contour.go:771-783 *)
Definition prev (i n : Z) : Z := if i - 1 >=? 0 then i - 1 else n - 1.
Definition next (i n : Z) : Z := if i + 1 <? n then i + 1 else 0.

(** recast/contour.go:785-787 *)
Definition area2 (a b c : pt) : Z :=
  i32 (i32 (i32 (fst b - fst a) * i32 (snd c - snd a)) - i32 (i32 (fst c - fst a) * i32 (snd b - snd a))).
(** recast/contour.go:799-809 *)
Definition left (a b c : pt) : bool := area2 a b c <? 0.
Definition leftOn (a b c : pt) : bool := area2 a b c <=? 0.
Definition collinear (a b c : pt) : bool := area2 a b c =? 0.
(** recast/contour.go:814-822, with 793-795 ([xorb] of the library) *)
Definition intersectProp (a b c d : pt) : bool :=
  if collinear a b c || collinear a b d || collinear c d a || collinear c d b then false
  else xorb (left a b c) (left a b d) && xorb (left c d a) (left c d b).
(** recast/contour.go:826-835 *)
Definition between (a b c : pt) : bool :=
  if negb (collinear a b c) then false
  else if negb (fst a =? fst b) then
    ((fst a <=? fst c) && (fst c <=? fst b)) || ((fst a >=? fst c) && (fst c >=? fst b))
  else ((snd a <=? snd c) && (snd c <=? snd b)) || ((snd a >=? snd c) && (snd c >=? snd b)).
(** recast/contour.go:838-845 *)
Definition intersect (a b c d : pt) : bool :=
  intersectProp a b c d ||
  (between a b c || between a b d || between c d a || between c d b).
(** recast/contour.go:847-849 *)
Definition vequal (a b : pt) : bool := (fst a =? fst b) && (snd a =? snd b).
