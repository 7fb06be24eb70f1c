(** Specification of the height search: rings around a cell and best heights. *)
From Coq Require Import ZArith List.
From Verif.Base Require Import F32.
From Verif.Model Require Import HeightSearch.
Open Scope Z_scope.

(** Number of the square ring around the centre that a cell belongs to. *)
Definition ring (x z : Z) : Z := Z.max (Z.abs x) (Z.abs z).

(** The cell (x, z) of the patch has height [h] (and is set). *)
Definition has_height (hp : HeightPatch) (x z h : Z) : Prop :=
  0 <= x < hpWidth hp /\ 0 <= z < hpHeight hp /\
  nth_error (hpData hp) (Z.to_nat (x + z * hpWidth hp)) = Some h /\ h <> 65535.

(** Distance of a height to [fy]. *)
Definition dist (fy ch : f32) (h : Z) : f32 := fabs (fsub (fmul (f_of_Z h) ch) fy).
