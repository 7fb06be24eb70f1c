(** Points of the integer plane, segments and sides of a line, with rational parameters. *)
From Coq Require Import ZArith QArith.

Definition zpt : Type := (Z * Z)%type.
Definition qpt : Type := (Q * Q)%type.
Definition toQ (p : zpt) : qpt := (inject_Z (fst p), inject_Z (snd p)).

(** The point [a + t (b - a)] of the line through a and b. *)
Definition along (a b : zpt) (t : Q) : qpt :=
  (inject_Z (fst a) + t * (inject_Z (fst b) - inject_Z (fst a)),
   inject_Z (snd a) + t * (inject_Z (snd b) - inject_Z (snd a)))%Q.
Definition same (p q : qpt) : Prop := (fst p == fst q /\ snd p == snd q)%Q.

Definition on_segment (a b : zpt) (p : qpt) : Prop := exists t, (0 <= t <= 1)%Q /\ same p (along a b t).
Definition inside_segment (a b : zpt) (p : qpt) : Prop := exists t, (0 < t < 1)%Q /\ same p (along a b t).

(** [p] is [a], plus a multiple of [b - a], plus [u] times [b - a] turned by a right angle
    (the direction (x, z) is turned to (z, -x)). *)
Definition offset (a b : zpt) (s u : Q) (p : qpt) : Prop :=
  let dx := (inject_Z (fst b) - inject_Z (fst a))%Q in
  let dz := (inject_Z (snd b) - inject_Z (snd a))%Q in
  same p (inject_Z (fst a) + s * dx + u * dz, inject_Z (snd a) + s * dz - u * dx)%Q.

(** The lines through a, b and through c, d are parallel. *)
Definition parallel (a b c d : zpt) : Prop :=
  ((fst b - fst a) * (snd d - snd c) = (fst d - fst c) * (snd b - snd a))%Z.

(** Coordinates small enough for the products of differences to fit in an int32. *)
Definition small (p : zpt) : Prop := (-16383 <= fst p <= 16383 /\ -16383 <= snd p <= 16383)%Z.
