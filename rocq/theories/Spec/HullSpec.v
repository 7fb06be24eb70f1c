(** Triangles given as quadruples, and triangles up to the corner they start with. *)
From Coq Require Import ZArith List.
Import ListNotations.
Open Scope Z_scope.
(** The same triangle with the same winding, possibly starting at another corner. *)
Definition cyc (t t' : Z * Z * Z) : Prop := let '(a, b, c) := t in t' = (a, b, c) \/ t' = (b, c, a) \/ t' = (c, a, b).
(** Four numbers for each triangle, the last one 0. *)
Definition quads (ts : list (Z * Z * Z)) : list Z := concat (map (fun '(a, b, c) => [a; b; c; 0]) ts).
