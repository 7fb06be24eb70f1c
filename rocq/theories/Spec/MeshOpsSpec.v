(** Specifications for the polygon mesh: welded vertices, merged polygons, shared edges. *)
From Coq Require Import ZArith List Bool.
Import ListNotations.
Open Scope Z_scope.

(** * Welding *)
Definition vert : Type := (Z * Z * Z)%type.
(** The stored vertex [v] may stand for the point [p]: same x and z, and a height that is the
    point's or 1 or 2 more (modulo 2^16). *)
Definition near (v p : vert) : bool :=
  let '(vx, vy, vz) := v in let '(x, y, z) := p in
  (vx =? x) && (vz =? z) && ((vy - y) mod 65536 <=? 2).
(** The newest vertex that may stand for [p]. *)
Definition newest (V : list vert) (p : vert) : option nat :=
  find (fun i => match nth_error V i with Some v => near v p | None => false end) (rev (seq 0 (length V))).
(** Adding the points [ps] one after the other to the vertices [V]: the vertex numbers given
    to the points, and the vertices in the end. *)
Fixpoint welded (V : list vert) (ps : list vert) : list nat * list vert :=
  match ps with
  | [] => ([], V)
  | p :: ps =>
      let '(i, V1) := match newest V p with Some i => (i, V) | None => (length V, V ++ [p]) end in
      let '(is, V2) := welded V1 ps in
      (i :: is, V2)
  end.
Definition flatten (V : list vert) : list Z := flat_map (fun v => let '(x, y, z) := v in [x; y; z]) V.

(** * Polygons *)
(** A polygon with vertices [l] in a table with [nvp] places per polygon. *)
Definition padded (nvp : Z) (l p : list Z) : Prop :=
  (length l <= Z.to_nat nvp)%nat /\ ~ In 65535 l /\ p = l ++ repeat 65535 (Z.to_nat nvp - length l).
(** The vertex number [i] of a closed polygon, counted round and round. *)
Definition cyc (l : list Z) (i : Z) : Z := nth (Z.to_nat (i mod Z.of_nat (length l))) l 0.
(** Every corner turns strictly left (in the orientation of the code: negative determinant). *)
Definition turns_left (pos : Z -> Z * Z) (l : list Z) : Prop :=
  forall i, let a := pos (cyc l i) in let b := pos (cyc l (i + 1)) in let c := pos (cyc l (i + 2)) in
  (fst b - fst a) * (snd c - snd a) - (fst c - fst a) * (snd b - snd a) < 0.
(** Position of a vertex in the flat vertex array. *)
Definition at_xz (verts : list Z) (v : Z) : Z * Z := (nth (Z.to_nat (v * 3)) verts 0, nth (Z.to_nat (v * 3 + 2)) verts 0).

(** * Adjacency *)
(** The polygon table as BuildPolyMesh fills it: per polygon its padded vertices and [nvp]
    empty places for the neighbours. *)
Definition table (nvp : Z) (P : list (list Z)) : list Z :=
  flat_map (fun l => l ++ repeat 65535 (Z.to_nat nvp - length l) ++ repeat 65535 (Z.to_nat nvp)) P.
(** Edge number [j] of polygon [i] goes from vertex [a] to vertex [b]. *)
Definition goes (P : list (list Z)) (i j a b : Z) : Prop :=
  0 <= i /\ exists l, nth_error P (Z.to_nat i) = Some l /\ 0 <= j < Z.of_nat (length l) /\ cyc l j = a /\ cyc l (j + 1) = b.
