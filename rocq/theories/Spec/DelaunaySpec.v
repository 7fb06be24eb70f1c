(** Triangles over points of the xz-plane (float32), given by a table of edges with the faces on
    their two sides. *)
From Coq Require Import ZArith QArith List Bool.
From Verif.Base Require Import GoNum F32 Num.
From Verif.Model Require Import Geom.
Import ListNotations.
Open Scope Z_scope.

(** Coordinates of point [i] of a buffer of x, y, z triples. *)
Definition px (pts : list f32) (i : Z) : f32 := nth (Z.to_nat (3 * i)) pts f0.
Definition pz (pts : list f32) (i : Z) : f32 := nth (Z.to_nat (3 * i + 2)) pts f0.

(** The float32 cross product of b - a and c - a. *)
Definition turn2 (pts : list f32) (a b c : Z) : f32 :=
  fsub (fmul (fsub (px pts b) (px pts a)) (fsub (pz pts c) (pz pts a)))
       (fmul (fsub (pz pts b) (pz pts a)) (fsub (px pts c) (px pts a))).
(** Point [u] is on the left of the line from a to b: the cross product is above 0.00001. *)
Definition onLeft (pts : list f32) (a b u : Z) : bool :=
  negb (u =? a) && negb (u =? b) && flt (f_ratio 1 100000) (turn2 pts a b u).
(** float32 distance of point [u] from (x, z). *)
Definition dist2 (pts : list f32) (x z : f32) (u : Z) : f32 :=
  fsqrt (fadd (fmul (fsub (px pts u) x) (fsub (px pts u) x)) (fmul (fsub (pz pts u) z) (fsub (pz pts u) z))).

(** The circle through three points in float32: the centre is, relative to the first one,
    (|v|^2 wz - |w|^2 vz, |w|^2 vx - |v|^2 wx) / (2 (vx wz - vz wx)) for the vectors v, w to the other
    two (here with the terms of the first one, which are zero, as the program adds them); for a product
    of 0.000001 or less, the first point with radius 0. *)
Definition circle3 (pts : list f32) (a b c : Z) : f32 * f32 * f32 :=
  let vx := fsub (px pts b) (px pts a) in let vz := fsub (pz pts b) (pz pts a) in
  let wx := fsub (px pts c) (px pts a) in let wz := fsub (pz pts c) (pz pts a) in
  let z := f_of_Z 0 in
  let o := fadd (fmul z z) (fmul z z) in
  let v2 := fadd (fmul vx vx) (fmul vz vz) in
  let w2 := fadd (fmul wx wx) (fmul wz wz) in
  let k := fsub (fmul (fsub vx z) (fsub wz z)) (fmul (fsub vz z) (fsub wx z)) in
  if flt (f_ratio 1 1000000) (fabs k) then
    let cx := fdiv (fadd (fadd (fmul o (fsub vz wz)) (fmul v2 (fsub wz z))) (fmul w2 (fsub z vz))) (fmul (f_of_Z 2) k) in
    let cz := fdiv (fadd (fadd (fmul o (fsub wx vx)) (fmul v2 (fsub z wx))) (fmul w2 (fsub vx z))) (fmul (f_of_Z 2) k) in
    (fadd cx (px pts a), fadd cz (pz pts a),
     fsqrt (fadd (fmul (fsub f0 cx) (fsub f0 cx)) (fmul (fsub f0 cz) (fsub f0 cz))))
  else (px pts a, pz pts a, f0).

(** A circle: centre x, centre z, radius.  A point is outside (inside) it when its distance is more
    (less) than the radius by a thousandth part. *)
Definition outside (pts : list f32) (c : f32 * f32 * f32) (u : Z) : bool :=
  let '(x, z, r) := c in flt (fmul r (fadd f1 (f_ratio 1 1000))) (dist2 pts x z u).
Definition inside (pts : list f32) (c : f32 * f32 * f32) (u : Z) : bool :=
  let '(x, z, r) := c in flt (dist2 pts x z u) (fmul r (fsub f1 (f_ratio 1 1000))).

(** The open segments a-b and c-d cross, by the signs of float32 cross products. *)
Definition crosses (pts : list f32) (a b c d : Z) : bool :=
  let a1 := turn2 pts a b d in
  let a2 := turn2 pts a b c in
  let a3 := turn2 pts c d a in
  flt (fmul a1 a2) f0 && flt (fmul a3 (fsub (fadd a3 a2) a1)) f0.
Definition meets (pts : list f32) (a b c d : Z) : bool :=
  negb ((a =? c) || (a =? d) || (b =? c) || (b =? d)) && crosses pts a b c d.

(** The two sides of each edge: from, to, face. *)
Definition sides (E : list (Z * Z * Z * Z)) : list (Z * Z * Z) :=
  flat_map (fun '(s, t, l, r) => [(s, t, l); (t, s, r)]) E.
Definition dirs (E : list (Z * Z * Z * Z)) : list (Z * Z) := map fst (sides E).
(** The sides of the table that carry face [f]. *)
Definition owned (E : list (Z * Z * Z * Z)) (f : Z) : list (Z * Z) :=
  map fst (filter (fun x => snd x =? f) (sides E)).
Definition triSides (t : Z * Z * Z) : list (Z * Z) := let '(a, b, c) := t in [(a, b); (b, c); (c, a)].
(** The sides of a closed polygon. *)
Definition ring (l : list Z) : list (Z * Z) := combine (last l 0 :: removelast l) l.

(** Point [u] is a choice for the third corner of a triangle on the edge from s to t, among the
    points 0 .. n-1; [circle] gives the circle through three of them. *)
Definition fits (circle : Z -> Z -> Z -> f32 * f32 * f32) (pts : list f32) (n : Z) (hull : list Z)
    (E : list (Z * Z * Z * Z)) (s t u : Z) : Prop :=
  0 <= u < n /\ onLeft pts s t u = true /\
  (* a later point on the left is outside the circle, or close to it and behind an edge *)
  (forall v, u < v < n -> onLeft pts s t v = true ->
    outside pts (circle s t u) v = true \/
    inside pts (circle s t u) v = false /\
    exists a b l r, In (a, b, l, r) E /\ (meets pts a b s v = true \/ meets pts a b t v = true)) /\
  (* it is the first point on the left, or it replaced one: it is inside the circle of that point, or
     close to it and in front of the hull *)
  ((forall v, 0 <= v < u -> onLeft pts s t v = false) \/
   exists v, 0 <= v < u /\ onLeft pts s t v = true /\ outside pts (circle s t v) u = false /\
     (inside pts (circle s t v) u = true \/
      forall a b, In (a, b) (ring hull) -> meets pts a b s u = false /\ meets pts a b t u = false)).

(** [E] is a table of edges over the points 0 .. n-1, at most [mx] of them, and [ts] the list of
    the faces, built from the sides of the hull. *)
Record table (circle : Z -> Z -> Z -> f32 * f32 * f32) (pts : list f32) (n mx : Z) (hull : list Z)
    (E : list (Z * Z * Z * Z)) (ts : list (Z * Z * Z)) : Prop := {
  (* no side occurs twice, so no edge does, and no edge joins a point to itself *)
  t_distinct : NoDup (dirs E);
  t_size : zlen E <= mx;
  t_points : forall a b, In (a, b) (dirs E) -> 0 <= a < n /\ 0 <= b < n;
  (* the hull is there, with no face outside *)
  t_hull : forall a b, In (a, b) (ring hull) -> exists r, In (a, b, -2, r) E;
  (* each side has a face, which has this side, or none: then it is a side of the hull or there is
     no point on its left *)
  t_sides : forall a b f, In (a, b, f) (sides E) ->
    (0 <= f /\ exists t, nth_error ts (Z.to_nat f) = Some t /\ In (a, b) (triSides t)) \/
    (f = -2 /\ (In (a, b) (ring hull) \/ forall u, 0 <= u < n -> onLeft pts a b u = false));
  (* the corners of a face are distinct points, and one of them was chosen for the side opposite *)
  t_faces : forall a b c, In (a, b, c) ts -> a <> b /\ b <> c /\ c <> a /\
    0 <= a < n /\ 0 <= b < n /\ 0 <= c < n /\ fits circle pts n hull E a b c;
  t_owned : forall f, 0 <= f < zlen ts -> owned E f <> [];
  (* unless the table is full, all sides of all faces are in it *)
  t_closed : zlen E < mx -> forall t p, In t ts -> In p (triSides t) -> In p (dirs E)
}.

(** Cross product of b - a and c - a, and squared distance, on the xz-plane in exact arithmetic. *)
Definition qcross (a b c : Q * Q * Q) : Q := ((vx b - vx a) * (vz c - vz a) - (vz b - vz a) * (vx c - vx a))%Q.
Definition qdist (a b : Q * Q * Q) : Q := ((vx b - vx a) * (vx b - vx a) + (vz b - vz a) * (vz b - vz a))%Q.
