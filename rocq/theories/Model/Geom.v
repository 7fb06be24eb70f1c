(** Computational geometry of [detour/common.go], over a record of number operations. The
    helpers of the external package gogeo/f32/d3 (Vec3.Sub, Add, Dot2D, Perp2D, Lerp, ...)
    are written out as documented there. *)
From Coq Require Import ZArith Bool List.
From Verif.Base Require Import Num.
Import ListNotations.
Open Scope Z_scope.

Section Geom.
Context {T : Type} (N : Num T).
Local Notation "a + b" := (nadd N a b).
Local Notation "a - b" := (nsub N a b).
Local Notation "a * b" := (nmul N a b).
Local Notation "a / b" := (ndiv N a b).
Local Notation "a <? b" := (nlt N a b).
Local Notation "a <=? b" := (nle N a b).
Local Notation "0" := (nZ N 0%Z).
Local Notation "1" := (nZ N 1%Z).

Definition vec : Type := T * T * T.
Definition vx (v : vec) : T := let '(x, _, _) := v in x.
Definition vy (v : vec) : T := let '(_, y, _) := v in y.
Definition vz (v : vec) : T := let '(_, _, z) := v in z.

(** d3.Vec3.Add / Sub / Scale / Dot2D / Perp2D / Lerp / LenSqr / Dist2DSqr *)
Definition vadd (a b : vec) : vec := (vx a + vx b, vy a + vy b, vz a + vz b).
Definition vsub (a b : vec) : vec := (vx a - vx b, vy a - vy b, vz a - vz b).
Definition vdot2D (u v : vec) : T := vx u * vx v + vz u * vz v.
Definition vperp2D (u v : vec) : T := vz u * vx v - vx u * vz v.
Definition vlerp (a b : vec) (t : T) : vec :=
  (vx a + (vx b - vx a) * t, vy a + (vy b - vy a) * t, vz a + (vz b - vz a) * t).
Definition vlenSqr (v : vec) : T := vx v * vx v + vy v * vy v + vz v * vz v.

(** detour/common.go:18-24 *)
Definition TriArea2D (a b c : vec) : T :=
  let abx := vx b - vx a in
  let abz := vz b - vz a in
  let acx := vx c - vx a in
  let acz := vz c - vz a in
  acx * abz - abx * acz.

(** detour/common.go:28-38: (hit, s, t). *)
Definition IntersectSegSeg2D (ap aq bp bq : vec) : bool * T * T :=
  let u := vsub aq ap in
  let v := vsub bq bp in
  let w := vsub ap bp in
  let d := vperp2D u v in
  if nabs N d <? nratio N 1 1000000 then (false, 0, 0)
  else (true, vperp2D v w / d, vperp2D u w / d).

(** detour/common.go:155-173: squared distance and the segment parameter. *)
Definition distancePtSegSqr2D (pt p q : vec) : T * T :=
  let pqx := vx q - vx p in
  let pqz := vz q - vz p in
  let dx := vx pt - vx p in
  let dz := vz pt - vz p in
  let d := pqx * pqx + pqz * pqz in
  let t := pqx * dx + pqz * dz in
  let t := if 0 <? d then t / d else t in
  let t := if t <? 0 then 0 else if 1 <? t then 1 else t in
  let dx := vx p + t * pqx - vx pt in
  let dz := vz p + t * pqz - vz pt in
  (dx * dx + dz * dz, t).

(** The edges of a polygon: edge j goes from vertex j to vertex j+1 (cyclically). *)
Definition edges (vs : list vec) : list (vec * vec) :=
  match vs with [] => [] | v :: tl => combine vs (tl ++ [v]) end.

(** detour/common.go:87-101. The Go loop runs i with j = i-1 (cyclically) and stores into
    ed[j], et[j]; here the list of (ed[j], et[j]) is built per edge and the crossing parity
    is the exclusive or over the edges. *)
Definition crosses (pt vi vj : vec) : bool :=
  xorb (vz pt <? vz vi) (vz pt <? vz vj) &&
  (vx pt <? (vx vj - vx vi) * (vz pt - vz vi) / (vz vj - vz vi) + vx vi).
Definition distancePtPolyEdgesSqr (pt : vec) (vs : list vec) : bool * list (T * T) :=
  (fold_left (fun c '(vj, vi) => if crosses pt vi vj then negb c else c) (edges vs) false,
   map (fun '(vj, vi) => distancePtSegSqr2D pt vj vi) (edges vs)).

(** detour/common.go:175-202: the height when the point is (sloppily) inside. *)
Definition closestHeightPointTriangle (p a b c : vec) : option T :=
  let v0 := vsub c a in
  let v1 := vsub b a in
  let v2 := vsub p a in
  let dot00 := vdot2D v0 v0 in
  let dot01 := vdot2D v0 v1 in
  let dot02 := vdot2D v0 v2 in
  let dot11 := vdot2D v1 v1 in
  let dot12 := vdot2D v1 v2 in
  let invDenom := 1 / (dot00 * dot11 - dot01 * dot01) in
  let u := (dot11 * dot02 - dot01 * dot12) * invDenom in
  let v := (dot00 * dot12 - dot01 * dot02) * invDenom in
  let EPS := nratio N 1 10000 in
  if (nneg N EPS <=? u) && (nneg N EPS <=? v) && (u + v <=? 1 + EPS)
  then Some (vy a + vy v0 * u + vy v1 * v)
  else None.

(** detour/common.go:103-153. One step of the loop over the edges; the state is
    (tmin, tmax, segMin, segMax), [inl] means the function returned false with that state. *)
Record SegPoly := mkSP { spMin : T; spMax : T; spSegMin : Z; spSegMax : Z }.
Definition segPoly_step (p0 dir : vec) (st : SegPoly) (j : Z) (vj vi : vec) : SegPoly + SegPoly :=
  let edge := vsub vi vj in
  let diff := vsub p0 vj in
  let n := vperp2D edge diff in
  let d := vperp2D dir edge in
  if nabs N d <? nratio N 1 100000000 then (if n <? 0 then inl st else inr st)
  else
    let t := n / d in
    if d <? 0 then
      if spMin st <? t then
        let st := mkSP t (spMax st) j (spSegMax st) in
        if spMax st <? t then inl st else inr st
      else inr st
    else
      if t <? spMax st then
        let st := mkSP (spMin st) t (spSegMin st) j in
        if t <? spMin st then inl st else inr st
      else inr st.
Fixpoint segPoly_loop (p0 dir : vec) (st : SegPoly) (l : list (Z * (vec * vec))) : SegPoly * bool :=
  match l with
  | [] => (st, true)
  | (j, (vj, vi)) :: l' =>
      match segPoly_step p0 dir st j vj vi with
      | inl st => (st, false)
      | inr st => segPoly_loop p0 dir st l'
      end
  end.
(** The edges in the order of the Go loop: i = 0 with j = nverts-1 first. *)
Definition edge_order (vs : list vec) : list (Z * (vec * vec)) :=
  match vs with
  | [] => []
  | v0 :: _ =>
      let n := length vs in
      (Z.of_nat n - 1, (last vs v0, v0))%Z ::
      combine (map Z.of_nat (seq 0 (n - 1))) (combine vs (tl vs))
  end.
Definition IntersectSegmentPoly2D (p0 p1 : vec) (vs : list vec) : SegPoly * bool :=
  segPoly_loop p0 (vsub p1 p0) (mkSP 0 1 (-1) (-1)) (edge_order vs).

End Geom.
Arguments vec : clear implicits.
