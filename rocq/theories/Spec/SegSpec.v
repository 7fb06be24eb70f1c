(** Segments and polygons on the xz-plane (and in space) in exact arithmetic. *)
From Coq Require Import QArith List.
Import ListNotations.
Open Scope Q_scope.

Definition qvec : Type := Q * Q * Q.
Definition X (v : qvec) : Q := fst (fst v).
Definition Y (v : qvec) : Q := snd (fst v).
Definition Zc (v : qvec) : Q := snd v.

(** The point at parameter t of the segment from p to q. *)
Definition point_at (p q : qvec) (t : Q) : qvec :=
  (X p + t * (X q - X p), Y p + t * (Y q - Y p), Zc p + t * (Zc q - Zc p)).
(** Squared distances on the xz-plane and in space. *)
Definition dist2 (a b : qvec) : Q :=
  (X a - X b) * (X a - X b) + (Zc a - Zc b) * (Zc a - Zc b).
Definition dist3 (a b : qvec) : Q :=
  (X a - X b) * (X a - X b) + (Y a - Y b) * (Y a - Y b) + (Zc a - Zc b) * (Zc a - Zc b).

(** [t] is the parameter, and [d] the squared distance, of the point of the segment closest
    to [a]. *)
Definition closest (dist : qvec -> qvec -> Q) (a p q : qvec) (d t : Q) : Prop :=
  0 <= t <= 1 /\ d == dist a (point_at p q t) /\
  forall s, 0 <= s <= 1 -> d <= dist a (point_at p q s).

(** [a] is on the inner side of the edge from u to v, or on it. *)
Definition side (u v a : qvec) : Q :=
  (Zc v - Zc u) * (X a - X u) - (X v - X u) * (Zc a - Zc u).
(** The edges of a polygon: from each vertex to the next, and from the last to the first. *)
Definition poly_edges (vs : list qvec) : list (qvec * qvec) :=
  match vs with [] => [] | v :: tl => combine vs (tl ++ [v]) end.
Definition inside (vs : list qvec) (a : qvec) : Prop :=
  forall u v, In (u, v) (poly_edges vs) -> 0 <= side u v a.

(** No edge is nearly (but not exactly) parallel to the direction from p to q: the code
    treats cross products below 1e-8 as 0. *)
Definition cross (p q u v : qvec) : Q :=
  (Zc q - Zc p) * (X v - X u) - (X q - X p) * (Zc v - Zc u).
Definition not_nearly_parallel (p q : qvec) (vs : list qvec) : Prop :=
  forall u v, In (u, v) (poly_edges vs) ->
    cross p q u v == 0 \/ 1 # 100000000 <= cross p q u v \/ cross p q u v <= - (1 # 100000000).
