(** Specification of dividing a polygon by an axis-aligned plane. *)
From Coq Require Import ZArith QArith List.
From Verif.Base Require Import Res GoNum.
Import ListNotations.
Open Scope Z_scope.

Definition coord {T} (axis : Z) (p : T * T * T) : T :=
  if axis =? 0 then fst (fst p) else if axis =? 1 then snd (fst p) else snd p.
(** The array holds the vertices [P] from index [o] on. *)
Definition holds {T} (mem : list T) (o : Z) (P : list (T * T * T)) : Prop :=
  forall i p, nth_error P i = Some p -> forall k, 0 <= k <= 2 -> get mem (o + Z.of_nat i * 3 + k) = Ok (coord k p).
(** The two ranges of indices do not overlap. *)
Definition apart (a la b lb : Z) : Prop := a + la <= b \/ b + lb <= a.

(** Edges of the closed polygon, each from the previous vertex to the next. *)
Fixpoint edges_from {A} (p : A) (l : list A) : list (A * A) :=
  match l with [] => [] | q :: l => (p, q) :: edges_from q l end.
Definition edges {A} (P : list A) : list (A * A) := match P with [] => [] | p :: _ => edges_from (last P p) P end.

Open Scope Q_scope.
Definition qv : Type := Q * Q * Q.
(** Twice the signed area of the projection to the coordinates [a] and [b]. *)
Definition qcross (a b : Z) (p q : qv) : Q := coord a p * coord b q - coord a q * coord b p.
Definition qarea (a b : Z) (P : list qv) : Q := fold_right Qplus 0 (map (fun e => qcross a b (fst e) (snd e)) (edges P)).
(** [r] is a point of the segment from [p] to [q]. *)
Definition on_edge (p q r : qv) : Prop :=
  exists s, 0 <= s <= 1 /\ forall k, coord k r == coord k p + s * (coord k q - coord k p).
(** How often the boundary leaves the half-space on the lower side of the plane. *)
Definition leaves (axis : Z) (x : Q) (P : list qv) : nat :=
  length (filter (fun e => Qle_bool (coord axis (fst e)) x && negb (Qle_bool (coord axis (snd e)) x))%bool (edges P)).
