(** Twice the signed area of a closed polygon on the xz-plane (shoelace formula). *)
From Coq Require Import ZArith List.
Import ListNotations.
Open Scope Z_scope.

Definition cross (p q : Z * Z) : Z := fst p * snd q - fst q * snd p.
(** The sum over the consecutive pairs of an open chain. *)
Fixpoint chain (l : list (Z * Z)) : Z :=
  match l with
  | p :: (q :: _) as t => cross p q + chain t
  | _ => 0
  end.
(** The closed polygon: the chain and the step from the last point to the first. *)
Definition area (l : list (Z * Z)) : Z :=
  match l with [] => 0 | p :: _ => chain l + cross (last l p) p end.
Definition sum (l : list Z) : Z := fold_right Z.add 0 l.
Definition tri_area (t : (Z * Z) * (Z * Z) * (Z * Z)) : Z := let '(a, b, c) := t in area [a; b; c].

(** [cut l t l']: corner [b] of the closed polygon [l] is cut off, giving [l'];
    [t] = (predecessor, b, successor). *)
Definition cut {A} (l : list A) (t : A * A * A) (l' : list A) : Prop :=
  exists u b v a c m, l = u ++ b :: v /\ l' = u ++ v /\ v ++ u = c :: m ++ [a] /\ t = (a, b, c).
(** Cutting off the triangles of a list one after the other. *)
Inductive cuts {A} : list A -> list (A * A * A) -> list A -> Prop :=
| cuts_nil l : cuts l [] l
| cuts_cons l t l1 ts l2 : cut l t l1 -> cuts l1 ts l2 -> cuts l (t :: ts) l2.
(** A triangulation of the closed polygon [l]: cuts until a triangle is left. *)
Definition triangulation {A} (l : list A) (ts : list (A * A * A)) : Prop :=
  exists ts' a b c, ts = ts' ++ [(a, b, c)] /\ cuts l ts' [a; b; c].
