(** Specification of the node pool: a list of entries in order of creation, of
    bounded length, with distinct keys. No hashing. *)
From Coq Require Import ZArith Bool List.
From Verif.Base Require Import F32.
Import ListNotations.
Open Scope Z_scope.

(** Key: polygon reference and state. *)
Definition key := (Z * Z)%type.
(** What the search stores with a node: cost, total, parent index, flags. *)
Definition payload := (f32 * f32 * Z * Z)%type.
Definition entry := (key * payload)%type.
Definition fresh : payload := (f0, f0, 0, 0).

Definition key_eqb (a b : key) : bool := (fst a =? fst b) && (snd a =? snd b).

Inductive pool_op :=
| ONode (id state : Z)            (* Node *)
| OFind (id state : Z)            (* FindNode *)
| OFindAll (id : Z) (maxn : nat)  (* FindNodes *)
| OWrite (k : nat) (v : payload)  (* the caller fills in a node it got *)
| ORead (k : nat)                 (* the caller reads a node it got *)
| OClear.

Inductive pool_out :=
| RNode (n : option Z)   (* position of the node in order of creation, or nil *)
| RNodes (l : list Z)
| RVal (v : option payload)
| RUnit.

(** Position of the entry with key [k]. *)
Fixpoint position (k : key) (l : list entry) : option nat :=
  match l with
  | [] => None
  | x :: t => if key_eqb (fst x) k then Some O else option_map S (position k t)
  end.

(** Positions of the entries of polygon [id], latest first. *)
Definition positions_of (id : Z) (l : list entry) : list nat :=
  filter (fun k => match nth_error l k with Some e => fst (fst e) =? id | None => false end)
         (rev (seq 0 (length l))).

Fixpoint replace (l : list entry) (k : nat) (v : payload) : list entry :=
  match l, k with
  | [], _ => []
  | x :: t, O => (fst x, v) :: t
  | x :: t, S k' => x :: replace t k' v
  end.

(** One operation on the abstract pool of capacity [cap]; [None] if the caller
    misuses it (touches a node it does not have). *)
Definition spec_step (cap : nat) (l : list entry) (o : pool_op) : option (list entry * pool_out) :=
  match o with
  | ONode id st =>
      match position (id, st) l with
      | Some i => Some (l, RNode (Some (Z.of_nat i)))
      | None => if Nat.ltb (length l) cap
                then Some (l ++ [((id, st), fresh)], RNode (Some (Z.of_nat (length l))))
                else Some (l, RNode None)
      end
  | OFind id st => Some (l, RNode (option_map Z.of_nat (position (id, st) l)))
  | OFindAll id m => Some (l, RNodes (map Z.of_nat (firstn m (positions_of id l))))
  | OWrite k v => if Nat.ltb k (length l) then Some (replace l k v, RUnit) else None
  | ORead k => match nth_error l k with Some e => Some (l, RVal (Some (snd e))) | None => None end
  | OClear => Some ([], RUnit)
  end.

Fixpoint spec_run (cap : nat) (l : list entry) (ops : list pool_op) : option (list pool_out) :=
  match ops with
  | [] => Some []
  | o :: r => match spec_step cap l o with
              | Some (l', out) => option_map (cons out) (spec_run cap l' r)
              | None => None
              end
  end.
