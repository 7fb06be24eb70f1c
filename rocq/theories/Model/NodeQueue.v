(** Model of [detour/nodequeue.go]: binary heap of node pointers ordered by Total.
    [tot] reads the Total field through a pointer (it panics on nil). *)
From Coq Require Import ZArith Bool List.
From Verif.Base Require Import Res GoNum F32.
Import ListNotations.

(** detour/nodequeue.go:10-14; heap slots that were never written are nil,
    represented by [nilptr]. *)
Record nodeQueue := mkQueue { q_heap : list Z; q_size : nat }.
Definition nilptr : Z := (-1)%Z.

(** detour/nodequeue.go:16-26 *)
Definition newnodeQueue (n : nat) : nodeQueue := mkQueue (repeat nilptr (S n)) 0.

(** detour/nodequeue.go:28-37; the loop runs at most [i] times. *)
Fixpoint bubbleUp (fuel : nat) (tot : Z -> res f32) (heap : list Z) (i : nat) (node : Z) : res (list Z) :=
  match i with
  | O => setn heap i node
  | S _ =>
      let parent := Nat.div (i - 1) 2 in
      let* hp := getn heap parent in
      let* tp := tot hp in
      let* tn := tot node in
      if fgt tp tn then
        match fuel with
        | O => NoFuel
        | S fuel' => let* heap' := setn heap i hp in bubbleUp fuel' tot heap' parent node
        end
      else setn heap i node
  end.

(** detour/nodequeue.go:39-51 *)
Fixpoint trickleDown (fuel : nat) (tot : Z -> res f32) (heap : list Z) (size i : nat) (node : Z) : res (list Z) :=
  let child := (i * 2 + 1)%nat in
  if Nat.ltb child size then
    match fuel with
    | O => NoFuel
    | S fuel' =>
        let* child :=
          if Nat.ltb (child + 1) size then
            let* a := getn heap child in
            let* b := getn heap (child + 1) in
            let* ta := tot a in
            let* tb := tot b in
            Ok (if fgt ta tb then child + 1 else child)%nat
          else Ok child in
        let* hc := getn heap child in
        let* heap' := setn heap i hc in
        trickleDown fuel' tot heap' size child node
    end
  else bubbleUp i tot heap i node.

(** detour/nodequeue.go:53-55 *)
Definition q_clear (q : nodeQueue) : nodeQueue := mkQueue (q_heap q) 0.

(** detour/nodequeue.go:61-66; popping an empty queue indexes heap[-1]. *)
Definition q_pop (tot : Z -> res f32) (q : nodeQueue) : res (nodeQueue * Z) :=
  let* result := getn (q_heap q) 0 in
  match q_size q with
  | O => Panic
  | S size =>
      let* last := getn (q_heap q) size in
      let* heap := trickleDown size tot (q_heap q) size 0 last in
      Ok (mkQueue heap size, result)
  end.

(** detour/nodequeue.go:68-71 *)
Definition q_push (tot : Z -> res f32) (q : nodeQueue) (node : Z) : res nodeQueue :=
  let* heap := bubbleUp (q_size q) tot (q_heap q) (q_size q) node in
  Ok (mkQueue heap (S (q_size q))).

(** The search loop of detour/nodequeue.go:74-79: position of [node] among the
    first [n] slots starting at [i]. *)
Fixpoint find_slot (heap : list Z) (n i : nat) (node : Z) : option nat :=
  match n with
  | O => None
  | S n' => match nth_error heap i with
            | Some x => if Z.eqb x node then Some i else find_slot heap n' (S i) node
            | None => None
            end
  end.

(** detour/nodequeue.go:73-80 *)
Definition q_modify (tot : Z -> res f32) (q : nodeQueue) (node : Z) : res nodeQueue :=
  match find_slot (q_heap q) (q_size q) 0 node with
  | Some i => let* heap := bubbleUp i tot (q_heap q) i node in Ok (mkQueue heap (q_size q))
  | None => Ok q
  end.

(** detour/nodequeue.go:82-84 *)
Definition q_empty (q : nodeQueue) : bool := Nat.eqb (q_size q) 0.
