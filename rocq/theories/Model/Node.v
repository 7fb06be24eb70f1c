(** Model of [detour/node.go]: search nodes and the node pool. A node pointer
    is the node's position in the pool. *)
From Coq Require Import ZArith Bool List.
From Verif.Base Require Import Res GoNum F32.
Import ListNotations.
Open Scope Z_scope.

Definition vec := (f32 * f32 * f32)%type.

(** detour/node.go:12-20, hashRef (PolyRef is uint32). *)
Definition hashRef (a : Z) : Z :=
  let shl x n := u32 (Z.shiftl x n) in
  let not32 x := 4294967295 - x in
  let a := u32 (a + not32 (shl a 15)) in
  let a := Z.lxor a (Z.shiftr a 10) in
  let a := u32 (a + shl a 3) in
  let a := Z.lxor a (Z.shiftr a 6) in
  let a := u32 (a + not32 (shl a 11)) in
  Z.lxor a (Z.shiftr a 16).

(** detour/node.go:24-28, NodeFlags bits. *)
Definition nodeOpen : Z := 1.
Definition nodeClosed : Z := 2.
Definition nodeParentDetached : Z := 4.

(** detour/node.go:32-34: nullIdx = ^NodeIndex(0) with NodeIndex = uint16. *)
Definition nullIdx : Z := 65535.

(** detour/node.go:41-51, type Node. *)
Record Node := mkNode {
  nPos : vec;
  nCost : f32;
  nTotal : f32;
  nPIdx : Z;      (* uint32: index + 1 of the parent, 0 for none *)
  nState : Z;     (* uint8 *)
  nFlags : Z;     (* NodeFlags *)
  nID : Z         (* PolyRef *)
}.

(** detour/node.go:53-57 *)
Definition newNode : Node := mkNode (f0, f0, f0) f0 f0 0 0 0 0.

(** detour/node.go:65-71, type NodePool. *)
Record NodePool := mkPool {
  np_nodes : list Node;
  np_first : list Z;
  np_next : list Z;
  np_maxNodes : Z;
  np_hashSize : Z;
  np_nodeCount : Z
}.

(** detour/node.go:80-112; the assertions are compiled out. [make] panics on a
    negative length. *)
Definition newNodePool (maxNodes hashSize : Z) : res NodePool :=
  if (maxNodes <? 0) || (hashSize <? 0) then Panic
  else Ok (mkPool (repeat newNode (Z.to_nat maxNodes))
                  (repeat nullIdx (Z.to_nat hashSize))
                  (repeat nullIdx (Z.to_nat maxNodes))
                  maxNodes hashSize 0).

(** detour/node.go:115-123 *)
Definition pool_Clear (np : NodePool) : NodePool :=
  mkPool (np_nodes np) (repeat nullIdx (length (np_first np))) (np_next np)
         (np_maxNodes np) (np_hashSize np) 0.

(** hashRef(id) & uint32(np.hashSize-1), used at detour/node.go:128, 165, 185. *)
Definition bucket_of (np : NodePool) (id : Z) : Z :=
  Z.land (hashRef id) (u32 (np_hashSize np - 1)).

(** The chain walk of detour/node.go:130-138 and 166-172: first position of the
    chain starting at [i] whose node satisfies [p]. *)
Fixpoint walk (fuel : nat) (np : NodePool) (p : Node -> bool) (i : Z) : res (option Z) :=
  if i =? nullIdx then Ok None
  else match fuel with
       | O => NoFuel
       | S fuel' =>
           let* n := get (np_nodes np) i in
           if p n then Ok (Some i)
           else let* j := get (np_next np) i in walk fuel' np p j
       end.

(** np.nodes[i].ID == id && np.nodes[i].State == state *)
Definition has_key (id state : Z) (n : Node) : bool := (nID n =? id) && (nState n =? state).

(** Fuel that suffices for any chain of the pool. *)
Definition pool_fuel (np : NodePool) : nat := S (length (np_nodes np)).

(** detour/node.go:127-160, Node; the result is the new pool and the node (nil is None).
    Pos is not reset by the code. *)
Definition pool_Node (np : NodePool) (id state : Z) : res (NodePool * option Z) :=
  let bucket := bucket_of np id in
  let* i := get (np_first np) bucket in
  let* found := walk (pool_fuel np) np (has_key id state) i in
  match found with
  | Some k => Ok (np, Some k)
  | None =>
      if np_nodeCount np >=? np_maxNodes np then Ok (np, None)
      else
        let k := u16 (np_nodeCount np) in
        let* n := get (np_nodes np) k in
        let* nodes := set (np_nodes np) k (mkNode (nPos n) f0 f0 0 state 0 id) in
        let* f := get (np_first np) bucket in
        let* next := set (np_next np) k f in
        let* first := set (np_first np) bucket k in
        Ok (mkPool nodes first next (np_maxNodes np) (np_hashSize np) (np_nodeCount np + 1), Some k)
  end.

(** detour/node.go:164-174, FindNode *)
Definition pool_FindNode (np : NodePool) (id state : Z) : res (option Z) :=
  let* i := get (np_first np) (bucket_of np id) in
  walk (pool_fuel np) np (has_key id state) i.

(** The loop of detour/node.go:187-197; [n] nodes are stored already. *)
Fixpoint findNodes_loop (fuel : nat) (np : NodePool) (id : Z) (maxn : nat) (i : Z) : res (list Z) :=
  if i =? nullIdx then Ok []
  else match fuel with
       | O => NoFuel
       | S fuel' =>
           let* n := get (np_nodes np) i in
           if nID n =? id then
             match maxn with
             | O => Ok []
             | S m =>
                 let* j := get (np_next np) i in
                 let* r := findNodes_loop fuel' np id m j in
                 Ok (i :: r)
             end
           else let* j := get (np_next np) i in findNodes_loop fuel' np id maxn j
       end.

(** detour/node.go:181-199, FindNodes: the nodes written to the caller's slice (whose
    length is assumed to be at least maxNodes, as asserted); their number is the result. *)
Definition pool_FindNodes (np : NodePool) (id : Z) (maxn : nat) : res (list Z) :=
  let* i := get (np_first np) (bucket_of np id) in
  findNodes_loop (pool_fuel np) np id maxn i.

(** detour/node.go:201-208, NodeIdx: pointer difference divided by the size. *)
Definition pool_NodeIdx (n : option Z) : Z :=
  match n with None => 0 | Some k => u32 (k + 1) end.

(** detour/node.go:211-216, NodeAtIdx. *)
Definition pool_NodeAtIdx (np : NodePool) (idx : Z) : res (option Z) :=
  if idx =? 0 then Ok None
  else let* _ := get (np_nodes np) (idx - 1) in Ok (Some (idx - 1)).

(** A client writing the fields of the node [k] points to (as the queries do). *)
Definition pool_update (np : NodePool) (k : Z) (f : Node -> Node) : res NodePool :=
  let* n := get (np_nodes np) k in
  let* nodes := set (np_nodes np) k (f n) in
  Ok (mkPool nodes (np_first np) (np_next np) (np_maxNodes np) (np_hashSize np) (np_nodeCount np)).
