(** C07, C08, C09: node pool and open list. *)
From Coq Require Import ZArith Bool List Lia Permutation.
From Verif.Base Require Import Res GoNum F32.
From Verif.Model Require Import Node NodeQueue.
From Verif.Spec Require Import NodePoolSpec.
From Verif.Proofs Require Import NodePoolProofs NodePoolRefine NodeQueueProofs.
Import ListNotations.
Open Scope Z_scope.

(** ** C07 The node pool is a bounded map *)

(** Every history of calls on a new pool produces exactly the results of the
    specification (a list of entries with distinct keys, no hashing), for every
    capacity up to 65535 and every power-of-two hash size. The calls never panic and
    the chain walks terminate. *)
Theorem C07_pool_refines_map : forall cap k ops outs,
  0 <= k <= 31 -> Z.of_nat cap <= 65535 ->
  spec_run cap [] ops = Some outs ->
  exists np, newNodePool (Z.of_nat cap) (2 ^ k) = Ok np /\ pool_run np ops = Ok outs.
Proof.
  intros cap k ops outs Hk Hc S.
  destruct (newNodePool_inv (Z.of_nat cap) k Hk ltac:(lia)) as (np & E & Hi & Ek & Em).
  exists np. split; [assumption|]. apply (run_refines ops np cap outs Hi Em).
  unfold keys in Ek. unfold abs. destruct (used np); [exact S|discriminate].
Qed.

(** A new node keeps the position of the node that used the slot before (the code
    does not reset Pos): stated so that nobody relies on it. *)
Theorem C07_new_node_fields : forall np id st np' i, pool_inv np ->
  pool_Node np id st = Ok (np', Some i) -> index_of (id, st) (keys np) = None ->
  exists old n, nth_error (np_nodes np) (Z.to_nat i) = Some old /\
    nth_error (np_nodes np') (Z.to_nat i) = Some n /\
    nID n = id /\ nState n = st /\ nCost n = f0 /\ nTotal n = f0 /\ nPIdx n = 0 /\ nFlags n = 0 /\
    nPos n = nPos old /\
    forall j, j <> Z.to_nat i -> nth_error (np_nodes np') j = nth_error (np_nodes np) j.
Proof.
  intros np id st np' i H E N. rewrite (Node_spec np id st H), N in E.
  destruct (Z.ltb_spec (np_nodeCount np) (np_maxNodes np)) as [L|L]; [|congruence].
  inversion E; subst i np'.
  pose proof (pi_count np H).
  assert (Z.to_nat (np_nodeCount np) < length (np_nodes np))%nat as Kn by (rewrite (pi_nodes np H); lia).
  destruct (nth_error_in_range _ _ Kn) as [old Eo].
  exists old, (reset_node old id st). unfold add_node; cbn [np_nodes]. rewrite Eo.
  rewrite nth_error_upd_eq by assumption. repeat split; auto.
  intros j Hj. now apply nth_error_upd_neq.
Qed.

(** Refuted for the pool that a query with maxNodes < 4 creates: its hash size is
    NextPow2(maxNodes/4) = 0 and the first Node call panics. *)
Theorem C07_tiny_pool_refuted :
  exists np, newNodePool 3 0 = Ok np /\ pool_Node np 1 0 = Panic.
Proof. eexists; split; reflexivity. Qed.

Example C07_example :
  let ops := [ONode 10 0; ONode 11 0; ONode 10 0; OWrite 1 (f1, f1, 1, 1); ONode 11 1; ONode 12 0;
              OFindAll 11 4; OFind 12 0; ORead 1; OClear; OFind 10 0] in
  spec_run 3 [] ops =
    Some [RNode (Some 0); RNode (Some 1); RNode (Some 0); RUnit; RNode (Some 2); RNode None;
          RNodes [2; 1]; RNode None; RVal (Some (f1, f1, 1, 1)); RUnit; RNode None] /\
  (let* np := newNodePool 3 (2 ^ 0) in pool_run np ops) = of_option (spec_run 3 [] ops).
Proof. vm_compute. split; reflexivity. Qed.

(** ** C08 Indices and pointers *)

Theorem C08_idx_inverse : forall np k, pool_inv np -> 0 <= k < np_maxNodes np ->
  pool_NodeIdx (Some k) <> 0 /\ pool_NodeAtIdx np (pool_NodeIdx (Some k)) = Ok (Some k).
Proof.
  intros np k H Hk. pose proof (pi_max np H) as M. unfold pool_NodeIdx.
  rewrite u32_id by (unfold is_u32; lia). split; [lia|]. unfold pool_NodeAtIdx.
  destruct (Z.eqb_spec (k + 1) 0); [lia|].
  replace (k + 1 - 1) with k by lia.
  destruct (get_in_range (np_nodes np) k) as [nd E]; [unfold zlen; rewrite (pi_nodes np H); lia|].
  rewrite E. reflexivity.
Qed.

Theorem C08_idx_nil : forall np, pool_NodeIdx None = 0 /\ pool_NodeAtIdx np 0 = Ok None.
Proof. intros; split; reflexivity. Qed.

(** NodeAtIdx either yields the node whose NodeIdx it was given, or panics. *)
Theorem C08_at_idx : forall np idx n, pool_inv np -> pool_NodeAtIdx np idx = Ok n -> pool_NodeIdx n = idx.
Proof.
  intros np idx n H E. unfold pool_NodeAtIdx in E.
  destruct (Z.eqb_spec idx 0) as [->|N]; [inversion E; reflexivity|].
  bind_inv E. inversion E1; subst. unfold pool_NodeIdx.
  apply get_range in E0. unfold zlen in E0. rewrite (pi_nodes np H) in E0. pose proof (pi_max np H).
  rewrite u32_id by (unfold is_u32; lia). lia.
Qed.

Example C08_example : exists np, newNodePool 8 2 = Ok np /\ pool_inv np /\
  pool_NodeAtIdx np (pool_NodeIdx (Some 7)) = Ok (Some 7) /\ pool_NodeAtIdx np 9 = Panic.
Proof.
  destruct (newNodePool_inv 8 1) as (np & E & Hi & _); try lia.
  exists np. split; [exact E|]. split; [exact Hi|]. inversion E. split; reflexivity.
Qed.

(** ** C09 The open list *)

(** Operations of a search on the queue: push a node with a total, pop, or lower the
    total of a queued node and call modify. *)
Inductive q_op := QPush (x : Z) (c : f32) | QPop | QModify (x : Z) (c : f32).

(** Reading Total through a node pointer, for the totals [t]. *)
Definition read_total (t : Z -> f32) (x : Z) : res f32 := if x =? nilptr then Panic else Ok (t x).

(** [queue_correct ops t q s]: starting from queue [q], when exactly the nodes [s] are
    queued and [t] gives the totals, every operation of [ops] that is used as the
    searches use it succeeds; pop returns a queued node of minimal total; and so on for
    the rest of the history with the updated set of queued nodes. *)
Fixpoint queue_correct (cap : nat) (ops : list q_op) (t : Z -> f32) (q : nodeQueue) (s : list Z) : Prop :=
  match ops with
  | [] => True
  | QPush x c :: r =>
      ~ In x s -> x <> nilptr -> nonnan c -> (length s <= cap)%nat ->
      let t' := set_total t x c in
      exists q', q_push (read_total t') q x = Ok q' /\ queue_correct cap r t' q' (x :: s)
  | QPop :: r =>
      s <> [] ->
      exists q' x s', q_pop (read_total t) q = Ok (q', x) /\
        Permutation s (x :: s') /\ (forall y, In y s -> fle (t x) (t y) = true) /\
        q_empty q = false /\ queue_correct cap r t q' s'
  | QModify x c :: r =>
      In x s -> nonnan c -> fle c (t x) = true ->
      let t' := set_total t x c in
      exists q', q_modify (read_total t') q x = Ok q' /\ queue_correct cap r t' q' s
  end.

Lemma queue_correct_inv : forall cap ops t q s,
  QInv t (read_total t) q s -> NoDup s -> ~ In nilptr s -> length (q_heap q) = S cap ->
  queue_correct cap ops t q s.
Proof.
  intros cap ops. induction ops as [|o ops IH]; intros t q s Q ND NN L; simpl; [exact I|].
  assert (length s = q_size q) as Ls.
  { destruct Q as (Hn & Hp & _ & _). rewrite <- (Permutation_length Hp), firstn_length. lia. }
  destruct o as [x c| |x c].
  - intros Hx Hnil Hc Hcap.
    set (t' := set_total t x c).
    assert (QInv t' (read_total t') q s) as Q'.
    { apply (QInv_total_ext t (read_total t)); auto.
      - intros y Hy. unfold t', set_total. destruct (Z.eqb_spec y x); [congruence|reflexivity].
      - intros y Hy. unfold read_total. destruct (Z.eqb_spec y nilptr); [congruence|reflexivity]. }
    destruct (push_spec t' (read_total t') q s x Q') as (q' & E & Q2 & L2 & _).
    + lia.
    + split.
      * unfold read_total. destruct (Z.eqb_spec x nilptr); [congruence|reflexivity].
      * unfold t', set_total. rewrite Z.eqb_refl. assumption.
    + exists q'. split; [exact E|]. apply IH; auto.
      * constructor; assumption.
      * intros [A|A]; congruence.
      * lia.
  - intros Hs. destruct (pop_spec t (read_total t) q s Q Hs) as (q' & x & s' & E & Q2 & P & M & L2 & Sz).
    exists q', x, s'. repeat split; auto.
    + unfold q_empty. rewrite Sz. reflexivity.
    + apply IH; auto.
      * pose proof (Permutation_NoDup P ND) as N2. now inversion N2.
      * intros A. apply NN. eapply Permutation_in; [symmetry; exact P|]. now right.
      * lia.
  - intros Hx Hc Hle.
    destruct (modify_spec t (read_total t) (read_total (set_total t x c)) q s x c Q ND Hx Hc Hle)
      as (q' & E & Q2 & L2 & _).
    + intros y Hy. unfold read_total. destruct (Z.eqb_spec y nilptr); [congruence|reflexivity].
    + exists q'. split; [exact E|]. apply IH; auto. lia.
Qed.

(** Every sequence of operations on a new queue is correct, for any capacity and any
    totals that are not NaN. *)
Theorem C09_priority_queue : forall cap ops t, queue_correct cap ops t (newnodeQueue cap) [].
Proof.
  intros cap ops t. apply queue_correct_inv.
  - unfold QInv, newnodeQueue; cbn [q_heap q_size]. repeat split; auto.
    + lia.
    + intros k Hk. simpl in Hk. lia.
  - constructor.
  - simpl. tauto.
  - simpl. now rewrite repeat_length.
Qed.

(** Refuted with NaN: pushing nodes 1..4 with totals 5, NaN, 6, 1 and popping returns
    node 1 although node 4 has a smaller total. *)
Theorem C09_nan_refuted :
  exists t q, (let* q1 := q_push (read_total t) (newnodeQueue 4) 1 in
               let* q2 := q_push (read_total t) q1 2 in
               let* q3 := q_push (read_total t) q2 3 in
               let* q4 := q_push (read_total t) q3 4 in
               q_pop (read_total t) q4) = Ok (q, 1) /\
              flt (t 4) (t 1) = true.
Proof.
  exists (fun x => if x =? 2 then S754_nan else if x =? 1 then f_of_Z 5
                   else if x =? 3 then f_of_Z 6 else f_of_Z 1).
  eexists. split; vm_compute; reflexivity.
Qed.

Example C09_example :
  let t := fun x => f_of_Z (10 - x) in
  (let* q1 := q_push (read_total t) (newnodeQueue 4) 1 in
   let* q2 := q_push (read_total t) q1 5 in
   let* q3 := q_push (read_total t) q2 3 in
   let* r := q_pop (read_total t) q3 in
   let* r2 := q_pop (read_total t) (fst r) in Ok (snd r, snd r2)) = Ok (5, 3).
Proof. vm_compute. reflexivity. Qed.

Print Assumptions C07_pool_refines_map.
Print Assumptions C07_new_node_fields.
Print Assumptions C07_tiny_pool_refuted.
Print Assumptions C08_idx_inverse.
Print Assumptions C08_idx_nil.
Print Assumptions C08_at_idx.
Print Assumptions C09_priority_queue.
Print Assumptions C09_nan_refuted.
