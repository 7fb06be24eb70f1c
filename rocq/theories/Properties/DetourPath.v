(** C24, C25: FindPath. *)
From Coq Require Import ZArith List Bool Lia.
From Verif.Base Require Import Res GoNum F32 Num Grid.
From Verif.Model Require Import Status Poly PolyRef MeshTypes Geom MeshLinks MeshTiles Node NodeQueue FindPath.
From Verif.Spec Require Import LinkSpec PathSpec.
From Verif.Proofs Require Import NodePoolProofs SearchStep SearchInv FindPathProofs.
From Verif.Properties Require Import ExampleMesh.
Import ListNotations.
Open Scope Z_scope.

(** ** Examples: a query object over the mesh of two tiles, filter with unit costs *)
Definition ex_filter : QueryFilter := standard (mkFilter (repeat f1 64) 1 0).
Definition ex_query (n : Z) : NodePool * nodeQueue :=
  ok_or (mkPool [] [] [] 0 0 0, mkQueue [] 0) (let* o := NewNavMeshQuery n in of_option o).
Definition fv (x y z : Z) : fvec := (f_of_bits x, f_of_bits y, f_of_bits z).
Definition ex_find (pool a b len : Z) : res (NodePool * nodeQueue * list Z * Z * Z) :=
  FindPath 20 ex_m2 (fst (ex_query pool)) (snd (ex_query pool)) ex_filter a b (fv 0 0 0) (fv two 0 one) (repeat 0 (Z.to_nat len)).
Definition ex_out (r : res (NodePool * nodeQueue * list Z * Z * Z)) : res (list Z * Z * Z) :=
  let* (_, _, p, n, st) := r in Ok (p, n, st).

Example ex_state : forall n, 4 <= n <= 65535 -> QueryState (fst (ex_query n)) (snd (ex_query n)).
Proof.
  intros n H. unfold ex_query. destruct (NewNavMeshQuery n) as [[[np q]|]| | |] eqn:E.
  { cbn. exact (QS_new n np q (proj1 H) E). }
  all: exfalso; unfold NewNavMeshQuery in E; destruct (Z.ltb_spec 65535 n); try lia; destruct (Z.ltb_spec (2 ^ 24 - 1) n); try lia; cbn [orb] in E.
  all: unfold newNodePool in E; destruct (Z.ltb_spec n 0); try lia; cbn [orb] in E; destruct (Z.ltb_spec (i32 (NextPow2 (u32 (Z.quot n 4)))) 0) as [L|L]; cbn in E; try discriminate.
  assert (Q : 1 <= Z.quot n 4 <= 16384).
  { rewrite Z.quot_div_nonneg by lia. split; [apply Z.div_le_lower_bound; lia|apply Z.div_le_upper_bound; lia]. }
  assert (U : u32 (Z.quot n 4) = Z.quot n 4) by (apply Z.mod_small; lia). rewrite U in L. unfold NextPow2 in L. destruct (Z.eqb_spec (Z.quot n 4) 0); [lia|].
  assert (P : 0 < 2 ^ Z.log2_up (Z.quot n 4) <= 2 ^ 14).
  { split; [apply Z.pow_pos_nonneg; [lia|apply Z.log2_up_nonneg]|]. apply Z.pow_le_mono_r; [lia|]. change 14 with (Z.log2_up (2 ^ 14)). apply Z.log2_up_le_mono. lia. }
  change (2 ^ 14) with 16384 in P. assert (U2 : u32 (2 ^ Z.log2_up (Z.quot n 4)) = 2 ^ Z.log2_up (Z.quot n 4)) by (apply Z.mod_small; lia).
  rewrite U2, i32_id in L by (unfold is_i32; lia). lia.
Qed.

(** * C24 *)

(** Whatever mesh, filter, positions, pool size and buffer: when FindPath returns success, the
    entries written are a prefix of startRef followed by a corridor ([corridor]: each polygon
    linked from the one before and passing the filter), the whole of it if it fits; the rest of
    the buffer is untouched; and the corridor ends at endRef or PartialResult is set. *)
Theorem C24_path : forall np q, QueryState np q ->
  forall fuel m flt a b pa pb path np' q' path' n st,
  FindPath fuel m np q flt a b pa pb path = Ok (np', q', path', n, st) -> StatusSucceed st = true ->
  exists l, corridor m flt a l /\ n = Z.min (1 + zlen l) (zlen path) /\ 1 <= n /\
    path' = firstn (Z.to_nat n) (a :: l) ++ skipn (Z.to_nat n) path /\
    (last l a = b \/ StatusDetail st PartialResult = true).
Proof.
  intros np q HQ fuel m flt a b pa pb path np' q' path' n st E HS.
  destruct (FindPath_spec _ _ _ _ _ _ _ _ _ _ _ _ _ _ _ (QueryState_ok _ _ HQ) E) as [(-> & _)|(_ & _ & Np & _ & l & out & HC & En & Ep & Es & _)]; [discriminate|].
  exists l. rewrite zlen_cons in En. pose proof (zlen_nonneg l).
  assert (0 < zlen path) by (destruct path; [congruence|rewrite zlen_cons; pose proof (zlen_nonneg path); lia]).
  split; [exact HC|]. split; [exact En|]. split; [lia|]. split.
  - rewrite Ep. assert (Ln : Z.to_nat n = Nat.min (length (a :: l)) (length path)) by (rewrite En; unfold zlen; cbn [length]; lia).
    rewrite Ln. destruct (Nat.min_spec (length (a :: l)) (length path)) as [[L ->]|[L ->]].
    + rewrite !firstn_all2 by lia. reflexivity.
    + rewrite (skipn_all2 path (n := length (a :: l))), (skipn_all2 path (n := length path)) by lia. reflexivity.
  - destruct (Z.eqb_spec (last l a) b) as [->|N]; [now left|]. right. rewrite Es. cbn [negb].
    destruct (_ >? _), out; reflexivity.
Qed.
(** From the far triangle of the first tile to the near one of the second; without enough room. *)
Example C24_ex : ex_out (ex_find 8 (ex_r0 + 1) ex_r1 6) = Ok ([17; 16; 21; 20; 0; 0], 4, Success) /\
  ex_out (ex_find 8 (ex_r0 + 1) ex_r1 2) = Ok ([17; 16], 2, Z.lor Success BufferTooSmall).
Proof. split; vm_compute; reflexivity. Qed.

(** The filter really is asked: excluded polygons do not appear, the path stays partial. *)
Example C24_filter_ex : ex_out (FindPath 20 ex_m2 (fst (ex_query 8)) (snd (ex_query 8))
    (mkQF (fun r _ _ => negb (r =? 21)) (qCost ex_filter)) (ex_r0 + 1) ex_r1 (fv 0 0 0) (fv two 0 one) (repeat 0 6)) =
  Ok ([17; 16; 0; 0; 0; 0], 2, Z.lor Success PartialResult).
Proof. vm_compute. reflexivity. Qed.

(** * C25 *)

(** The exact status of a successful call: PartialResult iff the corridor does not end at endRef,
    BufferTooSmall iff the corridor has more polygons than the buffer. *)
Theorem C25_flags : forall np q, QueryState np q ->
  forall fuel m flt a b pa pb path np' q' path' n st,
  FindPath fuel m np q flt a b pa pb path = Ok (np', q', path', n, st) -> StatusSucceed st = true ->
  exists l, corridor m flt a l /\ path' = firstn (Z.to_nat n) (a :: l) ++ skipn (Z.to_nat n) path /\
    (StatusDetail st PartialResult = true <-> last l a <> b) /\
    (StatusDetail st BufferTooSmall = true <-> zlen path < 1 + zlen l) /\
    StatusFailed st = false /\ StatusInProgress st = false /\
    Z.land st StatusDetailMask = Z.land st (Z.lor (Z.lor BufferTooSmall PartialResult) OutOfNodes).
Proof.
  intros np q HQ fuel m flt a b pa pb path np' q' path' n st E HS.
  destruct (C24_path np q HQ _ _ _ _ _ _ _ _ _ _ _ _ _ E HS) as (l0 & _ & En0 & Hn & _).
  destruct (FindPath_spec _ _ _ _ _ _ _ _ _ _ _ _ _ _ _ (QueryState_ok _ _ HQ) E) as [(-> & _)|(_ & _ & Np & _ & l & out & HC & En & Ep & Es & _)]; [discriminate|].
  exists l. rewrite zlen_cons in *. pose proof (zlen_nonneg l). split; [exact HC|]. split.
  { rewrite Ep. assert (Ln : Z.to_nat n = Nat.min (length (a :: l)) (length path)) by (rewrite En; unfold zlen; cbn [length]; lia).
    rewrite Ln. destruct (Nat.min_spec (length (a :: l)) (length path)) as [[L ->]|[L ->]].
    + rewrite !firstn_all2 by lia. reflexivity.
    + rewrite (skipn_all2 path (n := length (a :: l))), (skipn_all2 path (n := length path)) by lia. reflexivity. }
  rewrite Es. destruct (Z.eqb_spec (last l a) b) as [EB|NB]; destruct (Z.gtb_spec (1 + zlen l) (zlen path)); destruct out;
    (split; [split; [first [discriminate|intros _; assumption]|first [intros X; congruence|reflexivity]]|split; [split; [first [discriminate|intros _; lia]|first [reflexivity|intros X; lia]]|split; [reflexivity|split; reflexivity]]]).
Qed.
Example C25_flags_ex : ex_out (ex_find 8 ex_r0 (ex_r0 + 1) 1) = Ok ([16], 1, Z.lor Success BufferTooSmall) /\
  ex_out (ex_find 8 ex_r0 ex_r0 1) = Ok ([16], 1, Success).
Proof. split; vm_compute; reflexivity. Qed.

(** OutOfNodes: the pool is full, and a polygon that can be reached has no node for some side. *)
Theorem C25_out_of_nodes : forall np q, QueryState np q ->
  forall fuel m flt a b pa pb path np' q' path' n st,
  FindPath fuel m np q flt a b pa pb path = Ok (np', q', path', n, st) -> StatusSucceed st = true ->
  StatusDetail st OutOfNodes = true ->
  np_nodeCount np' = np_maxNodes np' /\
  exists l r side, corridor m flt a (l ++ [r]) /\ ~ In (r, side) (map (fun x => (nID x, nState x)) (firstn (Z.to_nat (np_nodeCount np')) (np_nodes np'))).
Proof.
  intros np q HQ fuel m flt a b pa pb path np' q' path' n st E HS HO.
  destruct (FindPath_spec _ _ _ _ _ _ _ _ _ _ _ _ _ _ _ (QueryState_ok _ _ HQ) E) as [(-> & _)|(_ & _ & _ & _ & l & out & _ & _ & _ & Es & Ho & _)]; [discriminate|].
  apply Ho. rewrite Es in HO. destruct out; [reflexivity|]. exfalso. destruct (_ >? _), (negb _); discriminate.
Qed.
(** A mesh whose first polygon has five neighbours, searched with a pool of 4 nodes. *)
Definition ex_star : NavMesh :=
  let td := mkTD (tdVerts (ex_td 0 one))
    (map (fun l => mkPoly l [0; 1; 2; 0; 0; 0] [0; 0; 0; 0; 0; 0] 1 3 0) [0; nullLink; nullLink; nullLink])
    [mkLink 17 1 0 255 0 0; mkLink 18 2 1 255 0 0; mkLink 19 3 2 255 0 0; mkLink 20 4 0 255 0 0; mkLink 21 nullLink 1 255 0 0] [] [] [] [] [] in
  match mTiles ex_m2 with
  | t :: ts => mkMesh (mParams ex_m2) (mMaxTiles ex_m2) (mLUTSize ex_m2) (mLUTMask ex_m2) (mPosLookup ex_m2) (mNextFree ex_m2)
      (mkTile (tSalt t) (tLinksFree t) (option_map (fun h => mkHeader (hMagic h) (hVersion h) (hX h) (hY h) (hLayer h) (hUserID h) 4 (hVertCount h)
         5 0 0 0 0 0 4 (hWalkableHeight h) (hWalkableRadius h) (hWalkableClimb h) (hBMin h) (hBMax h) (hBvQuantFactor h)) (tHeader t))
        td (tData t) (tDataSize t) (tFlags t) (tNext t) :: ts) (mBits ex_m2)
  | [] => ex_m2
  end.
Example C25_out_of_nodes_ex : exists np q p n,
  FindPath 20 ex_star (fst (ex_query 4)) (snd (ex_query 4)) ex_filter
    ex_r0 ex_r1 (fv 0 0 0) (fv two 0 one) (repeat 0 6) = Ok (np, q, p, n, Z.lor (Z.lor Success PartialResult) OutOfNodes) /\ np_nodeCount np = 4.
Proof. do 4 eexists. split; vm_compute; reflexivity. Qed.
Example C25_star_ex : exists np q,
  FindPath 20 ex_star (fst (ex_query 6)) (snd (ex_query 6)) ex_filter
    ex_r0 ex_r1 (fv 0 0 0) (fv two 0 one) (repeat 0 3) = Ok (np, q, [16; 20; 0], 2, Success).
Proof. do 2 eexists. vm_compute. reflexivity. Qed.

(** A partial result without OutOfNodes is final: no corridor through the filter leads to endRef. *)
Theorem C25_complete : forall np q, QueryState np q ->
  forall fuel m flt a b pa pb path np' q' path' n st,
  FindPath fuel m np q flt a b pa pb path = Ok (np', q', path', n, st) -> StatusSucceed st = true ->
  StatusDetail st PartialResult = true -> StatusDetail st OutOfNodes = false ->
  forall l, corridor m flt a l -> last l a <> b.
Proof.
  intros np q HQ fuel m flt a b pa pb path np' q' path' n st E HS HP HO.
  destruct (FindPath_spec _ _ _ _ _ _ _ _ _ _ _ _ _ _ _ (QueryState_ok _ _ HQ) E) as [(-> & _)|(_ & _ & _ & _ & l & out & _ & _ & _ & Es & _ & Hc)]; [discriminate|].
  apply Hc.
  - rewrite Es in HO. destruct out; [|reflexivity]. exfalso. destruct (_ >? _), (negb _); discriminate.
  - rewrite Es in HP. intros X. rewrite X, Z.eqb_refl in HP. cbn [negb] in HP. destruct (_ >? _), out; discriminate.
Qed.

(** Anything but success is InvalidParam, for one of three reasons, and nothing has changed. *)
Theorem C25_invalid : forall np q, QueryState np q ->
  forall fuel m flt a b pa pb path np' q' path' n st,
  FindPath fuel m np q flt a b pa pb path = Ok (np', q', path', n, st) ->
  (StatusSucceed st = false <-> path = [] \/ IsValidPolyRef m a = Ok false \/ IsValidPolyRef m b = Ok false) /\
  (StatusSucceed st = false -> st = Z.lor Failure InvalidParam /\ n = 0 /\ path' = path /\ np' = np /\ q' = q).
Proof.
  intros np q HQ fuel m flt a b pa pb path np' q' path' n st E.
  destruct (FindPath_spec _ _ _ _ _ _ _ _ _ _ _ _ _ _ _ (QueryState_ok _ _ HQ) E) as [(-> & -> & -> & -> & -> & R)|(Va & Vb & Np & _ & l & out & _ & _ & _ & Es & _)].
  - split; [split; [intros _; exact R|reflexivity]|]. intros _. auto.
  - split.
    + split; [|intros [X|[X|X]]; congruence]. intros X. exfalso. rewrite Es in X. destruct (_ >? _), (negb _), out; discriminate.
    + intros X. exfalso. rewrite Es in X. destruct (_ >? _), (negb _), out; discriminate.
Qed.
Example C25_invalid_ex : ex_out (ex_find 8 (ex_r0 + 2) ex_r1 3) = Ok ([0; 0; 0], 0, Z.lor Failure InvalidParam).
Proof. vm_compute. reflexivity. Qed.

Print Assumptions C24_path.
Print Assumptions C25_flags.
Print Assumptions C25_out_of_nodes.
Print Assumptions C25_complete.
Print Assumptions C25_invalid.
