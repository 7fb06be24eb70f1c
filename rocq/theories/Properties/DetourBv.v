(** C21, C22, C23, C32: the bounding volume tree of a tile and the box queries. *)
From Coq Require Import ZArith List Bool Lia Permutation Sorted.
From Verif.Base Require Import Res GoNum F32 Num Grid Bytes.
From Verif.Model Require Import Status Poly PolyRef Bounds Geom MeshTypes MeshLinks MeshTiles BvTree TileQuery.
From Verif.Spec Require Import BvSpec QuerySpec.
From Verif.Proofs Require Import BasicsProofs BvProofs TileQueryProofs ScanProofs MeshQueryProofs.
From Verif.Properties Require Import ExampleMesh.
Import ListNotations.
Open Scope Z_scope.

(** * C21 *)

(** subdivide over n >= 1 items into an array of at least 2n-1 nodes: it returns, uses exactly
    2n-1 nodes, leaves the rest of the array alone, and the nodes form a tree whose leaves are
    a permutation of the items ([BvAt] also says: boxes of inner nodes enclose all items below
    and touch them on every side, escape indices jump exactly past the subtree). *)
Theorem C21_tree : forall sort, (forall less l, Permutation (sort less l) l) ->
  forall items nodes, items <> [] -> 2 * zlen items - 1 <= zlen nodes -> zlen nodes < 2 ^ 31 ->
  exists items' nodes',
    subdivide sort (S (length items)) items 0 (zlen items) 0 nodes = Ok (items', 2 * zlen items - 1, nodes') /\
    Permutation items' items /\ BvAt nodes' 0 items' (2 * zlen items - 1) /\ zlen nodes' = zlen nodes /\
    (forall j, 2 * zlen items - 1 <= j -> get nodes' j = get nodes j).
Proof. intros. now apply subdivide_tree. Qed.

(** createBVTree with detail meshes: polygon i gets the quantized box of its detail vertices, and
    every polygon 0..n-1 is the leaf of exactly one node. *)
Theorem C21_createBVTree : forall sort, (forall less l, Permutation (sort less l) l) ->
  forall n dmeshes dverts org cs nodes, 1 <= n -> 2 * n - 1 <= zlen nodes -> zlen nodes < 2 ^ 31 -> dmeshes <> [] ->
  (forall i, 0 <= i < n -> exists it, bv_item dmeshes dverts org (fdiv f1 cs) i = Ok it) ->
  exists nodes' items,
    createBVTree sort n dmeshes dverts org cs nodes = Ok (nodes', 2 * n - 1) /\
    BvAt nodes' 0 items (2 * n - 1) /\ zlen nodes' = zlen nodes /\
    (forall j, 2 * n - 1 <= j -> get nodes' j = get nodes j) /\
    Permutation (map iI items) (zseq (Z.to_nat n)) /\
    (forall it, In it items -> bv_item dmeshes dverts org (fdiv f1 cs) (iI it) = Ok it).
Proof.
  intros sort Hs n dmeshes dverts org cs nodes Hn Hl Hb Hd Hi. unfold createBVTree.
  set (bi := bv_item dmeshes dverts org (fdiv f1 cs)) in *.
  assert (II : forall i it, bi i = Ok it -> iI it = i).
  { intros i it E. unfold bi, bv_item in E.
    apply bind_ok in E as (vb & _ & E). apply bind_ok in E as (ndv & _ & E). apply bind_ok in E as (v & _ & E).
    apply bind_ok in E as ((mn, mx) & _ & E). apply Ok_inj in E. subst it. reflexivity. }
  assert (K : forall k, (k <= Z.to_nat n)%nat -> exists items,
     foldM (fun acc i => let* it := bi i in Ok (acc ++ [it])) (zseq k) [] = Ok items /\
     map iI items = zseq k /\ forall it, In it items -> bi (iI it) = Ok it).
  { induction k as [|k IH]; intros Hk; [exists []; split; [reflexivity|]; split; [reflexivity|]; intros it []|].
    destruct IH as (items & E & M & P); [lia|]. rewrite zseq_S, foldM_app, E. cbn [bind foldM].
    destruct (Hi (Z.of_nat k)) as [it Ei]; [lia|]. rewrite Ei. cbn [bind]. exists (items ++ [it]).
    split; [reflexivity|]. pose proof (II _ _ Ei) as Ei'. split; [rewrite map_app, M; cbn; now rewrite Ei'|].
    intros it' I. apply in_app_or in I as [I|[<-|[]]]; [exact (P it' I)|]. now rewrite Ei'. }
  destruct (K (Z.to_nat n)) as (items & E & M & P); [lia|].
  destruct dmeshes as [|d ds]; [congruence|]. rewrite E. cbn [bind].
  assert (Lz : zlen items = n) by (apply (f_equal (@length Z)) in M; rewrite map_length, zseq_length in M; unfold zlen; lia).
  destruct (subdivide_tree sort Hs items nodes) as (items' & nodes' & S1 & Pm & B & Z1 & F).
  - intros ->. unfold zlen in Lz. cbn in Lz. lia.
  - lia.
  - lia.
  - rewrite Lz in *. rewrite S1. cbn [bind]. exists nodes', items'.
    split; [reflexivity|]. split; [exact B|]. split; [exact Z1|]. split; [exact F|]. split.
    + rewrite <- M. apply Permutation_map. exact Pm.
    + intros it I. apply P. eapply Permutation_in; [exact Pm|exact I].
Qed.

(** Insertion sort is an instance of sort.Slice. *)
Fixpoint insert (less : bvItem -> bvItem -> bool) (x : bvItem) (l : list bvItem) : list bvItem :=
  match l with [] => [x] | y :: l' => if less y x then y :: insert less x l' else x :: l end.
Definition isort (less : bvItem -> bvItem -> bool) (l : list bvItem) : list bvItem := fold_right (insert less) [] l.
Lemma isort_perm : forall less l, Permutation (isort less l) l.
Proof.
  intros less. assert (I : forall x l, Permutation (insert less x l) (x :: l)).
  { induction l as [|y l IH]; [apply Permutation_refl|]. cbn [insert]. destruct (less y x); [|apply Permutation_refl].
    eapply Permutation_trans; [apply perm_skip; exact IH|apply perm_swap]. }
  induction l as [|x l IH]; [apply Permutation_refl|]. cbn [isort fold_right].
  eapply Permutation_trans; [apply I|]. apply perm_skip. exact IH.
Qed.
Definition ex_items : list bvItem :=
  [mkItem (5, 0, 0) (7, 1, 2) 0; mkItem (0, 0, 0) (2, 1, 1) 1; mkItem (1, 0, 8) (3, 1, 9) 2].
Example C21_example : exists items' nodes',
  subdivide isort 4 ex_items 0 3 0 (repeat zeroBv 6) = Ok (items', 5, nodes') /\
  nodes' = [mkBv (0, 0, 0) (7, 1, 9) (-5); mkBv (0, 0, 0) (2, 1, 1) 1; mkBv (1, 0, 0) (7, 1, 9) (-3);
            mkBv (5, 0, 0) (7, 1, 2) 0; mkBv (1, 0, 8) (3, 1, 9) 2; zeroBv].
Proof. do 2 eexists. split; vm_compute; reflexivity. Qed.

(** * C22 *)
Definition accept_all : Z -> MeshTile -> Poly -> bool := fun _ _ _ => true.
Definition base_ref (m : NavMesh) (it : nat) (t : MeshTile) : Z := encodePolyID (mBits m) (tSalt t) (Z.of_nat it) 0.

Lemma run_log_refs : forall t calls, Forall (fun c : Call => fst (fst c) = t) calls ->
  run_calls log_process calls [] = Ok (map (fun r => (t, r)) (concat (map call_refs calls))).
Proof.
  intros t calls F. rewrite run_log. cbn [app]. f_equal. induction F as [|c calls E F IH]; [reflexivity|].
  cbn [logged flat_map map concat]. rewrite map_app, <- IH, E. reflexivity.
Qed.
Lemma batched_tile : forall t calls, batched t calls -> Forall (fun c : Call => fst (fst c) = t) calls.
Proof. intros t calls [F _]. eapply Forall_impl; [|exact F]. intros [[t' a] n] [E _]. exact E. Qed.

(** A query in a tile whose nodes are a tree over [items] (as built by C21): exactly the polygons
    of the items whose box overlaps the quantized query box are reported, in tree order, each
    once. *)
Theorem C22_tree_query : forall m it t h qmin qmax items,
  tile_of m it = Ok t -> tHeader t = Some h ->
  BvAt (tdBv (tD t)) 0 items (hBvNodeCount h) -> hBvNodeCount h < 2 ^ 31 ->
  (forall i, In i items -> 0 <= iI i < zlen (tdPolys (tD t))) -> NoDup (map iI items) ->
  exists bmin bmax idxs, quant_query h qmin qmax = (bmin, bmax) /\
    queryPolygonsInTile accept_all log_process m it qmin qmax [] = Ok (map (fun i => (t, Z.lor (base_ref m it t) i)) idxs) /\
    NoDup idxs /\
    (forall i, In i idxs <-> exists item, In item items /\ iI item = i /\ overlaps3 bmin bmax (iMin item) (iMax item)).
Proof.
  intros m it t h qmin qmax items Ht Hh HB Hb Hi ND.
  destruct (BvAt_len _ _ _ _ HB) as [NE EL].
  pose proof (query_bv accept_all m it t h qmin qmax items Ht Hh NE) as Q. cbv zeta in Q.
  destruct (quant_query h qmin qmax) as [bmin bmax].
  destruct Q as (calls & Hc & Bc & Cc).
  { rewrite <- (app_nil_r items). eapply BvfCons; [exact HB|constructor]. }
  { exact Hb. }
  { exact Hi. }
  exists bmin, bmax, (map iI (filter (ov bmin bmax) items)). split; [reflexivity|]. split; [|split].
  - rewrite Hc, (run_log_refs t) by (now apply batched_tile). rewrite Cc, !map_map. do 2 f_equal.
    assert (K : forall l, (forall i, In i l -> 0 <= iI i < zlen (tdPolys (tD t))) -> filter (passes accept_all t (base_ref m it t)) l = l).
    { induction l as [|x l IH]; intros H; [reflexivity|]. cbn [filter]. unfold passes at 1.
      destruct (get_in_range _ _ (H x (or_introl eq_refl))) as [p ->]. cbn [accept_all]. f_equal. apply IH. intros. apply H. right. assumption. }
    apply K. intros i I. apply filter_In in I as [I _]. exact (Hi i I).
  - clear - ND. induction items as [|x items IH]; [constructor|]. cbn [map] in ND. inversion ND; subst.
    cbn [filter]. destruct (ov bmin bmax x); [|now apply IH]. cbn [map]. constructor; [|now apply IH].
    intros I. apply in_map_iff in I as (y & E & I). apply filter_In in I as [I _]. apply H1. rewrite <- E. now apply in_map.
  - intros i. rewrite in_map_iff. split.
    + intros (item & E & I). apply filter_In in I as [I O]. exists item. split; [exact I|]. split; [exact E|]. now apply overlap3_iff.
    + intros (item & I & E & O). exists item. split; [exact E|]. apply filter_In. split; [exact I|]. now apply overlap3_iff.
Qed.

(** CreateNavMeshData gives the tile 2n nodes although the tree has 2n-1 (detour/navmeshcreate.go
    line 722 makes PolyCount*2 nodes, line 748 sets BvNodeCount to PolyCount*2). The last node stays zero and
    is taken for a leaf of polygon 0 with the box (0,0,0)-(0,0,0). With such padding the query
    reports polygon 0 once more whenever the query box touches the origin of the tile. *)
Theorem C22_padded_tree : forall m it t h qmin qmax items,
  tile_of m it = Ok t -> tHeader t = Some h ->
  BvAt (tdBv (tD t)) 0 items (hBvNodeCount h - 1) -> get (tdBv (tD t)) (hBvNodeCount h - 1) = Ok zeroBv -> hBvNodeCount h < 2 ^ 31 ->
  (forall i, In i items -> 0 <= iI i < zlen (tdPolys (tD t))) -> tdPolys (tD t) <> [] ->
  exists bmin bmax idxs, quant_query h qmin qmax = (bmin, bmax) /\
    queryPolygonsInTile accept_all log_process m it qmin qmax [] = Ok (map (fun i => (t, Z.lor (base_ref m it t) i)) idxs) /\
    exists tail, idxs = map iI (filter (ov bmin bmax) items) ++ tail /\
      (overlaps3 bmin bmax (0, 0, 0) (0, 0, 0) -> tail = [0]) /\ (~ overlaps3 bmin bmax (0, 0, 0) (0, 0, 0) -> tail = []).
Proof.
  intros m it t h qmin qmax items Ht Hh HB Hz Hb Hi HP.
  destruct (BvAt_len _ _ _ _ HB) as [NE EL].
  set (pad := mkItem (0, 0, 0) (0, 0, 0) 0).
  assert (P0 : 0 < zlen (tdPolys (tD t))) by (destruct (tdPolys (tD t)) as [|p ps]; [congruence|rewrite zlen_cons; pose proof (zlen_nonneg ps); lia]).
  pose proof (query_bv accept_all m it t h qmin qmax (items ++ [pad]) Ht Hh) as Q. cbv zeta in Q.
  destruct (quant_query h qmin qmax) as [bmin bmax].
  assert (Hi' : forall i, In i (items ++ [pad]) -> 0 <= iI i < zlen (tdPolys (tD t))).
  { intros i I. apply in_app_or in I as [I|[<-|[]]]; [exact (Hi i I)|]. cbn [iI pad]. lia. }
  destruct Q as (calls & Hc & Bc & Cc).
  { destruct items; discriminate. }
  { eapply BvfCons; [exact HB|]. change [pad] with ([pad] ++ []). eapply BvfCons.
    - apply BvLeaf. exact Hz.
    - replace (hBvNodeCount h - 1 + 1) with (hBvNodeCount h) by lia. constructor. }
  { exact Hb. }
  { exact Hi'. }
  exists bmin, bmax, (map iI (filter (ov bmin bmax) (items ++ [pad]))). split; [reflexivity|]. split.
  - rewrite Hc, (run_log_refs t) by (now apply batched_tile). rewrite Cc, !map_map. do 2 f_equal.
    assert (K : forall l, (forall i, In i l -> 0 <= iI i < zlen (tdPolys (tD t))) -> filter (passes accept_all t (base_ref m it t)) l = l).
    { induction l as [|x l IH]; intros H; [reflexivity|]. cbn [filter]. unfold passes at 1.
      destruct (get_in_range _ _ (H x (or_introl eq_refl))) as [p ->]. cbn [accept_all]. f_equal. apply IH. intros. apply H. right. assumption. }
    apply K. intros i I. apply filter_In in I as [I _]. exact (Hi' i I).
  - exists (map iI (filter (ov bmin bmax) [pad])). split; [now rewrite filter_app, map_app|].
    cbn [filter]. unfold ov. cbn [iMin iMax pad]. rewrite <- overlap3_iff.
    destruct (OverlapQuantBounds bmin bmax (0, 0, 0) (0, 0, 0)); split; intros H; try reflexivity; [exfalso; now apply H|discriminate].
Qed.

(** Example: the first tile of the example mesh with a tree over its two triangles. *)
Definition bv_tile (nodes : list BvNode) (count : Z) : MeshTile :=
  let td := ex_td 0 one in
  mkTile 1 0 (Some (mkHeader navMeshMagic navMeshVersion 0 0 0 9 2 4 4 0 0 0 count 0 2 two 0 one (0, 0, 0) (one, one, one) 1084227584))
    (mkTD (tdVerts td) (tdPolys td) (tdLinks td) [] [] [] nodes []) [] 0 0 None.
Definition bv_mesh (t : MeshTile) : NavMesh := mkMesh ex_params 1 1 0 [Some 0%nat] None [t] (mkIdBits 16 1 1).
Definition bv_items : list bvItem := [mkItem (2, 0, 0) (5, 1, 5) 1; mkItem (0, 0, 0) (5, 1, 5) 0].
Definition bv_nodes : list BvNode := [mkBv (0, 0, 0) (5, 1, 5) (-3); mkBv (0, 0, 0) (5, 1, 5) 0; mkBv (2, 0, 0) (5, 1, 5) 1].
Definition fvz (x y z : Z) : fvec := (f_of_Z x, f_of_Z y, f_of_Z z).
Example C22_example :
  let t := bv_tile bv_nodes 3 in
  BvAt (tdBv (tD t)) 0 [mkItem (0, 0, 0) (5, 1, 5) 0; mkItem (2, 0, 0) (5, 1, 5) 1] 3 /\
  queryPolygonsInTile accept_all log_process (bv_mesh t) 0 (fvz 0 0 0) (fvz 0 0 0) [] = Ok [(t, 4)].
Proof.
  split.
  - apply (BvInner bv_nodes 0 2 3 [mkItem (0, 0, 0) (5, 1, 5) 0] [mkItem (2, 0, 0) (5, 1, 5) 1] (0, 0, 0) (5, 1, 5)).
    + reflexivity.
    + apply (BvLeaf bv_nodes 1). reflexivity.
    + apply (BvLeaf bv_nodes 2). reflexivity.
    + intros i [<-|[<-|[]]]; unfold encloses, le3; cbn; lia.
    + split; intros c [<-|[<-|[<-|[]]]]; eexists; (split; [left; reflexivity|reflexivity]).
  - vm_compute. reflexivity.
Qed.
(** With the padding node of CreateNavMeshData polygon 0 is reported twice. *)
Theorem C22_once_refuted : exists m it t h items nodes cur qmin qmax r,
  subdivide isort 3 bv_items 0 2 0 (repeat zeroBv 4) = Ok (items, cur, nodes) /\
  tile_of m it = Ok t /\ tHeader t = Some h /\ tdBv (tD t) = nodes /\ hPolyCount h = 2 /\ hBvNodeCount h = 2 * hPolyCount h /\
  queryPolygonsInTile accept_all log_process m it qmin qmax [] = Ok [(t, r); (t, r)].
Proof.
  pose (t := bv_tile (bv_nodes ++ [zeroBv]) 4).
  exists (bv_mesh t), 0%nat, t. do 4 eexists. exists (fvz 0 0 0), (fvz 0 0 0), 4.
  split; [vm_compute; reflexivity|]. split; [vm_compute; reflexivity|]. split; [vm_compute; reflexivity|].
  split; [vm_compute; reflexivity|]. split; [reflexivity|]. split; [reflexivity|]. vm_compute. reflexivity.
Qed.

(** The copy of the query in detour/mesh.go increments n before it stores, so it finds the same
    polygons but returns a zero first and loses the last one. *)
Theorem C22_mesh_query_shifted : forall m it t h qmin qmax items,
  tile_of m it = Ok t -> tHeader t = Some h ->
  BvAt (tdBv (tD t)) 0 items (hBvNodeCount h) -> hBvNodeCount h < 2 ^ 31 -> (forall i, In i items -> 0 <= iI i) ->
  exists bmin bmax, 
    (zlen (filter (ov bmin bmax) items) <= 127 ->
     exists rest, mesh_queryPolygonsInTile m it qmin qmax (repeat 0 128) 128 =
       Ok (zlen (filter (ov bmin bmax) items),
           0 :: map (fun i => Z.lor (base_ref m it t) (iI i)) (filter (ov bmin bmax) items) ++ rest)).
Proof.
  intros m it t h qmin qmax items Ht Hh HB Hb Hi.
  unfold mesh_queryPolygonsInTile. rewrite Ht. cbn [bind]. unfold hdr_of. rewrite Hh. cbn [bind of_option].
  unfold polyRefBase. rewrite Ht. cbn [bind]. fold (base_ref m it t).
  destruct (BvAt_len _ _ _ _ HB) as [NE EL].
  assert (L0 : hBvNodeCount h <= zlen (tdBv (tD t))).
  { assert (F : BvForest (tdBv (tD t)) 0 items (hBvNodeCount h)) by (rewrite <- (app_nil_r items); eapply BvfCons; [exact HB|constructor]).
    exact (BvForest_get _ _ _ _ F (Z.le_refl 0) NE). }
  assert (L1 : 1 <= zlen items) by (destruct items as [|x l]; [congruence|rewrite zlen_cons; pose proof (zlen_nonneg l); lia]).
  destruct (tdBv (tD t)) as [|n0 bv] eqn:Ebv; [rewrite zlen_nil in L0; lia|]. rewrite <- Ebv in *. clear Ebv n0 bv.
  match goal with |- context [bv_query _ _ ?a ?b _ _ _ _ _ _] => exists a, b; set (bmin := a); set (bmax := b) end.
  clearbody bmin bmax. intros Hk.
  destruct (mq_walk (tdBv (tD t)) bmin bmax (base_ref m it t) (hBvNodeCount h) 128 0 items _ HB) as (v & Hv & W); [lia|lia|lia|exact Hi|].
  replace (S (length (tdBv (tD t)))) with (v + S (length (tdBv (tD t)) - v))%nat by (unfold zlen in L0; lia).
  rewrite W. change (repeat 0 128) with (0 :: [] ++ repeat 0 127).
  assert (Lm : zlen (map (item_ref (base_ref m it t)) (filter (ov bmin bmax) items)) = zlen (filter (ov bmin bmax) items)) by (unfold zlen; now rewrite map_length).
  rewrite mq_fold; [|reflexivity|rewrite Lm; exact Hk|rewrite Lm; lia].
  cbn [bind bv_query]. rewrite Z.ltb_irrefl, Lm. cbn [app]. eexists. reflexivity.
Qed.
(** So a polygon found by the query of query.go (reference 4) is absent from the n entries the
    query of mesh.go returns. *)
Theorem C22_mesh_query_refuted : exists m it t qmin qmax n polys,
  queryPolygonsInTile accept_all log_process m it qmin qmax [] = Ok [(t, 4)] /\
  mesh_queryPolygonsInTile m it qmin qmax (repeat 0 128) 128 = Ok (n, polys) /\ n = 1 /\ ~ In 4 (firstn (Z.to_nat n) polys).
Proof.
  exists (bv_mesh (bv_tile bv_nodes 3)), 0%nat, (bv_tile bv_nodes 3), (fvz 0 0 0), (fvz 0 0 0), 1. eexists.
  split; [vm_compute; reflexivity|]. split; [vm_compute; reflexivity|]. split; [reflexivity|]. intros [H|[]]. discriminate H.
Qed.

(** * C23 *)

(** For every filter and every callback: the query makes calls that depend only on mesh, box and
    filter; they carry, in order and each once, the found polygons that pass the filter, in full
    batches of 32 and one last smaller batch. Tile with a tree: *)
Theorem C23_batches_tree : forall pass m it t h qmin qmax items,
  tile_of m it = Ok t -> tHeader t = Some h ->
  BvAt (tdBv (tD t)) 0 items (hBvNodeCount h) -> hBvNodeCount h < 2 ^ 31 ->
  (forall i, In i items -> 0 <= iI i < zlen (tdPolys (tD t))) ->
  exists bmin bmax calls, quant_query h qmin qmax = (bmin, bmax) /\
    (forall S (process : S -> MeshTile -> list Z -> Z -> res S) s,
       queryPolygonsInTile pass process m it qmin qmax s = run_calls process calls s) /\
    batched t calls /\
    exists idxs, concat (map call_refs calls) = map (Z.lor (base_ref m it t)) idxs /\
      idxs = map iI (filter (fun item => match get (tdPolys (tD t)) (iI item) with
                                         | Ok p => OverlapQuantBounds bmin bmax (iMin item) (iMax item) && pass (Z.lor (base_ref m it t) (iI item)) t p
                                         | _ => false end) items).
Proof.
  intros pass m it t h qmin qmax items Ht Hh HB Hb Hi.
  destruct (BvAt_len _ _ _ _ HB) as [NE EL].
  pose proof (query_bv pass m it t h qmin qmax items Ht Hh NE) as Q. cbv zeta in Q.
  destruct (quant_query h qmin qmax) as [bmin bmax].
  destruct Q as (calls & Hc & Bc & Cc).
  { rewrite <- (app_nil_r items). eapply BvfCons; [exact HB|constructor]. }
  { exact Hb. }
  { exact Hi. }
  exists bmin, bmax, calls. split; [reflexivity|]. split; [exact Hc|]. split; [exact Bc|].
  eexists. split; [|reflexivity]. rewrite Cc, map_map. unfold item_ref. f_equal.
  fold (base_ref m it t). clear - Hi. induction items as [|x items IH]; [reflexivity|].
  cbn [filter]. destruct (get_in_range _ _ (Hi x (or_introl eq_refl))) as [p Gp]. rewrite Gp.
  unfold ov at 1. destruct (OverlapQuantBounds bmin bmax (iMin x) (iMax x)); cbn [andb].
  - cbn [filter]. unfold passes at 1. rewrite Gp. destruct (pass (Z.lor (base_ref m it t) (iI x)) t p);
      [f_equal|]; apply IH; intros; apply Hi; right; assumption.
  - apply IH; intros; apply Hi; right; assumption.
Qed.
(** Tile without a tree: the polygons that pass the filter and whose bounding box touches the
    query box, in increasing order. *)
Theorem C23_batches_scan : forall pass m it t h qmin qmax,
  tile_of m it = Ok t -> tHeader t = Some h -> tdBv (tD t) = [] ->
  vec_nonnan qmin -> vec_nonnan qmax -> zlen (tdVerts (tD t)) <= 65536 ->
  (forall i, 0 <= i < hPolyCount h -> exists p vs, get (tdPolys (tD t)) i = Ok p /\ Type_ p <> polyTypeOffMeshConnection /\
     1 <= pVertCount p /\ poly_verts t p vs /\ Forall vec_nonnan vs) ->
  exists calls idxs,
    (forall S (process : S -> MeshTile -> list Z -> Z -> res S) s,
       queryPolygonsInTile pass process m it qmin qmax s = run_calls process calls s) /\
    batched t calls /\ concat (map call_refs calls) = map (Z.lor (base_ref m it t)) idxs /\ StronglySorted Z.lt idxs /\
    (forall i, In i idxs <-> 0 <= i < hPolyCount h /\ exists p vs, get (tdPolys (tD t)) i = Ok p /\
       pass (Z.lor (base_ref m it t) i) t p = true /\ poly_verts t p vs /\ touches_box vs qmin qmax).
Proof.
  intros pass m it t h qmin qmax Ht Hh Hbv Q0 Q1 Hl Hp. unfold base_ref.
  apply (query_scan pass m it t h qmin qmax Ht Hh Hbv Q0 Q1 Hl).
  intros i Hi. destruct (Hp i Hi) as (p & vs & G & T & C & V & F). exists p. unfold readable. eauto 8.
Qed.
(** Without a tree, one off-mesh connection in the tile ends the program. *)
Theorem C23_offmesh_scan_refuted : exists m it qmin qmax, 
  (exists t p h, tile_of m it = Ok t /\ tHeader t = Some h /\ hPolyCount h = zlen (tdPolys (tD t)) /\ In p (tdPolys (tD t)) /\ Type_ p = polyTypeOffMeshConnection) /\
  queryPolygonsInTile accept_all log_process m it qmin qmax [] = Exit.
Proof.
  pose (t := mkTile 1 0 (Some (mkHeader navMeshMagic navMeshVersion 0 0 0 9 1 4 4 0 0 0 0 1 0 two 0 one (0, 0, 0) (one, one, one) one))
    (mkTD [0; 0; 0; one; 0; 0] [mkPoly 0 [0; 1; 0; 0; 0; 0] [0; 0; 0; 0; 0; 0] 1 2 64] [] [] [] [] [] []) [] 0 0 None).
  exists (bv_mesh t), 0%nat, (fvz 0 0 0), (fvz 0 0 0). split; [|vm_compute; reflexivity].
  exists t. do 2 eexists. split; [reflexivity|]. split; [reflexivity|]. split; [reflexivity|]. split; [left; reflexivity|reflexivity].
Qed.
(** The collecting callback used by queryPolygons6 ends the program at its first batch. *)
Theorem C23_collect_refuted : let t := bv_tile bv_nodes 3 in
  queryPolygons4 accept_all (@collect_process unit) (bv_mesh t) (fvz 0 0 0) (fvz 0 0 0) tt = Exit.
Proof. vm_compute. reflexivity. Qed.

(** A tile of 70 polygons without a tree: batches of 32, 32 and 6. *)
Definition many_tile : MeshTile :=
  mkTile 1 0 (Some (mkHeader navMeshMagic navMeshVersion 0 0 0 9 70 4 4 0 0 0 0 0 2 two 0 one (0, 0, 0) (one, one, one) one))
    (mkTD [0; 0; 0; one; 0; 0; one; 0; one] (repeat (ex_tri [0; 1; 2] [0; 0; 0]) 70) [] [] [] [] [] []) [] 0 0 None.
Definition size_process (s : list Z) (t : MeshTile) (refs : list Z) (n : Z) : res (list Z) := Ok (s ++ [n]).
Example C23_example :
  queryPolygonsInTile accept_all size_process (bv_mesh many_tile) 0 (fvz 0 0 0) (fvz 1 1 1) [] = Ok [32; 32; 6].
Proof. vm_compute. reflexivity. Qed.

(** * C32 *)

(** The polygons a query box delivers: those delivered by the tiles of the grid cells it spans. *)
Theorem C32_candidates : forall pass m center ext cands, queryPolygons4 pass log_process m center ext [] = Ok (Success, cands) ->
  forall c, In c cands <-> exists x y neis j l,
    fst (CalcTileLoc m (vsub numF center ext)) <= x <= fst (CalcTileLoc m (vadd numF center ext)) /\
    snd (CalcTileLoc m (vsub numF center ext)) <= y <= snd (CalcTileLoc m (vadd numF center ext)) /\
    TilesAt m x y 32 = Ok neis /\ In j neis /\
    queryPolygonsInTile pass log_process m j (vsub numF center ext) (vadd numF center ext) [] = Ok l /\ In c l.
Proof.
  intros pass m center ext cands H c. unfold queryPolygons4 in H.
  destruct (CalcTileLoc m (vsub numF center ext)) as [minx miny].
  destruct (CalcTileLoc m (vadd numF center ext)) as [maxx maxy]. cbn [fst snd].
  match type of H with context [if ?b then NoFuel else _] => destruct b; [discriminate|] end.
  set (bmin := vsub numF center ext) in *. set (bmax := vadd numF center ext) in *. clearbody bmin bmax.
  apply bind_ok in H as (s & H & E). apply Ok_inj in E. injection E as ->.
  (* a traced piece of the query started with s: s followed by what it logs from [] *)
  assert (Log : forall F, traced F -> forall s s', F _ log_process s = Ok s' -> exists l, F _ log_process [] = Ok l /\ s' = s ++ l).
  { intros F (calls & o & _ & HF) s s' E. rewrite HF, run_log in *. cbn [bind] in *. destruct o as [[]| | |]; try discriminate.
    cbn [bind] in *. apply Ok_inj in E. exists ([] ++ logged calls). split; [reflexivity|]. now subst. }
  assert (Fold : forall A (F : forall S, Proc S -> S -> A -> res S) (l : list A), (forall a, traced (fun S process s => F S process s a)) ->
     forall s s', foldM (F _ log_process) l s = Ok s' ->
     forall c, In c s' <-> In c s \/ exists a r, In a l /\ F _ log_process [] a = Ok r /\ In c r).
  { intros A F l T. induction l as [|a l IH]; intros s s' E c0.
    - apply Ok_inj in E. subst. split; [tauto|]. intros [I|(a & r & [] & _)]. exact I.
    - cbn [foldM] in E. apply bind_ok in E as (s1 & E1 & E2).
      destruct (Log _ (T a) s s1 E1) as (r & Er & ->). rewrite (IH _ _ E2 c0), in_app_iff. split.
      + intros [[I|I]|(b & r' & I & Eb & Ib)]; [tauto|right; exists a, r; cbn; auto|right; exists b, r'; cbn; auto].
      + intros [I|(b & r' & [<-|I] & Eb & Ib)]; [tauto| |right; eauto].
        left. right. rewrite Er in Eb. apply Ok_inj in Eb. now subst. }
  assert (T3 : forall j, traced (fun S process s => queryPolygonsInTile pass process m j bmin bmax s)) by (intros; apply query_traced).
  assert (T2 : forall x y, traced (fun S process s => let* neis := TilesAt m x y 32 in foldM (fun s j => queryPolygonsInTile pass process m j bmin bmax s) neis s)).
  { intros x y. apply (traced_bind (TilesAt m x y 32)). intros neis.
    exact (traced_foldM (fun S process s j => queryPolygonsInTile pass process m j bmin bmax s) neis T3). }
  assert (T1 : forall y, traced (fun S process s => foldM (fun s x => let* neis := TilesAt m x y 32 in foldM (fun s j => queryPolygonsInTile pass process m j bmin bmax s) neis s) (zrange minx maxx) s)).
  { intros y. exact (traced_foldM (fun S process s x => let* neis := TilesAt m x y 32 in foldM (fun s j => queryPolygonsInTile pass process m j bmin bmax s) neis s) (zrange minx maxx) (fun x => T2 x y)). }
  assert (Rg : forall a b v, In v (zrange a b) <-> a <= v <= b).
  { intros a b v. unfold zrange. rewrite in_map_iff. split.
    - intros (k & <- & I). apply in_zseq in I. lia.
    - intros Hv. exists (v - a). split; [lia|]. apply in_zseq. lia. }
  rewrite (Fold _ (fun S process s y => foldM (fun s x => let* neis := TilesAt m x y 32 in foldM (fun s j => queryPolygonsInTile pass process m j bmin bmax s) neis s) (zrange minx maxx) s) _ T1 _ _ H c).
  split.
  - intros [[]|(y & r1 & Iy & E1 & I1)].
    apply (Fold _ (fun S process s x => let* neis := TilesAt m x y 32 in foldM (fun s j => queryPolygonsInTile pass process m j bmin bmax s) neis s) _ (fun x => T2 x y) _ _ E1 c) in I1 as [[]|(x & r2 & Ix & E2 & I2)].
    cbv beta in E2. apply bind_ok in E2 as (neis & En & E2).
    apply (Fold _ (fun S process s j => queryPolygonsInTile pass process m j bmin bmax s) _ T3 _ _ E2 c) in I2 as [[]|(j & l & Ij & E3 & I3)].
    exists x, y, neis, j, l. apply Rg in Ix, Iy. auto 7.
  - intros (x & y & neis & j & l & Ix & Iy & En & Ij & El & Il). right.
    apply Rg in Ix, Iy.
    (* the inner folds succeed because the outer one did *)
    assert (Ex : forall A (F : forall S, Proc S -> S -> A -> res S) (l : list A), (forall a, traced (fun S process s => F S process s a)) ->
       forall s s' a, foldM (F _ log_process) l s = Ok s' -> In a l -> exists r, F _ log_process [] a = Ok r).
    { intros A F l0 T. induction l0 as [|b l0 IH]; intros s0 s' a E []; cbn [foldM] in E; apply bind_ok in E as (s1 & E1 & E2).
      - subst b. destruct (Log _ (T a) s0 s1 E1) as (r & Er & _). eauto.
      - eauto. }
    destruct (Ex _ (fun S process s y => foldM (fun s x => let* neis := TilesAt m x y 32 in foldM (fun s j => queryPolygonsInTile pass process m j bmin bmax s) neis s) (zrange minx maxx) s) _ T1 _ _ y H Iy) as (r1 & E1).
    exists y, r1. split; [exact Iy|]. split; [exact E1|].
    apply (Fold _ (fun S process s x => let* neis := TilesAt m x y 32 in foldM (fun s j => queryPolygonsInTile pass process m j bmin bmax s) neis s) _ (fun x => T2 x y) _ _ E1 c). right.
    destruct (Ex _ (fun S process s x => let* neis := TilesAt m x y 32 in foldM (fun s j => queryPolygonsInTile pass process m j bmin bmax s) neis s) _ (fun x => T2 x y) _ _ x E1 Ix) as (r2 & E2).
    exists x, r2. split; [exact Ix|]. split; [exact E2|]. cbv beta in E2. rewrite En in E2. cbn [bind] in E2.
    apply (Fold _ (fun S process s j => queryPolygonsInTile pass process m j bmin bmax s) _ T3 _ _ E2 c). right. exists j, l. auto.
Qed.

(** FindNearestPoly returns a delivered polygon of smallest distance measure (the first one
    among equals is kept), or reference 0 when no delivered polygon has a measure below
    MaxFloat32. *)
Theorem C32_nearest : forall pass m center ext cands (closest : Z -> fvec) (over : Z -> bool) (climb : MeshTile -> f32),
  queryPolygons4 pass log_process m center ext [] = Ok (Success, cands) ->
  (forall t r, In (t, r) cands -> r <> 0 /\
     (exists st, ClosestPointOnPoly m r center (f0, f0, f0) = Ok (closest r, over r, st)) /\
     (exists h, tHeader t = Some h /\ climb t = f_of_bits (hWalkableClimb h))) ->
  let d t r := measure center (closest r) (over r) (climb t) in
  exists ref pt, FindNearestPoly pass m center ext = Ok (Success, ref, pt) /\
    ((ref = 0 /\ pt = None /\ forall t r, In (t, r) cands -> flt (d t r) maxFloat32 = false) \/
     (exists t, In (t, ref) cands /\ pt = Some (closest ref) /\ flt (d t ref) maxFloat32 = true /\
        forall t' r', In (t', r') cands -> flt (d t' r') (d t ref) = false)).
Proof.
  intros pass m center ext cands closest over climb H Hc d.
  destruct (query4_traced pass m center ext) as (calls & o & V & Hq).
  assert (Ec : cands = logged calls /\ o = Ok tt).
  { rewrite Hq, run_log in H. cbn [bind app] in H. destruct o as [[]| | |]; try discriminate.
    cbn [bind] in H. apply Ok_inj in H. injection H as <-. auto. }
  destruct Ec as [-> ->].
  pose (dist := fun (t : MeshTile) (r : Z) => (d t r, closest r)).
  assert (Hd : forall t r, In (t, r) (logged calls) -> near_dist m center t r = Ok (dist t r)).
  { intros t r I. destruct (Hc t r I) as (_ & (st & E) & (h & Eh & Ek)). unfold near_dist. rewrite E. cbn [bind].
    unfold dist, d, measure, hdr_of. rewrite Ek, Eh. destruct center as [[cx cy] cz], (closest r) as [[px py] pz].
    destruct (over r); reflexivity. }
  pose proof (near_calls m center dist calls newNearest V Hd) as Hr.
  unfold FindNearestPoly. rewrite Hq, Hr. cbn [bind].
  change (StatusFailed Success) with false. cbv iota.
  pose proof (nstep_min dist (logged calls) [] newNearest) as K. cbv zeta in K. cbn [app] in K.
  set (s := fold_left (nstep dist) (logged calls) newNearest) in *.
  exists (nrRef s), (if nrRef s =? 0 then None else Some (nrPoint s)). split; [reflexivity|].
  destruct K as [[Es Hm]|(t & I & D & P & L & Hm)].
  - left. split; [reflexivity|]. intros t r [].
  - left. rewrite Es. split; [reflexivity|]. split; [reflexivity|]. exact Hm.
  - right. exists t. destruct (Hc t (nrRef s) I) as (Nz & _). split; [exact I|].
    destruct (Z.eqb_spec (nrRef s) 0); [congruence|]. rewrite P, D in *. split; [reflexivity|]. split; [exact L|]. exact Hm.
Qed.

(** Example: two polygons in one tile; the query point lies over the second one. *)
Definition near_tile : MeshTile :=
  mkTile 1 0 (Some (mkHeader navMeshMagic navMeshVersion 0 0 0 9 2 4 4 2 0 2 0 0 2 two 0 one (0, 0, 0) (one, one, one) one))
    (mkTD (tdVerts (ex_td 0 one)) (tdPolys (ex_td 0 one)) [] [mkDetail 0 0 0 1; mkDetail 0 1 0 1] [] [0; 1; 2; 0; 0; 1; 2; 0] [] []) [] 0 0 None.
Example C32_example :
  let m := bv_mesh near_tile in
  let p : fvec := (f_ratio 1 4, f0, f_ratio 3 4) in
  queryPolygons4 accept_all log_process m p (f_ratio 1 8, f1, f_ratio 1 8) [] = Ok (Success, [(near_tile, 4); (near_tile, 5)]) /\
  FindNearestPoly accept_all m p (f_ratio 1 8, f1, f_ratio 1 8) = Ok (Success, 5, Some p).
Proof. split; vm_compute; reflexivity. Qed.

Print Assumptions C21_tree.
Print Assumptions C21_createBVTree.
Print Assumptions C22_tree_query.
Print Assumptions C22_padded_tree.
Print Assumptions C22_once_refuted.
Print Assumptions C22_mesh_query_shifted.
Print Assumptions C22_mesh_query_refuted.
Print Assumptions C23_batches_tree.
Print Assumptions C23_batches_scan.
Print Assumptions C23_offmesh_scan_refuted.
Print Assumptions C23_collect_refuted.
Print Assumptions C32_candidates.
Print Assumptions C32_nearest.
