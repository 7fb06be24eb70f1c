(** Building the polygon mesh: triangulation (C51), merging (C52), adjacency (C53) and welding
    of vertices (C54). *)
From Coq Require Import ZArith List Bool Lia.
From Verif.Base Require Import Res GoNum Grid.
From Verif.Model Require Import Triangulate PolyMeshOps.
From Verif.Spec Require Import AreaSpec MeshOpsSpec.
From Verif.Proofs Require Import TriangulateProofs WeldProofs MergeProofs AdjacencyProofs.
Import ListNotations.
Open Scope Z_scope.

(** ** C51: triangulation *)

(** Position of contour vertex [k] (four numbers per vertex). *)
Definition at4 (verts : list Z) (k : Z) : Z * Z := (nth (Z.to_nat (k * 4)) verts 0, nth (Z.to_nat (k * 4 + 2)) verts 0).
Definition pos3 (f : Z -> Z * Z) (t : Z * Z * Z) : (Z * Z) * (Z * Z) * (Z * Z) := let '(a, b, c) := t in (f a, f b, f c).

(** For every contour of n >= 3 vertices, simple or not, triangulate does not fail on an index
    and returns either n-2, with that many triangles, each made of contour vertices, which
    result from cutting corners off the contour and whose signed areas add up to the
    contour's; or the negated number of triangles written, all of them cut off corners, with
    more than three vertices left. *)
Theorem C51_triangulate : forall n verts indices cap,
  3 <= n <= zlen indices ->
  let contour := firstn (Z.to_nat n) indices in
  Forall (fun k => 0 <= k < 268435456 /\ k * 4 + 2 < zlen verts) contour ->
  3 * (n - 2) <= cap ->
  exists r tris, triangulate n verts indices cap = Ok (r, tris) /\
    Z.abs r = zlen tris /\
    (forall a b c, In (a, b, c) tris -> In a contour /\ In b contour /\ In c contour) /\
    ((r = n - 2 /\ triangulation contour tris /\
      sum (map (fun t => tri_area (pos3 (at4 verts) t)) tris) = area (map (at4 verts) contour)) \/
     (r <= 0 /\ zlen tris < n - 3 /\ exists left, cuts contour tris left)).
Proof.
  intros n verts indices cap Hn contour Hv Hcap.
  destruct (triangulate_ok n verts indices cap Hn Hv Hcap) as (r & tris & E & H). exists r, tris. split; [exact E|].
  fold contour in H.
  assert (zlen contour = n) as Lc by (subst contour; unfold zlen in *; rewrite firstn_length; lia).
  clearbody contour.
  destruct H as [[Hr Ht]|(Hr & L' & Hc & Hl)].
  - pose proof Ht as (ts' & x & y & z & Ets & Hcuts). pose proof (cuts_length _ _ _ Hcuts) as HL. cbn [length] in HL.
    assert (zlen tris = n - 2) as HT by (rewrite Ets, zlen_snoc; unfold zlen in *; lia).
    split; [lia|]. split.
    { intros a b c Hin. rewrite Ets in Hin. apply cuts_incl in Hcuts. destruct Hcuts as [I1 I2]. apply in_app_iff in Hin.
      destruct Hin as [Hin|[Hin|[]]]; [auto|]. inversion Hin; subst. split; [|split]; apply I1; cbn; auto. }
    left. split; [lia|]. split; [exact Ht|].
    apply (triangulation_map (at4 verts)) in Ht. apply area_triangulation in Ht. rewrite map_map in Ht. symmetry. exact Ht.
  - pose proof (cuts_length _ _ _ Hc) as HL. pose proof (zlen_nonneg tris).
    split; [lia|]. split; [apply cuts_incl in Hc; apply Hc|].
    right. split; [lia|]. split; [unfold zlen in *; lia|]. eauto.
Qed.

(** A square with a notch. *)
Definition ex_contour : list Z := [0;0;0;0; 0;0;10;0; 5;0;4;0; 10;0;10;0; 10;0;0;0].
Example C51_example :
  triangulate 5 ex_contour [0; 1; 2; 3; 4] 9 = Ok (3, [(0, 1, 2); (2, 3, 4); (0, 2, 4)]).
Proof. vm_compute. reflexivity. Qed.
(** A contour that runs the wrong way round cannot be triangulated. *)
Example C51_example_fail :
  triangulate 4 [0;0;0;0; 10;0;0;0; 10;0;10;0; 0;0;10;0] [0; 1; 2; 3] 6 = Ok (0, []).
Proof. vm_compute. reflexivity. Qed.

(** ** C52: merging polygons *)

(** Two polygons that share an edge, in opposite directions, are merged into one with
    na + nb - 2 vertices, the same set of vertices and the sum of the areas (for any positions
    of the vertices). *)
Theorem C52_merge : forall pa pb la lb ea eb tmp nvp,
  padded nvp la pa -> padded nvp lb pb -> 2 <= zlen la -> 2 <= zlen lb ->
  zlen la + zlen lb - 2 <= nvp -> nvp <= zlen tmp ->
  cyc la ea = cyc lb (eb + 1) -> cyc la (ea + 1) = cyc lb eb ->
  exists pa' tmp' m, mergePolyVerts pa pb ea eb tmp nvp = Ok (pa', tmp') /\
    padded nvp m pa' /\ zlen m = zlen la + zlen lb - 2 /\
    incl m (la ++ lb) /\ incl (la ++ lb) m /\
    forall pos : Z -> Z * Z, area (map pos m) = area (map pos la) + area (map pos lb).
Proof.
  intros pa pb la lb ea eb tmp nvp Ha Hb La Lb Hf Ht O1 O2.
  destruct (merge_ok pa pb la lb ea eb tmp nvp Ha Hb La Lb Hf Ht) as (pa' & tmp' & m & E & Hp & Hm).
  exists pa', tmp', m. split; [exact E|]. split; [exact Hp|]. change (m = merged la lb ea eb) in Hm. subst m.
  assert (opposite la lb ea eb) as HO by (split; assumption).
  split; [apply merged_length; assumption|]. destruct (merged_incl la lb ea eb La Lb HO) as [I1 I2].
  split; [exact I1|]. split; [exact I2|]. intros pos. apply merged_area; assumption.
Qed.

(** getPolyMergeValue: it does not fail; a value other than -1 means that the merged polygon
    fits and that the polygons have the two vertices of the edge in common; and if the edges
    run in opposite directions and both polygons are convex, then so is the result of the merge. *)
Theorem C52_value : forall pa pb la lb verts tmp nvp,
  padded nvp la pa -> padded nvp lb pb -> 3 <= zlen la <= nvp -> 3 <= zlen lb <= nvp ->
  Forall (fun v => 0 <= v <= 21845 /\ v * 3 + 2 < zlen verts) (la ++ lb) ->
  exists v ea eb, getPolyMergeValue pa pb verts nvp = Ok (v, ea, eb) /\
    (v <> -1 ->
      zlen la + zlen lb - 2 <= nvp /\ 0 <= ea < zlen la /\ 0 <= eb < zlen lb /\
      ((cyc la ea = cyc lb eb /\ cyc la (ea + 1) = cyc lb (eb + 1)) \/
       (cyc la ea = cyc lb (eb + 1) /\ cyc la (ea + 1) = cyc lb eb)) /\
      (Forall (fun x => 0 <= x <= 32767) verts -> nvp <= zlen tmp ->
       cyc la ea = cyc lb (eb + 1) -> cyc la (ea + 1) = cyc lb eb ->
       turns_left (at_xz verts) la -> turns_left (at_xz verts) lb ->
       exists pa' tmp' m, mergePolyVerts pa pb ea eb tmp nvp = Ok (pa', tmp') /\ padded nvp m pa' /\
         turns_left (at_xz verts) m)).
Proof.
  intros pa pb la lb verts tmp nvp Ha Hb La Lb Hv. apply Forall_app in Hv. destruct Hv as [Va Vb].
  destruct (mergeValue_ok pa pb la lb verts nvp Ha Hb) as (v & ea & eb & E & H); [lia|lia|exact Va|exact Vb|].
  exists v, ea, eb. split; [exact E|]. intros Hne. destruct (H Hne) as (H1 & H2 & H3 & H4 & H5 & H6).
  split; [exact H1|]. split; [exact H2|]. split; [exact H3|]. split; [exact H4|].
  intros Hs Ht O1 O2 Ta Tb.
  destruct (merge_ok pa pb la lb ea eb tmp nvp Ha Hb) as (pa' & tmp' & m & Em & Hp & Hm); [lia|lia|lia|lia|].
  exists pa', tmp', m. split; [exact Em|]. split; [exact Hp|]. change (m = merged la lb ea eb) in Hm. subst m.
  apply uleft_exact in H5; [|apply small_at, Hs..]. apply uleft_exact in H6; [|apply small_at, Hs..].
  apply merged_left; try lia; try assumption. split; assumption.
Qed.

Definition sq_verts : list Z := [0;0;0; 0;0;10; 10;0;10; 10;0;0; 8;0;10; 8;0;0].
Definition no : Z := 65535.
Example C52_example :
  getPolyMergeValue [0;1;2;no;no;no] [0;2;3;no;no;no] sq_verts 6 = Ok (200, 2, 0) /\
  mergePolyVerts [0;1;2;no;no;no] [0;2;3;no;no;no] 2 0 [0;0;0;0;0;0] 6 = Ok ([0;1;2;3;no;no], [0;1;2;3;no;no]).
Proof. vm_compute. auto. Qed.

(** The guard on the direction is needed: for two overlapping convex squares with a common
    edge in the same direction a merge is proposed that loses a vertex and changes the area. *)
Theorem C52_same_direction_refuted : exists pa pb la lb verts nvp v ea eb pa' tmp' m,
  padded nvp la pa /\ padded nvp lb pb /\ getPolyMergeValue pa pb verts nvp = Ok (v, ea, eb) /\ 0 < v /\
  mergePolyVerts pa pb ea eb (repeat 0 6) nvp = Ok (pa', tmp') /\ padded nvp m pa' /\
  ~ incl (la ++ lb) m /\
  area (map (at_xz verts) m) <> area (map (at_xz verts) la) + area (map (at_xz verts) lb).
Proof.
  exists [0;1;2;3;no;no], [0;1;4;5;no;no], [0;1;2;3], [0;1;4;5], sq_verts, 6, 100, 0, 0, [1;2;3;1;4;5], [1;2;3;1;4;5], [1;2;3;1;4;5].
  assert (forall l p : list Z, p = l ++ repeat 65535 (6 - length l) -> (length l <= 6)%nat -> existsb (Z.eqb 65535) l = false -> padded 6 l p) as G.
  { intros l p -> H1 H2. split; [exact H1|]. split; [|reflexivity]. intros F.
    assert (existsb (Z.eqb 65535) l = true) by (apply existsb_exists; exists 65535; auto). congruence. }
  split; [apply G; [reflexivity|cbn; lia|reflexivity]|]. split; [apply G; [reflexivity|cbn; lia|reflexivity]|].
  split; [vm_compute; reflexivity|]. split; [lia|]. split; [vm_compute; reflexivity|].
  split; [apply G; [reflexivity|cbn; lia|reflexivity]|]. split.
  - intros F. specialize (F 0 (or_introl eq_refl)). cbn in F. lia.
  - vm_compute. discriminate.
Qed.

(** The guard on vertex numbers is needed, too: the offset of a vertex is computed in uint16, so
    beyond vertex 21845 the corners are tested on the wrong coordinates. Here both triangles
    and all indices are valid, a merge is proposed, and the result is not convex. *)
Definition far_verts : list Z :=
  [0;0; 0;0;0; 10;0;10; 10;0;0; 0;0;10] ++ repeat 0 (Z.to_nat 65524) ++ [10;0;10; 20;0;20; 20;0;10; 5;0;9].
Theorem C52_large_index_refuted : exists pa pb la lb verts nvp v ea eb pa' tmp' m,
  padded nvp la pa /\ padded nvp lb pb /\ Forall (fun v => 0 <= v /\ v * 3 + 2 < zlen verts) (la ++ lb) /\
  turns_left (at_xz verts) la /\ turns_left (at_xz verts) lb /\
  getPolyMergeValue pa pb verts nvp = Ok (v, ea, eb) /\ 0 < v /\
  cyc la ea = cyc lb (eb + 1) /\ cyc la (ea + 1) = cyc lb eb /\
  mergePolyVerts pa pb ea eb (repeat 0 4) nvp = Ok (pa', tmp') /\ padded nvp m pa' /\
  ~ turns_left (at_xz verts) m.
Proof.
  exists [21846;21847;21848;no], [21847;21846;21849;no], [21846;21847;21848], [21847;21846;21849], far_verts, 4,
    200, 0, 0, [21847;21848;21846;21849], [21847;21848;21846;21849], [21847;21848;21846;21849].
  assert (forall l p : list Z, p = l ++ repeat 65535 (4 - length l) -> (length l <= 4)%nat -> existsb (Z.eqb 65535) l = false -> padded 4 l p) as G.
  { intros l p -> H1 H2. split; [exact H1|]. split; [|reflexivity]. intros F.
    assert (existsb (Z.eqb 65535) l = true) by (apply existsb_exists; exists 65535; auto). congruence. }
  assert (zlen far_verts = 65550) as Lv.
  { unfold far_verts. rewrite !zlen_app. unfold zlen at 2. rewrite repeat_length, Z2Nat.id by lia. reflexivity. }
  assert (forall k a, nth (Z.to_nat (k - 65538)) [10;0;10; 20;0;20; 20;0;10; 5;0;9] 0 = a -> 65538 <= k -> nth (Z.to_nat k) far_verts 0 = a) as N.
  { intros k a <- Hk. unfold far_verts.
    rewrite app_nth2 by (cbn [length]; lia). rewrite app_nth2 by (rewrite repeat_length; cbn [length]; lia).
    rewrite repeat_length. f_equal. cbn [length]. lia. }
  assert (at_xz far_verts 21846 = (10, 10)) as A0 by (unfold at_xz; f_equal; apply N; (reflexivity || lia)).
  assert (at_xz far_verts 21847 = (20, 20)) as A1 by (unfold at_xz; f_equal; apply N; (reflexivity || lia)).
  assert (at_xz far_verts 21848 = (20, 10)) as A2 by (unfold at_xz; f_equal; apply N; (reflexivity || lia)).
  assert (at_xz far_verts 21849 = (5, 9)) as A3 by (unfold at_xz; f_equal; apply N; (reflexivity || lia)).
  split; [apply G; [reflexivity|cbn; lia|reflexivity]|]. split; [apply G; [reflexivity|cbn; lia|reflexivity]|].
  split. { rewrite Lv. cbn [app]. repeat (apply Forall_cons; [lia|]). constructor. }
  assert (forall (pos : Z -> Z * Z) (a b c : Z),
    let '(ax, az) := pos a in let '(bx, bz) := pos b in let '(cx, cz) := pos c in
    (bx - ax) * (cz - az) - (cx - ax) * (bz - az) < 0 -> turns_left pos [a; b; c]) as T.
  { intros pos a b c. destruct (pos a) as [ax az] eqn:Pa, (pos b) as [bx bz] eqn:Pb, (pos c) as [cx cz] eqn:Pc. intros H i.
    unfold cyc. change (Z.of_nat (length [a; b; c])) with 3.
    assert (forall k, (i + k) mod 3 = (i mod 3 + k) mod 3) as M by (intros k; now rewrite Zplus_mod_idemp_l).
    rewrite !M. pose proof (Z.mod_pos_bound i 3 ltac:(lia)). clear M.
    assert (i mod 3 = 0 \/ i mod 3 = 1 \/ i mod 3 = 2) as [R|[R|R]] by lia; rewrite R.
    - change (let a0 := pos a in let b0 := pos b in let c0 := pos c in (fst b0 - fst a0) * (snd c0 - snd a0) - (fst c0 - fst a0) * (snd b0 - snd a0) < 0).
      rewrite Pa, Pb, Pc. cbn [fst snd]. lia.
    - change (let a0 := pos b in let b0 := pos c in let c0 := pos a in (fst b0 - fst a0) * (snd c0 - snd a0) - (fst c0 - fst a0) * (snd b0 - snd a0) < 0).
      rewrite Pa, Pb, Pc. cbn [fst snd]. lia.
    - change (let a0 := pos c in let b0 := pos a in let c0 := pos b in (fst b0 - fst a0) * (snd c0 - snd a0) - (fst c0 - fst a0) * (snd b0 - snd a0) < 0).
      rewrite Pa, Pb, Pc. cbn [fst snd]. lia. }
  split. { pose proof (T (at_xz far_verts) 21846 21847 21848) as H. rewrite A0, A1, A2 in H. apply H. lia. }
  split. { pose proof (T (at_xz far_verts) 21847 21846 21849) as H. rewrite A0, A1, A3 in H. apply H. lia. }
  clear T G N. split; [vm_compute; reflexivity|]. split; [lia|]. split; [reflexivity|]. split; [reflexivity|].
  split; [vm_compute; reflexivity|]. split.
  { split; [cbn; lia|]. split; [|reflexivity]. cbn. lia. }
  intros T. specialize (T 1). cbv zeta in T.
  change (cyc [21847; 21848; 21846; 21849] 1) with 21848 in T.
  change (cyc [21847; 21848; 21846; 21849] (1 + 1)) with 21846 in T.
  change (cyc [21847; 21848; 21846; 21849] (1 + 2)) with 21849 in T. rewrite A0, A2, A3 in T. cbn in T. lia.
Qed.

(** ** C53: adjacency *)

(** Place of the neighbour over edge [j] of polygon [i]. *)
Definition nei (nvp i j : Z) : Z := i * nvp * 2 + (nvp + j).

(** For every list of polygons over [nverts] vertices (with at most 65535 edges): the table of
    polygons keeps its vertices; an edge names a neighbour only if that polygon is another
    one, has the same edge in the opposite direction, and names this polygon there. *)
Theorem C53_symmetric : forall P nvp nverts rest,
  Forall (fun l => zlen l <= nvp /\ Forall (fun v => 0 <= v < nverts) l) P ->
  0 <= nvp <= 65535 -> 0 <= nverts <= 65535 -> zlen P <= 65535 -> zlen P * nvp <= 65535 ->
  exists t, buildMeshAdjacency (table nvp P ++ rest) (zlen P) nverts nvp = Ok t /\
    (forall i j, 0 <= i < zlen P -> 0 <= j < nvp ->
       get t (i * nvp * 2 + j) = get (table nvp P ++ rest) (i * nvp * 2 + j)) /\
    (forall i j k, 0 <= i < zlen P -> 0 <= j < nvp -> get t (nei nvp i j) = Ok k -> k <> 65535 ->
       exists j' a b, goes P i j a b /\ goes P k j' b a /\ k <> i /\ get t (nei nvp k j') = Ok i).
Proof.
  intros P nvp nverts rest HP H0 Hnv Hnp Hsz.
  destruct (adjacency_ok P nvp nverts rest HP) as (t & E & _ & H1 & H2 & _); try lia. exists t. auto.
Qed.

(** If no polygon has an edge in both directions, then of two edges in opposite directions at
    least one gets a neighbour; so edges that are shared by exactly two polygons connect them. *)
Theorem C53_complete : forall P nvp nverts rest t,
  Forall (fun l => zlen l <= nvp /\ Forall (fun v => 0 <= v < nverts) l) P ->
  0 <= nvp <= 65535 -> 0 <= nverts <= 65535 -> zlen P <= 65535 -> zlen P * nvp <= 65535 ->
  (forall i j j' a b, goes P i j a b -> goes P i j' b a -> a = b) ->
  buildMeshAdjacency (table nvp P ++ rest) (zlen P) nverts nvp = Ok t ->
  forall i j k j' a b, goes P i j a b -> goes P k j' b a -> a <> b ->
  (get t (nei nvp i j) <> Ok 65535 \/ get t (nei nvp k j') <> Ok 65535) /\
  ((forall i' j', goes P i' j' a b -> i' = i /\ j' = j) -> (forall i' j'', goes P i' j'' b a -> i' = k /\ j'' = j') ->
   get t (nei nvp i j) = Ok k /\ get t (nei nvp k j') = Ok i).
Proof.
  intros P nvp nverts rest t HP H0 Hnv Hnp Hsz Hs E i j k j' a b G1 G2 Hab.
  destruct (adjacency_ok P nvp nverts rest HP) as (t' & E' & _ & _ & H2 & H3); try lia.
  assert (t' = t) by congruence. subst t'. clear E'.
  assert (exists x y, get t (nei nvp i j) = Ok x /\ get t (nei nvp k j') = Ok y /\ (x <> 65535 \/ y <> 65535)) as (x & y & X & Y & N).
  { destruct (Z.lt_total a b) as [L|[L|L]]; [|contradiction|].
    - apply (H3 Hs i j k j' a b G1 G2 L).
    - destruct (H3 Hs k j' i j b a G2 G1 L) as (x & y & X & Y & N). exists y, x. tauto. }
  split; [destruct N as [N|N]; [left|right]; congruence|].
  intros U1 U2.
  assert (forall i j a b, goes P i j a b -> 0 <= i < zlen P /\ 0 <= j < nvp) as R.
  { intros i0 j0 a0 b0 (R0 & l & Rl & Rj & _). assert (Z.to_nat i0 < length P)%nat by (apply nth_error_Some; congruence).
    rewrite Forall_forall in HP. destruct (HP l (nth_error_In _ _ Rl)) as [Hl _]. unfold zlen in *. lia. }
  assert (forall i j a b a' b', goes P i j a b -> goes P i j a' b' -> a = a' /\ b = b') as Fn.
  { intros i0 j0 a0 b0 a1 b1 (_ & l & L1 & _ & <- & <-) (_ & l' & L2 & _ & <- & <-). rewrite L1 in L2. inversion L2. auto. }
  destruct N as [N|N].
  - destruct (H2 i j x (proj1 (R _ _ _ _ G1)) (proj2 (R _ _ _ _ G1)) X N) as (j2 & a2 & b2 & Q1 & Q2 & _ & Q4).
    destruct (Fn i j a b a2 b2 G1 Q1) as [<- <-]. apply U2 in Q2. destruct Q2 as [-> ->]. auto.
  - destruct (H2 k j' y (proj1 (R _ _ _ _ G2)) (proj2 (R _ _ _ _ G2)) Y N) as (j2 & a2 & b2 & Q1 & Q2 & _ & Q4).
    destruct (Fn k j' b a a2 b2 G2 Q1) as [<- <-]. apply U1 in Q2. destruct Q2 as [-> ->]. auto.
Qed.

(** Three triangles around vertex 2; the edge 0-2 is shared by the first and the second. *)
Definition ex_polys : list (list Z) := [[0;1;2]; [0;2;3]; [3;2;4]].
Example C53_example :
  buildMeshAdjacency (table 3 ex_polys) 3 5 3 =
  Ok [0;1;2; no;no;1;  0;2;3; 0;2;no;  3;2;4; 1;no;no].
Proof. vm_compute. reflexivity. Qed.

(** ** C54: welding of vertices *)

(** For every sequence of points (no more than the tables have room for) the calls of addVertex
    have the effect of scanning the whole list of vertices made so far, newest first, for one
    that may stand for the point, and appending the point if there is none. *)
Theorem C54_welded : forall cap ps,
  0 <= cap <= 65536 -> zlen ps <= cap ->
  Forall (fun p : vert => let '(x, y, z) := p in is_u16 x /\ is_u16 y /\ is_u16 z) ps ->
  exists s, addVertices ps (newWeld cap) = Ok (map Z.of_nat (fst (welded [] ps)), s) /\
    wNv s = zlen (snd (welded [] ps)) /\
    firstn (3 * length (snd (welded [] ps))) (wVerts s) = flatten (snd (welded [] ps)).
Proof.
  intros cap ps Hc Hl Hp. pose proof (newWeld_inv (Z.to_nat cap)) as HI. rewrite Z2Nat.id in HI by lia.
  pose proof (addVertices_ok ps (Z.to_nat cap) [] (newWeld cap) HI Hp) as H.
  destruct (welded [] ps) as [is V]. destruct H as (s & E & HV); [lia|unfold zlen in *; cbn; lia|].
  exists s. cbn [fst snd]. split; [exact E|]. split; [apply (wi_nv _ _ _ HV)|].
  destruct (wi_verts _ _ _ HV) as (rest & -> & _). rewrite <- flatten_length, firstn_app, Nat.sub_diag, firstn_all. cbn. apply app_nil_r.
Qed.

(** What that means: every point gets a vertex that may stand for it (same x and z, height
    equal or 1 or 2 more); every vertex is one of the points; no vertex was added while an
    earlier one could stand for it; and vertices are never moved. *)
Theorem C54_meaning : forall ps V,
  let '(is, V') := welded V ps in
  Forall2 (fun p i => exists v, nth_error V' i = Some v /\ near v p = true) ps is /\
  (exists W, V' = V ++ W) /\ incl V' (V ++ ps) /\
  (V = [] -> ForallOrdPairs (fun early late => near early late = false) V').
Proof.
  intros ps V. pose proof (welded_sound ps V) as H1. pose proof (welded_prefix ps V) as H2.
  pose proof (welded_incl ps V) as H3. pose proof (welded_distinct ps V) as H4.
  destruct (welded V ps) as [is V']. cbn [snd] in *. split; [exact H1|]. split; [exact H2|]. split; [exact H3|].
  intros ->. apply H4. constructor.
Qed.

Example C54_example :
  let ps := [(1, 5, 1); (1, 3, 1); (2, 5, 1); (1, 5, 1)] in
  fst (welded [] ps) = [0; 0; 1; 0]%nat /\ snd (welded [] ps) = [(1, 5, 1); (2, 5, 1)] /\
  (let* r := addVertices ps (newWeld 4) in Ok (fst r, firstn 6 (wVerts (snd r)))) = Ok ([0; 0; 1; 0], [1;5;1; 2;5;1]).
Proof. vm_compute. auto. Qed.

(** The tolerance is one-sided: the difference of heights is taken in uint16 before its
    absolute value, so a point that is 1 above an existing vertex gets a vertex of its own. *)
Theorem C54_both_sides_refuted : exists x z y y', y' = y + 1 /\
  (let* r := addVertices [(x, y, z); (x, y', z)] (newWeld 2) in Ok (fst r)) = Ok [0; 1].
Proof. exists 0, 0, 4, 5. vm_compute. auto. Qed.

Print Assumptions C51_triangulate.
Print Assumptions C52_merge.
Print Assumptions C52_value.
Print Assumptions C53_symmetric.
Print Assumptions C53_complete.
Print Assumptions C54_welded.
Print Assumptions C54_meaning.
