(** C77: recast/meshdetail.go buildPolyDetail, the detail mesh of a polygon. *)
From Coq Require Import ZArith List Bool Lia SpecFloat.
From Verif.Base Require Import Res GoNum F32 Num Grid.
From Verif.Model Require Import Geom SegDist Raster HeightSearch Hull Delaunay PolyDetail.
From Verif.Spec Require Import AreaSpec HullSpec PolyDetailSpec.
From Verif.Proofs Require Import LinkProofs PolyDetailEdge PolyDetailRefine.
From Verif.Properties Require Hull.
Import ListNotations.
Open Scope Z_scope.

Lemma quadTris_quads : forall ts, quadTris (quads ts) = ts.
Proof. induction ts as [|[[a b] c] ts IH]; [reflexivity|]. unfold quads in *. cbn [map concat app quadTris]. now rewrite IH. Qed.

(** For every polygon of 3 to 126 vertices (float32 words of any kind), a sane patch of heights and a
    positive sample distance in which the lengths of the sides can be counted: the outline is the polygon
    with the points of [rimmed] (Spec/PolyDetailSpec.v) on its sides, numbered on, at most 126, and its
    hull lists each of them once.  It is cut into triangles.  If the polygon is thinner than two sample
    distances, these are the result.  Otherwise the samples of the grid inside are computed, and from these
    triangles on, the sample with most error is added ([grown]), with the triangles of delaunayHull, until
    there are 127 vertices or no sample is off by more than the error ([finished]); more than 255 triangles
    are a panic, and so is a panic of delaunayHull on the way.  There is no other outcome. *)
Theorem C77_detail : forall H inp nin sd err verts,
  heights_ok H -> 3 <= nin <= 126 -> 3 * nin <= zlen inp -> 381 <= zlen verts < 2 ^ 31 -> fgt sd f0 = true ->
  (forall j i, In (j, i) (poly_sides nin) ->
     0 <= steps sd (pos inp j) (pos inp i) < 2147483647 /\ 0 <= steps sd (pos inp i) (pos inp j) < 2147483647) ->
  exists verts1 hull m ts0 ts1,
    zlen verts1 = zlen verts /\ (forall v, 0 <= v < nin -> pos verts1 v = pos inp v) /\
    rimmed H inp sd err verts1 (poly_sides nin) nin hull m /\ m <= 126 /\
    NoDup hull /\ (forall v, In v hull <-> 0 <= v < m) /\
    Forall2 cyc ts0 ts1 /\ triangulation hull ts1 /\
    if flt (min_extent inp nin) (fmul sd (f_of_Z 2)) then buildPolyDetail H inp nin sd err verts = Ok (verts1, m, ts0)
    else exists S verts' n ts A, sampled H inp nin sd S /\ grown H sd err S hull verts1 m ts0 verts' n ts A /\
      (finished H sd err S verts' n ts A /\
       buildPolyDetail H inp nin sd err verts = (if 255 <? zlen ts then Panic else Ok (verts', n, ts)) \/
       buildPolyDetail H inp nin sd err verts = Panic /\
       n < 127 /\ exists i p verts'', worst H sd err S verts' ts A i p /\ extended verts' verts'' n p /\
         delaunayHull (n + 1) verts'' (zlen hull) (hull ++ repeat 0 (127 - length hull)) = Panic).
Proof.
  intros H inp nin sd err verts HH Hn Hi Hv Hsd. rewrite <- sides_eq by lia. intros Hs. unfold buildPolyDetail.
  destruct (copy_ok inp nin verts ltac:(lia) Hi ltac:(lia)) as (v0 & -> & L0 & P0 & _). cbn [bind].
  rewrite extent_ok by lia. rewrite (extent_ext v0 inp) by (lia || assumption). cbn [bind].
  unfold outline. rewrite Hsd.
  destruct (tess_ok H inp nin sd err (sides nin) v0 nin []) as (v1 & hull & m & -> & R & Hm & L1 & P1); try lia; try assumption.
  { intros j i Hji. destruct (in_sides _ _ _ Hji). destruct (Hs j i Hji). tauto. }
  { rewrite sides_len by lia. unfold zlen. cbn. lia. }
  cbn [bind app]. destruct (sides_fst nin) as [Nf If].
  pose proof (rimmed_nodup _ _ _ _ _ _ _ _ _ R Nf ltac:(intros v Q; apply If in Q; lia)) as Nh.
  destruct (rimmed_hull _ _ _ _ _ _ _ _ _ R) as (_ & Zh & Ih). rewrite sides_len in Zh by lia.
  assert (Ih' : forall v, In v hull <-> 0 <= v < m).
  { intros v. rewrite Ih, If. lia. }
  destruct (hullArr_first hull) as [Hf Hz].
  destruct (Hull.C60_triangulateHull v1 (zlen hull) (hullArr hull) []) as (ts & ts' & -> & Lt & It & C & T & _); [lia|lia| |].
  { rewrite Hf. apply Forall_forall. intros v Q. apply Ih' in Q. lia. }
  rewrite Hf in It, T. cbn [bind app]. rewrite quadTris_quads.
  exists v1, hull, m, ts, ts'. split; [lia|]. split; [intros v Q; rewrite P1 by lia; now apply P0|].
  split; [exact R|]. split; [lia|]. do 4 (split; [assumption|]).
  destruct (flt (min_extent inp nin) (fmul sd (f_of_Z 2))); [reflexivity|].
  destruct (grid_ok H inp nin sd HH ltac:(lia) Hi) as (S & -> & Sp). cbn [bind].
  destruct (refine_ok H sd err S hull v1 m ts ltac:(lia) Nh ltac:(intros v Q; now apply Ih') ltac:(lia)
    (length S) v1 m ts (map (fun s => (s, false)) S) []) as [D|D].
  - constructor.
  - lia.
  - split; [rewrite map_map; cbn [fst]; apply map_id|]. intros i s b _ E. rewrite nth_error_map in E.
    destruct (nth_error S (Z.to_nat i)); [|discriminate]. cbn [option_map] in E. assert (b = false) by congruence. subst b. split; [discriminate|easy].
  - constructor.
  - easy.
  - cbn. lia.
  - intros a b c Q. apply It in Q as (Q1 & Q2 & Q3). apply Ih' in Q1, Q2, Q3. auto.
  - reflexivity.
  - destruct D as (v2 & n & t2 & A & L & -> & G & F & T2 & Hn2 & _). exists S, v2, n, t2, A. split; [exact Sp|]. split; [exact G|]. left.
    split; [exact F|]. cbn [bind]. reflexivity.
  - destruct D as (-> & v2 & n & t2 & A & i & p & v3 & G & Hn2 & W & X & Er). exists S, v2, n, t2, A. split; [exact Sp|]. split; [exact G|]. right.
    split; [reflexivity|]. split; [exact Hn2|]. exists i, p, v3. split; [exact W|]. split; [exact X|exact Er].
Qed.

(** So whenever a mesh is returned: the polygon is where it was, there are at most 127 vertices and 255
    triangles, and their corners are among the vertices (they fit in a byte). *)
Theorem C77_result : forall H inp nin sd err verts verts' n ts,
  heights_ok H -> 3 <= nin <= 126 -> 3 * nin <= zlen inp -> 381 <= zlen verts < 2 ^ 31 -> fgt sd f0 = true ->
  (forall j i, In (j, i) (poly_sides nin) ->
     0 <= steps sd (pos inp j) (pos inp i) < 2147483647 /\ 0 <= steps sd (pos inp i) (pos inp j) < 2147483647) ->
  buildPolyDetail H inp nin sd err verts = Ok (verts', n, ts) ->
  zlen verts' = zlen verts /\ (forall v, 0 <= v < nin -> pos verts' v = pos inp v) /\
  nin <= n <= 127 /\ zlen ts <= 255 /\
  forall a b c, In (a, b, c) ts -> 0 <= a < n /\ 0 <= b < n /\ 0 <= c < n.
Proof.
  intros H inp nin sd err verts verts' n ts HH Hn Hi Hv Hsd. rewrite <- sides_eq by lia. intros Hs. unfold buildPolyDetail.
  destruct (copy_ok inp nin verts ltac:(lia) Hi ltac:(lia)) as (v0 & -> & L0 & P0 & _). cbn [bind].
  rewrite extent_ok by lia. cbn [bind].
  unfold outline. rewrite Hsd.
  destruct (tess_ok H inp nin sd err (sides nin) v0 nin []) as (v1 & hull & m & -> & R & Hm & L1 & P1); try lia; try assumption.
  { intros j i Hji. destruct (in_sides _ _ _ Hji). destruct (Hs j i Hji). tauto. }
  { rewrite sides_len by lia. unfold zlen. cbn. lia. }
  cbn [bind app]. destruct (sides_fst nin) as [Nf If].
  pose proof (rimmed_nodup _ _ _ _ _ _ _ _ _ R Nf ltac:(intros v Q; apply If in Q; lia)) as Nh.
  destruct (rimmed_hull _ _ _ _ _ _ _ _ _ R) as (_ & Zh & Ih). rewrite sides_len in Zh by lia.
  assert (Ih' : forall v, In v hull <-> 0 <= v < m).
  { intros v. rewrite Ih, If. lia. }
  destruct (hullArr_first hull) as [Hf Hz].
  destruct (Hull.C60_triangulateHull v1 (zlen hull) (hullArr hull) []) as (ts0 & ts' & -> & Lt & It & C & T & _); [lia|lia| |].
  { rewrite Hf. apply Forall_forall. intros v Q. apply Ih' in Q. lia. }
  rewrite Hf in It, T. cbn [bind app]. rewrite quadTris_quads.
  assert (T0 : tri_ok m ts0). { intros a b c Q. apply It in Q as (Q1 & Q2 & Q3). apply Ih' in Q1, Q2, Q3. auto. }
  assert (P0' : forall v, 0 <= v < nin -> pos v1 v = pos inp v) by (intros v Q; rewrite P1 by lia; now apply P0).
  destruct (flt (min_extent v0 nin) (fmul sd (f_of_Z 2))).
  { intros E. apply Ok_inj in E. assert (verts' = v1 /\ n = m /\ ts = ts0) as (-> & -> & ->) by (split; [|split]; congruence).
    split; [lia|]. split; [exact P0'|]. split; [lia|]. split; [lia|]. exact T0. }
  destruct (grid_ok H inp nin sd HH ltac:(lia) Hi) as (S & -> & Sp). cbn [bind].
  destruct (refine_ok H sd err S hull v1 m ts0 ltac:(lia) Nh ltac:(intros v Q; now apply Ih') ltac:(lia)
    (length S) v1 m ts0 (map (fun s => (s, false)) S) []) as [D|D].
  - constructor.
  - lia.
  - split; [rewrite map_map; cbn [fst]; apply map_id|]. intros i s b _ E. rewrite nth_error_map in E.
    destruct (nth_error S (Z.to_nat i)); [|discriminate]. cbn [option_map] in E. assert (b = false) by congruence. subst b. split; [discriminate|easy].
  - constructor.
  - easy.
  - cbn. lia.
  - exact T0.
  - reflexivity.
  - destruct D as (v2 & n2 & t2 & A & L & -> & G & F & T2 & Hn2 & L2). cbn [bind]. unfold MAX_TRIS.
    destruct (Z.ltb_spec 255 (zlen t2)); [discriminate|]. intros E. apply Ok_inj in E.
    assert (verts' = v2 /\ n = n2 /\ ts = t2) as (-> & -> & ->) by (split; [|split]; congruence).
    split; [lia|]. split; [|split; [lia|split; [lia|exact T2]]].
    intros v Q. rewrite <- P0' by lia.
    assert (K : m <= n2 /\ forall v, 0 <= v < m -> pos v2 v = pos v1 v).
    { clear -G Hm Hn. induction G as [|va na ta A i p vb rows E G [IL IH] Hlt W [_ X] Er]; [split; [lia|reflexivity]|].
      split; [lia|]. intros v Q. rewrite X by lia. destruct (Z.eqb_spec v na); [lia|]. now apply IH. }
    apply K. lia.
  - destruct D as (-> & _). cbn [bind]. discriminate.
Qed.

(** With a sample distance that is not positive (0, which the comment of the Config field calls "no
    sampling", negative or NaN) the hull is empty and the call panics. *)
Theorem C77_no_sampling_panics : forall H inp nin sd err verts,
  3 <= nin <= 126 -> 3 * nin <= zlen inp -> 381 <= zlen verts -> fgt sd f0 = false ->
  buildPolyDetail H inp nin sd err verts = Panic.
Proof.
  intros H inp nin sd err verts Hn Hi Hv Hsd. unfold buildPolyDetail.
  destruct (copy_ok inp nin verts ltac:(lia) Hi ltac:(lia)) as (v0 & -> & L0 & P0 & _). cbn [bind].
  rewrite extent_ok by lia. cbn [bind]. unfold outline. rewrite Hsd. cbn [bind]. change (zlen (@nil Z)) with 0.
  reflexivity.
Qed.

(** ** The same points on both sides of an edge *)
Lemma abs_normalize : forall z e s, SFabs (binary_normalize fprec femax (- z) e s) = SFabs (binary_normalize fprec femax z e s).
Proof.
  assert (K : forall m e l, SFabs (binary_round_aux fprec femax true m e l) = SFabs (binary_round_aux fprec femax false m e l)).
  { intros m e l. unfold binary_round_aux. destruct (shr_fexp fprec femax m e l) as [mrs e']. 
    destruct (shr_fexp fprec femax _ e' loc_Exact) as [mrs'' e'']. destruct (shr_m mrs''); try reflexivity.
    destruct (e'' <=? femax - fprec); reflexivity. }
  intros [|p|p] e s; cbn [Z.opp binary_normalize]; [reflexivity| |]; unfold binary_round;
    destruct (shl_align p e (fexp fprec femax (Z.pos (digits2_pos p) + e))); [|symmetry]; apply K.
Qed.
Lemma abs_sub : forall x y, fabs (fsub x y) = fabs (fsub y x).
Proof.
  intros x y. unfold fabs, fsub.
  destruct x as [[]|[]| |[] mx ex], y as [[]|[]| |[] my ey]; try reflexivity; cbn [SFsub];
    rewrite (Z.min_comm ey ex); rewrite <- abs_normalize; do 2 f_equal; lia.
Qed.
Lemma getAll_app : forall pts a b, getAll pts (a ++ b) = (let* x := getAll pts a in let* y := getAll pts b in Ok (x ++ y)).
Proof.
  intros pts a b. induction a as [|k a IH]; cbn [getAll app bind]; [now destruct (getAll pts b)|].
  rewrite IH. destruct (get pts k), (getAll pts a), (getAll pts b); reflexivity.
Qed.
Lemma getAll_rev : forall pts ks l, getAll pts ks = Ok l -> getAll pts (rev ks) = Ok (rev l).
Proof.
  intros pts ks. induction ks as [|k ks IH]; intros l E; cbn [getAll rev] in *.
  - apply Ok_inj in E. subst l. reflexivity.
  - apply bind_ok in E as (p & Ep & E). apply bind_ok in E as (l' & El & E). apply Ok_inj in E. subst l.
    rewrite getAll_app, (IH _ El). cbn [getAll bind rev]. rewrite Ep. reflexivity.
Qed.
Lemma sortEnds_sym : forall vj vi,
  (if flt (fabs (fsub (vx vj) (vx vi))) (f_ratio 1 1000000) then fgt (vz vj) (vz vi) || fgt (vz vi) (vz vj) else fgt (vx vj) (vx vi) || fgt (vx vi) (vx vj)) = true ->
  exists a b sw, sortEnds vj vi = (a, b, sw) /\ sortEnds vi vj = (a, b, negb sw).
Proof.
  assert (As : forall x y, fgt x y = true -> fgt y x = false).
  { intros x y E. destruct (fgt y x) eqn:E2; [|reflexivity]. pose proof (fgt_trans _ _ _ E E2) as Q. rewrite fgt_irrefl in Q. discriminate. }
  intros vj vi O. unfold sortEnds. rewrite (abs_sub (vx vi) (vx vj)).
  destruct (flt (fabs (fsub (vx vj) (vx vi))) (f_ratio 1 1000000)); apply orb_true_iff in O as [O|O]; rewrite O, (As _ _ O);
    do 3 eexists; split; reflexivity.
Qed.

(** A side gets the same points, in the opposite order, from the polygon on its other side: the ends are
    put in a fixed order first.  The ends must not be at the same place (nor NaN), the heights be the same,
    and no more than 95 vertices be used before by either (so that there is room for 31 more). *)
Theorem C77_seamless : forall H sd err n n' vj vi l,
  0 <= n <= 95 -> 0 <= n' <= 95 ->
  (if flt (fabs (fsub (vx vj) (vx vi))) (f_ratio 1 1000000) then fgt (vz vj) (vz vi) || fgt (vz vi) (vz vj)
   else fgt (vx vj) (vx vi) || fgt (vx vi) (vx vj)) = true ->
  edgePoints H sd err n vj vi = Ok l -> edgePoints H sd err n' vi vj = Ok (rev l).
Proof.
  intros H sd err n n' vj vi l Hn Hn' O E. unfold edgePoints in *. destruct (sortEnds_sym vj vi O) as (a & b & sw & E1 & E2).
  rewrite E1 in E. rewrite E2.
  assert (Ep : edgeParts a b sd n' = edgeParts a b sd n).
  { unfold edgeParts. cbv zeta. set (k := i32 (1 + _)). pose proof (i32_range (1 + f_floor_i32 (fdiv (fsqrt (fadd
      (fmul (fsub (vx b) (vx a)) (fsub (vx b) (vx a))) (fmul (fsub (vz b) (vz a)) (fsub (vz b) (vz a))))) sd))) as Rk. fold k in Rk.
    unfold is_i32 in Rk. unfold MAX_VERTS, MAX_VERTS_PER_EDGE.
    destruct (Z.geb_spec k 32); rewrite !i32_id by (unfold is_i32; lia);
      repeat match goal with |- context [?x >=? 127] => destruct (Z.geb_spec x 127) end; lia. }
  rewrite Ep. destruct (edgeParts a b sd n <? 0); [discriminate|].
  apply bind_ok in E as (pts & -> & E). cbn [bind]. apply bind_ok in E as (idx & -> & E). cbn [bind].
  apply getAll_rev in E. destruct sw; cbn [negb]; [rewrite rev_involutive in E|]; exact E.
Qed.

(** ** Cases *)

(** A hill of 12 x 12 cells, with a peak on the border, and a square on it. *)
Definition hill : HeightPatch :=
  mkPatch (map (fun k => let x := k mod 12 in let y := k / 12 in
    Z.max 0 (6 - Z.abs (x - 5) - Z.abs (y - 6)) + (if (x =? 5) && (y =? 1) then 4 else 0)) (zseq 144)) 0 0 12 12.
Definition hillH : Heights := mkHeights f1 f1 1 hill.
Definition square : list f32 := map f_of_Z [1; 0; 1;  1; 0; 10;  10; 0; 10;  10; 0; 1].
Definition room : list f32 := repeat f0 768.
Example C77_case_hyps : forall sd, In sd (map f_of_Z [2; 3; 4]) -> heights_ok hillH /\ 3 <= 4 <= 126 /\ 3 * 4 <= zlen square /\
  381 <= zlen room < 2 ^ 31 /\ fgt sd f0 = true /\
  (forall j i, In (j, i) (poly_sides 4) ->
     0 <= steps sd (pos square j) (pos square i) < 2147483647 /\ 0 <= steps sd (pos square i) (pos square j) < 2147483647).
Proof.
  intros sd Hi. split; [vm_compute; repeat split; discriminate|]. split; [lia|]. do 2 (split; [vm_compute; repeat split; discriminate|]).
  assert (K : forallb (fun s => fgt s f0 && forallb (fun '(j, i) =>
    (0 <=? steps s (pos square j) (pos square i)) && (steps s (pos square j) (pos square i) <? 2147483647) &&
    (0 <=? steps s (pos square i) (pos square j)) && (steps s (pos square i) (pos square j) <? 2147483647)) (poly_sides 4)) (map f_of_Z [2; 3; 4]) = true)
    by (vm_compute; reflexivity).
  apply (proj1 (forallb_forall _ _)) with (x := sd) in K; [|exact Hi]. apply andb_true_iff in K as [K1 K]. split; [exact K1|].
  intros j i Hs. apply (proj1 (forallb_forall _ _)) with (x := (j, i)) in K; [|exact Hs]. cbv beta iota in K.
  apply andb_true_iff in K as [K K4]. apply andb_true_iff in K as [K K3]. apply andb_true_iff in K as [K5 K2].
  apply Z.leb_le in K5, K3. apply Z.ltb_lt in K2, K4. tauto.
Qed.
(** Sample distance 3, error 2: the peak on the side, and two samples. *)
Example C77_case_mesh : match buildPolyDetail hillH square 4 (f_of_Z 3) (f_of_Z 2) room with
  | Ok (verts, n, ts) => n = 7 /\
      map f_trunc (firstn 21 verts) = map Some [1; 0; 1;  1; 0; 10;  10; 0; 10;  10; 0; 1;  5; 5; 1;  5; 5; 6;  6; 2; 2] /\
      ts = [(2, 3, 5); (3, 4, 6); (4, 0, 6); (0, 1, 5); (1, 2, 5); (5, 3, 6); (6, 0, 5)]
  | _ => False end.
Proof. vm_compute. repeat split; reflexivity. Qed.
(** Sample distance 2, error 1/2: 21 vertices and 30 triangles. *)
Example C77_case_fine : match buildPolyDetail hillH square 4 (f_of_Z 2) (f_ratio 1 2) room with
  | Ok (verts, n, ts) => n = 21 /\ zlen ts = 30
  | _ => False end.
Proof. vm_compute. repeat split; reflexivity. Qed.
(** Without sampling. *)
Example C77_case_none : buildPolyDetail hillH square 4 f0 f1 room = Panic.
Proof. apply C77_no_sampling_panics; vm_compute; try reflexivity; repeat split; discriminate. Qed.
(** The diagonal, over the hill, from both polygons. *)
Example C77_case_seamless : exists p q r t, edgePoints hillH (f_of_Z 3) (f_ratio 1 4) 4 (pos square 2) (pos square 0) = Ok [p; q; r; t] /\
  edgePoints hillH (f_of_Z 3) (f_ratio 1 4) 7 (pos square 0) (pos square 2) = Ok [t; r; q; p] /\ p <> t.
Proof. do 4 eexists. split; [vm_compute; reflexivity|]. split; [vm_compute; reflexivity|discriminate]. Qed.

(** The call does not always return: with sample distance 2 and error 1, a face of the Delaunay
    triangulation on the hill is on one side of the table only, and the call panics. *)
Theorem C77_no_panic_refuted : exists H inp nin sd err verts,
  heights_ok H /\ 3 <= nin <= 126 /\ 3 * nin <= zlen inp /\ 381 <= zlen verts < 2 ^ 31 /\ fgt sd f0 = true /\
  (forall j i, In (j, i) (poly_sides nin) ->
     0 <= steps sd (pos inp j) (pos inp i) < 2147483647 /\ 0 <= steps sd (pos inp i) (pos inp j) < 2147483647) /\
  buildPolyDetail H inp nin sd err verts = Panic.
Proof.
  exists hillH, square, 4, (f_of_Z 2), (f_of_Z 1), room.
  destruct (C77_case_hyps (f_of_Z 2)) as (A & B & C & D & E & F); [now left|]. do 6 (split; [assumption|]).
  vm_compute. reflexivity.
Qed.

Print Assumptions C77_detail.
Print Assumptions C77_result.
Print Assumptions C77_no_sampling_panics.
Print Assumptions C77_seamless.
Print Assumptions C77_no_panic_refuted.
