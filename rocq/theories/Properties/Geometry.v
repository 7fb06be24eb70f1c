(** C31, C34, C35, C50: closest point of a segment, outcode of a point, segment against convex
    polygon, integer predicates. C31 and C35 are about exact arithmetic. *)
From Coq Require Import ZArith QArith List Bool Lia Lqa.
From Verif.Base Require Import Res GoNum F32 Num.
From Verif.Model Require Import Geom SegDist Bounds ContourGeom.
From Verif.Spec Require Import SegSpec PlaneSpec.
From Verif.Proofs Require Import SegProofs PlaneProofs.
Import ListNotations.
Open Scope Z_scope.

(** ** C31 Closest point of a segment *)

Theorem C31_detour : forall a p q : qvec,
  closest dist2 a p q (fst (distancePtSegSqr2D numQ a p q)) (snd (distancePtSegSqr2D numQ a p q)).
Proof. exact closest_2d. Qed.
Theorem C31_recast_2d : forall a p q : qvec, exists t, closest dist2 a p q (distancePtSeg2d numQ a p q) t.
Proof. exact closest_2d'. Qed.
Theorem C31_recast_3d : forall a p q : qvec, exists t, closest dist3 a p q (distancePtSeg3Pt numQ a p q) t.
Proof. exact closest_3d. Qed.
(** Integer coordinates whose differences fit in an int32. *)
Theorem C31_contour : forall x z px pz qx qz,
  is_i32 (qx - px) -> is_i32 (qz - pz) -> is_i32 (x - px) -> is_i32 (z - pz) ->
  exists t, closest dist2 (zvec x z) (zvec px pz) (zvec qx qz) (distancePtSeg numQ x z px pz qx qz) t.
Proof. exact closest_int. Qed.

Example C31_example :
  let a := (3, 0, 4)%Q in let p := (0, 0, 0)%Q in let q := (10, 5, 0)%Q in
  fst (distancePtSegSqr2D numQ a p q) == 16 /\ snd (distancePtSegSqr2D numQ a p q) == 3 # 10.
Proof. split; reflexivity. Qed.

(** ** C34 The outcode of the end of an off-mesh connection *)

(** Where a coordinate lies: -1 below the lower bound, 0 from the lower bound (included) to the
    upper bound (excluded), 1 from the upper bound on. *)
Definition zone (x lo hi : f32) : Z := if flt x lo then -1 else if flt x hi then 0 else 1.

(** 0xff exactly for points within the bounds, else the side of the neighbour tile in whose
    direction the point lies. *)
Theorem C34_classify : forall pt bmin bmax : vec f32,
  nonnan (vx pt) -> nonnan (vz pt) ->
  fle (vx bmin) (vx bmax) = true -> fle (vz bmin) (vz bmax) = true ->
  let r := classifyOffMeshPoint pt bmin bmax in
  let dx := zone (vx pt) (vx bmin) (vx bmax) in
  let dz := zone (vz pt) (vz bmin) (vz bmax) in
  (r = 255 <-> dx = 0 /\ dz = 0) /\ (r <> 255 -> 0 <= r < 8 /\ neighbourLoc 0 0 r = (dx, dz)).
Proof.
  intros pt bmin bmax Hx Hz Bx Bz.
  destruct (fle_nonnan _ _ Bx) as [Nx0 Nx1]. destruct (fle_nonnan _ _ Bz) as [Nz0 Nz1].
  assert (forall x lo hi, nonnan x -> nonnan hi -> fle lo hi = true ->
    (flt x lo = true /\ fge x hi = false /\ zone x lo hi = -1) \/
    (flt x lo = false /\ fge x hi = false /\ zone x lo hi = 0) \/
    (flt x lo = false /\ fge x hi = true /\ zone x lo hi = 1)) as Hcase.
  { intros x lo hi Nx Nh Hb. unfold zone. pose proof (flt_not_fle x hi Nx Nh) as E.
    change (fge x hi) with (fle hi x). destruct (flt x lo) eqn:E1.
    - pose proof (flt_fle_trans _ _ _ E1 Hb) as E2. rewrite E2 in E.
      left. destruct (fle hi x); auto; discriminate.
    - right. rewrite E. destruct (fle hi x); cbn [negb]; auto. }
  unfold classifyOffMeshPoint. cbv zeta.
  destruct (Hcase _ _ _ Hx Nx1 Bx) as [(A & B & ->)|[(A & B & ->)|(A & B & ->)]];
    destruct (Hcase _ _ _ Hz Nz1 Bz) as [(C & D & ->)|[(C & D & ->)|(C & D & ->)]];
    rewrite A, B, C, D; vm_compute; intuition congruence.
Qed.

Example C34_example :
  let b0 := (f_of_Z 0, f_of_Z 0, f_of_Z 0) in let b1 := (f_of_Z 10, f_of_Z 5, f_of_Z 10) in
  let pt := (f_of_Z 10, f_of_Z 0, f_of_Z (-1)) in
  nonnan (vx pt) /\ nonnan (vz pt) /\ fle (vx b0) (vx b1) = true /\ fle (vz b0) (vz b1) = true /\
  classifyOffMeshPoint pt b0 b1 = 7 /\ neighbourLoc 0 0 7 = (1, -1).
Proof. unfold nonnan. vm_compute. intuition congruence. Qed.

(** A point on the upper bound counts as outside, and swapped bounds make every point
    between them count as inside. *)
Theorem C34_closed_bounds_refuted : exists pt bmin bmax,
  vx pt = vx bmax /\ flt (vz bmin) (vz pt) = true /\ flt (vz pt) (vz bmax) = true /\
  classifyOffMeshPoint pt bmin bmax = 0.
Proof.
  exists (f_of_Z 10, f0, f_of_Z 5), (f0, f0, f0), (f_of_Z 10, f0, f_of_Z 10). vm_compute. auto.
Qed.
Theorem C34_swapped_bounds_refuted : exists pt bmin bmax,
  flt (vx pt) (vx bmin) = true /\ fge (vx pt) (vx bmax) = true /\ classifyOffMeshPoint pt bmin bmax = 255.
Proof.
  exists (f_of_Z 5, f0, f_of_Z 5), (f_of_Z 10, f0, f0), (f0, f0, f_of_Z 10). vm_compute. auto.
Qed.

(** ** C35 Segment against convex polygon *)

(** When no edge is nearly parallel to the segment, the result tells whether some point of the
    segment is on the inner side of all edges; [tmin] and [tmax] bound exactly these points,
    and segMin, segMax name the edges on which they lie (-1 for the ends of the segment). *)
Theorem C35_interval : forall (p0 p1 : qvec) (vs : list qvec), not_nearly_parallel p0 p1 vs ->
  let '(st, hit) := IntersectSegmentPoly2D numQ p0 p1 vs in
  (hit = true <-> exists t, (0 <= t <= 1)%Q /\ inside vs (point_at p0 p1 t)) /\
  (hit = true ->
    (forall t, ((0 <= t <= 1)%Q /\ inside vs (point_at p0 p1 t)) <-> (spMin st <= t <= spMax st)%Q) /\
    (spSegMin st = -1 /\ (spMin st == 0)%Q \/
     exists u v, In (spSegMin st, (u, v)) (edge_order vs) /\ (side u v (point_at p0 p1 (spMin st)) == 0)%Q) /\
    (spSegMax st = -1 /\ (spMax st == 1)%Q \/
     exists u v, In (spSegMax st, (u, v)) (edge_order vs) /\ (side u v (point_at p0 p1 (spMax st)) == 0)%Q)).
Proof. exact segPoly_spec. Qed.

(** The numbered edges: edge j goes from vertex j to vertex j+1, the last one to vertex 0. *)
Theorem C35_edge_numbers : forall (vs : list qvec) j u v, In (j, (u, v)) (edge_order vs) ->
  0 <= j < zlen vs /\ get vs j = Ok u /\ get vs (if j =? zlen vs - 1 then 0 else j + 1) = Ok v.
Proof.
  intros vs j u v H. destruct vs as [|v0 tl]; [destruct H|]. cbn [edge_order] in H. cbv zeta in H. change (vec Q) with qvec in H.
  assert (forall (l : list qvec) x, nth_error (x :: l) (length l) = Some (last (x :: l) v0)) as Hlast.
  { induction l as [|y l IH]; intros x; [reflexivity|]. cbn [length nth_error]. rewrite IH. reflexivity. }
  destruct H as [H|H].
  - assert (Z.of_nat (length (v0 :: tl)) - 1 = Z.of_nat (length tl)) as E by (cbn [length]; lia). rewrite E in H.
    assert (j = Z.of_nat (length tl) /\ u = last (v0 :: tl) v0 /\ v = v0) as (-> & -> & ->) by (inversion H; auto).
    clear H.
    assert (zlen (v0 :: tl) - 1 = Z.of_nat (length tl)) as E' by (unfold zlen; exact E).
    rewrite E', Z.eqb_refl. unfold zlen in *. split; [lia|]. split; [|reflexivity].
    apply get_ok. split; [lia|]. rewrite Nat2Z.id. apply Hlast.
  - cbn [List.tl] in H.
    assert (forall (l : list qvec) x k, In (j, (u, v)) (combine (map Z.of_nat (seq k (length l))) (combine (x :: l) l)) ->
      exists i, (i < length l)%nat /\ j = Z.of_nat (k + i) /\ nth_error (x :: l) i = Some u /\ nth_error l i = Some v) as G.
    { induction l as [|y l IH]; intros x k Hin; [destruct Hin|].
      cbn [length seq map combine] in Hin. destruct Hin as [Hin|Hin].
      - inversion Hin; subst. exists O. cbn [length nth_error]. split; [lia|]. split; [f_equal; lia|auto].
      - apply IH in Hin. destruct Hin as (i & Hi & -> & H1 & H2). exists (S i). cbn [length nth_error].
        split; [lia|]. split; [f_equal; lia|auto]. }
    replace (length (v0 :: tl) - 1)%nat with (length tl) in H by (cbn [length]; lia).
    apply G in H. destruct H as (i & Hi & -> & H1 & H2). cbn [Nat.add].
    unfold zlen. cbn [length]. destruct (Z.eqb_spec (Z.of_nat i) (Z.of_nat (S (length tl)) - 1)); [lia|].
    split; [lia|]. split; apply get_ok; (split; [lia|]).
    + now rewrite Nat2Z.id.
    + replace (Z.to_nat (Z.of_nat i + 1)) with (S i) by lia. exact H2.
Qed.

(** The square (0,0) (0,4) (4,4) (4,0), crossed from (-1,1) to (5,2). *)
Definition sq_ : list qvec := [(0, 0, 0); (0, 0, 4); (4, 0, 4); (4, 0, 0)]%Q.
Example C35_example :
  not_nearly_parallel (-1, 0, 1)%Q (5, 0, 2)%Q sq_ /\
  let '(st, hit) := IntersectSegmentPoly2D numQ (-1, 0, 1)%Q (5, 0, 2)%Q sq_ in
  hit = true /\ (spMin st == 1 # 6)%Q /\ (spMax st == 5 # 6)%Q /\ spSegMin st = 0 /\ spSegMax st = 2.
Proof.
  split.
  - intros u v H. cbn in H.
    repeat (destruct H as [H|H]; [inversion H; subst; clear H|]); try destruct H;
      vm_compute; intuition congruence.
  - vm_compute. intuition congruence.
Qed.

(** Cross products below 1e-8 are taken as 0: a tiny segment that leaves a tiny triangle is
    reported to be inside for its whole length. *)
Theorem C35_near_parallel_refuted : exists (p0 p1 : qvec) (vs : list qvec),
  snd (IntersectSegmentPoly2D numQ p0 p1 vs) = true /\
  (spMax (fst (IntersectSegmentPoly2D numQ p0 p1 vs)) == 1)%Q /\ ~ inside vs (point_at p0 p1 1).
Proof.
  set (e := (1 # 100000)%Q).
  exists (0, 0, e)%Q, (5 * e, 0, e)%Q, [(0, 0, 0); (0, 0, 4 * e); (4 * e, 0, 4 * e); (4 * e, 0, 0)]%Q.
  split; [vm_compute; reflexivity|]. split; [vm_compute; reflexivity|].
  intro H. specialize (H (4 * e, 0, 4 * e)%Q (4 * e, 0, 0)%Q). 
  assert (0 <= side (4 * e, 0, 4 * e) (4 * e, 0, 0) (point_at (0, 0, e) (5 * e, 0, e) 1))%Q as H'
    by (apply H; cbn; auto). vm_compute in H'. apply H'. reflexivity.
Qed.

(** ** C50 Integer predicates *)

(** [left]: the point is at a positive distance on one side of the line; [leftOn]: or on the
    line; [collinear]: on the line. *)
Theorem C50_left : forall a b c, small a -> small b -> small c -> a <> b ->
  (left a b c = true <-> exists s u, (0 < u)%Q /\ offset a b s u (toQ c)) /\
  (leftOn a b c = true <-> exists s u, (0 <= u)%Q /\ offset a b s u (toQ c)) /\
  (collinear a b c = true <-> exists s, offset a b s 0 (toQ c)).
Proof. exact left_spec. Qed.

Theorem C50_between : forall a b c, small a -> small b -> small c -> a <> b ->
  between a b c = true <-> on_segment a b (toQ c).
Proof. exact between_spec. Qed.

(** Proper intersection: a common point inside both segments, which are not parallel. *)
Theorem C50_intersectProp : forall a b c d, small a -> small b -> small c -> small d ->
  intersectProp a b c d = true <->
  (exists p, inside_segment a b p /\ inside_segment c d p) /\ ~ parallel a b c d.
Proof. exact intersectProp_spec. Qed.

Theorem C50_intersect : forall a b c d, small a -> small b -> small c -> small d -> a <> b -> c <> d ->
  intersect a b c d = true <-> exists p, on_segment a b p /\ on_segment c d p.
Proof. exact intersect_spec. Qed.

(** Whatever the coordinates, also with overflow, the twice-area is the same for the cyclic
    permutations of the three points. *)
Lemma area2_i32 : forall a b c, area2 a b c = i32 (orient a b c).
Proof.
  assert (forall x, exists k, i32 x = x + k * 4294967296) as W.
  { intros x. exists (- ((x + 2147483648) / 4294967296)). unfold i32.
    pose proof (Z.div_mod (x + 2147483648) 4294967296). lia. }
  assert (forall x y k, x = y + k * 4294967296 -> i32 x = i32 y) as U.
  { intros x y k ->. unfold i32. f_equal.
    replace (y + k * 4294967296 + 2147483648) with (y + 2147483648 + k * 4294967296) by lia.
    apply Z_mod_plus_full. }
  intros [ax az] [bx bz] [cx cz]. unfold area2, orient. cbn [fst snd].
  destruct (W (bx - ax)) as [k1 ->]. destruct (W (cz - az)) as [k2 ->].
  destruct (W (cx - ax)) as [k3 ->]. destruct (W (bz - az)) as [k4 ->].
  destruct (W ((bx - ax + k1 * 4294967296) * (cz - az + k2 * 4294967296))) as [k5 ->].
  destruct (W ((cx - ax + k3 * 4294967296) * (bz - az + k4 * 4294967296))) as [k6 ->].
  apply (U _ _ ((bx - ax) * k2 + k1 * (cz - az) + k1 * k2 * 4294967296 + k5
                - ((cx - ax) * k4 + k3 * (bz - az) + k3 * k4 * 4294967296) - k6)). ring.
Qed.
Theorem C50_cyclic : forall a b c,
  left a b c = left b c a /\ leftOn a b c = leftOn b c a /\ collinear a b c = collinear b c a.
Proof.
  intros a b c. unfold left, leftOn, collinear. rewrite !area2_i32.
  assert (orient a b c = orient b c a) as -> by (destruct a, b, c; unfold orient; cbn [fst snd]; ring). auto.
Qed.
Theorem C50_swap : forall a b c, small a -> small b -> small c ->
  left b a c = negb (leftOn a b c) /\ collinear b a c = collinear a b c.
Proof.
  intros a b c Ha Hb Hc. unfold left, leftOn, collinear. rewrite !area2_exact by assumption.
  assert (orient b a c = - orient a b c) as -> by (destruct a, b, c; unfold orient; cbn [fst snd]; ring).
  split.
  - destruct (Z.ltb_spec (- orient a b c) 0), (Z.leb_spec (orient a b c) 0); auto; lia.
  - destruct (Z.eqb_spec (- orient a b c) 0), (Z.eqb_spec (orient a b c) 0); auto; lia.
Qed.

Example C50_example :
  let a := (0, 0) in let b := (4, 2) in let c := (2, 1) in let d := (3, -5) in
  small a /\ small b /\ small c /\ small d /\ a <> b /\ c <> d /\
  between a b c = true /\ intersect a b c d = true /\ intersectProp a b c d = false /\
  intersectProp a b (0, 2) (4, 0) = true /\ left a b d = true /\ left b a d = false.
Proof. unfold small. vm_compute. intuition congruence. Qed.

(** Limits: two equal end points, and coordinates large enough to overflow (the difference of
    two products of 16-bit differences does not fit in an int32). *)
Theorem C50_degenerate_refuted : exists a c, between a a c = true /\ ~ on_segment a a (toQ c).
Proof.
  exists (0, 0), (5, 0). split; [reflexivity|]. intros (t & _ & H & _).
  unfold toQ, along in H. cbn [fst snd] in H. change (inject_Z 0) with 0%Q in H. change (inject_Z 5) with 5%Q in H. lra.
Qed.
Theorem C50_overflow_refuted : exists a b c,
  (forall p, In p [a; b; c] -> 0 <= fst p <= 65535 /\ 0 <= snd p <= 65535) /\
  left a b c = true /\ ~ exists s u, (0 < u)%Q /\ offset a b s u (toQ c).
Proof.
  exists (0, 0), (65535, 0), (0, 40000). split.
  { intros p [<-|[<-|[<-|[]]]]; cbn; lia. }
  split; [vm_compute; reflexivity|].
  intros (s & u & Hu & H1 & H2). unfold toQ in *. cbn [fst snd] in *.
  change (inject_Z 0) with 0%Q in *. change (inject_Z 65535) with (65535 # 1)%Q in *.
  change (inject_Z 40000) with (40000 # 1)%Q in *. lra.
Qed.

Print Assumptions C31_detour.
Print Assumptions C31_recast_2d.
Print Assumptions C31_recast_3d.
Print Assumptions C31_contour.
Print Assumptions C34_classify.
Print Assumptions C34_closed_bounds_refuted.
Print Assumptions C34_swapped_bounds_refuted.
Print Assumptions C35_interval.
Print Assumptions C35_edge_numbers.
Print Assumptions C35_near_parallel_refuted.
Print Assumptions C50_left.
Print Assumptions C50_between.
Print Assumptions C50_intersectProp.
Print Assumptions C50_intersect.
Print Assumptions C50_cyclic.
Print Assumptions C50_swap.
Print Assumptions C50_degenerate_refuted.
Print Assumptions C50_overflow_refuted.
