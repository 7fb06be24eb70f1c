(** C74, C75: recast/meshdetail.go, the Delaunay triangulation of detail points and its geometry. *)
From Coq Require Import ZArith QArith List Bool Lia.
From Verif.Base Require Import Res GoNum F32 Num Grid.
From Verif.Model Require Import Geom SegDist Delaunay.
From Verif.Spec Require Import AreaSpec HullSpec DelaunaySpec.
From Verif.Proofs Require Import LinkProofs DelaunayPick DelaunayRows DelaunayArea DelaunayGeo.
Import ListNotations.
Open Scope Z_scope.

(** ** C74 delaunayHull *)

(** For all points (float32 words of any kind, at least npts triples) and every hull of at least
    three different ones among the first npts: the loop ends, with a table of edges and a list of
    faces as described by [table] in Spec/DelaunaySpec.v.  If every face is on two sides of the table
    at least, the call returns one row for every face, with its corners in the opposite order (that
    of the hull); if a face is on one side only, it panics.  There is no other outcome. *)
Theorem C74_delaunay : forall npts pts nhull hull,
  0 < npts <= 20000000 -> 3 * npts <= zlen pts -> 3 <= nhull <= zlen hull ->
  let h := firstn (Z.to_nat nhull) hull in
  NoDup h -> (forall v, In v h -> 0 <= v < npts) ->
  exists E ts, table (circle3 pts) pts npts (10 * npts) h E ts /\
    ((forall f, 0 <= f < zlen ts -> 2 <= zlen (owned E f)) /\
     (exists rows, delaunayHull npts pts nhull hull = Ok (rows, E) /\
       Forall2 (fun t row => exists x y z, row = (x, y, z, -1) /\ cyc (y, x, z) t) ts rows) \/
     (exists f, 0 <= f < zlen ts /\ zlen (owned E f) = 1) /\ delaunayHull npts pts nhull hull = Panic).
Proof. exact delaunay_ok. Qed.

(** If the call returns a table in which only the sides of the hull have no face and every face is on
    three sides, the triangles cover the hull exactly: whatever the placement of the points in the
    plane, their signed areas add up to the area of the hull; and three times their number is the
    number of sides. *)
Theorem C74_area : forall npts pts nhull hull rows E,
  0 < npts <= 20000000 -> 3 * npts <= zlen pts -> 3 <= nhull <= zlen hull ->
  let h := firstn (Z.to_nat nhull) hull in
  NoDup h -> (forall v, In v h -> 0 <= v < npts) ->
  delaunayHull npts pts nhull hull = Ok (rows, E) ->
  (forall a b, In (a, b, -2) (sides E) -> In (a, b) (ring h)) ->
  (forall f, 0 <= f < zlen rows -> zlen (owned E f) = 3) ->
  (forall pos : Z -> Z * Z,
    sum (map (fun '(a, b, c, _) => area [pos a; pos b; pos c]) rows) = area (map pos h)) /\
  3 * zlen rows + nhull = 2 * zlen E.
Proof.
  intros npts pts nhull hull rows E Hn Hl Hh h N R Ed Hb Ho.
  destruct (delaunay_ok npts pts nhull hull Hn Hl Hh N R) as (E0 & ts & T & [(_ & rows0 & Er & F2)|(_ & Er)]); [|congruence].
  rewrite Ed in Er. apply Ok_inj in Er. assert (E0 = E) by congruence. assert (rows0 = rows) by congruence. subst E0 rows0.
  assert (L : zlen ts = zlen rows) by (unfold zlen; now rewrite (Forall2_len _ _ _ F2)).
  rewrite <- L in Ho. fold h in T.
  assert (Lh : zlen h = nhull) by (unfold h, zlen in *; rewrite firstn_length; lia).
  split.
  - intros pos. destruct (tiles pos _ _ _ _ _ _ _ T N Hb Ho) as [A _].
    assert (S : sum (map (fun '(a, b, c, _) => area [pos a; pos b; pos c]) rows) = - sum (map (fun '(a, b, c) => area [pos a; pos b; pos c]) ts)).
    { clear -F2. induction F2 as [|t row ts rows (x & y & z & -> & C) F IH]; [reflexivity|]. cbn [map sum fold_right].
      unfold sum in IH. rewrite IH. rewrite (area_rev pos x y z). pose proof (area_cyc pos _ _ C) as K. cbv beta iota in K. rewrite K. destruct t as [[a b] c]. lia. }
    fold h in A. lia.
  - destruct (tiles (fun v => (v, v)) _ _ _ _ _ _ _ T N Hb Ho) as [_ A]. fold h in A. lia.
Qed.

(** A square with a point inside. *)
Definition sq5 : list f32 := map f_of_Z [0; 0; 0;  0; 0; 10;  10; 0; 10;  10; 0; 0;  4; 0; 5].
Definition sq5E : list (Z * Z * Z * Z) :=
  [(3, 0, -2, 0); (0, 1, -2, 1); (1, 2, -2, 2); (2, 3, -2, 3); (4, 0, 0, 1); (3, 4, 0, 3); (4, 1, 1, 2); (4, 2, 2, 3)].
Example C74_square :
  delaunayHull 5 sq5 4 [0; 1; 2; 3] = Ok ([(3, 0, 4, -1); (0, 1, 4, -1); (1, 2, 4, -1); (2, 3, 4, -1)], sq5E).
Proof. vm_compute. reflexivity. Qed.
Example C74_hypotheses :
  0 < 5 <= 20000000 /\ 3 * 5 <= zlen sq5 /\ 3 <= 4 <= zlen [0; 1; 2; 3] /\
  NoDup [0; 1; 2; 3] /\ (forall v, In v [0; 1; 2; 3] -> 0 <= v < 5) /\
  (forall a b, In (a, b, -2) (sides sq5E) -> In (a, b) (ring [0; 1; 2; 3])) /\
  (forall f, 0 <= f < 4 -> zlen (owned sq5E f) = 3).
Proof.
  split; [lia|]. split; [reflexivity || discriminate|]. split; [vm_compute; split; discriminate|].
  split; [repeat constructor; cbn; intuition lia|]. split; [cbn; intuition lia|]. split.
  - intros a b H. cbn in H. repeat (destruct H as [H|H]; [try discriminate; injection H as <- <-; cbn; tauto|]). destruct H.
  - intros f Hf. assert (f = 0 \/ f = 1 \/ f = 2 \/ f = 3) as [->|[->|[->| ->]]] by lia; reflexivity.
Qed.

(** A triangle with a point on one side of it: two of the three faces are on two sides of the table
    only, and the triangles do not cover the hull exactly (they overlap).  So the condition on the
    faces in C74_area is needed. *)
Theorem C74_area_refuted : exists npts pts nhull hull rows E (pos : Z -> Z * Z),
  NoDup hull /\ (forall v, In v hull -> 0 <= v < npts) /\
  (forall v, 0 <= v < npts -> px pts v = f_of_Z (fst (pos v)) /\ pz pts v = f_of_Z (snd (pos v))) /\
  delaunayHull npts pts nhull hull = Ok (rows, E) /\
  sum (map (fun '(a, b, c, _) => Z.abs (area [pos a; pos b; pos c])) rows) > Z.abs (area (map pos hull)).
Proof.
  set (pos := fun v => if v =? 0 then (0, 4) else if v =? 1 then (3, 4) else if v =? 2 then (0, 3) else (2, 4)).
  exists 4, (map f_of_Z [0; 0; 4;  3; 0; 4;  0; 0; 3;  2; 0; 4]), 3, [0; 1; 2]. do 2 eexists. exists pos.
  split; [repeat constructor; cbn; intuition lia|]. split; [cbn; intuition lia|]. split.
  - intros v Hv. assert (v = 0 \/ v = 1 \/ v = 2 \/ v = 3) as [->|[->|[->| ->]]] by lia; split; reflexivity.
  - split; [vm_compute; reflexivity|]. vm_compute. reflexivity.
Qed.

(** The call panics for a convex hull with points strictly inside it (the panic that stands for
    removing a dangling face, meshdetail.go:704). *)
Theorem C74_no_panic_refuted : exists npts pts nhull hull,
  0 < npts <= 20000000 /\ 3 * npts <= zlen pts /\ 3 <= nhull <= zlen hull /\
  NoDup hull /\ (forall v, In v hull -> 0 <= v < npts) /\
  (forall a b v, In (a, b) (ring hull) -> 0 <= v < npts -> v <> a -> v <> b -> onLeft pts b a v = true) /\
  delaunayHull npts pts nhull hull = Panic.
Proof.
  exists 9, (map f_of_Z [2; 0; 10;  4; 0; 10;  10; 0; 9;  1; 0; 1;  4; 0; 4;  5; 0; 5;  4; 0; 5;  2; 0; 6;  7; 0; 8]), 4, [0; 1; 2; 3].
  split; [lia|]. split; [discriminate|]. split; [vm_compute; split; discriminate|].
  split; [repeat constructor; cbn; intuition lia|]. split; [cbn; intuition lia|]. split; [|vm_compute; reflexivity].
  intros a b v H Hv Ha Hb.
  assert (Hv' : v = 0 \/ v = 1 \/ v = 2 \/ v = 3 \/ v = 4 \/ v = 5 \/ v = 6 \/ v = 7 \/ v = 8) by lia.
  cbn in H. repeat (destruct H as [H|H]; [injection H as <- <-; repeat (destruct Hv' as [->|Hv']; [try lia; vm_compute; reflexivity|]); subst v; vm_compute; reflexivity|]). destruct H.
Qed.

(** ** C75 The geometry in exact arithmetic, and the flags *)

(** Centre of a circle through three points. *)
Theorem C75_circumcircle : forall p1 p2 p3 c, circumCentre numQ p1 p2 p3 = Some c ->
  let c := vadd numQ c p1 in (~ qcross p1 p2 p3 == 0 /\ qdist c p1 == qdist c p2 /\ qdist c p1 == qdist c p3)%Q.
Proof. exact circum_ok. Qed.
Example C75_circle_example : exists c,
  circumCentre numQ (1, 0, 0)%Q (7, 5, 0)%Q (1, 2, 8)%Q = Some c /\
  (vx (vadd numQ c (1, 0, 0)) == 4 /\ vz (vadd numQ c (1, 0, 0)) == 4)%Q.
Proof. eexists. split; [vm_compute; reflexivity|]. split; vm_compute; reflexivity. Qed.

(** The test for crossing edges: the open segments have a common point and are not parallel. *)
Theorem C75_overlap : forall a b c d : Q * Q * Q, (overlapSegSeg2d numQ a b c d = true <->
  exists s t, 0 < s < 1 /\ 0 < t < 1 /\ vx a + s * (vx b - vx a) == vx c + t * (vx d - vx c) /\
    vz a + s * (vz b - vz a) == vz c + t * (vz d - vz c) /\
    ~ (vx b - vx a) * (vz d - vz c) - (vz b - vz a) * (vx d - vx c) == 0)%Q.
Proof. exact overlap_exact. Qed.
Example C75_overlap_example :
  overlapSegSeg2d numQ (0, 0, 0)%Q (4, 1, 4)%Q (1, 2, 3)%Q (3, 0, 0)%Q = true /\
  overlapSegSeg2d numQ (0, 0, 0)%Q (4, 1, 4)%Q (1, 2, 3)%Q (2, 0, 2)%Q = false.
Proof. split; vm_compute; reflexivity. Qed.

(** The vertical distance to a triangle: a point with coordinates u, v over the triangle (up to a
    ten-thousandth part beyond its sides) has the distance of its height from the plane of the
    triangle; others are not over it. *)
Theorem C75_distPtTri : forall (p a b c : Q * Q * Q) u v,
  (~ qcross a b c == 0 ->
   vx p == vx a + u * (vx c - vx a) + v * (vx b - vx a) ->
   vz p == vz a + u * (vz c - vz a) + v * (vz b - vz a) ->
   match distPtTri numQ p a b c with
   | Some d => (- (1 # 10000) <= u /\ - (1 # 10000) <= v /\ u + v <= 1 + (1 # 10000)) /\
       let h := vy a + u * (vy c - vy a) + v * (vy b - vy a) - vy p in (0 <= h -> d == h) /\ (h <= 0 -> d == - h)
   | None => ~ (- (1 # 10000) <= u /\ - (1 # 10000) <= v /\ u + v <= 1 + (1 # 10000))
   end)%Q.
Proof. exact distPtTri_ok. Qed.
Example C75_distPtTri_example : exists d,
  distPtTri numQ (1, 5, 1)%Q (0, 0, 0)%Q (4, 8, 0)%Q (0, 4, 4)%Q = Some d /\ (d == 2)%Q /\
  (~ qcross (0, 0, 0) (4, 8, 0) (0, 4, 4) == 0)%Q.
Proof. eexists. split; [vm_compute; reflexivity|]. split; [vm_compute; reflexivity|]. vm_compute. discriminate. Qed.

(** The flags of a triangle: bits 0, 2, 4 for its three sides; a side is marked iff both of its ends
    are within 0.001 of one side of the polygon (squared float32 distances below 0.000001). *)
Definition along (vpoly : list (vec f32)) (va vb : vec f32) : Prop :=
  exists p q, In (p, q) (combine (last vpoly (f0, f0, f0) :: removelast vpoly) vpoly) /\
    flt (distancePtSeg2d numF va p q) (f_ratio 1 1000000) = true /\
    flt (distancePtSeg2d numF vb p q) (f_ratio 1 1000000) = true.
Theorem C75_flags : forall va vb vc vpoly, exists a b c,
  getTriFlags va vb vc vpoly = a + 4 * b + 16 * c /\
  (a = 0 /\ ~ along vpoly va vb \/ a = 1 /\ along vpoly va vb) /\
  (b = 0 /\ ~ along vpoly vb vc \/ b = 1 /\ along vpoly vb vc) /\
  (c = 0 /\ ~ along vpoly vc va \/ c = 1 /\ along vpoly vc va).
Proof.
  intros va vb vc vpoly. exists (getEdgeFlags va vb vpoly), (getEdgeFlags vb vc vpoly), (getEdgeFlags vc va vpoly).
  split; [apply triFlags_ok|].
  assert (G : forall p q, getEdgeFlags p q vpoly = 0 /\ ~ along vpoly p q \/ getEdgeFlags p q vpoly = 1 /\ along vpoly p q).
  { intros p q. destruct (edgeFlag_loop p q vpoly (last vpoly (f0, f0, f0))) as [[H|H] I]; unfold getEdgeFlags, along.
    - left. split; [exact H|]. intros K. apply I in K. lia.
    - right. split; [exact H|]. now apply I. }
  split; [apply G|split; apply G].
Qed.
Definition fvec (x y z : Z) : vec f32 := (f_of_Z x, f_of_Z y, f_of_Z z).
Example C75_flags_example :
  let poly := [fvec 0 0 0; fvec 0 0 8; fvec 8 0 8; fvec 8 0 0] in
  getTriFlags (fvec 0 3 2) (fvec 0 1 6) (fvec 8 2 6) poly = 1 /\
  getTriFlags (fvec 5 0 4) (fvec 0 1 8) (fvec 8 2 8) poly = 4 /\
  getTriFlags (fvec 0 0 8) (fvec 0 1 0) (fvec 8 2 0) poly = 5 /\
  getTriFlags (fvec 1 0 8) (fvec 3 1 3) (fvec 4 2 8) poly = 16.
Proof. vm_compute. auto. Qed.

Print Assumptions C74_delaunay.
Print Assumptions C74_area.
Print Assumptions C74_area_refuted.
Print Assumptions C74_no_panic_refuted.
Print Assumptions C75_circumcircle.
Print Assumptions C75_overlap.
Print Assumptions C75_distPtTri.
Print Assumptions C75_flags.
