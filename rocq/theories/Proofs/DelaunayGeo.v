(** The geometry of the detail mesh in exact arithmetic, and the edge flags. *)
From Coq Require Import ZArith QArith List Bool Lia Lqa Qfield Setoid.
From Verif.Base Require Import Res GoNum F32 Num.
From Verif.Model Require Import Geom SegDist Delaunay.
From Verif.Spec Require Import DelaunaySpec.
Import ListNotations.
Open Scope Q_scope.

Lemma Qltb_t : forall a b, Qltb a b = true <-> a < b.
Proof. intros a b. unfold Qltb. rewrite negb_true_iff. split; [intros H; apply Qnot_le_lt; intros L; apply Qle_bool_iff in L; congruence|intros H; destruct (Qle_bool b a) eqn:E; [apply Qle_bool_iff in E; lra|reflexivity]]. Qed.

Notation qv := (Q * Q * Q)%type.
Lemma circum_ok : forall p1 p2 p3 c, circumCentre numQ p1 p2 p3 = Some c ->
  let c := vadd numQ c p1 in ~ qcross p1 p2 p3 == 0 /\ qdist c p1 == qdist c p2 /\ qdist c p1 == qdist c p3.
Proof.
  intros [[x1 y1] z1] [[x2 y2] z2] [[x3 y3] z3] c. unfold circumCentre. cbn [numQ nlt nabs nratio nadd nsub nmul ndiv nZ vsub vx vy vz].
  unfold vcross2, vdot2. cbn [numQ nlt nabs nratio nadd nsub nmul ndiv nZ vsub vx vy vz].
  set (cp := (x2 - x1 - inject_Z 0) * (z3 - z1 - inject_Z 0) - (z2 - z1 - inject_Z 0) * (x3 - x1 - inject_Z 0)).
  destruct (Qltb (inject_Z 1 / inject_Z 1000000) (Qabs' cp)) eqn:C; [|discriminate]. apply Qltb_t in C.
  assert (Nz : ~ cp == 0).
  { intros H. unfold Qabs' in C. destruct (Qltb cp 0) eqn:N; rewrite H in C; assert (P : 0 < inject_Z 1 / inject_Z 1000000) by reflexivity; revert C P; generalize (inject_Z 1 / inject_Z 1000000); intros q C P; lra. }
  intros H. assert (Hc := f_equal (fun o => match o with Some v => v | None => c end) H). cbv beta iota in Hc. clear H. subst c.
  assert (Ecp : cp == qcross (x1, y1, z1) (x2, y2, z2) (x3, y3, z3)) by (unfold cp, qcross; cbn [vx vy vz]; change (inject_Z 0) with 0; ring).
  cbn [vadd vx vy vz numQ nadd]. unfold qdist. cbn [vadd vx vy vz numQ nadd].
  split; [now rewrite <- Ecp|]. clear C. clearbody cp. unfold qcross in Ecp. cbn [vx vy vz] in Ecp.
  change (inject_Z 0) with 0. change (inject_Z 2) with 2.
  set (a := x2 - x1) in *. set (b := z2 - z1) in *. set (d := x3 - x1) in *. set (e := z3 - z1) in *.
  assert (X2 : x2 == x1 + a) by (unfold a; ring). assert (Z2 : z2 == z1 + b) by (unfold b; ring).
  assert (X3 : x3 == x1 + d) by (unfold d; ring). assert (Z3 : z3 == z1 + e) by (unfold e; ring).
  clearbody a b d e. rewrite X2, Z2, X3, Z3. clear X2 Z2 X3 Z3.
  assert (Nz' : ~ a * e - b * d == 0) by (rewrite <- Ecp; exact Nz).
  split; rewrite Ecp; field; exact Nz'.
Qed.

Lemma overlap_exact : forall a b c d : qv, overlapSegSeg2d numQ a b c d = true <->
  exists s t, 0 < s < 1 /\ 0 < t < 1 /\ vx a + s * (vx b - vx a) == vx c + t * (vx d - vx c) /\
    vz a + s * (vz b - vz a) == vz c + t * (vz d - vz c) /\
    ~ (vx b - vx a) * (vz d - vz c) - (vz b - vz a) * (vx d - vx c) == 0.
Proof.
  intros [[ax ay] az] [[bx by_] bz] [[cx cy] cz] [[dx dy] dz]. unfold overlapSegSeg2d, vcross2.
  cbn [numQ nlt nadd nsub nmul nZ vx vy vz].
  change (inject_Z 0) with 0.
  set (k := (bx - ax) * (dz - cz) - (bz - az) * (dx - cx)).
  set (a1 := (bx - ax) * (dz - az) - (bz - az) * (dx - ax)). set (a2 := (bx - ax) * (cz - az) - (bz - az) * (cx - ax)).
  set (a3 := (dx - cx) * (az - cz) - (dz - cz) * (ax - cx)).
  assert (K1 : a1 - a2 == k) by (unfold a1, a2, k; ring).
  transitivity (a1 * a2 < 0 /\ a3 * (a3 + a2 - a1) < 0).
  { destruct (Qltb (a1 * a2) 0) eqn:C1.
    - apply Qltb_t in C1. destruct (Qltb (a3 * (a3 + a2 - a1)) 0) eqn:C2; [apply Qltb_t in C2; tauto|].
      split; [discriminate|]. intros [_ H]. apply Qltb_t in H. congruence.
    - split; [discriminate|]. intros [H _]. apply Qltb_t in H. congruence. }
  split.
  - intros [H1 H2].
    assert (Nk : ~ k == 0).
    { intros Hk. assert (E : a1 == a2) by lra. rewrite E in H1. assert (0 <= a2 * a2) by nra. lra. }
    exists (a3 / k), (- a2 / k). assert (Hkk : 0 < k * k) by (assert (k < 0 \/ 0 < k) as [|] by (destruct (Q_dec k 0) as [[|]|]; tauto); nra).
    assert (S3 : a3 / k == a3 * k / (k * k)) by (field; exact Nk).
    assert (S2 : - a2 / k == - a2 * k / (k * k)) by (field; exact Nk).
    assert (H2' : a3 * (a3 - k) < 0) by (setoid_replace (a3 - k) with (a3 + a2 - a1) by lra; exact H2).
    assert (E1 : a1 == k + a2) by lra. assert (H1' : (k + a2) * a2 < 0) by (rewrite <- E1; exact H1).
    assert (Q1 : 0 <= a3 * a3) by nra. assert (Q2 : 0 <= (a3 - k) * (a3 - k)) by nra.
    assert (Q3 : 0 <= a2 * a2) by nra. assert (Q4 : 0 <= (k + a2) * (k + a2)) by nra.
    assert (I1 : 0 < a3 * k / (k * k) < 1).
    { split; [apply Qlt_shift_div_l; [exact Hkk|]|apply Qlt_shift_div_r; [exact Hkk|]]; lra. }
    assert (I2 : 0 < - a2 * k / (k * k) < 1).
    { split; [apply Qlt_shift_div_l; [exact Hkk|]|apply Qlt_shift_div_r; [exact Hkk|]]; lra. }
    clear H1' H2' Q1 Q2 Q3 Q4 E1.
    split; [rewrite S3; exact I1|]. split; [rewrite S2; exact I2|]. clear S3 S2 I1 I2 H1 H2 Hkk.
    split; [|split; [|exact Nk]]; unfold a3, a2, k in *; field; exact Nk.
  - intros (s & t & Hs & Ht & Ex & Ez & Nk). fold k in Nk.
    assert (Hkk : 0 < k * k) by (assert (k < 0 \/ 0 < k) as [|] by (destruct (Q_dec k 0) as [[|]|]; tauto); nra).
    assert (E2 : a2 == - t * k).
    { unfold a2, k. assert (X : cx - ax == s * (bx - ax) - t * (dx - cx)) by lra. assert (Z0 : cz - az == s * (bz - az) - t * (dz - cz)) by lra.
      rewrite X, Z0. ring. }
    assert (E3 : a3 == s * k).
    { unfold a3, k. assert (X : ax - cx == t * (dx - cx) - s * (bx - ax)) by lra. assert (Z0 : az - cz == t * (dz - cz) - s * (bz - az)) by lra.
      rewrite X, Z0. ring. }
    assert (E1 : a1 == (1 - t) * k) by lra.
    split.
    + rewrite E1, E2. setoid_replace ((1 - t) * k * (- t * k)) with (- (t * (1 - t)) * (k * k)) by ring. assert (0 < t * (1 - t)) by nra. nra.
    + rewrite E1, E2, E3. setoid_replace (s * k * (s * k + - t * k - (1 - t) * k)) with (- (s * (1 - s)) * (k * k)) by ring. assert (0 < s * (1 - s)) by nra. nra.
Qed.

(** The point (of the xz-plane) with coordinates u, v in the triangle. *)
Lemma distPtTri_ok : forall (p a b c : qv) u v,
  ~ qcross a b c == 0 ->
  vx p == vx a + u * (vx c - vx a) + v * (vx b - vx a) ->
  vz p == vz a + u * (vz c - vz a) + v * (vz b - vz a) ->
  match distPtTri numQ p a b c with
  | Some d => (- (1 # 10000) <= u /\ - (1 # 10000) <= v /\ u + v <= 1 + (1 # 10000)) /\
      let h := vy a + u * (vy c - vy a) + v * (vy b - vy a) - vy p in (0 <= h -> d == h) /\ (h <= 0 -> d == - h)
  | None => ~ (- (1 # 10000) <= u /\ - (1 # 10000) <= v /\ u + v <= 1 + (1 # 10000))
  end.
Proof.
  intros [[px py] pz] [[ax ay] az] [[bx by_] bz] [[cx cy] cz] u v. unfold qcross, distPtTri, vdot2, vsub.
  cbn [numQ nlt nle nabs nneg nratio nadd nsub nmul ndiv nZ vx vy vz].
  change (inject_Z 1) with 1.
  intros Nz Hx Hz.
  set (x0 := cx - ax). set (z0 := cz - az). set (x1 := bx - ax). set (z1 := bz - az). set (x2 := px - ax). set (z2 := pz - az).
  assert (X2 : x2 == u * x0 + v * x1) by (unfold x2, x0, x1; lra).
  assert (Z2 : z2 == u * z0 + v * z1) by (unfold z2, z0, z1; lra).
  assert (Nd : ~ x1 * z0 - z1 * x0 == 0) by exact Nz.
  set (D := (x0 * x0 + z0 * z0) * (x1 * x1 + z1 * z1) - (x0 * x1 + z0 * z1) * (x0 * x1 + z0 * z1)).
  assert (ED : D == (x1 * z0 - z1 * x0) * (x1 * z0 - z1 * x0)) by (unfold D; ring).
  assert (ND : ~ D == 0).
  { rewrite ED. intros H. apply Qmult_integral in H. tauto. }
  assert (EU : ((x1 * x1 + z1 * z1) * (x0 * x2 + z0 * z2) - (x0 * x1 + z0 * z1) * (x1 * x2 + z1 * z2)) * (1 / D) == u).
  { rewrite X2, Z2. unfold D in *. field. exact ND. }
  assert (EV : ((x0 * x0 + z0 * z0) * (x1 * x2 + z1 * z2) - (x0 * x1 + z0 * z1) * (x0 * x2 + z0 * z2)) * (1 / D) == v).
  { rewrite X2, Z2. unfold D in *. field. exact ND. }
  set (U := _ * (1 / D)) in EU. set (V := _ * (1 / D)) in EV.
  change (inject_Z 10000) with 10000. assert (Ee : 1 / 10000 == 1 # 10000) by reflexivity.
  fold U V. clearbody U V. 
  destruct (Qle_bool (- (1 / 10000)) U && Qle_bool (- (1 / 10000)) V && Qle_bool (U + V) (1 + 1 / 10000)) eqn:C.
  - apply andb_true_iff in C as [C C3]. apply andb_true_iff in C as [C1 C2]. apply Qle_bool_iff in C1, C2, C3.
    rewrite Ee, EU in C1. rewrite Ee, EV in C2. rewrite Ee, EU, EV in C3. split; [auto|]. cbv zeta.
    assert (Eh : ay + (cy - ay) * U + (by_ - ay) * V - py == ay + u * (cy - ay) + v * (by_ - ay) - py) by (rewrite EU, EV; ring).
    unfold Qabs'. destruct (Qltb _ 0) eqn:N.
    + apply Qltb_t in N. rewrite Eh in N. split; intros H; rewrite Eh; lra.
    + assert (N' : ~ ay + (cy - ay) * U + (by_ - ay) * V - py < 0) by (intros H; apply Qltb_t in H; congruence). rewrite Eh in N'. split; intros H; rewrite Eh; lra.
  - intros (C1 & C2 & C3). rewrite <- Ee, <- EU in C1. rewrite <- Ee, <- EV in C2. rewrite <- Ee, <- EU, <- EV in C3.
    apply Qle_bool_iff in C1, C2, C3. rewrite C1, C2, C3 in C. discriminate.
Qed.
Close Scope Q_scope.
Open Scope Z_scope.

(** * Flags *)
Lemma edgeFlag_loop : forall va vb vs vj,
  (edgeFlagLoop va vb vj vs = 0 \/ edgeFlagLoop va vb vj vs = 1) /\
  (edgeFlagLoop va vb vj vs = 1 <-> exists p q, In (p, q) (combine (vj :: removelast vs) vs) /\
    flt (distancePtSeg2d numF va p q) (f_ratio 1 1000000) = true /\ flt (distancePtSeg2d numF vb p q) (f_ratio 1 1000000) = true).
Proof.
  intros va vb vs. induction vs as [|vi vs IH]; intros vj.
  - cbn [edgeFlagLoop]. split; [now left|]. split; [lia|]. intros (p & q & [] & _).
  - cbn [edgeFlagLoop]. specialize (IH vi). destruct IH as [IH1 IH2].
    assert (Ec : combine (vj :: removelast (vi :: vs)) (vi :: vs) = (vj, vi) :: combine (vi :: removelast vs) vs) by (destruct vs; reflexivity).
    rewrite Ec. cbv zeta.
    destruct (flt (distancePtSeg2d numF va vj vi) (f_ratio 1 1000000) && flt (distancePtSeg2d numF vb vj vi) (f_ratio 1 1000000)) eqn:C.
    + split; [now right|]. split; [intros _|reflexivity]. apply andb_true_iff in C as [C1 C2]. exists vj, vi. split; [now left|]. split; assumption.
    + split; [exact IH1|]. rewrite IH2. split.
      * intros (p & q & Hi & H). exists p, q. split; [now right|exact H].
      * intros (p & q & [Hi|Hi] & H1 & H2); [|exists p, q; split; [exact Hi|split; assumption]].
        assert (Ep : p = vj) by congruence. assert (Eq : q = vi) by congruence. rewrite Ep, Eq in *. rewrite H1, H2 in C. discriminate.
Qed.
Lemma triFlags_ok : forall va vb vc vpoly,
  getTriFlags va vb vc vpoly = getEdgeFlags va vb vpoly + 4 * getEdgeFlags vb vc vpoly + 16 * getEdgeFlags vc va vpoly.
Proof.
  intros. unfold getTriFlags.
  assert (B : forall a b, getEdgeFlags a b vpoly = 0 \/ getEdgeFlags a b vpoly = 1) by (intros; apply edgeFlag_loop).
  destruct (B va vb) as [-> | ->], (B vb vc) as [-> | ->], (B vc va) as [-> | ->]; reflexivity.
Qed.
