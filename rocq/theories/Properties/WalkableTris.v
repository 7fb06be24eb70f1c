(** C79: recast/recast.go, walkable triangles, bounds and grid size. *)
From Coq Require Import ZArith List Bool Lia.
From Verif.Base Require Import Res GoNum F32 Num Grid.
From Verif.Model Require Import Geom Raster Heightfield Delaunay Raycast WalkableTris.
From Verif.Spec Require Import PolyDetailSpec WalkableTrisSpec.
From Verif.Proofs Require Import FloatAdd FloatMag FloatMono PolyDetailEdge WalkableTrisProofs.
Import ListNotations.
Open Scope Z_scope.

(** MarkWalkableTriangles: of all areas, exactly those of the triangles whose unit normal points up by more
    than the threshold are set. *)
Theorem C79_mark : forall cosf angle verts tris nt areas, tris_ok verts tris nt -> nt <= zlen areas ->
  exists areas', MarkWalkableTriangles cosf angle verts tris nt areas = Ok areas' /\ zlen areas' = zlen areas /\
  forall i, 0 <= i -> nth (Z.to_nat i) areas' 0 =
    if (i <? nt) && fgt (tri_up verts tris i) (cosf (fmul (fdiv angle (f_of_Z 180)) pi32)) then 63 else nth (Z.to_nat i) areas 0.
Proof. intros cosf angle verts tris nt areas T L. exact (mark_loop (fun u => fgt u (walkableThr cosf angle)) 63 verts tris nt areas T L). Qed.

(** ClearUnwalkableTriangles: exactly those whose normal is not above it. *)
Theorem C79_clear : forall cosf angle verts tris nt areas, tris_ok verts tris nt -> nt <= zlen areas ->
  exists areas', ClearUnwalkableTriangles cosf angle verts tris nt areas = Ok areas' /\ zlen areas' = zlen areas /\
  forall i, 0 <= i -> nth (Z.to_nat i) areas' 0 =
    if (i <? nt) && fle (tri_up verts tris i) (cosf (fmul (fdiv angle (f_of_Z 180)) pi32)) then 0 else nth (Z.to_nat i) areas 0.
Proof. intros cosf angle verts tris nt areas T L. exact (mark_loop (fun u => fle u (walkableThr cosf angle)) 0 verts tris nt areas T L). Qed.

(** Both, in any order, settle the area of every triangle with a normal (for the same angle, if the cosine
    is a number): 63 if it is walkable and 0 if not, whatever it was; and leave it as it was if the normal is
    NaN. *)
Theorem C79_settled : forall cosf angle verts tris nt areas, tris_ok verts tris nt -> nt <= zlen areas ->
  let thr := cosf (fmul (fdiv angle (f_of_Z 180)) pi32) in nonnan thr ->
  exists a1 a2 b1, MarkWalkableTriangles cosf angle verts tris nt areas = Ok a1 /\ ClearUnwalkableTriangles cosf angle verts tris nt a1 = Ok a2 /\
    ClearUnwalkableTriangles cosf angle verts tris nt areas = Ok b1 /\ MarkWalkableTriangles cosf angle verts tris nt b1 = Ok a2 /\
    forall i, 0 <= i < nt -> nth (Z.to_nat i) a2 0 =
      if is_nanb (tri_up verts tris i) then nth (Z.to_nat i) areas 0 else if fgt (tri_up verts tris i) thr then 63 else 0.
Proof.
  intros cosf angle verts tris nt areas T L thr Nt.
  destruct (C79_mark cosf angle verts tris nt areas T L) as (a1 & E1 & L1 & K1).
  destruct (C79_clear cosf angle verts tris nt a1 T ltac:(lia)) as (a2 & E2 & L2 & K2).
  destruct (C79_clear cosf angle verts tris nt areas T L) as (b1 & E3 & L3 & K3).
  destruct (C79_mark cosf angle verts tris nt b1 T ltac:(lia)) as (b2 & E4 & L4 & K4). fold thr in K1, K2, K3, K4.
  assert (X : forall i, fgt (tri_up verts tris i) thr = true -> fle (tri_up verts tris i) thr = true -> False).
  { intros i A B. pose proof (flt_fle_trans _ _ _ A B) as C. rewrite flt_irrefl in C. discriminate. }
  exists a1, a2, b1. split; [exact E1|]. split; [exact E2|]. split; [exact E3|]. split.
  - rewrite E4. f_equal. apply (nth_ext _ _ 0 0); [unfold zlen in *; lia|]. intros n _.
    specialize (K1 (Z.of_nat n) ltac:(lia)). specialize (K2 (Z.of_nat n) ltac:(lia)). specialize (K3 (Z.of_nat n) ltac:(lia)). specialize (K4 (Z.of_nat n) ltac:(lia)).
    rewrite Nat2Z.id in *. rewrite K2, K4, K1, K3. specialize (X (Z.of_nat n)).
    destruct (Z.of_nat n <? nt); cbn [andb]; [|reflexivity].
    destruct (fgt (tri_up verts tris (Z.of_nat n)) thr), (fle (tri_up verts tris (Z.of_nat n)) thr); try reflexivity. destruct X; reflexivity.
  - intros i Hi. rewrite K2, K1 by lia. destruct (Z.ltb_spec i nt); [|lia]. cbn [andb]. specialize (X i).
    destruct (tri_up verts tris i) as [s|s| |s m e] eqn:Eu; cbn [is_nanb].
    3:{ unfold fgt. rewrite flt_nan_r, fle_nan_l. reflexivity. }
    all: rewrite <- Eu in *; assert (Nu : nonnan (tri_up verts tris i)) by (rewrite Eu; discriminate);
      destruct (fgt (tri_up verts tris i) thr) eqn:G, (fle (tri_up verts tris i) thr) eqn:F; try reflexivity; try (destruct X; reflexivity);
      exfalso; unfold fgt in G; pose proof (not_flt_fle _ _ Nt Nu G); congruence.
Qed.

(** A triangle with two equal corners has no normal: by C79_clear and C79_mark its area stays as it was, even
    if it was walkable. *)
Theorem C79_degenerate : forall a b, up a a b = S754_nan /\ up a b a = S754_nan /\ up a b b = S754_nan.
Proof. exact up_degenerate. Qed.

(** With a threshold of at least 0 (slopes up to 90 degrees) a triangle is walkable from one side at most. *)
Theorem C79_one_side : forall v0 v1 v2 thr, fle f0 thr = true -> fgt (up v0 v1 v2) thr = true -> fgt (up v0 v2 v1) thr = false.
Proof.
  intros v0 v1 v2 thr T A. destruct (fgt (up v0 v2 v1) thr) eqn:B; [|reflexivity]. exfalso.
  exact (not_both _ _ thr T (up_flip v0 v1 v2) A B).
Qed.

(** CalcBounds: the bounds enclose every vertex, and each of their coordinates is that of a vertex. *)
Theorem C79_bounds : forall verts nv, 1 <= nv < 600000000 -> 3 * nv <= zlen verts -> (forall v, In v verts -> nonnan v) ->
  exists lo hi, CalcBounds verts nv = Ok (lo, hi) /\
  forall c, In c [c0; c1; c2] ->
    (forall i, 0 <= i < nv -> fle (c lo) (c (pos verts i)) = true /\ fle (c (pos verts i)) (c hi) = true) /\
    (exists i, 0 <= i < nv /\ c lo = c (pos verts i)) /\ (exists i, 0 <= i < nv /\ c hi = c (pos verts i)).
Proof.
  intros verts nv Hn Hl N. unfold CalcBounds.
  assert (NP : forall i c, 0 <= i < nv -> In c [c0; c1; c2] -> nonnan (c (pos verts i))).
  { intros i c Hi Hc. unfold pos. cbn in Hc. destruct Hc as [<-|[<-|[<-|[]]]]; apply N, nth_In; unfold zlen in *; lia. }
  rewrite vert_pos by lia. cbn [bind].
  match goal with |- context [foldM ?g ?l0 ?s0] =>
    destruct (foldM_inv g (fun pre (b : vec3 * vec3) => forall c, In c [c0; c1; c2] ->
      nonnan (c (fst b)) /\ nonnan (c (snd b)) /\
      (forall i, 0 <= i < zlen pre + 1 -> fle (c (fst b)) (c (pos verts i)) = true /\ fle (c (pos verts i)) (c (snd b)) = true) /\
      (exists i, 0 <= i < nv /\ c (fst b) = c (pos verts i)) /\ (exists i, 0 <= i < nv /\ c (snd b) = c (pos verts i))) l0 s0) as ([lo hi] & E & K) end.
  - intros c Hc. change (zlen (@nil Z)) with 0. cbn [fst snd]. pose proof (NP 0 c ltac:(lia) Hc) as P0.
    split; [exact P0|]. split; [exact P0|]. split; [|split; exists 0; (split; [lia|reflexivity])].
    intros i Hi. assert (i = 0) by lia. subst i. split; now apply fle_refl.
  - intros pre k post [lo hi] Es K. apply zseq_split in Es as [-> Hp]. pose proof (zlen_nonneg pre). assert (zlen pre < nv - 1) by (unfold zlen; lia).
    rewrite vert_pos by lia. cbn [bind]. eexists. split; [reflexivity|]. intros c Hc. cbn [fst snd] in *. rewrite zlen_snoc.
    destruct (K c Hc) as (N1 & N2 & K1 & K2 & K3). pose proof (NP (zlen pre + 1) c ltac:(lia) Hc) as P.
    set (p := pos verts (zlen pre + 1)) in *.
    assert (Em : c (vmin lo p) = fminf (c lo) (c p) /\ c (vmax hi p) = fmaxf (c hi) (c p)).
    { cbn in Hc. destruct Hc as [<-|[<-|[<-|[]]]]; split; reflexivity. }
    destruct Em as [-> ->]. destruct (min_le (c lo) (c p) N1 P) as (M1 & M2 & M3 & M4). destruct (max_ge (c hi) (c p) N2 P) as (X1 & X2 & X3 & X4).
    split; [exact M1|]. split; [exact X1|]. split; [|split].
    + intros i Hi. destruct (Z.eq_dec i (zlen pre + 1)) as [->|Hne]; [split; assumption|].
      destruct (K1 i ltac:(lia)) as [A B]. split; [exact (fle_trans _ _ _ M2 A)|exact (fle_trans _ _ _ B X2)].
    + destruct M4 as [-> | ->]; [exact K2|]. exists (zlen pre + 1). split; [lia|reflexivity].
    + destruct X4 as [-> | ->]; [exact K3|]. exists (zlen pre + 1). split; [lia|reflexivity].
  - exists lo, hi. split; [exact E|]. intros c Hc. destruct (K c Hc) as (_ & _ & K1 & K2 & K3). split; [|split; assumption].
    intros i Hi. apply K1. unfold zlen. rewrite zseq_length. lia.
Qed.

(** CalcGridSize: for bounds in order and a positive cell size, the sizes are not negative unless they do
    not fit in 31 bits. *)
Definition float_ok (a : f32) : Prop := match a with S754_zero _ => True | S754_finite _ m e => SpecFloat.bounded 24 128 m e = true | _ => False end.
Theorem C79_gridSize : forall lo hi cs, (forall c, In c [c0; c1; c2] -> float_ok (c lo) /\ float_ok (c hi) /\ fle (c lo) (c hi) = true) ->
  (exists m e, cs = S754_finite false m e) ->
  let size := fun c : vec3 -> f32 => fadd (fdiv (fsub (c hi) (c lo)) cs) (f_ratio 1 2) in
  let '(w, h) := CalcGridSize lo hi cs in
  (0 <= w \/ w = -2147483648 /\ forall z, f_trunc (size c0) = Some z -> 2147483648 <= z) /\
  (0 <= h \/ h = -2147483648 /\ forall z, f_trunc (size c2) = Some z -> 2147483648 <= z).
Proof.
  intros lo hi cs B C size.
  assert (F : forall a, float_ok a -> fin a).
  { intros [s|s| |s m e] A; try contradiction; cbn in A; split.
    - exact I.
    - cbn. apply (Z.lt_trans _ OVER); apply OVER_INF.
    - exact A.
    - cbn [V]. pose proof (V_finite m e A). pose proof OVER_INF. lia. }
  assert (Q : forall c, In c [c0; c1; c2] -> nonneg32 (size c)).
  { intros c Hc. destruct (B c Hc) as (A1 & A2 & A3). apply nonneg_add; [|vm_compute; eauto]. apply nonneg_div; [|exact C].
    pose proof (F _ A1) as F1. pose proof (F _ A2) as F2. rewrite fle_SV in A3 by (apply F1 || apply F2). apply Z.leb_le in A3.
    destruct (fsub_SV _ _ F2 F1 A3) as [Nn _]. destruct (fsub (c hi) (c lo)) as [s|[]| |[] m e]; try contradiction; exact I. }
  unfold CalcGridSize. split; apply nonneg_i32; apply Q; cbn; auto.
Qed.

(** *** Cases *)

(** A floor facing up, the same facing down, a wall, and a triangle with two equal corners. *)
Definition fourVerts : list f32 := map f_of_Z [0; 0; 0;  0; 0; 4;  4; 0; 0;  0; 4; 0].
Definition fourTris : list Z := [0; 1; 2;  0; 2; 1;  0; 3; 2;  0; 0; 2].
Definition halfCos (_ : f32) : f32 := f_ratio 1 2.
Example C79_ok_case : tris_ok fourVerts fourTris 4 /\ nonnan (halfCos (f_of_Z 60)) /\ (forall v, In v fourVerts -> nonnan v).
Proof.
  split; [|split].
  - split; [lia|]. split; [cbn; lia|]. intros v Hv. cbn in Hv. change (zlen fourVerts) with 12. repeat (destruct Hv as [<-|Hv]; [lia|]). destruct Hv.
  - vm_compute. discriminate.
  - intros v Hv. assert (Q : forallb (fun v => negb (is_nanb v)) fourVerts = true) by (vm_compute; reflexivity).
    rewrite forallb_forall in Q. specialize (Q v Hv). intros ->. discriminate.
Qed.
Example C79_settled_case :
  MarkWalkableTriangles halfCos (f_of_Z 60) fourVerts fourTris 4 [9; 9; 9; 9; 9] = Ok [63; 9; 9; 9; 9] /\
  ClearUnwalkableTriangles halfCos (f_of_Z 60) fourVerts fourTris 4 [63; 9; 9; 63; 9] = Ok [63; 0; 0; 63; 9].
Proof. split; vm_compute; reflexivity. Qed.
Example C79_one_side_case : fgt (up (pos fourVerts 0) (pos fourVerts 1) (pos fourVerts 2)) (f_ratio 1 2) = true /\
  fgt (up (pos fourVerts 0) (pos fourVerts 2) (pos fourVerts 1)) (f_ratio 1 2) = false.
Proof. split; vm_compute; reflexivity. Qed.
Example C79_bounds_case : CalcBounds fourVerts 4 = Ok ((f0, f0, f0), (f_of_Z 4, f_of_Z 4, f_of_Z 4)) /\
  CalcGridSize (f0, f0, f0) (f_of_Z 4, f_of_Z 4, f_of_Z 5) (f_ratio 3 10) = (13, 17).
Proof. split; vm_compute; reflexivity. Qed.

Print Assumptions C79_mark.
Print Assumptions C79_clear.
Print Assumptions C79_settled.
Print Assumptions C79_degenerate.
Print Assumptions C79_one_side.
Print Assumptions C79_bounds.
Print Assumptions C79_gridSize.
