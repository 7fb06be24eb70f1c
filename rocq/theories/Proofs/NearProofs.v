(** The point of a polygon nearest to a position (ClosestPointOnPolyBoundary). *)
From Coq Require Import ZArith List Lia Bool.
From Coq Require Import Floats.SpecFloat.
From Verif.Base Require Import Res GoNum F32 Num Grid.
From Verif.Model Require Import Status Poly PolyRef MeshTypes Geom MeshLinks MeshTiles FindPath StraightPath.
From Verif.Spec Require Import LinkSpec PathSpec RaySpec StraightSpec.
From Verif.Proofs Require Import FloatAdd FloatMag FloatMono FloatDiv FindPathEnd RayProofs StraightProofs StraightEnd.
Import ListNotations.
Open Scope Z_scope.

(** ** Edges *)
Lemma nth_combine : forall {A B} (a : list A) (b : list B) j x y, nth_error (combine a b) j = Some (x, y) <-> nth_error a j = Some x /\ nth_error b j = Some y.
Proof.
  induction a as [|u a IH]; intros b j x y; [destruct j; cbn; split; [discriminate|intros [H _]; discriminate|discriminate|intros [H _]; discriminate]|].
  destruct b as [|v b]; [destruct j; cbn; split; try discriminate; intros [_ H]; discriminate|]. destruct j as [|j]; cbn [combine nth_error]; [|apply IH].
  split; [intros H; injection H as <- <-; auto|intros [H1 H2]; congruence].
Qed.
Lemma edges_nth : forall vs j va vb, nth_error (edges vs) j = Some (va, vb) <-> polygon_edge vs j va vb.
Proof.
  intros vs j va vb. unfold polygon_edge, edges. destruct vs as [|v tl]; [destruct j; cbn; split; [discriminate|intros [H _]; discriminate|discriminate|intros [H _]; discriminate]|].
  rewrite nth_combine. assert (X : forall x, nth_error (v :: tl) j = Some x -> nth_error (tl ++ [v]) j = nth_error (v :: tl) ((j + 1) mod length (v :: tl))).
  { intros x H. assert (L : (j < length (v :: tl))%nat) by (apply nth_error_Some; congruence). cbn [length] in *. destruct (Nat.eq_dec j (length tl)) as [->|N].
    - rewrite nth_error_app2, Nat.sub_diag by lia. rewrite Nat.add_1_r, Nat.mod_same by lia. reflexivity.
    - rewrite nth_error_app1 by lia. rewrite Nat.mod_small by lia. rewrite Nat.add_1_r. reflexivity. }
  split; intros [H1 H2]; (split; [exact H1|]); pose proof (X _ H1) as Y; [etransitivity; [symmetry; exact Y|exact H2]|etransitivity; [exact Y|exact H2]].
Qed.

(** ** The smallest distance *)
Lemma argmin_spec : forall l i dmin imin emin im e, num dmin -> (forall d x, In (d, x) l -> num d) -> argmin l i dmin imin emin = (im, e) ->
  exists d, ((im = imin /\ d = dmin /\ e = emin) \/ exists k, nth_error l k = Some (d, e) /\ im = i + Z.of_nat k) /\
    num d /\ SV d <= SV dmin /\ forall d' x, In (d', x) l -> SV d <= SV d'.
Proof.
  induction l as [|[d0 e0] l IH]; intros i dmin imin emin im e Nd Nl H; cbn [argmin] in H.
  { injection H as <- <-. exists dmin. split; [left; auto|]. split; [exact Nd|]. split; [lia|intros d' x []]. }
  assert (N0 : num d0) by (eapply Nl; left; reflexivity). rewrite flt_SV in H by assumption. destruct (Z.ltb_spec (SV d0) (SV dmin)) as [L|L].
  - apply IH in H; [|exact N0|intros d x Hx; apply (Nl d x); right; exact Hx]. destruct H as (d & C & Nd' & L1 & L2). exists d. split.
    + right. destruct C as [(-> & -> & ->)|(k & Ek & ->)]; [exists 0%nat; split; [reflexivity|lia]|exists (S k); split; [exact Ek|lia]].
    + split; [exact Nd'|]. split; [lia|]. intros d' x [E|Hx]; [injection E as <- <-; lia|eapply L2; exact Hx].
  - apply IH in H; [|exact Nd|intros d x Hx; apply (Nl d x); right; exact Hx]. destruct H as (d & C & Nd' & L1 & L2). exists d. split.
    + destruct C as [C|(k & Ek & ->)]; [left; exact C|right; exists (S k); split; [exact Ek|lia]].
    + split; [exact Nd'|]. split; [lia|]. intros d' x [E|Hx]; [injection E as <- <-; lia|eapply L2; exact Hx].
Qed.

(** ** Sizes *)
Lemma big60 : nn (f_of_Z (2 ^ 60)) /\ V (f_of_Z (2 ^ 60)) = 2 ^ 209.
Proof. split; vm_compute; reflexivity. Qed.
Lemma mag60 : forall a, num a -> fle (fabs a) (f_of_Z (2 ^ 60)) = true -> mag 209 a.
Proof.
  intros a N H. split; [exact N|]. destruct big60 as [B1 B2]. rewrite fle_V in H by assumption. rewrite B2 in H. apply Z.leb_le in H.
  replace (V a) with (V (fabs a)) by (destruct a; reflexivity). exact H.
Qed.
Lemma bits_mag60 : forall b, fle (fabs (f_of_bits b)) (f_of_Z (2 ^ 60)) = true -> mag 209 (f_of_bits b).
Proof. intros b H. destruct (f_of_bits_num b) as [E|N]; [rewrite E in H; discriminate|]. apply mag60; assumption. Qed.
Lemma modest_mag : forall a, modest a -> mag 209 a.
Proof. intros a [HV H]. apply mag60; [|exact H]. destruct a as [s|s| |s mm e]; try exact I; [discriminate H|exact HV]. Qed.
Lemma modest_pos_mag : forall v, modest_pos v -> vmag 209 v.
Proof. intros v (A & B & C). split; [|split]; apply modest_mag; assumption. Qed.
Lemma modest_small : forall m, modest_mesh m -> small_mesh m.
Proof.
  intros m H i t h Ht Hh. destruct (H i t h Ht Hh) as [A B]. split; [|exact B]. eapply Forall_impl; [|exact A]. cbv beta. intros b E.
  pose proof (bits_mag60 b E) as [N L]. destruct big_nn as [B1 B2]. change (fle (fabs (f_of_bits b)) (f_of_Z (2 ^ 100)) = true). rewrite fle_V by assumption. rewrite B2. apply Z.leb_le.
  replace (V (fabs (f_of_bits b))) with (V (f_of_bits b)) by (destruct (f_of_bits b); reflexivity). etransitivity; [exact L|]. apply Z.pow_le_mono_r; lia.
Qed.

Definition seg_t (pt p q : fvec) : f32 := seg_par pt p q.
Lemma seg_mag : forall pt p q, vmag 209 pt -> vmag 209 p -> vmag 209 q -> mag 149 (seg_par pt p q) /\ num (seg_dist pt p q).
Proof.
  intros [[ptx pty] ptz] [[px py] pz] [[qx qy] qz] (A1 & _ & A3) (B1 & _ & B3) (C1 & _ & C3). cbn [fst snd] in *.
  unfold seg_par, seg_dist, distancePtSegSqr2D, vx, vz. cbn [fst snd nsub nmul nadd ndiv nlt nZ numF]. change (f_of_Z 0) with f0. change (f_of_Z 1) with F32.f1.
  pose proof (fsub_mag 209 qx px ltac:(lia) C1 B1) as Hx. pose proof (fsub_mag 209 qz pz ltac:(lia) C3 B3) as Hz. pose proof (fsub_mag 209 ptx px ltac:(lia) A1 B1) as Dx. pose proof (fsub_mag 209 ptz pz ltac:(lia) A3 B3) as Dz.
  change (209 + 1) with 210 in *. set (pqx := fsub qx px) in *. set (pqz := fsub qz pz) in *. set (dx := fsub ptx px) in *. set (dz := fsub ptz pz) in *.
  assert (MM : forall a b, mag 210 a -> mag 210 b -> mag 271 (fmul a b)) by (intros a b Ha Hb; exact (fmul_mag 210 210 a b ltac:(lia) ltac:(lia) ltac:(lia) ltac:(lia) ltac:(lia) Ha Hb)).
  assert (AA : forall a b, mag 271 a -> mag 271 b -> mag 272 (fadd a b)) by (intros a b Ha Hb; exact (fadd_mag 271 a b ltac:(lia) Ha Hb)).
  set (d := fadd (fmul pqx pqx) (fmul pqz pqz)). set (t0 := fadd (fmul pqx dx) (fmul pqz dz)).
  assert (Hd : mag 272 d) by (apply AA; apply MM; assumption). assert (Ht : mag 272 t0) by (apply AA; apply MM; assumption).
  set (t1 := if F32.flt f0 d then fdiv t0 d else t0). assert (N1 : num t1).
  { unfold t1. destruct (F32.flt f0 d) eqn:E; [|apply Ht]. apply fdiv_num; [eapply mag_fin; [|exact Ht]; lia|eapply mag_fin; [|exact Hd]; lia|].
    intros Z0. destruct d as [s|s| |s mm e]; try discriminate E.
    - cbn [V] in Z0. pose proof OVER_INF. lia.
    - destruct (bounded_spec mm e (proj1 Hd)) as (E1 & M1 & _). pose proof (pow149 e ltac:(lia)). cbn [V] in Z0. nia. }
  pose proof (clamp01_mag t1 N1) as T. change f1 with F32.f1 in T.
  set (t := if F32.flt t1 f0 then f0 else if F32.flt F32.f1 t1 then F32.f1 else t1) in *. change (mag 149 t) in T. split; [exact T|].
  assert (P1 : forall a, mag 210 a -> mag 210 (fmul t a)) by (intros a Ha; exact (fmul_mag 149 210 t a ltac:(lia) ltac:(lia) ltac:(lia) ltac:(lia) ltac:(lia) T Ha)).
  assert (P2 : forall p a pt, mag 209 p -> mag 210 a -> mag 209 pt -> mag 212 (fsub (fadd p (fmul t a)) pt)).
  { intros p a pt Hp Ha Hpt. apply (fsub_mag 211); [lia|apply (fadd_mag 210); [lia|eapply mag_le; [|exact Hp]; lia|apply P1; exact Ha]|eapply mag_le; [|exact Hpt]; lia]. }
  assert (P3 : forall a, mag 212 a -> mag 275 (fmul a a)) by (intros a Ha; exact (fmul_mag 212 212 a a ltac:(lia) ltac:(lia) ltac:(lia) ltac:(lia) ltac:(lia) Ha Ha)).
  exact (proj1 (fadd_mag 275 _ _ ltac:(lia) (P3 _ (P2 px pqx ptx B1 Hx A1)) (P3 _ (P2 pz pqz ptz B3 Hz A3)))).
Qed.
Lemma lerp_mag60 : forall a b t, vmag 209 a -> vmag 209 b -> mag 149 t -> vmag 259 (vlerp numF a b t).
Proof.
  intros [[ax ay] az] [[bx by_] bz] t (A1 & A2 & A3) (B1 & B2 & B3) Ht. cbn [fst snd] in *.
  assert (X : forall x y, mag 209 x -> mag 209 y -> mag 259 (fadd x (fmul (fsub y x) t))).
  { intros x y Hx Hy. pose proof (fsub_mag 209 y x ltac:(lia) Hy Hx) as S. pose proof (fmul_mag 210 149 _ _ ltac:(lia) ltac:(lia) ltac:(lia) ltac:(lia) ltac:(lia) S Ht) as P. change (Z.max (210 + 149 - 149) 0) with 210 in P.
    eapply mag_le; [|apply (fadd_mag 210); [lia|eapply mag_le; [|exact Hx]; lia|exact P]]. lia. }
  split; [|split]; apply X; assumption.
Qed.

(** ** ClosestPointOnPolyBoundary *)
Section Near.
Variable m : NavMesh.
Hypothesis HM : modest_mesh m.

Lemma load_mag : forall r t p vs, valid_at m r t p -> load_verts (tdVerts (tD t)) (pVerts p) (Z.to_nat (pVertCount p)) 0 = Ok vs -> forall j v, nth_error vs j = Some v -> vmag 209 v.
Proof using HM.
  intros r t p vs HV H j v E. destruct (valid_header _ _ _ _ HV) as (k & h & Ht & Hh). destruct (HM _ _ _ Ht Hh) as [F _]. rewrite Forall_forall in F.
  apply load_verts_nth in H; [|lia]. destruct H as [_ H]. destruct (H _ _ E) as (i & _ & Ev). unfold vert16, vec3_at in Ev. destruct (_ <? _); [discriminate|].
  apply bind_ok in Ev as (x & Ex & Ev). apply bind_ok in Ev as (y & Ey & Ev). apply bind_ok in Ev as (z & Ez & Ev). apply Ok_inj in Ev. subst v. apply get_ok in Ex, Ey, Ez.
  split; [|split]; cbn [fst snd]; apply bits_mag60, F; eapply nth_error_In; [apply Ex|apply Ey|apply Ez].
Qed.
Lemma edge_mag : forall vs j va vb, (forall j v, nth_error vs j = Some v -> vmag 209 v) -> polygon_edge vs j va vb -> vmag 209 va /\ vmag 209 vb.
Proof using. intros vs j va vb H [E1 E2]. split; eapply H; eassumption. Qed.

Lemma boundary_near : forall r pos z c, modest_pos pos -> ClosestPointOnPolyBoundary m r pos z = Ok (Success, c) -> nearest m r pos c /\ vmag 259 c.
Proof using HM.
  intros r pos z c Hpos H. pose proof (modest_pos_mag _ Hpos) as Mp. unfold ClosestPointOnPolyBoundary in H. apply bind_ok in H as (o & Eo & H). apply lookup_spec in Eo. destruct o as [[t p]|]; [|discriminate].
  apply bind_ok in H as (vs & Ev & H). pose proof (load_mag _ _ _ _ Eo Ev) as Mv. unfold distancePtPolyEdgesSqr in H. cbv zeta in H.
  match type of H with (if ?i then _ else _) = _ => destruct i eqn:Ei end.
  - apply Ok_inj in H. injection H as <-. split; [|apply (vmag_le 209 259); [lia|exact Mp]]. exists t, p, vs. split; [exact Eo|]. split; [apply load_corners; exact Ev|].
    unfold distancePtPolyEdgesSqr. cbn [fst]. rewrite Ei. reflexivity.
  - apply bind_ok in H as ([im e] & En & H). apply bind_ok in H as (va & Ea & H). apply bind_ok in H as (vb & Eb & H). apply Ok_inj in H. injection H as <-.
    set (ds := map (fun '(vj, vi) => distancePtSegSqr2D numF pos vj vi) (edges vs)) in En.
    assert (DN : forall k d x, nth_error ds k = Some (d, x) -> exists ua ub, polygon_edge vs k ua ub /\ d = seg_dist pos ua ub /\ x = seg_par pos ua ub).
    { intros k d x E. unfold ds in E. rewrite nth_error_map in E. destruct (nth_error (edges vs) k) as [[ua ub]|] eqn:Ek; [|discriminate]. apply edges_nth in Ek. exists ua, ub. split; [exact Ek|].
      unfold seg_dist, seg_par. change (Some (distancePtSegSqr2D numF pos ua ub) = Some (d, x)) in E. generalize dependent (distancePtSegSqr2D numF pos ua ub). intros [q1 q2] E. injection E as -> ->. auto. }
    assert (ND : forall k ua ub, polygon_edge vs k ua ub -> nth_error ds k = Some (seg_dist pos ua ub, seg_par pos ua ub)).
    { intros k ua ub E. apply edges_nth in E. unfold ds. rewrite nth_error_map, E. cbn [option_map]. unfold seg_dist, seg_par. destruct (distancePtSegSqr2D numF pos ua ub); reflexivity. }
    assert (Nd : forall d x, In (d, x) ds -> num d).
    { intros d x Hx. apply In_nth_error in Hx. destruct Hx as (k & Hk). destruct (DN _ _ _ Hk) as (ua & ub & E & -> & _). destruct (edge_mag _ _ _ _ Mv E). apply seg_mag; assumption. }
    unfold nearest_edge in En. destruct ds as [|[d0 e0] ds'] eqn:Eds; [discriminate|]. apply Ok_inj in En.
    apply argmin_spec in En; [|eapply Nd; left; reflexivity|intros d x Hx; eapply Nd; right; exact Hx].
    destruct En as (d & C & Nd' & L1 & L2).
    assert (X : exists j, im = Z.of_nat j /\ nth_error ((d0, e0) :: ds') j = Some (d, e)).
    { destruct C as [(-> & -> & ->)|(k & Ek & ->)]; [exists 0%nat; auto|exists (S k); split; [lia|exact Ek]]. }
    destruct X as (j & -> & Ej). destruct (DN _ _ _ Ej) as (ua & ub & Eu & -> & ->). pose proof Eu as [Eu1 Eu2].
    assert (va = ua) by (apply get_ok in Ea; destruct Ea as [_ Ea]; rewrite Nat2Z.id in Ea; congruence).
    assert (vb = ub).
    { apply get_ok in Eb. destruct Eb as [_ Eb]. unfold zlen in Eb. replace (Z.of_nat j + 1) with (Z.of_nat (j + 1)) in Eb by lia. change (vec f32) with fvec in *.
      rewrite <- Nat2Z.inj_mod, Nat2Z.id in Eb. congruence. }
    subst va vb. destruct (edge_mag _ _ _ _ Mv Eu) as [Ma Mb]. split; [|apply lerp_mag60; [exact Ma|exact Mb|apply seg_mag; assumption]].
    exists t, p, vs. split; [exact Eo|]. split; [apply load_corners; exact Ev|]. unfold distancePtPolyEdgesSqr. cbn [fst]. rewrite Ei. exists j, ua, ub. split; [exact Eu|]. split; [reflexivity|].
    intros k wa wb Ew. destruct (edge_mag _ _ _ _ Mv Ew) as [Mwa Mwb]. rewrite fle_SV by (first [exact Nd'|apply seg_mag; assumption]). apply Z.leb_le.
    pose proof (ND _ _ _ Ew) as Ek. apply nth_error_In in Ek. destruct Ek as [Ek|Ek]; [injection Ek as <- _; exact L1|eapply L2; exact Ek].
Qed.
End Near.
