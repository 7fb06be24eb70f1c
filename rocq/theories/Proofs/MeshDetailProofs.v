(** BuildPolyMeshDetail. *)
From Coq Require Import ZArith List Bool Lia.
From Verif.Base Require Import Res GoNum F32 Num Grid.
From Verif.Model Require Import Geom Raster Heightfield Dirs Compact Region HeightSearch HeightData Delaunay PolyDetail MeshDetail.
From Verif.Spec Require Import HeightfieldSpec CompactSpec ErodeSpec HeightSpec PolyDetailSpec MeshDetailSpec.
From Verif.Proofs Require Import ErodeProofs ErodeOpen RegionBase TraceRegions HeightFlood HeightRegion HeightCenter PolyDetailEdge.
From Verif.Properties Require HeightData PolyDetail.
Import ListNotations.
Open Scope Z_scope.

(** ** Buffers *)
Lemma set_first : forall {A} (l l' : list A) i v, set l i v = Ok l' ->
  firstn (Z.to_nat (i + 1)) l' = firstn (Z.to_nat i) l ++ [v] /\ zlen l' = zlen l.
Proof.
  intros A l l' i v E. apply set_ok in E as [Hi ->]. split; [|apply zlen_upd]. unfold zlen in Hi.
  replace (Z.to_nat (i + 1)) with (S (Z.to_nat i)) by lia. rewrite (firstn_snoc _ _ v).
  - now rewrite firstn_upd_ge by lia.
  - apply nth_error_upd_eq. lia.
Qed.
Lemma put_first : forall dv nv v, 0 <= nv -> 3 * nv + 3 <= zlen dv -> exists dv', putVert dv nv v = Ok dv' /\ zlen dv' = zlen dv /\
  firstn (Z.to_nat (3 * (nv + 1))) dv' = firstn (Z.to_nat (3 * nv)) dv ++ [vx v; vy v; vz v].
Proof.
  intros dv nv v Hn Hl. unfold putVert.
  destruct (set dv (nv * 3) (vx v)) as [l1| | |] eqn:E1; try (rewrite set_in_range in E1 by lia; discriminate).
  destruct (set_first _ _ _ _ E1) as [F1 L1]. cbn [bind].
  destruct (set l1 (nv * 3 + 1) (vy v)) as [l2| | |] eqn:E2; try (rewrite set_in_range in E2 by lia; discriminate).
  destruct (set_first _ _ _ _ E2) as [F2 L2]. cbn [bind].
  destruct (set l2 (nv * 3 + 2) (vz v)) as [l3| | |] eqn:E3; try (rewrite set_in_range in E3 by lia; discriminate).
  destruct (set_first _ _ _ _ E3) as [F3 L3]. exists l3. split; [reflexivity|]. split; [lia|].
  replace (3 * (nv + 1)) with (nv * 3 + 2 + 1) by lia. rewrite F3.
  replace (nv * 3 + 2) with (nv * 3 + 1 + 1) by lia. rewrite F2, F1.
  replace (3 * nv) with (nv * 3) by lia. rewrite <- !app_assoc. reflexivity.
Qed.
Lemma grow_ok : forall fuel need cap, (Z.to_nat (need - cap) < fuel)%nat -> exists c, grow fuel need cap = Ok c /\ need <= c /\ cap <= c.
Proof.
  induction fuel as [|f IH]; intros need cap Hf; [lia|]. cbn [grow]. destruct (Z.gtb_spec need cap).
  - destruct (IH need (cap + 256)) as (c & E & B1 & B2); [lia|]. exists c. split; [exact E|]. lia.
  - exists cap. split; [reflexivity|lia].
Qed.
Lemma firstn_prefix : forall {A} (n : nat) (l k : list A), (n <= length l)%nat -> firstn n (firstn n l ++ k) = firstn n l.
Proof.
  intros A n l k Hn. rewrite firstn_app, firstn_length, Nat.min_l by lia. rewrite Nat.sub_diag. cbn [firstn]. rewrite app_nil_r, firstn_firstn. now rewrite Nat.min_id.
Qed.

Lemma flat_app : forall a b, flat (a ++ b) = flat a ++ flat b.
Proof. intros a b. apply flat_map_app. Qed.
Lemma flat_len : forall l, zlen (flat l) = 3 * zlen l.
Proof.
  induction l as [|v l IH]; [reflexivity|]. change (flat (v :: l)) with ([vx v; vy v; vz v] ++ flat l). rewrite zlen_app, IH.
  change (zlen [vx v; vy v; vz v]) with 3. rewrite zlen_cons. lia.
Qed.
Lemma flat_pos : forall l k, (k < length l)%nat -> pos (flat l) (Z.of_nat k) = nth k l (f0, f0, f0).
Proof.
  induction l as [|[[x y] z] l IH]; intros k Hk; [cbn in Hk; lia|]. destruct k as [|k]; [reflexivity|].
  cbn [nth]. rewrite <- IH by (cbn in Hk; lia). unfold pos, flat. cbn [flat_map app vx vy vz].
  replace (Z.to_nat (3 * Z.of_nat (S k))) with (S (S (S (Z.to_nat (3 * Z.of_nat k))))) by lia.
  replace (Z.to_nat (3 * Z.of_nat (S k) + 1)) with (S (S (S (Z.to_nat (3 * Z.of_nat k + 1))))) by lia.
  replace (Z.to_nat (3 * Z.of_nat (S k) + 2)) with (S (S (S (Z.to_nat (3 * Z.of_nat k + 2))))) by lia. reflexivity.
Qed.
Lemma points_flat : forall l, points (flat l) = l.
Proof. induction l as [|[[x y] z] l IH]; [reflexivity|]. unfold flat in *. cbn [flat_map app points vx vy vz]. now rewrite IH. Qed.

Lemma storeVerts_ok : forall verts n dv nv vcap, 0 <= n <= 127 -> 381 <= zlen verts -> 0 <= nv <= vcap -> zlen dv = 3 * vcap ->
  exists dv' vcap', storeVerts verts n (dv, nv, vcap) = Ok (dv', nv + n, vcap') /\ nv + n <= vcap' /\ zlen dv' = 3 * vcap' /\
    firstn (Z.to_nat (3 * (nv + n))) dv' = firstn (Z.to_nat (3 * nv)) dv ++ flat (map (pos verts) (zseq (Z.to_nat n))).
Proof.
  intros verts n dv nv vcap Hn Hv Hc Hl. unfold storeVerts.
  assert (P : exists dv1 cap, (if nv + n >? vcap then
      let* cap := grow (S (Z.to_nat n)) (nv + n) vcap in
      Ok (firstn (Z.to_nat (3 * nv)) dv ++ repeat f0 (Z.to_nat (3 * cap - 3 * nv)), cap)
    else Ok (dv, vcap)) = Ok (dv1, cap) /\ nv + n <= cap /\ zlen dv1 = 3 * cap /\ firstn (Z.to_nat (3 * nv)) dv1 = firstn (Z.to_nat (3 * nv)) dv).
  { destruct (Z.gtb_spec (nv + n) vcap).
    - destruct (grow_ok (S (Z.to_nat n)) (nv + n) vcap) as (c & -> & B1 & B2); [lia|]. cbn [bind]. do 2 eexists. split; [reflexivity|]. split; [lia|]. split.
      + unfold zlen in *. rewrite app_length, firstn_length, repeat_length. lia.
      + apply firstn_prefix. unfold zlen in Hl. lia.
    - exists dv, vcap. repeat split; lia || reflexivity. }
  destruct P as (dv1 & cap & -> & B1 & L1 & F1). cbn [bind].
  match goal with |- context [foldM ?f ?l0 ?s0] =>
    destruct (foldM_inv f (fun pre st => snd st = nv + zlen pre /\ zlen (fst st) = 3 * cap /\
      firstn (Z.to_nat (3 * (nv + zlen pre))) (fst st) = firstn (Z.to_nat (3 * nv)) dv ++ flat (map (pos verts) pre)) l0 s0) as ([dv2 nv2] & E & K1 & K2 & K3) end.
  - cbn [fst snd]. change (zlen (@nil Z)) with 0. rewrite Z.add_0_r. split; [reflexivity|]. split; [exact L1|]. rewrite F1. symmetry. apply app_nil_r.
  - intros pre j post [d k] Es (K1 & K2 & K3). cbn [fst snd] in *. subst k. apply zseq_split in Es as [-> Hp]. pose proof (zlen_nonneg pre).
    assert (zlen pre < n) by (unfold zlen; lia).
    rewrite vert_pos by lia. cbn [bind].
    destruct (put_first d (nv + zlen pre) (pos verts (zlen pre))) as (d' & -> & L' & F'); [lia|lia|]. cbn [bind].
    eexists. split; [reflexivity|]. cbn [fst snd]. rewrite zlen_snoc. split; [lia|]. split; [lia|].
    replace (nv + (zlen pre + 1)) with (nv + zlen pre + 1) by lia. rewrite F', K3, map_app, flat_app, <- app_assoc. reflexivity.
  - rewrite E. cbn [bind fst snd] in *. assert (Q : zlen (zseq (Z.to_nat n)) = n) by (unfold zlen; rewrite zseq_length; lia). rewrite Q in *. subst nv2.
    exists dv2, cap. split; [reflexivity|]. split; [lia|]. split; [exact K2|exact K3].
Qed.

Definition quad4 (l : list (Z * Z * Z * Z)) : list Z := flat_map (fun '(a, b, c, f) => [a; b; c; f]) l.
Lemma storeTris_ok : forall verts n vpoly ts dt nt tcap, n <= 127 -> 381 <= zlen verts ->
  (forall a b c, In (a, b, c) ts -> 0 <= a < n /\ 0 <= b < n /\ 0 <= c < n) ->
  0 <= nt <= tcap -> zlen dt = 4 * tcap ->
  exists dt' tcap', storeTris verts vpoly ts (dt, nt, tcap) = Ok (dt', nt + zlen ts, tcap') /\ nt + zlen ts <= tcap' /\ zlen dt' = 4 * tcap' /\
    firstn (Z.to_nat (4 * (nt + zlen ts))) dt' = firstn (Z.to_nat (4 * nt)) dt ++
      quad4 (map (fun '(a, b, c) => (a, b, c, getTriFlags (pos verts a) (pos verts b) (pos verts c) vpoly)) ts).
Proof.
  intros verts n vpoly ts dt nt tcap Hn Hv T Hc Hl. unfold storeTris.
  assert (P : exists dt1 cap, (if nt + zlen ts >? tcap then
      let* cap := grow (S (length ts)) (nt + zlen ts) tcap in
      Ok (firstn (Z.to_nat (4 * nt)) dt ++ repeat 0 (Z.to_nat (4 * cap - 4 * nt)), cap)
    else Ok (dt, tcap)) = Ok (dt1, cap) /\ nt + zlen ts <= cap /\ zlen dt1 = 4 * cap /\ firstn (Z.to_nat (4 * nt)) dt1 = firstn (Z.to_nat (4 * nt)) dt).
  { destruct (Z.gtb_spec (nt + zlen ts) tcap).
    - destruct (grow_ok (S (length ts)) (nt + zlen ts) tcap) as (c & -> & B1 & B2); [unfold zlen in *; lia|]. cbn [bind]. do 2 eexists. split; [reflexivity|]. split; [lia|]. pose proof (zlen_nonneg ts). split.
      + unfold zlen in *. rewrite app_length, firstn_length, repeat_length. lia.
      + apply firstn_prefix. unfold zlen in Hl. lia.
    - exists dt, tcap. repeat split; lia || reflexivity. }
  destruct P as (dt1 & cap & -> & B1 & L1 & F1). cbn [bind].
  match goal with |- context [foldM ?f ?l0 ?s0] =>
    destruct (foldM_inv f (fun pre st => snd st = nt + zlen pre /\ zlen (fst st) = 4 * cap /\
      firstn (Z.to_nat (4 * (nt + zlen pre))) (fst st) = firstn (Z.to_nat (4 * nt)) dt ++
        quad4 (map (fun '(a, b, c) => (a, b, c, getTriFlags (pos verts a) (pos verts b) (pos verts c) vpoly)) pre)) l0 s0) as ([dt2 nt2] & E & K1 & K2 & K3) end.
  - cbn [fst snd]. change (zlen (@nil (Z * Z * Z))) with 0. rewrite Z.add_0_r. split; [reflexivity|]. split; [exact L1|]. rewrite F1. symmetry. apply app_nil_r.
  - intros pre [[a b] c] post [d k] Es (K1 & K2 & K3). cbn [fst snd] in *. subst k. pose proof (zlen_nonneg pre).
    assert (zlen pre < zlen ts) by (rewrite Es, zlen_app, zlen_cons; pose proof (zlen_nonneg post); lia).
    destruct (T a b c) as (Ha & Hb & Hc'); [rewrite Es; apply in_elt|].
    set (w := nt + zlen pre) in *.
    destruct (set d (w * 4) (u8 a)) as [l1| | |] eqn:E1; try (rewrite set_in_range in E1 by lia; discriminate).
    destruct (set_first _ _ _ _ E1) as [G1 M1]. cbn [bind].
    destruct (set l1 (w * 4 + 1) (u8 b)) as [l2| | |] eqn:E2; try (rewrite set_in_range in E2 by lia; discriminate).
    destruct (set_first _ _ _ _ E2) as [G2 M2]. cbn [bind].
    destruct (set l2 (w * 4 + 2) (u8 c)) as [l3| | |] eqn:E3; try (rewrite set_in_range in E3 by lia; discriminate).
    destruct (set_first _ _ _ _ E3) as [G3 M3]. cbn [bind].
    rewrite !vert_pos by lia. cbn [bind].
    destruct (set l3 (w * 4 + 3) (getTriFlags (pos verts a) (pos verts b) (pos verts c) vpoly)) as [l4| | |] eqn:E4; try (rewrite set_in_range in E4 by lia; discriminate).
    destruct (set_first _ _ _ _ E4) as [G4 M4]. cbn [bind].
    eexists. split; [reflexivity|]. cbn [fst snd]. rewrite zlen_snoc. split; [lia|]. split; [lia|].
    replace (4 * (nt + (zlen pre + 1))) with (w * 4 + 3 + 1) by lia. rewrite G4.
    replace (w * 4 + 3) with (w * 4 + 2 + 1) by lia. rewrite G3. replace (w * 4 + 2) with (w * 4 + 1 + 1) by lia. rewrite G2, G1.
    replace (w * 4) with (4 * w) by lia. rewrite K3, map_app. unfold quad4. rewrite flat_map_app.
    rewrite (u8_id a), (u8_id b), (u8_id c) by (unfold is_u8; lia). cbn [map flat_map]. rewrite <- !app_assoc. reflexivity.
  - rewrite E. cbn [bind fst snd] in *. subst nt2.
    exists dt2, cap. split; [reflexivity|]. split; [lia|]. split; [exact K2|exact K3].
Qed.

Lemma move_ok : forall d n verts, 0 <= n <= 127 -> 3 * n <= zlen verts ->
  exists verts', movePts d n verts = Ok verts' /\ zlen verts' = zlen verts /\
    forall v, 0 <= v -> pos verts' v = if v <? n then shift d (pos verts v) else pos verts v.
Proof.
  intros d n verts Hn Hv. unfold movePts.
  match goal with |- context [foldM ?f ?l0 ?s0] =>
    destruct (foldM_inv f (fun pre q => zlen q = zlen verts /\ forall v, 0 <= v -> pos q v = if v <? zlen pre then shift d (pos verts v) else pos verts v) l0 s0)
      as (v' & E & L & K) end.
  - split; [reflexivity|]. intros v Hv0. change (zlen (@nil Z)) with 0. destruct (Z.ltb_spec v 0); [lia|reflexivity].
  - intros pre i post q Es (L & K). apply zseq_split in Es as [-> Hp].
    pose proof (zlen_nonneg pre). assert (zlen pre < n) by (unfold zlen; lia).
    rewrite vert_pos by lia. cbn [bind]. fold (shift d (pos q (zlen pre))).
    destruct (put_ok q (zlen pre) (shift d (pos q (zlen pre))) ltac:(lia) ltac:(lia)) as (q' & -> & Lx & Px).
    exists q'. split; [reflexivity|]. split; [lia|]. intros v Hv0. rewrite Px, zlen_snoc by lia.
    destruct (Z.eqb_spec v (zlen pre)) as [->|Hne].
    + rewrite K by lia. destruct (Z.ltb_spec (zlen pre) (zlen pre)); [lia|]. destruct (Z.ltb_spec (zlen pre) (zlen pre + 1)); [reflexivity|lia].
    + rewrite K by lia. destruct (Z.ltb_spec v (zlen pre)), (Z.ltb_spec v (zlen pre + 1)); reflexivity || lia.
  - exists v'. assert (Q : zlen (zseq (Z.to_nat n)) = n) by (unfold zlen; rewrite zseq_length; lia). rewrite Q in *.
    split; [exact E|]. split; [exact L|exact K].
Qed.

(** ** Polygons *)
Lemma row_ok : forall polys k off, 0 <= off -> off + Z.of_nat k <= zlen polys ->
  polyRow polys off k = Ok (upto (firstn k (skipn (Z.to_nat off) polys))).
Proof.
  intros polys. induction k as [|k IH]; intros off H0 Hl; [reflexivity|]. cbn [polyRow].
  destruct (get_in_range polys off ltac:(lia)) as [v Ev]. rewrite Ev. cbn [bind]. apply get_ok in Ev as [_ Ev].
  assert (Es : skipn (Z.to_nat off) polys = v :: skipn (Z.to_nat (off + 1)) polys).
  { replace (Z.to_nat (off + 1)) with (S (Z.to_nat off)) by lia. revert Ev. clear. generalize (Z.to_nat off). induction polys as [|a l IH]; intros [|n] E; cbn in *; try discriminate.
    - congruence.
    - now apply IH. }
  rewrite Es. cbn [firstn upto]. destruct (v =? 65535); [reflexivity|]. rewrite IH by lia. reflexivity.
Qed.
Lemma upto_len : forall l, (length (upto l) <= length l)%nat.
Proof. induction l as [|v l IH]; cbn [upto length]; [lia|]. destruct (v =? 65535); cbn [length]; lia. Qed.
Lemma fold_min_le : forall xs m, fold_left Z.min xs m <= m /\ forall x, In x xs -> fold_left Z.min xs m <= x.
Proof.
  induction xs as [|x xs IH]; intros m; cbn [fold_left]; [split; [lia|easy]|]. destruct (IH (Z.min m x)) as [A B].
  split; [lia|]. intros y [->|Hy]; [lia|now apply B].
Qed.
Lemma fold_min_lo : forall xs m a, a <= m -> (forall x, In x xs -> a <= x) -> a <= fold_left Z.min xs m.
Proof.
  induction xs as [|x xs IH]; intros m a Hm Hx; cbn [fold_left]; [exact Hm|]. apply IH; [specialize (Hx x (or_introl eq_refl)); lia|].
  intros y Hy. apply Hx. now right.
Qed.
Lemma fold_max_hi : forall xs m a, m <= a -> (forall x, In x xs -> x <= a) -> fold_left Z.max xs m <= a.
Proof.
  induction xs as [|x xs IH]; intros m a Hm Hx; cbn [fold_left]; [exact Hm|]. apply IH; [specialize (Hx x (or_introl eq_refl)); lia|].
  intros y Hy. apply Hx. now right.
Qed.
Lemma fold_max_ge : forall xs m, m <= fold_left Z.max xs m /\ forall x, In x xs -> x <= fold_left Z.max xs m.
Proof.
  induction xs as [|x xs IH]; intros m; cbn [fold_left]; [split; [lia|easy]|]. destruct (IH (Z.max m x)) as [A B].
  split; [lia|]. intros y [->|Hy]; [lia|now apply B].
Qed.

Section I.
Variables (I : DetailInput) (sd err : f32).
Hypothesis OK : detail_ok I sd.
Notation W := (chf_w (diChf I)).
Notation Ht := (chf_h (diChf I)).

Lemma polygon_ok : forall i, 0 <= i < diNPolys I -> polyRow (diPolys I) (i * diNvp I * 2) (Z.to_nat (diNvp I)) = Ok (polygon I i).
Proof.
  intros i Hi. destruct OK. apply row_ok; [nia|]. rewrite Z2Nat.id by lia. assert ((i + 1) * diNvp I * 2 <= diNPolys I * diNvp I * 2) by nia. nia.
Qed.
Lemma polygon_len : forall i, zlen (polygon I i) <= diNvp I.
Proof. intros i. destruct OK. unfold polygon, zlen. pose proof (upto_len (firstn (Z.to_nat (diNvp I)) (skipn (Z.to_nat (i * diNvp I * 2)) (diPolys I)))). rewrite firstn_length in H. lia. Qed.
Lemma vert3_ok : forall i p, 0 <= i < diNPolys I -> In p (polygon I i) -> meshVert (diVerts I) p = Ok (coord I 0 p, coord I 1 p, coord I 2 p).
Proof.
  intros i p Hi Hp. destruct (do_verts _ _ OK i p Hi Hp) as (Hr & Hl & _). unfold meshVert, coord. rewrite u16_id by (unfold is_u16; lia).
  rewrite (get_nth _ (p * 3) 0), (get_nth _ (p * 3 + 1) 0), (get_nth _ (p * 3 + 2) 0) by lia. cbn [bind].
  replace (p * 3) with (3 * p + 0) at 1 by lia. replace (p * 3) with (3 * p) by lia. reflexivity.
Qed.
Definition boxOf (i : Z) : Z * Z * Z * Z :=
  let xs := map (coord I 0) (polygon I i) in
  let zs := map (coord I 2) (polygon I i) in
  (span_from W xs, span_to W xs, span_from Ht zs, span_to Ht zs).
Lemma box_ok : forall i, 0 <= i < diNPolys I -> polyBox I (polygon I i) = Ok (boxOf i).
Proof.
  intros i Hi. unfold polyBox, boxOf, span_from, span_to. cbv zeta.
  rewrite (foldM_pure _ (fun b p => let '(x0, x1, y0, y1) := b in
    (Z.min x0 (coord I 0 p), Z.max x1 (coord I 0 p), Z.min y0 (coord I 2 p), Z.max y1 (coord I 2 p)))).
  - rewrite !fold_left_map.
    assert (G : forall l a b c d, fold_left (fun b p => let '(x0, x1, y0, y1) := b in
      (Z.min x0 (coord I 0 p), Z.max x1 (coord I 0 p), Z.min y0 (coord I 2 p), Z.max y1 (coord I 2 p))) l (a, b, c, d) =
      (fold_left (fun s a => Z.min s (coord I 0 a)) l a, fold_left (fun s a => Z.max s (coord I 0 a)) l b,
       fold_left (fun s a => Z.min s (coord I 2 a)) l c, fold_left (fun s a => Z.max s (coord I 2 a)) l d)).
    { induction l as [|p l IH]; intros a b c d; cbn [fold_left]; [reflexivity|apply IH]. }
    rewrite G. reflexivity.
  - intros [[[a b] c] d] p Hp. rewrite (vert3_ok i) by assumption. reflexivity.
Qed.
(** The patch is in the field and has cells. *)
Lemma axis_ok : forall size bs xs, 0 < size -> 0 <= bs -> (forall x, In x xs -> 0 <= x <= size - 2 * bs) -> xs <> [] ->
  0 <= span_from size xs < span_to size xs /\ span_to size xs <= size /\ span_to size xs + bs <= size.
Proof.
  intros size bs xs Hs Hb Hx Hn. unfold span_from, span_to. destruct xs as [|x0 xs']; [congruence|]. set (xs := x0 :: xs') in *.
  pose proof (Hx x0 (or_introl eq_refl)) as B0.
  destruct (fold_min_le xs size) as [A1 A2]. destruct (fold_max_ge xs 0) as [C1 C2]. specialize (A2 x0 (or_introl eq_refl)). specialize (C2 x0 (or_introl eq_refl)).
  assert (fold_left Z.max xs 0 <= size - 2 * bs) by (apply fold_max_hi; [lia|]; intros x Q; specialize (Hx x Q); lia). lia.
Qed.
Lemma patch_ax : forall i, 0 <= i < diNPolys I -> let '(x0, x1, y0, y1) := boxOf i in
  0 <= x0 < x1 /\ x1 <= W /\ x1 + diBorder I <= W /\ 0 <= y0 < y1 /\ y1 <= Ht /\ y1 + diBorder I <= Ht.
Proof.
  intros i Hi. unfold boxOf. cbv zeta.
  assert (Ne : polygon I i <> []). { intros E. pose proof (do_three _ _ OK i Hi) as Q. rewrite E in Q. unfold zlen in Q. cbn in Q. lia. }
  pose proof (do_size _ _ OK) as (S1 & S2 & _). pose proof (do_border _ _ OK).
  destruct (axis_ok W (diBorder I) (map (coord I 0) (polygon I i)) S1 ltac:(lia)) as (A1 & A2 & A3).
  { intros x Hx. apply in_map_iff in Hx as (p & <- & Hp). pose proof (do_verts _ _ OK i p Hi Hp). pose proof (do_u16 _ _ OK i p 0 Hi Hp ltac:(lia)). lia. }
  { intros E. apply map_eq_nil in E. contradiction. }
  destruct (axis_ok Ht (diBorder I) (map (coord I 2) (polygon I i)) S2 ltac:(lia)) as (B1 & B2 & B3).
  { intros x Hx. apply in_map_iff in Hx as (p & <- & Hp). pose proof (do_verts _ _ OK i p Hi Hp). pose proof (do_u16 _ _ OK i p 2 Hi Hp ltac:(lia)). lia. }
  { intros E. apply map_eq_nil in E. contradiction. }
  lia.
Qed.
Lemma boxes_ok : exists npv mw mh, allBoxes I = Ok (map boxOf (zseq (Z.to_nat (diNPolys I))), npv, mw, mh) /\ 0 <= npv /\
  forall i, 0 <= i < diNPolys I -> hpWidth (patch_of I i []) <= mw /\ hpHeight (patch_of I i []) <= mh.
Proof.
  unfold allBoxes.
  match goal with |- context [foldM ?f ?l0 ?s0] =>
    destruct (foldM_inv f (fun pre st => let '(bx, npv, mw, mh) := st in bx = map boxOf pre /\ 0 <= npv /\
      forall i, 0 <= i < zlen pre -> hpWidth (patch_of I i []) <= mw /\ hpHeight (patch_of I i []) <= mh) l0 s0) as ([[[bx npv] mw] mh] & E & K) end.
  - split; [reflexivity|]. split; [lia|]. intros i Q. change (zlen (@nil Z)) with 0 in Q. lia.
  - intros pre i post [[[bx npv] mw] mh] Es (K1 & K2 & K3). apply zseq_split in Es as [-> Hp].
    pose proof (zlen_nonneg pre). assert (Hi : 0 <= zlen pre < diNPolys I) by (unfold zlen; lia).
    rewrite polygon_ok by exact Hi. cbn [bind]. rewrite box_ok by exact Hi. cbn [bind].
    pose proof (patch_ax _ Hi) as PX. destruct (boxOf (zlen pre)) as [[[x0 x1] y0] y1] eqn:EB.
    destruct (Z.leb_spec x1 x0); [lia|]. destruct (Z.leb_spec y1 y0); [lia|]. cbn [orb].
    eexists. split; [reflexivity|]. cbv beta iota. rewrite map_app. cbn [map]. rewrite EB. split; [now rewrite K1|]. split; [pose proof (zlen_nonneg (polygon I (zlen pre))); lia|].
    intros i Q. rewrite zlen_snoc in Q. destruct (Z.eq_dec i (zlen pre)) as [->|Hne].
    + unfold boxOf in EB. cbv zeta in EB. unfold patch_of. cbn [hpWidth hpHeight].
      assert (x0 = span_from W (map (coord I 0) (polygon I (zlen pre)))) by congruence. assert (x1 = span_to W (map (coord I 0) (polygon I (zlen pre)))) by congruence.
      assert (y0 = span_from Ht (map (coord I 2) (polygon I (zlen pre)))) by congruence. assert (y1 = span_to Ht (map (coord I 2) (polygon I (zlen pre)))) by congruence. lia.
    + specialize (K3 i ltac:(lia)). lia.
  - destruct K as (K1 & K2 & K3). exists npv, mw, mh. rewrite E, K1. split; [reflexivity|]. split; [exact K2|].
    intros i Hi. apply K3. unfold zlen. rewrite zseq_length. lia.
Qed.
Lemma points_ok : forall i, 0 <= i < diNPolys I -> polyPoints I (polygon I i) = Ok (flat (map (corner I) (polygon I i))).
Proof.
  intros i Hi. unfold polyPoints.
  rewrite (foldM_pure _ (fun l p => l ++ [vx (corner I p); vy (corner I p); vz (corner I p)])).
  - f_equal. assert (G : forall l a, fold_left (fun l p => l ++ [vx (corner I p); vy (corner I p); vz (corner I p)]) l a = a ++ flat (map (corner I) l)).
    { induction l as [|p l IH]; intros a; cbn [fold_left map]; [symmetry; apply app_nil_r|]. rewrite IH, <- app_assoc. reflexivity. }
    apply G.
  - intros l p Hp. rewrite (vert3_ok i) by assumption. reflexivity.
Qed.

(** ** Heights *)
Lemma patch_fine : forall i data, 0 <= i < diNPolys I -> hpWidth (patch_of I i []) * hpHeight (patch_of I i []) <= zlen data ->
  patch_ok (diChf I) (diBorder I) (patch_of I i data).
Proof.
  intros i data Hi Hd. pose proof (patch_ax i Hi) as PX. unfold boxOf in PX. cbv zeta in PX. pose proof (do_border _ _ OK).
  unfold patch_of in *. cbv zeta in *. cbn [hpWidth hpHeight] in Hd.
  constructor; cbn [hpWidth hpHeight hpXmin hpYmin hpData]; try lia. exact (do_unset _ _ OK).
Qed.
Lemma poly_fine : forall i, 0 <= i < diNPolys I -> poly_ok (polygon I i) (diVerts I).
Proof.
  intros i Hi. constructor.
  - pose proof (polygon_len i). pose proof (do_counts _ _ OK). lia.
  - intros p Hp. pose proof (do_verts _ _ OK i p Hi Hp). lia.
  - intros p k Hp Hk. exact (do_u16 _ _ OK i p k Hi Hp Hk).
Qed.
Lemma height_total : forall i data0 reg, 0 <= i < diNPolys I -> hpWidth (patch_of I i []) * hpHeight (patch_of I i []) <= zlen data0 ->
  (exists data, getHeightData (diChf I) (polygon I i) (diVerts I) (diBorder I) (patch_of I i data0) reg = Ok data /\ zlen data = zlen data0 /\
     heights_found I i (patch_of I i data0) reg data) \/
  getHeightData (diChf I) (polygon I i) (diVerts I) (diBorder I) (patch_of I i data0) reg = Panic /\ heights_lost I i (patch_of I i data0) reg.
Proof.
  intros i data0 reg Hi Hd. pose proof (patch_fine i data0 Hi Hd) as PO. pose proof (poly_fine i Hi) as PV. pose proof (do_chf _ _ OK) as wf.
  set (hp := patch_of I i data0) in *. set (bs := diBorder I) in *. set (chf := diChf I) in *.
  assert (Ld : zlen (hpData hp) = zlen data0) by reflexivity.
  unfold getHeightData.
  destruct (fillPatch_ok chf bs hp PO 65535 (hpData hp)) as (d & Ef & L & V & R); [apply PO|]. rewrite Ef. cbn [bind].
  assert (Ph : (exists d1 q1, (if negb (reg =? 0) then foldM (regionCell chf bs hp reg) (rectCells 0 (hpWidth hp) 0 (hpHeight hp)) (d, [], true) else Ok (d, [], true)) = Ok (d1, q1, true) /\
    zlen d1 = zlen (hpData hp) /\ (forall k, hpWidth hp * hpHeight hp <= k -> dv d1 k = dv (hpData hp) k) /\ (reg <> 0 -> forall p, ~ lowest chf bs hp reg p)) \/
    (exists data own, getHeightData chf (polygon I i) (diVerts I) bs hp reg = Ok data /\ reg <> 0 /\ (exists p, lowest chf bs hp reg p) /\ heights chf bs hp (lowest chf bs hp reg) own data)).
  { destruct (Z.eqb_spec reg 0) as [->|R0]; cbn [negb]; [left; exists d, []; split; [reflexivity|]; split; [exact L|]; split; [exact R|congruence]|].
    destruct (region_loop chf wf bs hp PO reg d L V R) as ([[d1 q1] e1] & Er & RI). pose proof (r_empty _ _ _ _ _ _ RI) as E. cbn [snd] in E.
    destruct e1.
    - left. exists d1, q1. split; [exact Er|]. split; [apply (r_len _ _ _ _ _ _ RI)|]. split; [apply (r_rest _ _ _ _ _ _ RI)|]. intros _ [[x y] k] (P & SA & (s & G & Rs) & _).
      pose proof (E x y (proj1 (in_all hp x y) P)) as O. unfold own0 in O. destruct SA as (_ & _ & c & C & Rc). rewrite C in O.
      pose proof (find_none _ _ O k) as Q. unfold hr in Q. rewrite G in Q. rewrite Rs, Z.eqb_refl in Q. discriminate Q. apply in_krange. lia.
    - right. destruct E as (a & b & Iab & O). apply in_all in Iab. destruct (own0 chf bs reg a b) as [k|] eqn:Ok'; [|congruence]. apply (own0_low chf wf bs hp PO reg a b k Iab) in Ok'.
      destruct (HeightData.C76_region chf (polygon I i) (diVerts I) bs hp reg wf PO R0) as (data & own & Ed & Hh).
      { destruct Ok' as (P & SA & (s & G & Rs) & _). exists a, b, k, s. split; [exact P|]. split; [exact SA|]. split; [exact G|exact Rs]. }
      exists data, own. split; [exact Ed|]. split; [exact R0|]. split; [eexists; exact Ok'|exact Hh]. }
  destruct Ph as [(d1 & q1 & Ep & L1 & R1 & NL)|(data & own & Ed & R0 & Lo & Hh)].
  - rewrite Ep. cbn [bind].
    destruct (seed_ok chf wf bs hp PO (polygon I i) (diVerts I) PV d1 L1 R1) as [[Q ->]|(cx & cy & ci & d2 & -> & C & F)]; [right; split; [reflexivity|split; [exact NL|exact Q]]|]. left. cbn [bind].
    destruct (floodLoop_ok chf wf bs hp PO _ (S (length [(cx + bs, cy + bs, ci)] + Z.to_nat (hpWidth hp * hpHeight hp))) _ d2 [(cx + bs, cy + bs, ci)] 0 ltac:(lia) ltac:(cbn; lia) F) as (o' & d' & E' & _ & F').
    + pose proof (cnt_le hp 65535 d2). change (Z.to_nat 0) with 0%nat. lia.
    + apply finv_heights in F'. exists d'. split; [exact E'|]. split; [rewrite <- Ld; exact (h_length _ _ _ _ _ _ F')|].
      exists o'. right. exists (cx, cy, ci). split; [exact NL|]. split; [exact C|exact F'].
  - left. exists data. unfold getHeightData in Ed. rewrite Ef in Ed. cbn [bind] in Ed.
    split; [exact Ed|]. split; [rewrite <- Ld; exact (h_length _ _ _ _ _ _ Hh)|]. exists own. left. split; [exact R0|]. split; [exact Lo|exact Hh].
Qed.

(** ** One polygon *)
Lemma points_eq : forall n l, length l = (3 * n)%nat -> points l = map (pos l) (zseq n).
Proof.
  induction n as [|n IH]; intros l Hl; [destruct l; [reflexivity|discriminate]|].
  destruct l as [|x [|y [|z l]]]; try (cbn in Hl; lia). change (S n) with (1 + n)%nat. rewrite zseq_app. change (zseq 1) with [0]. cbn [points map app].
  rewrite (IH l) by (cbn in Hl; lia). rewrite map_map. apply (f_equal2 (@cons (vec f32))); [reflexivity|]. apply map_ext_in. intros k Hk. apply in_zseq in Hk. unfold pos.
  replace (Z.to_nat (3 * (Z.of_nat 1 + k))) with (S (S (S (Z.to_nat (3 * k))))) by lia.
  replace (Z.to_nat (3 * (Z.of_nat 1 + k) + 1)) with (S (S (S (Z.to_nat (3 * k + 1))))) by lia.
  replace (Z.to_nat (3 * (Z.of_nat 1 + k) + 2)) with (S (S (S (Z.to_nat (3 * k + 2))))) by lia. reflexivity.
Qed.
Lemma map_nth_zseq : forall {A B} (f : A -> B) (l : list A) d, map (fun k => f (nth (Z.to_nat k) l d)) (zseq (length l)) = map f l.
Proof.
  intros A B f l d. induction l as [|a l IH]; [reflexivity|]. change (length (a :: l)) with (1 + length l)%nat. rewrite zseq_app. change (zseq 1) with [0].
  cbn [map app]. change (nth (Z.to_nat 0) (a :: l) d) with a. f_equal. rewrite map_map, <- IH. apply map_ext_in. intros k Hk. apply in_zseq in Hk.
  replace (Z.to_nat (Z.of_nat 1 + k)) with (S (Z.to_nat k)) by lia. reflexivity.
Qed.
Definition cornerAt (i k : Z) : vec f32 := corner I (nth (Z.to_nat k) (polygon I i) 0).
Lemma corner_pos : forall i k, 0 <= k < zlen (polygon I i) -> pos (flat (map (corner I) (polygon I i))) k = cornerAt i k.
Proof.
  intros i k Hk. unfold zlen in Hk. replace k with (Z.of_nat (Z.to_nat k)) at 1 by lia. rewrite flat_pos by (rewrite map_length; lia).
  unfold cornerAt. rewrite (nth_indep _ _ (corner I 0)) by (rewrite map_length; lia). now rewrite map_nth.
Qed.
Lemma box_patch : forall i data, let '(x0, x1, y0, y1) := boxOf i in mkPatch data x0 y0 (x1 - x0) (y1 - y0) = patch_of I i data.
Proof. intros i data. reflexivity. Qed.
Lemma heights_fine : forall i data, 0 <= i < diNPolys I -> hpWidth (patch_of I i []) * hpHeight (patch_of I i []) <= zlen data ->
  PolyDetailSpec.heights_ok (heights_of I (patch_of I i data)).
Proof.
  intros i data Hi Hd. pose proof (patch_ax i Hi) as PX. unfold boxOf in PX. cbv zeta in PX. pose proof (do_size _ _ OK) as (S1 & S2 & S3). pose proof (do_radius _ _ OK).
  unfold PolyDetailSpec.heights_ok, heights_of. cbn [hRadius hPatch]. unfold patch_of in *. cbv zeta in *. cbn [hpWidth hpHeight hpData] in *.
  set (x0 := span_from W _) in *. set (x1 := span_to W _) in *. set (y0 := span_from Ht _) in *. set (y1 := span_to Ht _) in *.
  split; [lia|]. split; [lia|]. split; [lia|]. split; [|exact Hd].
  assert ((x1 - x0) * (y1 - y0) <= W * Ht) by (apply Z.mul_le_mono_nonneg; lia). lia.
Qed.
Lemma steps_fine : forall i, 0 <= i < diNPolys I -> let inp := flat (map (corner I) (polygon I i)) in
  forall j k, In (j, k) (poly_sides (zlen (polygon I i))) ->
     0 <= steps sd (pos inp j) (pos inp k) < 2147483647 /\ 0 <= steps sd (pos inp k) (pos inp j) < 2147483647.
Proof.
  intros i Hi inp j k Hjk. pose proof (do_three _ _ OK i Hi). rewrite <- sides_eq in Hjk by lia. apply in_sides in Hjk as [Hj Hk].
  subst inp. rewrite !corner_pos by lia. unfold cornerAt.
  assert (J : In (nth (Z.to_nat j) (polygon I i) 0) (polygon I i)) by (apply nth_In; unfold zlen in *; lia).
  assert (K : In (nth (Z.to_nat k) (polygon I i) 0) (polygon I i)) by (apply nth_In; unfold zlen in *; lia).
  split; now apply (do_steps _ _ OK i).
Qed.

Lemma offsets_snoc : forall subs nv nt s, offsets nv nt (subs ++ [s]) =
  offsets nv nt subs ++ [(nv + zlen (concat (map fst subs)), zlen (fst s), nt + zlen (concat (map snd subs)), zlen (snd s))].
Proof.
  induction subs as [|[v t] subs IH]; intros nv nt [v' t']; cbn [app offsets map concat fst snd].
  - change (zlen (@nil (vec f32))) with 0. change (zlen (@nil (Z * Z * Z * Z))) with 0. now rewrite !Z.add_0_r.
  - rewrite IH, !zlen_app, !Z.add_assoc. reflexivity.
Qed.

Record inv (size : Z) (pre : list Z) (st : list Z * list f32 * DetailMesh * Z * Z) : Prop := {
  i_data : zlen (fst (fst (fst (fst st)))) = size;
  i_room : zlen (snd (fst (fst (fst st)))) = 768;
  i_vcap : 0 <= dmNVerts (snd (fst (fst st))) <= snd (fst st);
  i_verts : zlen (dmVerts (snd (fst (fst st)))) = 3 * snd (fst st);
  i_tcap : 0 <= dmNTris (snd (fst (fst st))) <= snd st;
  i_tris : zlen (dmTris (snd (fst (fst st)))) = 4 * snd st;
  i_subs : exists subs, packed (snd (fst (fst st))) subs /\ Forall2 (fun i sub => submesh I sd err i sub /\ submesh_sane I i sub) pre subs }.

Lemma step_ok : forall size pre st, (forall i, 0 <= i < diNPolys I -> hpWidth (patch_of I i []) * hpHeight (patch_of I i []) <= size) ->
  inv size pre st -> forall i, 0 <= i < diNPolys I ->
  (exists st', detailPoly I (Z.max 1 (f_ceil_i32 (diMaxEdgeError I))) (map boxOf (zseq (Z.to_nat (diNPolys I)))) sd err st i = Ok st' /\ inv size (pre ++ [i]) st') \/
  (detailPoly I (Z.max 1 (f_ceil_i32 (diMaxEdgeError I))) (map boxOf (zseq (Z.to_nat (diNPolys I)))) sd err st i = Panic /\ submesh_panics I sd err i).
Proof.
  intros size pre [[[[data0 room] dm] vcap] tcap] Hs V i Hi. destruct V as [V1 V2 V3 V4 V5 V6 (subs & (P1 & P2 & P3 & P4 & P5) & FA)]. cbn [fst snd] in *.
  specialize (Hs i Hi). unfold detailPoly. rewrite polygon_ok by exact Hi. cbn [bind]. rewrite points_ok by exact Hi. cbn [bind].
  assert (Eb : get (map boxOf (zseq (Z.to_nat (diNPolys I)))) i = Ok (boxOf i)).
  { rewrite (get_nth _ i (boxOf 0)) by (unfold zlen; rewrite map_length, zseq_length; lia). rewrite map_nth. do 2 f_equal.
    unfold zseq. change 0 with (Z.of_nat 0). rewrite map_nth, seq_nth by lia. lia. }
  rewrite Eb. cbn [bind]. pose proof (box_patch i) as BP. destruct (boxOf i) as [[[x0 x1] y0] y1] eqn:EB.
  pose proof (do_regs _ _ OK). destruct (get_in_range (diRegs I) i ltac:(lia)) as [reg Er]. rewrite Er. cbn [bind]. rewrite BP.
  destruct (height_total i data0 reg Hi ltac:(lia)) as [(data & -> & Ld & HF)|[-> HL]].
  2:{ right. split; [reflexivity|]. exists data0, reg. split; [exact Er|]. split; [apply patch_fine; [exact Hi|lia]|]. left. exact HL. }
  cbn [bind]. rewrite BP. fold (heights_of I (patch_of I i data)).
  pose proof (do_three _ _ OK i Hi) as H3. pose proof (polygon_len i) as Hlen. pose proof (do_counts _ _ OK) as (_ & _ & Hnvp).
  pose proof (do_sample _ _ OK) as Hsd.
  assert (HO : PolyDetailSpec.heights_ok (heights_of I (patch_of I i data))) by (apply heights_fine; [exact Hi|lia]).
  set (inp := flat (map (corner I) (polygon I i))) in *.
  assert (Li : zlen inp = 3 * zlen (polygon I i)). { unfold inp. rewrite flat_len. unfold zlen. now rewrite map_length. }
  assert (Total : (exists v' n ts, buildPolyDetail (heights_of I (patch_of I i data)) inp (zlen (polygon I i)) sd err room = Ok (v', n, ts)) \/
    buildPolyDetail (heights_of I (patch_of I i data)) inp (zlen (polygon I i)) sd err room = Panic).
  { destruct (PolyDetail.C77_detail _ inp (zlen (polygon I i)) sd err room HO ltac:(lia) ltac:(lia) ltac:(lia) Hsd (steps_fine i Hi))
      as (v1 & hull & m & ts0 & ts1 & _ & _ & _ & _ & _ & _ & _ & _ & D).
    destruct (flt _ _) in D; [left; do 3 eexists; exact D|].
    destruct D as (S & v' & n & ts & A & _ & _ & [[_ D]|[D _]]); [|right; exact D]. destruct (255 <? zlen ts) in D; [right; exact D|left; do 3 eexists; exact D]. }
  destruct Total as [(v' & n & ts & EB')|EB'].
  2:{ right. rewrite EB'. split; [reflexivity|]. exists data0, reg. split; [exact Er|]. split; [apply patch_fine; [exact Hi|lia]|]. right.
      exists data, room. split; [exact HF|]. split; [exact V2|]. exact EB'. }
  left. rewrite EB'. cbn [bind].
  destruct (PolyDetail.C77_result _ inp (zlen (polygon I i)) sd err room v' n ts HO ltac:(lia) ltac:(lia) ltac:(lia) Hsd (steps_fine i Hi) EB') as (R1 & R2 & R3 & R4 & R5).
  change (vx (diBMin I), fadd (vy (diBMin I)) (diChfCh I), vz (diBMin I)) with (offset I).
  destruct (move_ok (offset I) n v' ltac:(lia) ltac:(lia)) as (v2 & -> & M1 & M2). cbn [bind].
  destruct (move_ok (diBMin I) (zlen (polygon I i)) inp ltac:(lia) ltac:(lia)) as (pl & -> & N1 & N2). cbn [bind].
  destruct (storeVerts_ok v2 n (dmVerts dm) (dmNVerts dm) vcap ltac:(lia) ltac:(lia) V3 V4) as (dv' & vcap' & -> & S1 & S2 & S3). cbn [bind].
  destruct (storeTris_ok v2 n (points pl) ts (dmTris dm) (dmNTris dm) tcap ltac:(lia) ltac:(lia) R5 V5 V6) as (dt' & tcap' & -> & T1 & T2 & T3). cbn [bind].
  set (sv := map (fun j => shift (offset I) (pos v' j)) (zseq (Z.to_nat n))).
  set (st := map (fun '(a, b, c) => (a, b, c,
      let at_ := fun k => shift (offset I) (pos v' k) in
      getTriFlags (at_ a) (at_ b) (at_ c) (map (fun p => shift (diBMin I) (corner I p)) (polygon I i)))) ts).
  assert (Ev : map (pos v2) (zseq (Z.to_nat n)) = sv).
  { apply map_ext_in. intros k Hk. apply in_zseq in Hk. rewrite M2 by lia. destruct (Z.ltb_spec k n); [reflexivity|lia]. }
  assert (Ep : points pl = map (fun p => shift (diBMin I) (corner I p)) (polygon I i)).
  { rewrite (points_eq (length (polygon I i))) by (unfold zlen in *; lia). rewrite <- (map_nth_zseq (fun p => shift (diBMin I) (corner I p)) (polygon I i) 0).
    apply map_ext_in. intros k Hk. apply in_zseq in Hk. rewrite N2 by lia. unfold zlen. destruct (Z.ltb_spec k (Z.of_nat (length (polygon I i)))); [|lia].
    unfold inp. rewrite corner_pos by (unfold zlen; lia). reflexivity. }
  assert (Et : map (fun '(a, b, c) => (a, b, c, getTriFlags (pos v2 a) (pos v2 b) (pos v2 c) (points pl))) ts = st).
  { apply map_ext_in. intros [[a b] c] Q. apply R5 in Q as (Qa & Qb & Qc). rewrite Ep, !M2 by lia.
    destruct (Z.ltb_spec a n); [|lia]. destruct (Z.ltb_spec b n); [|lia]. destruct (Z.ltb_spec c n); [|lia]. reflexivity. }
  assert (Lv : zlen sv = n) by (unfold sv, zlen; rewrite map_length, zseq_length; lia).
  assert (Lt : zlen st = zlen ts) by (unfold st, zlen; now rewrite map_length).
  eexists. split; [reflexivity|]. constructor; cbn [fst snd dmNVerts dmVerts dmNTris dmTris].
  - lia.
  - lia.
  - lia.
  - exact S2.
  - pose proof (zlen_nonneg ts). lia.
  - exact T2.
  - exists (subs ++ [(sv, st)]). split.
    + unfold packed. cbn [dmMeshes dmNVerts dmVerts dmNTris dmTris]. rewrite offsets_snoc, P1. cbn [fst snd]. rewrite Lv, Lt, <- P2, <- P4, !Z.add_0_l.
      rewrite !map_app, !concat_app. cbn [map concat fst snd]. rewrite !app_nil_r, !zlen_app, Lv, Lt, <- P2, <- P4. split; [reflexivity|]. split; [reflexivity|].
      split; [rewrite S3, P3, Ev, flat_app; reflexivity|]. split; [reflexivity|]. rewrite T3, P5, Et, flat_map_app. reflexivity.
    + apply Forall2_app; [exact FA|]. constructor; [|constructor]. split.
      * exists data0, data, room, v', n, ts, reg. split; [exact Er|]. split; [apply patch_fine; [exact Hi|lia]|]. split; [exact V2|]. split; [exact HF|]. split; [exact EB'|]. split; reflexivity.
      * unfold submesh_sane. cbn [fst snd]. rewrite Lv, Lt. split; [lia|]. split; [lia|]. split.
        -- intros k p Ek. assert (Hk : (k < length (polygon I i))%nat) by (apply nth_error_Some; congruence). unfold zlen in *.
           unfold sv. rewrite nth_error_map, (nth_error_nth' _ 0) by (rewrite zseq_length; lia). cbn [option_map]. f_equal.
           unfold zseq. change 0 with (Z.of_nat 0) at 1. rewrite map_nth, seq_nth by lia. cbn [Nat.add]. rewrite R2 by lia. unfold inp. rewrite corner_pos by (unfold zlen; lia).
           unfold cornerAt. rewrite Nat2Z.id. rewrite (nth_error_nth _ _ 0 Ek). reflexivity.
        -- intros a b c f Q. apply in_map_iff in Q as ([[a' b'] c'] & E & Q). apply R5 in Q.
           assert (a' = a /\ b' = b /\ c' = c) as (-> & -> & ->) by (split; [|split]; congruence). exact Q.
Qed.

Lemma foldM_or : forall {A B} (f : A -> B -> res A) (P : list B -> A -> Prop) (R : B -> Prop) l pre s,
  P pre s -> (forall p x s, In x l -> P p s -> (exists s', f s x = Ok s' /\ P (p ++ [x]) s') \/ (f s x = Panic /\ R x)) ->
  (exists s', foldM f l s = Ok s' /\ P (pre ++ l) s') \/ (foldM f l s = Panic /\ exists x, In x l /\ R x).
Proof.
  intros A B f P R. induction l as [|x l IH]; intros pre s Hp Hs; cbn [foldM].
  - left. exists s. rewrite app_nil_r. now split.
  - destruct (Hs pre x s (or_introl eq_refl) Hp) as [(s' & -> & Hp')|[-> Hr]]; cbn [bind].
    + destruct (IH (pre ++ [x]) s' Hp') as [(s2 & E & H2)|[E (y & Hy & Ry)]].
      * intros p y s0 Hy. apply Hs. now right.
      * left. exists s2. split; [exact E|]. now rewrite <- app_assoc in H2.
      * right. split; [exact E|]. exists y. split; [now right|exact Ry].
    + right. split; [reflexivity|]. exists x. split; [now left|exact Hr].
Qed.
Lemma build_ok :
  (exists dm subs, BuildPolyMeshDetail I sd err = Ok dm /\ packed dm subs /\
     Forall2 (fun i sub => submesh I sd err i sub /\ submesh_sane I i sub) (zseq (Z.to_nat (diNPolys I))) subs) \/
  (BuildPolyMeshDetail I sd err = Panic /\ exists i, 0 <= i < diNPolys I /\ submesh_panics I sd err i).
Proof.
  unfold BuildPolyMeshDetail. pose proof (do_counts _ _ OK) as (C1 & C2 & _).
  destruct (Z.eqb_spec (diNVerts I) 0); [lia|]. destruct (Z.eqb_spec (diNPolys I) 0); [lia|]. cbn [orb].
  destruct boxes_ok as (npv & mw & mh & -> & Hn & Hb). cbn [bind].
  assert (Hw : forall i, 0 <= i < diNPolys I -> 0 < hpWidth (patch_of I i []) /\ 0 < hpHeight (patch_of I i [])).
  { intros i Hi. pose proof (patch_ax i Hi) as PX. unfold boxOf in PX. cbv zeta in PX. unfold patch_of. cbn [hpWidth hpHeight]. lia. }
  pose proof (Hw 0 ltac:(lia)) as W0. pose proof (Hb 0 ltac:(lia)) as B0.
  pose proof (Z.div_pos npv 2 Hn ltac:(lia)) as Hd.
  match goal with |- context [foldM ?f ?l0 ?s0] => destruct (foldM_or f (inv (mw * mh)) (submesh_panics I sd err) l0 [] s0) as [([[[[da ro] dm] vc] tc] & -> & V)|[-> (i & Hi & Ri)]] end.
  - constructor; cbn [fst snd dmNVerts dmVerts dmNTris dmTris].
    + unfold zlen. rewrite repeat_length. nia.
    + reflexivity.
    + lia.
    + unfold zlen. rewrite repeat_length. lia.
    + lia.
    + unfold zlen. rewrite repeat_length. lia.
    + exists []. split; [|constructor]. repeat split.
  - intros p i s Hi V. apply in_zseq in Hi. apply (step_ok (mw * mh)); [|exact V|lia].
    intros k Hk. specialize (Hb k Hk). specialize (Hw k Hk). apply Z.mul_le_mono_nonneg; lia.
  - left. cbn [bind]. destruct V as [_ _ _ _ _ _ (subs & Pk & FA)]. cbn [fst snd app] in *. exists dm, subs. split; [reflexivity|]. split; [exact Pk|exact FA].
  - right. cbn [bind]. split; [reflexivity|]. exists i. apply in_zseq in Hi. split; [lia|exact Ri].
Qed.
End I.
