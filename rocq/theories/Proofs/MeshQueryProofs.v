(** The tree query of [detour/mesh.go] (used while off-mesh connections are linked). *)
From Coq Require Import ZArith List Bool Lia.
From Verif.Base Require Import Res GoNum F32 Num Grid Bytes.
From Verif.Model Require Import Status Poly PolyRef Bounds Geom MeshTypes MeshLinks MeshTiles BvTree TileQuery.
From Verif.Spec Require Import BvSpec QuerySpec.
From Verif.Proofs Require Import BasicsProofs BvProofs TileQueryProofs ScanProofs.
Import ListNotations.
Open Scope Z_scope.

Definition mq_step (maxPolys : Z) (st : Z * list Z) (ref : Z) : res (Z * list Z) :=
  let '(n, polys) := st in
  if n <? maxPolys then let* polys := set polys (n + 1) ref in Ok (n + 1, polys) else Ok (n, polys).

Lemma mq_walk : forall bv qmin qmax base endIdx maxPolys k l e, BvAt bv k l e ->
  0 <= k -> e <= endIdx -> endIdx < 2 ^ 31 -> (forall it, In it l -> 0 <= iI it) ->
  exists v, (v <= Z.to_nat (e - k))%nat /\ forall f n polys,
    bv_query (v + f) bv qmin qmax base endIdx maxPolys k n polys =
    let* (n, polys) := foldM (mq_step maxPolys) (map (item_ref base) (filter (ov qmin qmax) l)) (n, polys) in
    bv_query f bv qmin qmax base endIdx maxPolys e n polys.
Proof.
  intros bv qmin qmax base endIdx maxPolys.
  induction 1 as [k it G|k m e l r mn mx G A IA B IB En To]; intros Hk He Hb Hi.
  - exists 1%nat. split; [lia|]. intros f n polys.
    cbn [Nat.add bv_query]. destruct (Z.ltb_spec k endIdx); [|lia].
    rewrite G. cbn [bind bI bMin bMax].
    assert (R : 0 <= iI it) by (apply Hi; left; reflexivity).
    destruct (Z.leb_spec 0 (iI it)); [|lia]. rewrite orb_true_r. cbn [andb].
    rewrite (i32_id (k + 1)) by (unfold is_i32; lia).
    cbn [filter]. unfold ov at 1. destruct (OverlapQuantBounds qmin qmax (iMin it) (iMax it)); [|reflexivity].
    cbn [map foldM andb mq_step]. unfold item_ref at 1.
    destruct (n <? maxPolys); cbn [bind]; [|reflexivity].
    rewrite !bind_assoc. destruct (set polys (n + 1) (Z.lor base (iI it))); reflexivity.
  - destruct (BvAt_len _ _ _ _ A) as [NA EA]. destruct (BvAt_len _ _ _ _ B) as [NB EB].
    assert (0 < zlen l) by (destruct l as [|x l0]; [congruence|rewrite zlen_cons; pose proof (zlen_nonneg l0); lia]).
    assert (0 < zlen r) by (destruct r as [|x r0]; [congruence|rewrite zlen_cons; pose proof (zlen_nonneg r0); lia]).
    destruct (OverlapQuantBounds qmin qmax mn mx) eqn:O.
    + destruct IA as (va & Va & Wa); [lia|lia|lia|intros; apply Hi; apply in_or_app; left; assumption|].
      destruct IB as (vb & Vb & Wb); [lia|lia|lia|intros; apply Hi; apply in_or_app; right; assumption|].
      exists (S (va + vb)). split; [lia|]. intros f n polys.
      cbn [Nat.add bv_query]. destruct (Z.ltb_spec k endIdx); [|lia].
      rewrite G. cbn [bind bI bMin bMax]. rewrite O.
      destruct (Z.leb_spec 0 (- (e - k))); [lia|]. cbn [andb orb bind].
      rewrite (i32_id (k + 1)) by (unfold is_i32; lia).
      replace (va + vb + f)%nat with (va + (vb + f))%nat by lia.
      rewrite Wa. rewrite !filter_app, map_app, foldM_app, bind_assoc.
      destruct (foldM (mq_step maxPolys) (map (item_ref base) (filter (ov qmin qmax) l)) (n, polys)) as [[n1 p1]| | |]; cbn [bind]; try reflexivity.
      apply Wb.
    + exists 1%nat. split; [lia|]. intros f n polys.
      cbn [Nat.add bv_query]. destruct (Z.ltb_spec k endIdx); [|lia].
      rewrite G. cbn [bind bI bMin bMax]. rewrite O.
      destruct (Z.leb_spec 0 (- (e - k))); [lia|]. cbn [andb orb bind].
      rewrite (filter_none (ov qmin qmax)).
      2:{ intros it I. unfold ov. apply (enclosed_overlap _ _ mn mx); [apply En; exact I|exact O]. }
      cbn [filter map foldM bind].
      rewrite (i32_id (- - (e - k))) by (unfold is_i32; lia).
      rewrite i32_id by (unfold is_i32; lia). replace (k + - - (e - k)) with e by lia. reflexivity.
Qed.

Lemma mq_fold : forall maxPolys refs n pre rest, n = zlen pre -> zlen refs <= zlen rest -> n + zlen refs <= maxPolys ->
  foldM (mq_step maxPolys) refs (n, 0 :: pre ++ rest) = Ok (n + zlen refs, 0 :: pre ++ refs ++ skipn (length refs) rest).
Proof.
  intros maxPolys. induction refs as [|r refs IH]; intros n pre rest Hn Hl Hm.
  - cbn. rewrite Z.add_0_r. reflexivity.
  - destruct rest as [|x rest]; [rewrite zlen_cons, zlen_nil in Hl; pose proof (zlen_nonneg refs); lia|].
    rewrite !zlen_cons in Hl. rewrite zlen_cons in Hm. pose proof (zlen_nonneg refs). pose proof (zlen_nonneg pre).
    cbn [foldM mq_step]. destruct (Z.ltb_spec n maxPolys); [|lia].
    rewrite set_in_range by (rewrite zlen_cons, zlen_app, zlen_cons; pose proof (zlen_nonneg rest); lia).
    cbn [bind]. replace (Z.to_nat (n + 1)) with (S (length pre)) by (subst n; unfold zlen; lia).
    cbn [upd]. rewrite upd_app_length.
    replace (pre ++ r :: rest) with ((pre ++ [r]) ++ rest) by now rewrite <- app_assoc.
    rewrite IH.
    + rewrite zlen_cons. cbn [length skipn]. rewrite <- !app_assoc. cbn [app]. do 2 f_equal. lia.
    + rewrite zlen_snoc. lia.
    + lia.
    + lia.
Qed.
