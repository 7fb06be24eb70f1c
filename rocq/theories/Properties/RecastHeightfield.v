(** C36-C44: span heightfield, filters, compact heightfield. *)
From Coq Require Import ZArith Bool List Lia Permutation Sorted.
From Verif.Base Require Import Res GoNum Grid.
From Verif.Model Require Import Heightfield Filter Dirs Compact.
From Verif.Spec Require Import HeightfieldSpec CompactSpec.
From Verif.Proofs Require Import HeightfieldProofs FilterProofs DirsProofs CompactProofs.
Import ListNotations.
Open Scope Z_scope.

(** ** C36 Columns stay sorted and disjoint *)

(** Every sequence of insertions (with non-empty spans inside the grid) succeeds, and
    every column is then made of non-empty spans, bottom-up, with at least one free voxel
    between consecutive ones. Columns that received nothing stay empty. *)
Theorem C36_columns_wf : forall w h ops,
  0 <= w -> 0 <= h -> w * h < 2147483648 -> (forall o, In o ops -> valid_ins w h o) ->
  exists hf, run_ins (NewHeightfield w h) ops = Ok hf /\ hf_w hf = w /\ hf_h hf = h /\
    (forall x y, wf_column (col_at hf x y)) /\
    (forall x y, (forall o, In o ops -> ~ (iX o = x /\ iY o = y)) -> col_at hf x y = []).
Proof.
  intros w h ops Hw Hh Hs Hv. destruct (NewHeightfield_shape w h Hw Hh Hs) as [Hsh Hemp].
  destruct (run_ins_spec ops (NewHeightfield w h) Hsh Hv) as (hf & E & Hsh' & Ew & Eh & Hwf & _ & Hfr).
  { intros x y. rewrite Hemp. split; constructor. }
  exists hf. split; [assumption|]. split; [assumption|]. split; [assumption|]. split; [assumption|].
  intros x y H. rewrite Hfr by assumption. apply Hemp.
Qed.

(** One insertion leaves the other columns as they are. *)
Theorem C36_other_columns : forall hf x y mn mx a thr, hf_shape hf -> in_grid hf x y ->
  exists hf', addSpan hf x y mn mx a thr = Ok hf' /\
    forall x' y', (x', y') <> (x, y) -> col_at hf' x' y' = col_at hf x' y'.
Proof.
  intros hf x y mn mx a thr Hsh G. destruct (addSpan_spec hf x y mn mx a thr Hsh G) as (hf' & E & _ & _ & _ & _ & H).
  eauto.
Qed.

(** Exact effect on the column: spans strictly below [mn] or strictly above [mx] are kept
    unchanged; all the spans that overlap or touch [mn, mx] are replaced by one span that
    covers them and the new one; its area is the maximum of the new area and the areas of
    the replaced spans whose top is within the merge threshold of the merged top. *)
Theorem C36_insert_shape : forall hf x y mn mx a thr, hf_shape hf -> in_grid hf x y ->
  wf_column (col_at hf x y) -> mn < mx ->
  let col := col_at hf x y in
  let touching := filter (fun c => (mn <=? smax c) && (smin c <=? mx)) col in
  exists hf' m, addSpan hf x y mn mx a thr = Ok hf' /\
    col_at hf' x y = filter (fun c => smax c <? mn) col ++ m :: filter (fun c => mx <? smin c) col /\
    smin m = fold_right Z.min mn (map smin touching) /\
    smax m = fold_right Z.max mx (map smax touching) /\
    sarea m = fold_right Z.max a (map sarea (filter (fun c => Z.max mx (smax c) - smax c <=? thr) touching)).
Proof.
  intros hf x y mn mx a thr Hsh G Hwf Hlt col touching.
  destruct (addSpan_spec hf x y mn mx a thr Hsh G) as (hf' & E & _ & _ & _ & Ec & _).
  destruct (addSpanCol_shape_top thr col (mkSpan mn mx a) Hwf Hlt) as (m & Em & H1 & H2 & H3).
  exists hf', m. split; [assumption|]. split; [rewrite Ec; exact Em|].
  assert (forall (f : Span -> Z) (g : Z -> Z -> Z) z l, fold_right (fun c a => g (f c) a) z l = fold_right g z (map f l)) as F.
  { intros f g z l. induction l as [|c l IH]; cbn; [reflexivity|]. now rewrite IH. }
  unfold lo_of, hi_of, area_of in *. rewrite F in H1, H2, H3. auto.
Qed.

Example C36_example :
  let ops := [mkIns 1 0 10 20 5 1; mkIns 1 0 30 40 7 1; mkIns 1 0 50 60 9 1; mkIns 1 0 20 31 1 1] in
  (forall o, In o ops -> valid_ins 2 2 o) /\
  (let* hf := run_ins (NewHeightfield 2 2) ops in Ok (col_at hf 1 0)) =
     Ok [mkSpan 10 40 7; mkSpan 50 60 9].
Proof.
  split; [|reflexivity].
  intros o [<-|[<-|[<-|[<-|[]]]]]; unfold valid_ins; cbn; lia.
Qed.

(** ** C37 The solid volume is the union of the insertions, in any order *)

Theorem C37_union : forall w h ops,
  0 <= w -> 0 <= h -> w * h < 2147483648 -> (forall o, In o ops -> valid_ins w h o) ->
  exists hf, run_ins (NewHeightfield w h) ops = Ok hf /\
    forall x y v, solid (col_at hf x y) v <->
      exists o, In o ops /\ iX o = x /\ iY o = y /\ iMn o <= v < iMx o.
Proof.
  intros w h ops Hw Hh Hs Hv. destruct (NewHeightfield_shape w h Hw Hh Hs) as [Hsh Hemp].
  destruct (run_ins_spec ops (NewHeightfield w h) Hsh Hv) as (hf & E & _ & _ & _ & _ & Hsol & _).
  { intros x y. rewrite Hemp. split; constructor. }
  exists hf. split; [assumption|]. intros x y v. rewrite Hsol, Hemp. split.
  - intros [(s & [] & _)|H]; assumption.
  - auto.
Qed.

(** The extents do not depend on the insertion order (nor on repetitions, areas or
    thresholds). *)
Theorem C37_order_independent : forall w h ops ops' hf hf',
  0 <= w -> 0 <= h -> w * h < 2147483648 -> (forall o, In o ops -> valid_ins w h o) ->
  Permutation ops ops' ->
  run_ins (NewHeightfield w h) ops = Ok hf -> run_ins (NewHeightfield w h) ops' = Ok hf' ->
  forall x y, extents (col_at hf x y) = extents (col_at hf' x y).
Proof.
  intros w h ops ops' hf hf' Hw Hh Hs Hv HP E E' x y.
  destruct (NewHeightfield_shape w h Hw Hh Hs) as [Hsh Hemp].
  assert (forall x y, wf_column (col_at (NewHeightfield w h) x y)) as W0 by (intros; rewrite Hemp; split; constructor).
  assert (forall o, In o ops' -> valid_ins w h o) as Hv'.
  { intros o Ho. apply Hv. eapply Permutation_in; [apply Permutation_sym; eassumption|assumption]. }
  destruct (run_ins_spec ops _ Hsh Hv W0) as (g & Eg & _ & _ & _ & Wg & Sg & _).
  destruct (run_ins_spec ops' _ Hsh Hv' W0) as (g' & Eg' & _ & _ & _ & Wg' & Sg' & _).
  rewrite E in Eg. inversion Eg; subst g. rewrite E' in Eg'. inversion Eg'; subst g'.
  apply wf_canonical; auto. intros v. rewrite Sg, Sg'. split; (intros [H|(o & Ho & H)]; [now left|right; exists o; split; [|assumption]]).
  - eapply Permutation_in; eassumption.
  - eapply Permutation_in; [apply Permutation_sym; eassumption|assumption].
Qed.

(** The areas do depend on the order: the claim is about extents only. *)
Theorem C37_area_order_refuted : exists o1 o2 hf hf',
  valid_ins 1 1 o1 /\ valid_ins 1 1 o2 /\
  run_ins (NewHeightfield 1 1) [o1; o2] = Ok hf /\ run_ins (NewHeightfield 1 1) [o2; o1] = Ok hf' /\
  col_at hf 0 0 <> col_at hf' 0 0.
Proof.
  exists (mkIns 0 0 0 10 5 0), (mkIns 0 0 0 12 2 0). do 2 eexists.
  split; [unfold valid_ins; cbn; lia|]. split; [unfold valid_ins; cbn; lia|].
  split; [reflexivity|]. split; [reflexivity|]. cbn. discriminate.
Qed.

Example C37_example :
  let a := mkIns 0 0 10 20 1 1 in let b := mkIns 0 0 25 30 1 1 in let c := mkIns 0 0 15 27 1 1 in
  (let* hf := run_ins (NewHeightfield 1 1) [a; b; c] in Ok (extents (col_at hf 0 0))) = Ok [(10, 30)] /\
  (let* hf := run_ins (NewHeightfield 1 1) [c; b; a] in Ok (extents (col_at hf 0 0))) = Ok [(10, 30)].
Proof. split; reflexivity. Qed.

(** ** C38 Low hanging obstacles *)

(** For every span of every column: the extents stay, and the area changes iff the span
    was unwalkable, the span just below was walkable before the call, and the tops are
    within [climb]; it then becomes the area of the span below. *)
Theorem C38_low_hanging : forall climb hf, hf_shape hf -> heights_ok hf ->
  exists hf', FilterLowHangingWalkableObstacles climb hf = Ok hf' /\ hf_w hf' = hf_w hf /\ hf_h hf' = hf_h hf /\
    forall x y, in_grid hf x y ->
      length (col_at hf' x y) = length (col_at hf x y) /\
      (forall s, nth_error (col_at hf x y) 0 = Some s -> nth_error (col_at hf' x y) 0 = Some s) /\
      forall i p s, nth_error (col_at hf x y) i = Some p -> nth_error (col_at hf x y) (S i) = Some s ->
        exists s', nth_error (col_at hf' x y) (S i) = Some s' /\ smin s' = smin s /\ smax s' = smax s /\
          ((sarea s = 0 /\ sarea p <> 0 /\ Z.abs (smax s - smax p) <= climb -> sarea s' = sarea p) /\
           (~ (sarea s = 0 /\ sarea p <> 0 /\ Z.abs (smax s - smax p) <= climb) -> sarea s' = sarea s)).
Proof.
  intros climb hf Hsh Hok. destruct (FilterLowHanging_spec climb hf Hsh Hok) as (hf' & E & _ & Ew & Eh & Hc).
  exists hf'. split; [assumption|]. split; [assumption|]. split; [assumption|]. intros x y G. rewrite (Hc x y G).
  split; [apply low_col_length|]. split.
  - intros s H. rewrite (low_col_nth climb _ None 0 s H). reflexivity.
  - intros i p s Hp Hs. rewrite (low_col_nth climb _ None (S i) s Hs), Hp. eexists. split; [reflexivity|].
    unfold low_step.
    destruct (Z.eqb_spec (sarea s) 0) as [E1|E1]; cbn [andb].
    2:{ split; [reflexivity|]. split; [reflexivity|]. split; [|reflexivity]. intros [H _]. contradiction. }
    destruct (Z.eqb_spec (sarea p) 0) as [E2|E2]; cbn [andb negb].
    { split; [reflexivity|]. split; [reflexivity|]. split; [|reflexivity]. intros (_ & H & _). contradiction. }
    destruct (Z.leb_spec (Z.abs (smax s - smax p)) climb) as [E3|E3].
    + cbn [smin smax sarea]. split; [reflexivity|]. split; [reflexivity|]. split; [reflexivity|].
      intros H. exfalso. auto.
    + split; [reflexivity|]. split; [reflexivity|]. split; [|reflexivity]. intros (_ & _ & H). lia.
Qed.

Example C38_example :
  let hf := mkHF 1 1 [[mkSpan 0 2 63; mkSpan 5 8 0; mkSpan 10 12 0; mkSpan 30 31 9]] in
  hf_shape hf /\ heights_ok hf /\
  FilterLowHangingWalkableObstacles 6 hf =
    Ok (mkHF 1 1 [[mkSpan 0 2 63; mkSpan 5 8 63; mkSpan 10 12 0; mkSpan 30 31 9]]).
Proof.
  split; [unfold hf_shape, zlen; cbn; lia|]. split; [|reflexivity].
  intros x y s Hs. unfold col_at in Hs. cbn [hf_w hf_h hf_spans] in Hs.
  destruct ((0 <=? x) && (x <? 1) && (0 <=? y) && (y <? 1)) eqn:E; [|contradiction].
  rewrite !andb_true_iff, !Z.leb_le, !Z.ltb_lt in E. assert (x = 0) by lia. assert (y = 0) by lia. subst.
  cbn in Hs. destruct Hs as [<-|[<-|[<-|[<-|[]]]]]; cbn; lia.
Qed.

(** ** C39 Ledges *)

(** A walkable span becomes unwalkable iff it is a ledge (big drop, or steep slope) with
    respect to the heightfield as it was before the call; everything else is unchanged. *)
Theorem C39_ledge : forall wh climb hf, hf_shape hf -> heights_ok hf -> 0 <= climb <= 1073741824 ->
  exists hf', FilterLedgeSpans wh climb hf = Ok hf' /\ hf_w hf' = hf_w hf /\ hf_h hf' = hf_h hf /\
    forall x y, in_grid hf x y ->
      length (col_at hf' x y) = length (col_at hf x y) /\
      forall i s, nth_error (col_at hf x y) i = Some s ->
        exists s', nth_error (col_at hf' x y) i = Some s' /\ smin s' = smin s /\ smax s' = smax s /\
          (sarea s = 0 -> sarea s' = 0) /\
          (sarea s <> 0 -> is_ledge wh climb hf x y i s -> sarea s' = 0) /\
          (~ is_ledge wh climb hf x y i s -> sarea s' = sarea s).
Proof.
  intros wh climb hf Hsh Hok Hcl. destruct (FilterLedgeSpans_spec wh climb hf Hsh Hok Hcl) as (hf' & E & _ & Ew & Eh & Hc).
  exists hf'. split; [assumption|]. split; [assumption|]. split; [assumption|]. intros x y G. rewrite (Hc x y G).
  split; [apply ledge_col_length|]. intros i s Hs. rewrite (ledge_col_nth wh climb hf x y _ i s Hs).
  eexists. split; [reflexivity|].
  assert (0 <= smax s <= 65535) as Hsm by (apply nth_error_In in Hs; specialize (Hok x y s Hs); lia).
  pose proof (ledgeb_spec wh climb hf x y s (ceiling (col_at hf x y) i) Hsh Hok Hcl Hsm) as Hl.
  unfold is_ledge. destruct (Z.eqb_spec (sarea s) 0) as [E1|E1]; cbn [negb andb].
  - split; [reflexivity|]. split; [reflexivity|]. split; [auto|]. split; [contradiction|auto].
  - destruct (ledgeb wh climb hf x y s (ceiling (col_at hf x y) i)); cbn [smin smax sarea].
    + split; [reflexivity|]. split; [reflexivity|]. split; [auto|]. split; [auto|].
      intros H. exfalso. apply H. now apply Hl.
    + split; [reflexivity|]. split; [reflexivity|]. split; [contradiction|]. split; [|auto].
      intros _ H. apply Hl in H. discriminate.
Qed.

(** A 3x1 strip: floor, a 10-voxel step, floor. The middle top is a ledge; with a climb of
    20 it is not. (The strip's outer cells are ledges because the grid ends there.) *)
Example C39_example :
  let hf := mkHF 3 3 [[mkSpan 0 1 63]; [mkSpan 0 1 63]; [mkSpan 0 1 63];
                      [mkSpan 0 1 63]; [mkSpan 0 11 63]; [mkSpan 0 1 63];
                      [mkSpan 0 1 63]; [mkSpan 0 1 63]; [mkSpan 0 1 63]] in
  hf_shape hf /\
  (let* r := FilterLedgeSpans 3 2 hf in Ok (col_at r 1 1)) = Ok [mkSpan 0 11 0] /\
  (let* r := FilterLedgeSpans 3 20 hf in Ok (col_at r 1 1)) = Ok [mkSpan 0 11 63] /\
  (let* r := FilterLedgeSpans 3 2 hf in Ok (col_at r 0 0)) = Ok [mkSpan 0 1 0].
Proof. split; [unfold hf_shape, zlen; cbn; lia|]. split; [|split]; reflexivity. Qed.

(** ** C40 Low ceilings *)

Theorem C40_low_ceiling : forall wh hf, hf_shape hf ->
  exists hf', FilterWalkableLowHeightSpans wh hf = Ok hf' /\ hf_w hf' = hf_w hf /\ hf_h hf' = hf_h hf /\
    forall x y, in_grid hf x y ->
      length (col_at hf' x y) = length (col_at hf x y) /\
      forall i s, nth_error (col_at hf x y) i = Some s ->
        exists s', nth_error (col_at hf' x y) i = Some s' /\ smin s' = smin s /\ smax s' = smax s /\
          (ceiling (col_at hf x y) i - smax s > wh -> sarea s' = sarea s) /\
          (ceiling (col_at hf x y) i - smax s <= wh -> sarea s' = 0).
Proof.
  intros wh hf Hsh. destruct (FilterLowHeight_spec wh hf Hsh) as (hf' & E & _ & Ew & Eh & Hc).
  exists hf'. split; [assumption|]. split; [assumption|]. split; [assumption|]. intros x y G. rewrite (Hc x y G).
  split; [apply lowHeightCol_length|]. intros i s Hs. rewrite (lowHeightCol_nth wh _ i s Hs).
  eexists. split; [reflexivity|].
  destruct (Z.leb_spec (ceiling (col_at hf x y) i - smax s) wh); cbn [smin smax sarea].
  - repeat split; lia.
  - repeat split; lia.
Qed.

Example C40_example :
  FilterWalkableLowHeightSpans 3 (mkHF 1 1 [[mkSpan 0 1 63; mkSpan 4 5 63; mkSpan 9 10 63]]) =
    Ok (mkHF 1 1 [[mkSpan 0 1 0; mkSpan 4 5 63; mkSpan 9 10 63]]).
Proof. reflexivity. Qed.

(** ** C41 Layout of the compact heightfield *)

(** Hypotheses: at most 255 walkable spans per column (the cell's counter is 8 bits) and
    fewer than 2^31 in all. The compact span number [Index + r] of a cell is the column's
    walkable span with [r] walkable spans below it. *)
Theorem C41_layout : forall wh climb hf n, hf_shape hf -> heights_ok hf ->
  GetHeightFieldSpanCount hf = Ok n -> n < 2147483648 ->
  (forall x y, walkables (col_at hf x y) <= 255) ->
  exists chf, BuildCompactHeightfield wh climb hf = Ok chf /\
    chf_w chf = hf_w hf /\ chf_h chf = hf_h hf /\ chf_wh chf = wh /\ chf_climb chf = climb /\
    chf_spanCount chf = n /\ zlen (chf_spans chf) = n /\ zlen (chf_areas chf) = n /\
    (forall x y, in_grid hf x y -> exists c, cell_at chf x y = Ok c /\
       cCount c = walkables (col_at hf x y) /\
       forall i s, nth_error (col_at hf x y) i = Some s -> sarea s <> 0 ->
         exists cs, get (chf_spans chf) (cIndex c + rank (col_at hf x y) i) = Ok cs /\
           csY cs = smax s /\
           csH cs = Z.max 0 (Z.min 255 (ceiling (col_at hf x y) i - smax s)) /\ csReg cs = 0 /\
           get (chf_areas chf) (cIndex c + rank (col_at hf x y) i) = Ok (sarea s)) /\
    (forall j, 0 <= j < n -> exists x y c, in_grid hf x y /\ cell_at chf x y = Ok c /\
       cIndex c <= j < cIndex c + cCount c /\
       forall x' y' c', in_grid hf x' y' -> cell_at chf x' y' = Ok c' ->
         cIndex c' <= j < cIndex c' + cCount c' -> x' = x /\ y' = y).
Proof.
  intros wh climb hf n Hsh Hok En Hn H255. rewrite (spanCount_spec hf Hsh) in En. inversion En; subst n.
  destruct (build_spec wh climb hf Hsh Hok Hn H255) as (chf0 & chf & E & HB).
  exists chf. split; [assumption|]. pose proof HB as [Bw Bh Bwh Bcl Bn B0 Byh Bar Blay Bd].
  split; [assumption|]. split; [assumption|]. split; [assumption|]. split; [assumption|]. split; [assumption|].
  split. { unfold zlen. rewrite <- (map_length yh (chf_spans chf)), Byh, map_length. reflexivity. }
  split. { rewrite Bar. rewrite <- (firstn_all (hf_spans hf)) at 1. rewrite offs_compa. apply offs_all. lia. }
  split.
  - intros x y G. destruct (built_cell wh climb hf chf0 chf x y Hsh HB G) as (c & Hc & Hcnt & _).
    exists c. unfold cell_at. rewrite Bw. split; [assumption|]. split; [assumption|].
    intros i s Hs Ha. destruct (built_span wh climb hf chf0 chf x y i s Hsh HB G Hs Ha) as (c' & cs & Hc' & H).
    unfold cidx in Hc, Hc'. rewrite Hc in Hc'. inversion Hc'; subst c'. eauto.
  - intros j Hj. destruct (offs_owner (hf_spans hf) j Hj) as (i & col & Hi & Hoj).
    pose proof Hsh as (Hw & Hh & Hs & Hl).
    assert (i < length (hf_spans hf))%nat by (apply nth_error_Some; congruence).
    destruct (cidx_surj (hf_w hf) (hf_h hf) (Z.of_nat i)) as (x & y & Hx & Hy & Exy); [assumption|unfold zlen in Hl; lia|].
    destruct (built_cell wh climb hf chf0 chf x y Hsh HB (conj Hx Hy)) as (c & Hc & Hcnt & Hidx).
    pose proof (col_at_nth hf x y Hsh (conj Hx Hy)) as Hn'. rewrite Exy, Nat2Z.id in Hn', Hidx.
    rewrite Hi in Hn'. inversion Hn' as [Ecol]. rewrite <- Ecol in Hcnt.
    exists x, y, c. split; [split; assumption|]. unfold cell_at. rewrite Bw. split; [assumption|].
    split; [rewrite Hidx by lia; lia|].
    intros x' y' c' G' Hc' Hj'.
    destruct (built_cell wh climb hf chf0 chf x' y' Hsh HB G') as (c2 & Hc2 & Hcnt2 & Hidx2).
    unfold cidx in Hc2. rewrite Hc' in Hc2. inversion Hc2; subst c2.
    pose proof (col_at_nth hf x' y' Hsh G') as Hn2.
    pose proof (owner_unique (hf_spans hf) i _ _ _ j Hi Hn2 Hoj ltac:(rewrite <- Hidx2, <- Hcnt2 by lia; lia)) as Eo.
    destruct G' as [Gx Gy]. pose proof (cidx_range _ _ _ _ Gx Gy).
    assert (cidx (hf_w hf) x' y' = cidx (hf_w hf) x y) as Eq by lia.
    apply cidx_inj in Eq; auto.
Qed.

(** Without the guard the layout is lost: a column with 256 walkable spans gets Count 0. *)
Theorem C41_count_wrap_refuted : exists col chf,
  walkables col = 256 /\ wf_column col /\
  BuildCompactHeightfield 3 1 (mkHF 1 1 [col]) = Ok chf /\ chf_spanCount chf = 256 /\
  cell_at chf 0 0 = Ok (mkCell 0 0).
Proof.
  exists (map (fun i => mkSpan (10 * i) (10 * i + 1) 63) (zseq 256)). eexists.
  split; [vm_compute; reflexivity|]. split.
  - split.
    + apply Forall_forall. intros s Hs. apply in_map_iff in Hs. destruct Hs as (i & <- & _). cbn. lia.
    + assert (forall l, StronglySorted Z.lt l -> StronglySorted (fun a b => smax a < smin b) (map (fun i => mkSpan (10 * i) (10 * i + 1) 63) l)) as G.
      { induction l as [|z l IH]; intros Hl; [constructor|]. inversion Hl; subst. cbn [map]. constructor; [auto|].
        apply Forall_forall. intros s Hs. apply in_map_iff in Hs. destruct Hs as (i & <- & Hi).
        eapply Forall_forall in H2; [|exact Hi]. cbn [smin smax]. lia. }
      apply G. unfold zseq.
      assert (forall n a, StronglySorted Z.lt (map Z.of_nat (seq a n))) as Q.
      { induction n as [|n IH]; intros a; [constructor|]. cbn [seq map]. constructor; [apply IH|].
        apply Forall_forall. intros z Hz. apply in_map_iff in Hz. destruct Hz as (k & <- & Hk). apply in_seq in Hk. lia. }
      apply Q.
  - split; [vm_compute; reflexivity|]. split; reflexivity.
Qed.

Example C41_example :
  let hf := mkHF 2 1 [[mkSpan 0 1 63; mkSpan 4 5 0; mkSpan 9 10 7]; [mkSpan 0 2 5]] in
  hf_shape hf /\ GetHeightFieldSpanCount hf = Ok 3 /\
  (let* chf := BuildCompactHeightfield 3 2 hf in
   Ok (chf_cells chf, map (fun s => (csY s, csH s)) (chf_spans chf), chf_areas chf)) =
   Ok ([mkCell 0 2; mkCell 2 1], [(1, 3); (10, 255); (2, 255)], [63; 7; 5]).
Proof. split; [unfold hf_shape, zlen; cbn; lia|]. split; reflexivity. Qed.

(** ** C42 Connections *)

(** A connection leads to an existing span of the adjacent column, the lowest one that an
    agent can step to; 63 (not connected) means that the neighbour is outside the grid or
    that none of its first 63 spans can be stepped to. *)
Theorem C42_connection_exact : forall wh climb hf chf n, hf_shape hf -> heights_ok hf ->
  GetHeightFieldSpanCount hf = Ok n -> n < 2147483648 ->
  (forall x y, walkables (col_at hf x y) <= 255) ->
  BuildCompactHeightfield wh climb hf = Ok chf ->
  forall x y c k d, in_grid hf x y -> cell_at chf x y = Ok c -> 0 <= k < cCount c -> (d < 4)%nat ->
  exists s, get (chf_spans chf) (cIndex c + k) = Ok s /\
    let nx := x + fst (dir_step d) in
    let ny := y + snd (dir_step d) in
    let l := GetCon (csCon s) (Z.of_nat d) in
    (l = 63 /\
       (~ (0 <= nx < chf_w chf /\ 0 <= ny < chf_h chf) \/
        exists nc, cell_at chf nx ny = Ok nc /\
          forall m ns, 0 <= m < cCount nc -> m <= 62 -> get (chf_spans chf) (cIndex nc + m) = Ok ns ->
            ~ steppable wh climb s ns)) \/
    (exists nc ns, 0 <= nx < chf_w chf /\ 0 <= ny < chf_h chf /\
       cell_at chf nx ny = Ok nc /\ 0 <= l < cCount nc /\ l <= 62 /\
       get (chf_spans chf) (cIndex nc + l) = Ok ns /\ steppable wh climb s ns /\
       forall m ns', 0 <= m < l -> get (chf_spans chf) (cIndex nc + m) = Ok ns' -> ~ steppable wh climb s ns').
Proof.
  intros wh climb hf chf n Hsh Hok En Hn H255 E x y c k d G Hc Hk Hd.
  rewrite (spanCount_spec hf Hsh) in En. inversion En; subst n.
  destruct (build_spec wh climb hf Hsh Hok Hn H255) as (chf0 & chf' & E' & HB).
  rewrite E in E'. inversion E'; subst chf'.
  destruct (built_conn wh climb hf chf0 chf x y c k d Hsh HB G Hc Hk Hd) as (s & Hs & H).
  exists s. split; [assumption|]. unfold conn_spec in H.
  rewrite (b_wh _ _ _ _ _ HB), (b_climb _ _ _ _ _ HB) in H. exact H.
Qed.

(** If walkableClimb <= walkableHeight (and columns are as [addSpan] builds them, with at
    most 63 walkable spans) the connection is mutual. *)
Theorem C42_mutual : forall wh climb hf chf n, hf_shape hf -> heights_ok hf ->
  GetHeightFieldSpanCount hf = Ok n -> n < 2147483648 ->
  (forall x y, wf_column (col_at hf x y)) -> (forall x y, walkables (col_at hf x y) <= 63) -> climb <= wh ->
  BuildCompactHeightfield wh climb hf = Ok chf ->
  forall x y c k d d' s l, in_grid hf x y -> cell_at chf x y = Ok c -> 0 <= k < cCount c ->
  (d < 4)%nat -> d' = Nat.modulo (d + 2) 4 ->
  get (chf_spans chf) (cIndex c + k) = Ok s -> GetCon (csCon s) (Z.of_nat d) = l -> l <> 63 ->
  exists nc ns, cell_at chf (x + fst (dir_step d)) (y + snd (dir_step d)) = Ok nc /\ 0 <= l < cCount nc /\
    get (chf_spans chf) (cIndex nc + l) = Ok ns /\ GetCon (csCon ns) (Z.of_nat d') = k.
Proof.
  intros wh climb hf chf n Hsh Hok En Hn Hwf H63 Hcl E x y c k d d' s l G Hc Hk Hd Ed' Hs Hl Hne.
  rewrite (spanCount_spec hf Hsh) in En. inversion En; subst n.
  destruct (build_spec wh climb hf Hsh Hok Hn) as (chf0 & chf' & E' & HB).
  { intros x0 y0. specialize (H63 x0 y0). lia. }
  rewrite E in E'. inversion E'; subst chf'.
  assert (d' = opp d) as -> by (subst d'; destruct d as [|[|[|[|d]]]]; try lia; reflexivity).
  apply (built_mutual wh climb hf chf0 chf x y c k d s l); assumption.
Qed.

(** With walkableClimb > walkableHeight it need not be: the upper floor of the right cell
    connects to the left cell, which connects to the lower floor. *)
Theorem C42_mutual_refuted : exists hf chf s t,
  hf_shape hf /\ (forall x y, wf_column (col_at hf x y)) /\
  BuildCompactHeightfield 3 20 hf = Ok chf /\
  get (chf_spans chf) 2 = Ok s /\ GetCon (csCon s) 0 = 0 /\
  get (chf_spans chf) 0 = Ok t /\ GetCon (csCon t) 2 = 0 /\
  cell_at chf 0 0 = Ok (mkCell 0 1) /\ cell_at chf 1 0 = Ok (mkCell 1 2).
Proof.
  exists (mkHF 2 1 [[mkSpan 0 1 63]; [mkSpan 0 1 63; mkSpan 10 12 63]]).
  do 3 eexists. split; [unfold hf_shape, zlen; cbn; lia|]. split.
  - intros x y. unfold col_at. cbn [hf_w hf_h hf_spans].
    destruct (_ && _); [|split; constructor].
    destruct (Z.to_nat (x + y * 2)) as [|[|[|k]]]; cbn [nth]; split; repeat constructor.
  - split; [vm_compute; reflexivity|]. repeat split; reflexivity.
Qed.

Example C42_example :
  let hf := mkHF 2 1 [[mkSpan 0 1 63; mkSpan 20 22 63]; [mkSpan 0 2 63; mkSpan 20 21 63]] in
  hf_shape hf /\ (forall x y, wf_column (col_at hf x y)) /\
  (let* chf := BuildCompactHeightfield 3 2 hf in
   Ok (map (fun s => (GetCon (csCon s) 0, GetCon (csCon s) 1, GetCon (csCon s) 2, GetCon (csCon s) 3)) (chf_spans chf))) =
   Ok [(63, 63, 0, 63); (63, 63, 1, 63); (0, 63, 63, 63); (1, 63, 63, 63)].
Proof.
  split; [unfold hf_shape, zlen; cbn; lia|]. split; [|reflexivity].
  intros x y. unfold col_at. cbn [hf_w hf_h hf_spans].
  destruct (_ && _); [|split; constructor].
  destruct (Z.to_nat (x + y * 2)) as [|[|[|k]]]; cbn [nth]; split; repeat constructor.
Qed.

(** ** C43 Connection fields *)

(** The full property is that [GetCon] reads back what [SetCon] wrote for every previous
    content of the span. Proved: the other directions are untouched, and the value is read
    back exactly when every bit that was clear in the old field is set in the new value
    (in particular when the field held notConnected, or when writing notConnected). *)
Theorem C43_setcon_partial : forall con d i, 0 <= d < 4 -> 0 <= i < 64 ->
  (forall d', 0 <= d' < 4 -> d' <> d -> GetCon (SetCon con d i) d' = GetCon con d') /\
  (GetCon (SetCon con d i) d = i <-> Z.lor (GetCon con d) i = 63) /\
  (GetCon con d = 63 -> GetCon (SetCon con d i) d = i) /\
  (GetCon con d = 0 -> i = 63 -> GetCon (SetCon con d i) d = i).
Proof.
  intros con d i Hd Hi. split; [|split; [|split]].
  - intros d' Hd' N. rewrite GetCon_SetCon by assumption. destruct (Z.eqb_spec d' d); [contradiction|reflexivity].
  - now apply SetCon_correct_iff.
  - intros H. apply SetCon_correct_iff; auto. rewrite H. apply Z.bits_inj'. intros n Hn.
    rewrite Z.lor_spec, bits63 by assumption. destruct (Z.ltb_spec n 6); [reflexivity|].
    apply (Bits.testbit_high 6); cbn; lia.
  - intros H ->. apply SetCon_correct_iff; auto. rewrite H. reflexivity.
Qed.

(** What is missing is false: connecting a span to 1 that was connected to 0 reads 63. *)
Theorem C43_roundtrip_refuted : exists con d i, 0 <= d < 4 /\ 0 <= i < 63 /\
  GetCon con d = 0 /\ GetCon (SetCon con d i) d <> i.
Proof. exists 0, 2, 1. repeat split; try lia. vm_compute. discriminate. Qed.

Example C43_example : let con := SetCon (SetCon 0 1 63) 1 5 in
  GetCon con 1 = 5 /\ GetCon con 0 = 0 /\ GetCon con 2 = 0.
Proof. repeat split. Qed.

(** ** C44 Direction tables *)

Theorem C44_directions : forall d, 0 <= d < 4 -> exists dx dy dx' dy',
  GetDirOffsetX d = Ok dx /\ GetDirOffsetY d = Ok dy /\ GetDirForOffset dx dy = Ok d /\
  Z.abs dx + Z.abs dy = 1 /\
  GetDirOffsetX (Z.land (d + 2) 3) = Ok dx' /\ GetDirOffsetY (Z.land (d + 2) 3) = Ok dy' /\ dx + dx' = 0 /\ dy + dy' = 0 /\
  (* one turn: d + 1 is d rotated by a quarter *)
  GetDirOffsetX (d + 1) = Ok dy /\ GetDirOffsetY (d + 1) = Ok (- dx).
Proof.
  intros d Hd. assert (d = 0 \/ d = 1 \/ d = 2 \/ d = 3) as [->|[->|[->| ->]]] by lia;
    do 4 eexists; repeat split; reflexivity.
Qed.

(** The tables accept any integer direction (only the two low bits count). *)
Theorem C44_periodic : forall d, GetDirOffsetX (d + 4) = GetDirOffsetX d /\ GetDirOffsetY (d + 4) = GetDirOffsetY d.
Proof.
  intros d. unfold GetDirOffsetX, GetDirOffsetY.
  assert (Z.land (d + 4) 3 = Z.land d 3) as ->; [|auto].
  change 3 with (2 ^ 2 - 1). rewrite !Bits.land_mask by lia. change (2 ^ 2) with 4.
  rewrite <- (Z.mul_1_l 4) at 1. apply Z.mod_add. lia.
Qed.

Example C44_example : GetDirForOffset 0 (-1) = Ok 3 /\ GetDirOffsetX 2 = Ok 1.
Proof. split; reflexivity. Qed.

Print Assumptions C36_columns_wf.
Print Assumptions C36_other_columns.
Print Assumptions C36_insert_shape.
Print Assumptions C37_union.
Print Assumptions C37_order_independent.
Print Assumptions C37_area_order_refuted.
Print Assumptions C38_low_hanging.
Print Assumptions C39_ledge.
Print Assumptions C40_low_ceiling.
Print Assumptions C41_layout.
Print Assumptions C41_count_wrap_refuted.
Print Assumptions C42_connection_exact.
Print Assumptions C42_mutual.
Print Assumptions C42_mutual_refuted.
Print Assumptions C43_setcon_partial.
Print Assumptions C43_roundtrip_refuted.
Print Assumptions C44_directions.
Print Assumptions C44_periodic.
