(** Contours of regions (recast/contour.go). *)
From Coq Require Import ZArith List Bool Lia Relations.
From Verif.Base Require Import Res GoNum Grid F32.
From Verif.Model Require Import Heightfield Dirs Compact Erode Region RegionMerge ContourGeom Contour.
From Verif.Spec Require Import HeightfieldSpec CompactSpec ErodeSpec RegionSpec MergeSpec ContourSpec TraceSpec.
From Verif.Proofs Require Import ErodeProofs ErodeOpen CompactProofs RegionBase TraceStep TraceAll TraceEnd TraceRegions.
From Verif.Properties Require Import Regions RegionMerge.
Import ListNotations.
Open Scope Z_scope.

(** ** C69: the raw contours match the outlines of the regions exactly
    Each walk follows a closed line of outline edges of one region, from each edge to the next one
    around the corner, and yields the point of each edge. No edge is in two walks or twice in one;
    all edges of outlines are in walks, but for those of single spans. *)
Theorem C69_outlines : forall chf bs maxRegions maxError maxEdgeLen buildFlags conts tr, chf_wf chf -> mutual chf -> regions16 chf -> one_area chf ->
  (forall r, 0 < r < 32768 -> short_outlines chf r) ->
  BuildContours chf bs maxRegions maxError maxEdgeLen buildFlags = Ok (conts, tr) ->
  exists loops, Forall2 (walk_of chf) loops tr /\ NoDup (concat loops) /\
    forall e, In e (concat loops) <-> outline chf e /\ ~ lone chf (eX e) (eY e) (eI e).
Proof.
  intros chf bs mr me mel bf conts tr wf mut R16 OA SO E. destruct (contours_all chf bs mr me mel bf wf mut R16 OA SO) as (loops & tr' & conts' & W & ND & IN & ST & E').
  rewrite E in E'. destruct (zlen conts' <=? Z.max mr 8); [|discriminate]. apply Ok_inj in E'. injection E' as -> ->. exists loops. auto.
Qed.
Print Assumptions C69_outlines.

(** ** C70: the contours that are stored
    The walks, simplified and without points at the place of the next one, are stored if three points
    are left, with region and area and without the border; unless there are more than
    max(maxRegions, 8) of them, then the build panics. *)
Theorem C70_stored : forall chf bs maxRegions maxError maxEdgeLen buildFlags, chf_wf chf -> mutual chf -> regions16 chf -> one_area chf ->
  (forall r, 0 < r < 32768 -> short_outlines chf r) ->
  exists tr conts, stored chf bs maxError maxEdgeLen buildFlags tr conts /\
    BuildContours chf bs maxRegions maxError maxEdgeLen buildFlags = if zlen conts <=? Z.max maxRegions 8 then Ok (conts, tr) else Panic.
Proof.
  intros chf bs mr me mel bf wf mut R16 OA SO. destruct (contours_all chf bs mr me mel bf wf mut R16 OA SO) as (loops & tr & conts & W & ND & IN & ST & E). eauto.
Qed.
Print Assumptions C70_stored.
Theorem C70_degenerate : forall l, exists l', removeDegenerateSegments l = Ok l' /\ thinned l l'.
Proof. exact degenerate_ok. Qed.
Print Assumptions C70_degenerate.

(** Regions of at most 9999 spans are small enough. *)
Theorem C69_short : forall chf r, chf_wf chf -> mutual chf -> regions16 chf -> 0 < r < 32768 -> at_most 9999 (fun i => has_region chf i r) -> short_outlines chf r.
Proof.
  intros chf r wf mut R16 B AM. eapply few_short; eauto.
Qed.
Print Assumptions C69_short.

(** *** With the regions of BuildRegionsMonotone *)
Theorem C69_monotone : forall chf bs minArea mergeArea maxError maxEdgeLen buildFlags, chf_wf chf -> chf_spanCount chf < 2 ^ 31 -> 0 <= bs -> mutual chf ->
  (forall y, at_most (Z.max (chf_w chf) (chf_h chf) - 1) (fun i => exists x, run_start chf bs x y i)) ->
  at_most 32760 (fun i => exists x y, run_start chf bs x y i) ->
  exists chf' mx, BuildRegionsMonotone chf bs minArea mergeArea = Ok (chf', mx) /\
    ((forall r, 0 < r <= mx -> short_outlines chf' r) ->
     exists loops tr conts, Forall2 (walk_of chf') loops tr /\ NoDup (concat loops) /\
       (forall e, In e (concat loops) <-> outline chf' e /\ ~ lone chf' (eX e) (eY e) (eI e)) /\
       stored chf' bs maxError maxEdgeLen buildFlags tr conts /\
       BuildContours chf' bs mx maxError maxEdgeLen buildFlags = if zlen conts <=? Z.max mx 8 then Ok (conts, tr) else Panic).
Proof.
  intros chf bs minArea mergeArea me mel bf wf small Hbs mut FR FA. destruct (C49_build chf bs minArea mergeArea wf small Hbs FR FA) as (chf' & mx & E & BM & EQ & RO & _ & SP).
  exists chf', mx. split; [exact E|]. intros SO. injection EQ as EW EH EN _ _ EC EA. destruct RO as (LR & _ & RR & CON).
  assert (LS : zlen (chf_spans chf') = chf_spanCount chf) by (unfold zlen in *; now rewrite map_length in LR).
  assert (REG : forall i r, has_region chf' i r -> get (map csReg (chf_spans chf')) i = Ok r).
  { intros i r (s & Hs & <-). rewrite CompactProofs.get_map, Hs. reflexivity. }
  assert (S : same_links chf chf').
  { do 4 (split; [assumption|]). split; [now rewrite EA|]. split; [now rewrite LS, (ok_spans _ wf)|]. intros i s s' Hs Hs'. pose proof (get_range _ _ _ Hs) as B. rewrite (ok_spans _ wf) in B.
    destruct (ok_cover _ wf i B) as (x & y & A). destruct (SP x y i A) as (s0 & s0' & H & H' & Q & _). rewrite Hs in H. rewrite Hs' in H'. apply Ok_inj in H, H'. subst. congruence. }
  apply contours_all.
  - exact (same_wf _ _ S wf).
  - exact (same_mutual _ _ S mut).
  - intros i r H. apply REG, RR in H. lia.
  - intros i j (r & Hi & BR) (r' & Hi' & Hj). apply REG in Hi, Hi', Hj. rewrite Hi in Hi'. apply Ok_inj in Hi'. subst r'. rewrite EA. apply (path_area chf (map csReg (chf_spans chf'))). apply (CON i j r Hi Hj); [lia|]. unfold border_reg. lia.
  - intros r BR. destruct (Z_le_dec r mx) as [Q|Q]; [apply SO; lia|]. intros l ND H. destruct l as [|e l]; [unfold zlen; cbn; lia|]. exfalso.
    destruct (H e) as (_ & HR); [now left|]. apply REG, RR in HR. lia.
Qed.
Print Assumptions C69_monotone.

(** ** What does not hold *)

(** Of three points at one place two are left. *)
Theorem C70_no_double_refuted : exists l l', removeDegenerateSegments l = Ok l' /\ (3 <= length l')%nat /\ ~ no_double l'.
Proof.
  exists [mkVert 0 0 0 0; mkVert 0 0 0 1; mkVert 0 0 0 2; mkVert 4 0 0 3; mkVert 4 0 4 4]. eexists. split; [vm_compute; reflexivity|]. split; [cbn; lia|].
  intros H. apply (H [] (mkVert 0 0 0 1) (mkVert 0 0 0 2) [mkVert 4 0 0 3; mkVert 4 0 4 4; mkVert 0 0 0 1]); reflexivity.
Qed.
Print Assumptions C70_no_double_refuted.

(** A field of one region with a hole. *)
Definition ring : CompactHeightfield := painted (openField 5 5)
  [1;1;1;1;1; 1;1;1;1;1; 1;1;0;1;1; 1;1;1;1;1; 1;1;1;1;1] [7;7;7;7;7; 7;7;7;7;7; 7;7;0;7;7; 7;7;7;7;7; 7;7;7;7;7].
Lemma painted_ok : forall w h regs areas, 0 < w -> 0 < h -> length regs = Z.to_nat (w * h) -> length areas = Z.to_nat (w * h) -> w * h <= 9999 ->
  oneArea (painted (openField w h) regs areas) = true ->
  forallb (fun s => (0 <=? csReg s) && (csReg s <? 65536)) (chf_spans (painted (openField w h) regs areas)) = true ->
  chf_wf (painted (openField w h) regs areas) /\ mutual (painted (openField w h) regs areas) /\ regions16 (painted (openField w h) regs areas) /\
  one_area (painted (openField w h) regs areas) /\ forall r, 0 < r < 32768 -> short_outlines (painted (openField w h) regs areas) r.
Proof.
  intros w h regs areas Hw Hh LR LA B A1 A2. assert (S : same_links (openField w h) (painted (openField w h) regs areas)).
  { apply painted_same; cbn [openField chf_spans chf_areas]; rewrite ?map_length, ?zseq_length, ?repeat_length; assumption. }
  assert (wf : chf_wf (painted (openField w h) regs areas)) by (apply (same_wf _ _ S), open_wf; assumption).
  assert (mut : mutual (painted (openField w h) regs areas)) by (apply (same_mutual _ _ S), open_mutual; assumption).
  assert (R16 : regions16 (painted (openField w h) regs areas)) by (apply regions16_ok; exact A2).
  split; [exact wf|]. split; [exact mut|]. split; [exact R16|]. split; [apply oneArea_ok; [rewrite (ok_areas _ wf), (ok_spans _ wf); reflexivity|exact A1]|].
  intros r BR. apply C69_short; auto. apply few_spans; [exact wf|]. cbn [painted chf_spanCount openField]. exact B.
Qed.
Example C69_ring_hypotheses : chf_wf ring /\ mutual ring /\ regions16 ring /\ one_area ring /\ forall r, 0 < r < 32768 -> short_outlines ring r.
Proof. apply painted_ok; vm_compute; try reflexivity; discriminate. Qed.
(** Two walks, around the region and around the hole; both are stored for the region 1. *)
Example C69_ring : exists conts tr, BuildContours ring 0 1 (f_ratio 1 2) 0 0 = Ok (conts, tr) /\
  map (fun t => (fst (fst t), length (snd (fst t)), snd t)) tr = [(0, 20%nat, Closed); (7, 4%nat, Closed)] /\
  map (fun t => map spot (snd (fst t))) (skipn 1 tr) = [[(3, 2); (3, 3); (2, 3); (2, 2)]] /\
  map (fun c => (ctReg c, ctArea c, map spot (ctVerts c))) conts = [(1, 7, [(0, 0); (0, 5); (5, 5); (5, 0)]); (1, 7, [(2, 2); (3, 2); (3, 3); (2, 3)])].
Proof. do 2 eexists. split; [vm_compute; reflexivity|]. vm_compute. auto. Qed.

(** Holes are not merged into the outline of their region. *)
Theorem C70_one_contour_refuted : exists chf conts tr c1 c2, chf_wf chf /\ mutual chf /\ regions16 chf /\ one_area chf /\
  BuildContours chf 0 1 (f_ratio 1 2) 0 0 = Ok (conts, tr) /\ conts = [c1; c2] /\ ctReg c1 = ctReg c2.
Proof.
  destruct C69_ring_hypotheses as (A & B & C & D & _). exists ring. do 4 eexists. do 4 (split; [assumption|]). split; [vm_compute; reflexivity|]. split; reflexivity.
Qed.
Print Assumptions C70_one_contour_refuted.

(** One region with nine holes: more contours than max(1, 8). *)
Definition sieve : CompactHeightfield := painted (openField 19 3)
  (repeat 1 19 ++ [1;0;1;0;1;0;1;0;1;0;1;0;1;0;1;0;1;0;1] ++ repeat 1 19) (repeat 7 19 ++ [7;0;7;0;7;0;7;0;7;0;7;0;7;0;7;0;7;0;7] ++ repeat 7 19).
Theorem C70_no_panic_refuted : exists chf, chf_wf chf /\ mutual chf /\ regions16 chf /\ one_area chf /\ (forall r, 0 < r < 32768 -> short_outlines chf r) /\
  BuildContours chf 0 1 (f_ratio 1 2) 0 0 = Panic.
Proof.
  exists sieve. assert (H : chf_wf sieve /\ mutual sieve /\ regions16 sieve /\ one_area sieve /\ forall r, 0 < r < 32768 -> short_outlines sieve r) by (apply painted_ok; vm_compute; try reflexivity; discriminate).
  destruct H as (A & B & C & D & E). do 5 (split; [assumption|]). vm_compute. reflexivity.
Qed.
Print Assumptions C70_no_panic_refuted.

(** Two regions of different areas beside each other, a lone span of a third, and a border. *)
Definition pair : CompactHeightfield := painted (openField 5 4) [32769;1;1;2;2; 32769;1;1;2;2; 32769;1;2;2;2; 32769;0;0;0;3] [7;7;7;9;9; 7;7;7;9;9; 7;7;9;9;9; 7;0;0;0;9].
Example C69_pair_hypotheses : chf_wf pair /\ mutual pair /\ regions16 pair /\ one_area pair /\ forall r, 0 < r < 32768 -> short_outlines pair r.
Proof. apply painted_ok; vm_compute; try reflexivity; discriminate. Qed.
(** The span 19 gets no walk; corners at the border region have bit 16, edges to the other area bit 17. *)
Example C69_pair : exists conts tr, BuildContours pair 1 3 (f_of_Z 1) 0 0 = Ok (conts, tr) /\
  map (fun t => (fst (fst t), map (fun v => (spot v, vR v)) (snd (fst t)))) tr =
    [(1, [((1, 1), 98305); ((1, 2), 98305); ((1, 3), 32769); ((2, 3), 131072); ((2, 2), 131074); ((3, 2), 131074); ((3, 1), 131074); ((3, 0), 131074); ((2, 0), 0); ((1, 0), 0)]);
     (3, [((3, 1), 131073); ((3, 2), 131073); ((2, 2), 131073); ((2, 3), 131073); ((3, 3), 131072); ((4, 3), 131072); ((5, 3), 3); ((5, 2), 0); ((5, 1), 0); ((5, 0), 0); ((4, 0), 0); ((3, 0), 0)])] /\
  map (fun c => (ctReg c, ctArea c, map spot (ctVerts c))) conts =
    [(1, 7, [(0, 2); (1, 2); (2, -1); (0, -1)]); (2, 9, [(1, 2); (3, 2); (4, 2); (4, -1); (2, -1)])].
Proof. do 2 eexists. split; [vm_compute; reflexivity|]. vm_compute. auto. Qed.

(** Corners at the border between regions of different areas are marked as well: the areas are
    shifted out of 16 bits. *)
Definition quad : CompactHeightfield := painted (openField 2 3) [32769;32769;1;2;1;2] [7;7;8;9;8;9].
Theorem C69_same_area_refuted : exists conts i vs e tr v, chf_wf quad /\ mutual quad /\ regions16 quad /\ one_area quad /\
  BuildContours quad 0 2 (f_of_Z 1) 0 0 = Ok (conts, (i, vs, e) :: tr) /\ In v vs /\ spot v = (1, 1) /\ Z.testbit (vR v) 16 = true /\
  map (get (chf_areas quad)) [2; 3] = [Ok 8; Ok 9].
Proof.
  assert (H : chf_wf quad /\ mutual quad /\ regions16 quad /\ one_area quad /\ forall r, 0 < r < 32768 -> short_outlines quad r) by (apply painted_ok; vm_compute; try reflexivity; discriminate).
  destruct H as (A & B & C & D & _). eexists _, _, _, _, _, (mkVert 1 0 1 196610). do 4 (split; [assumption|]). split; [vm_compute; reflexivity|]. split; [do 4 right; left; reflexivity|]. repeat split.
Qed.
Print Assumptions C69_same_area_refuted.
