(** C49: merging, filtering and renumbering of regions, and BuildRegionsMonotone as a whole. *)
From Coq Require Import ZArith List Bool Lia Relations.
From Verif.Base Require Import Res GoNum Grid.
From Verif.Model Require Import Heightfield Dirs Compact Erode Region RegionMerge.
From Verif.Spec Require Import HeightfieldSpec CompactSpec ErodeSpec RegionSpec MergeSpec.
From Verif.Proofs Require Import ErodeProofs ErodeOpen CompactProofs RegionBase MergeBase RegionMergeProofs.
From Verif.Properties Require Import Regions.
Import ListNotations.
Open Scope Z_scope.

(** mergeAndFilterRegions ends without panicking and renames: border regions stay, every
    other region r becomes f r, which is 0 or in 1..mx; every number in 1..mx is the new
    number of one of the regions 1..maxID. *)
Theorem C49_renaming : forall chf src maxID minArea mergeSize, chf_wf chf -> chf_spanCount chf < 2 ^ 31 -> regions_ok chf src maxID ->
  exists src' mx ov f, mergeAndFilterRegions minArea mergeSize maxID chf src = Ok (src', mx, ov) /\
    zlen src' = zlen src /\ 0 <= mx <= maxID /\ f 0 = 0 /\
    (forall i r, get src i = Ok r -> get src' i = Ok (if 32768 <=? r then r else f r)) /\
    (forall r, 0 <= r <= maxID -> 0 <= f r <= mx) /\
    (forall k, 1 <= k <= mx -> exists r, 1 <= r <= maxID /\ f r = k).
Proof.
  intros chf src maxID minArea mergeSize wf small RO.
  destruct (merge_ok chf wf small src maxID RO minArea mergeSize (fun _ => false)) as (src' & mx & ov & f & E & H1 & H2 & H3 & H4 & H5 & H6 & _).
  exists src', mx, ov, f. split; [exact E|]. split; [rewrite H1; symmetry; apply RO|]. auto.
Qed.
Print Assumptions C49_renaming.

(** The new regions are connected and of a single area, too. *)
Theorem C49_connected : forall chf src maxID minArea mergeSize src' mx ov, chf_wf chf -> chf_spanCount chf < 2 ^ 31 -> regions_ok chf src maxID ->
  mergeAndFilterRegions minArea mergeSize maxID chf src = Ok (src', mx, ov) -> regions_ok chf src' mx.
Proof.
  intros chf src maxID minArea mergeSize src' mx ov wf small RO E.
  destruct (merge_ok chf wf small src maxID RO minArea mergeSize (fun _ => false)) as (src2 & mx2 & ov2 & f & E2 & H1 & H2 & H3 & H4 & H5 & H6 & H7 & _).
  rewrite E in E2. apply Ok_inj in E2. injection E2 as <- <- <-. pose proof RO as (L & B & V & _).
  split; [exact H1|]. split; [lia|]. split; [|exact H7]. intros i r Hi. pose proof (get_range _ _ _ Hi) as Bi. rewrite H1, <- L in Bi.
  destruct (get_in_range src i Bi) as [q Eq]. specialize (H4 i q Eq). rewrite Hi in H4. apply Ok_inj in H4. subst r. unfold renamed. specialize (V i q Eq).
  destruct (Z.leb_spec 32768 q); [right; lia|left]. apply H5. lia.
Qed.
Print Assumptions C49_connected.

(** A region of at least minArea spans does not disappear. *)
Theorem C49_large_kept : forall chf src maxID minArea mergeSize src' mx ov, chf_wf chf -> chf_spanCount chf < 2 ^ 31 -> regions_ok chf src maxID ->
  mergeAndFilterRegions minArea mergeSize maxID chf src = Ok (src', mx, ov) ->
  forall r l, r <> 0 -> NoDup l -> (forall i, In i l -> get src i = Ok r) -> minArea <= zlen l ->
  forall i, get src i = Ok r -> get src' i <> Ok 0.
Proof.
  intros chf src maxID minArea mergeSize src' mx ov wf small RO E r l R0 ND Hl LE i Hi.
  destruct (merge_ok chf wf small src maxID RO minArea mergeSize (fun _ => false)) as (src2 & mx2 & ov2 & f & E2 & H1 & H2 & H3 & H4 & H5 & H6 & H7 & H8 & _).
  rewrite E in E2. apply Ok_inj in E2. injection E2 as <- <- <-. rewrite (H4 i r Hi). unfold renamed. pose proof RO as (_ & B & V & _). specialize (V i r Hi).
  destruct (Z.leb_spec 32768 r); [intros Q; apply Ok_inj in Q; lia|]. intros Q. apply Ok_inj in Q. apply (H8 r l); auto. lia.
Qed.
Print Assumptions C49_large_kept.

(** A set of regions that is not connected to other regions or the border and has fewer than
    minArea spans altogether disappears. *)
Theorem C49_small_removed : forall chf src maxID minArea mergeSize src' mx ov G, chf_wf chf -> chf_spanCount chf < 2 ^ 31 -> regions_ok chf src maxID ->
  mergeAndFilterRegions minArea mergeSize maxID chf src = Ok (src', mx, ov) ->
  separate chf src maxID G -> at_most (minArea - 1) (fun i => exists r, get src i = Ok r /\ G r = true) ->
  forall i r, get src i = Ok r -> G r = true -> get src' i = Ok 0.
Proof.
  intros chf src maxID minArea mergeSize src' mx ov G wf small RO E.
  destruct (merge_ok chf wf small src maxID RO minArea mergeSize G) as (src2 & mx2 & ov2 & f & E2 & H1 & H2 & H3 & H4 & H5 & H6 & H7 & H8 & H9 & _).
  rewrite E in E2. apply Ok_inj in E2. injection E2 as <- <- <-. exact H9.
Qed.
Print Assumptions C49_small_removed.

(** Regions with spans above each other are not merged. *)
Theorem C49_no_overlaps : forall chf src maxID minArea mergeSize src' mx ov, chf_wf chf -> chf_spanCount chf < 2 ^ 31 -> regions_ok chf src maxID ->
  mergeAndFilterRegions minArea mergeSize maxID chf src = Ok (src', mx, ov) -> no_overlaps chf src -> no_overlaps chf src'.
Proof.
  intros chf src maxID minArea mergeSize src' mx ov wf small RO E.
  destruct (merge_ok chf wf small src maxID RO minArea mergeSize (fun _ => false)) as (src2 & mx2 & ov2 & f & E2 & H1 & H2 & H3 & H4 & H5 & H6 & H7 & H8 & H9 & H10).
  rewrite E in E2. apply Ok_inj in E2. injection E2 as <- <- <-. exact H10.
Qed.
Print Assumptions C49_no_overlaps.

(** ** The whole of BuildRegionsMonotone *)
Lemma list_get_ext : forall {A} (l k : list A), zlen l = zlen k -> (forall i, 0 <= i < zlen l -> get l i = get k i) -> l = k.
Proof.
  induction l as [|a l IH]; intros [|b k] L H; [reflexivity| | |].
  - rewrite zlen_cons, zlen_nil in L. pose proof (zlen_nonneg k). lia.
  - rewrite zlen_cons, zlen_nil in L. pose proof (zlen_nonneg l). lia.
  - rewrite !zlen_cons in L. pose proof (zlen_nonneg l). assert (0 <= 0 < zlen (a :: l)) as B0 by (rewrite zlen_cons; lia). pose proof (H 0 B0) as H1. cbn in H1. apply Ok_inj in H1. subst b. f_equal. apply IH; [lia|].
    intros i Hi. specialize (H (i + 1) ltac:(rewrite zlen_cons; lia)). unfold get in *. destruct (Z.ltb_spec (i + 1) 0), (Z.ltb_spec i 0); try lia.
    replace (Z.to_nat (i + 1)) with (S (Z.to_nat i)) in H by lia. exact H.
Qed.
Lemma setRegs_ok : forall src spans, zlen src = zlen spans ->
  exists spans', foldM (fun spans i => let* r := get src i in update spans i (fun s => mkCSpan (csY s) r (csCon s) (csH s))) (zseq (length spans)) spans = Ok spans' /\
    zlen spans' = zlen spans /\ forall i r s, get src i = Ok r -> get spans i = Ok s -> get spans' i = Ok (mkCSpan (csY s) r (csCon s) (csH s)).
Proof.
  intros src spans L.
  destruct (foldM_inv (fun spans i => let* r := get src i in update spans i (fun s => mkCSpan (csY s) r (csCon s) (csH s)))
    (fun pre d => zlen d = zlen spans /\ (forall i r s, i < zlen pre -> get src i = Ok r -> get spans i = Ok s -> get d i = Ok (mkCSpan (csY s) r (csCon s) (csH s))) /\
       (forall i, zlen pre <= i -> get d i = get spans i)) (zseq (length spans)) spans) as (d & E & Ld & H & _).
  - split; [reflexivity|]. split; [|reflexivity]. intros i r s Hi Hr. apply get_range in Hr. change (zlen []) with 0 in Hi. lia.
  - intros pre i post d El (Ld & H1 & H2). pose proof (zseq_split _ _ _ _ El) as [Ei Li]. assert (0 <= i < zlen spans) as Bi by (unfold zlen in *; lia).
    destruct (get_in_range src i) as [r Er]; [lia|]. rewrite Er. cbn [bind]. destruct (get_in_range spans i Bi) as [s Es]. unfold update. rewrite H2 by lia. rewrite Es. cbn [bind].
    unfold set. rewrite Ld. destruct (Z.leb_spec 0 i), (Z.ltb_spec i (zlen spans)); cbn [andb]; try lia. eexists. split; [reflexivity|]. rewrite zlen_snoc. split; [now rewrite zlen_upd|]. split.
    + intros j r' s' Hj Hr' Hs'. pose proof (get_range _ _ _ Hs') as Bj. rewrite get_upd by lia. rewrite ?Ld. destruct (Z.eqb_spec j i) as [->|]; cbn [andb].
      * destruct (Z.ltb_spec i (zlen spans)); [|lia]. rewrite Er in Hr'. rewrite Es in Hs'. apply Ok_inj in Hr', Hs'. now subst.
      * apply H1; auto. lia.
    + intros j Hj. rewrite get_upd by lia. rewrite ?Ld. destruct (Z.eqb_spec j i); [lia|]. cbn [andb]. apply H2. lia.
  - exists d. split; [exact E|]. split; [exact Ld|]. intros i r s Hr Hs. apply H; auto. pose proof (get_range _ _ _ Hs) as B. unfold zlen in *. rewrite zseq_length. lia.
Qed.

Theorem C49_build : forall chf bs minArea mergeArea, chf_wf chf -> chf_spanCount chf < 2 ^ 31 -> 0 <= bs ->
  (forall y, at_most (Z.max (chf_w chf) (chf_h chf) - 1) (fun i => exists x, run_start chf bs x y i)) ->
  at_most 32760 (fun i => exists x y, run_start chf bs x y i) ->
  exists chf' mx, BuildRegionsMonotone chf bs minArea mergeArea = Ok (chf', mx) /\ 0 <= mx < 32768 /\
    (chf_w chf', chf_h chf', chf_spanCount chf', chf_wh chf', chf_climb chf', chf_cells chf', chf_areas chf') =
      (chf_w chf, chf_h chf, chf_spanCount chf, chf_wh chf, chf_climb chf, chf_cells chf, chf_areas chf) /\
    regions_ok chf (map csReg (chf_spans chf')) mx /\
    (mutual_x chf -> chf_w chf <= 65535 -> no_overlaps chf (map csReg (chf_spans chf'))) /\
    forall x y i, span_at chf x y i -> exists s s', get (chf_spans chf) i = Ok s /\ get (chf_spans chf') i = Ok s' /\
      (csY s', csCon s', csH s') = (csY s, csCon s, csH s) /\
      (~ walkable chf i -> csReg s' = 0) /\
      (walkable chf i -> ~ interior chf bs x y -> csReg s' = side_reg chf bs x y) /\
      (walkable chf i -> interior chf bs x y -> 0 <= csReg s' <= mx /\ (minArea <= 1 -> csReg s' <> 0)).
Proof.
  intros chf bs minArea mergeArea wf small Hbs FR FA.
  assert (forall x y, 32768 <= side_reg chf bs x y < 65536) as SR.
  { intros x y. unfold side_reg. destruct (chf_h chf - bs <=? y); [lia|]. destruct (y <? bs); [lia|]. destruct (chf_w chf - bs <=? x); lia. }
  destruct (C48_values chf bs wf small Hbs FR FA) as (src & id & E & L & Bid & HV).
  assert (regions_ok chf src id) as RO.
  { split; [exact L|]. split; [lia|]. split.
    - intros i r Hi. pose proof (get_range _ _ _ Hi) as Bi. rewrite L in Bi. destruct (ok_cover _ wf i Bi) as (x & y & S). destruct (HV x y i S) as (r' & Hr' & V1 & V2 & V3).
      rewrite Hi in Hr'. apply Ok_inj in Hr'. subst r'. assert (walkable chf i \/ ~ walkable chf i) as [W|W].
      { unfold walkable. destruct (get_in_range (chf_areas chf) i) as [a Ea]; [rewrite (ok_areas _ wf); exact Bi|]. destruct (Z.eq_dec a 0) as [->|].
        - right. intros (a & Ea' & Na). rewrite Ea in Ea'. apply Ok_inj in Ea'. congruence.
        - left. exists a. auto. }
      + assert (interior chf bs x y \/ ~ interior chf bs x y) as [I|I] by (unfold interior; lia).
        * specialize (V2 W I). lia.
        * specialize (V3 W I). right. specialize (SR x y). lia.
      + specialize (V1 W). lia.
    - intros i j r Hi Hj R0 NB. eapply C48_connected; eauto. }
  destruct (merge_ok chf wf small src id RO minArea mergeArea (fun _ => false)) as (src' & mx & ov & f & E2 & H1 & H2 & H3 & H4 & H5 & H6 & H7 & H8 & _ & H10).
  destruct (setRegs_ok src' (chf_spans chf)) as (spans' & E3 & L3 & H9); [now rewrite H1, (ok_spans _ wf)|].
  assert (zlen (chf_spans chf) = chf_spanCount chf) as LS by apply (ok_spans _ wf).
  replace (length (chf_spans chf)) with (Z.to_nat (chf_spanCount chf)) in E3 by (unfold zlen in LS; lia).
  unfold BuildRegionsMonotone. rewrite E. cbn [bind]. rewrite E2. cbn [bind]. rewrite E3. cbn [bind].
  eexists _, mx. split; [reflexivity|]. cbn [chf_spans]. split; [lia|]. split; [reflexivity|].
  assert (map csReg spans' = src') as ES.
  { apply list_get_ext; [unfold zlen in *; rewrite map_length; lia|]. intros i Bi. unfold zlen in Bi. rewrite map_length in Bi. fold (zlen spans') in Bi.
    destruct (get_in_range (chf_spans chf) i) as [s Es]; [lia|]. destruct (get_in_range src' i) as [r Er]; [lia|]. rewrite Er.
    rewrite get_map, (H9 i r s Er Es). reflexivity. }
  rewrite ES. split; [eapply C49_connected; eassumption|]. split.
  - intros MX WX. apply H10. intros x y i j r Si Sj Hi Hj R0 NB. eapply C48_no_overlap with (bs := bs); eauto.
  - intros x y i S. pose proof (ok_at _ wf _ _ _ S) as Bi. destruct (get_in_range (chf_spans chf) i) as [s Es]; [lia|]. destruct (HV x y i S) as (r & Er & V1 & V2 & V3).
    pose proof (H4 i r Er) as Er'. exists s. eexists. split; [exact Es|]. split; [apply H9; eassumption|]. cbn [csY csCon csH csReg]. split; [reflexivity|]. split; [|split].
    + intros W. rewrite (V1 W). unfold renamed. cbn [Z.leb Z.compare]. exact H3.
    + intros W I. rewrite (V3 W I). unfold renamed. assert (32768 <= side_reg chf bs x y) as Q by (specialize (SR x y); lia).
      apply Z.leb_le in Q. now rewrite Q.
    + intros W I. specialize (V2 W I). unfold renamed. destruct (Z.leb_spec 32768 r); [lia|]. split; [apply H5; lia|].
      intros M1 Q. apply (H8 r [i]); [lia|constructor; [intros []|constructor]|intros j [<-|[]]; exact Er|exact M1|exact Q].
Qed.
Print Assumptions C49_build.

(** ** A number up to MaxRegions need not be used by a span *)
Theorem C49_all_used_refuted : exists chf chf' mx, chf_wf chf /\ BuildRegionsMonotone chf 0 1 1 = Ok (chf', mx) /\
  1 <= mx /\ ~ In mx (map csReg (chf_spans chf')).
Proof.
  exists (openField 2 2). eexists _, _. split; [apply open_wf; lia|]. split; [vm_compute; reflexivity|]. split; [lia|]. cbn. lia.
Qed.
Print Assumptions C49_all_used_refuted.

(** ** Examples *)
(** A row of six spans in three regions, the last of which stands alone. *)
Definition row6 : list Z := [1; 1; 2; 2; 0; 3].
Lemma row_link : forall i, 0 <= i < 5 -> linked (openField 6 1) 2 i 0 i (i + 1) 0 (i + 1).
Proof.
  intros i Hi. assert (S : stays 6 1 i 0 2) by (split; cbn [dir_step fst snd]; lia).
  pose proof (open_linked 6 1 ltac:(lia) ltac:(lia) i 0 2 ltac:(lia) ltac:(lia) ltac:(lia) S) as LK. cbn [dir_step fst snd] in LK.
  rewrite !Z.mul_0_l, !Z.add_0_r in LK. exact LK.
Qed.
Lemma row_at : forall x y i, span_at (openField 6 1) x y i -> y = 0 /\ i = x /\ 0 <= x < 6.
Proof. intros x y i H. apply (open_at 6 1) in H; lia. Qed.
Example C49_row_hypotheses : chf_wf (openField 6 1) /\ chf_spanCount (openField 6 1) < 2 ^ 31 /\ regions_ok (openField 6 1) row6 3 /\
  no_overlaps (openField 6 1) row6 /\ separate (openField 6 1) row6 3 (fun r => r =? 3) /\
  at_most (2 - 1) (fun i => exists r, get row6 i = Ok r /\ (r =? 3) = true).
Proof.
  assert (chf_wf (openField 6 1)) as wf by (apply open_wf; lia). split; [exact wf|]. split; [vm_compute; reflexivity|].
  assert (forall i r, get row6 i = Ok r -> (i = 0 /\ r = 1) \/ (i = 1 /\ r = 1) \/ (i = 2 /\ r = 2) \/ (i = 3 /\ r = 2) \/ (i = 4 /\ r = 0) \/ (i = 5 /\ r = 3)) as ROW.
  { intros i r H. pose proof (get_range _ _ _ H) as B. change (zlen row6) with 6 in B.
    assert (i = 0 \/ i = 1 \/ i = 2 \/ i = 3 \/ i = 4 \/ i = 5) as [->|[->|[->|[->|[->| ->]]]]] by lia; vm_compute in H; apply Ok_inj in H; lia. }
  assert (forall i, 0 <= i < 5 -> get row6 i = get row6 (i + 1) -> region_path (openField 6 1) row6 i (i + 1)) as STEP.
  { intros i Hi E. apply rst_step. split.
    - pose proof (open_area 6 1 ltac:(lia) ltac:(lia) i 0) as A1. pose proof (open_area 6 1 ltac:(lia) ltac:(lia) (i + 1) 0) as A2. rewrite !Z.mul_0_l, !Z.add_0_r in *. rewrite A1, A2 by lia. reflexivity.
    - split; [exact E|]. exists i, 0, 2%nat, (i + 1), 0. split; [apply (open_at 6 1); lia|]. split; [lia|]. now apply row_link. }
  split; [|split; [|split]].
  - split; [reflexivity|]. split; [lia|]. split; [intros i r H; apply ROW in H; lia|]. intros i j r Hi Hj R0 _. apply ROW in Hi, Hj.
    assert (i = j \/ (i = 0 /\ j = 1) \/ (i = 1 /\ j = 0) \/ (i = 2 /\ j = 3) \/ (i = 3 /\ j = 2)) as [->|[[-> ->]|[[-> ->]|[[-> ->]|[-> ->]]]]] by lia.
    + apply rst_refl.
    + apply (STEP 0); [lia|reflexivity].
    + apply rst_sym. apply (STEP 0); [lia|reflexivity].
    + apply (STEP 2); [lia|reflexivity].
    + apply rst_sym. apply (STEP 2); [lia|reflexivity].
  - intros x y i j r Si Sj _ _ _ _. apply row_at in Si, Sj. lia.
  - split; [intros r H; apply Z.eqb_eq in H; lia|]. intros i j r q (x & y & d & x' & y' & S & Hd & HL) Hi Hj R0 Q0. apply ROW in Hi, Hj.
    assert (r = 3 <-> q = 3) as EQ; [|destruct (Z.eqb_spec r 3), (Z.eqb_spec q 3); tauto]. pose proof S as S'. apply row_at in S'. destruct S' as (-> & -> & Bx).
    pose proof HL as (EP & s & c & Hs & Hc & _). injection EP as -> ->. destruct (ok_link _ wf _ _ _ _ _ S Hd Hs Hc) as (x1 & y1 & j1 & HL1 & S1).
    destruct (ErodeDist.linked_fun _ _ _ _ _ _ _ _ _ _ _ HL HL1) as (<- & <- & <-). apply row_at in S1.
    assert (d = 0 \/ d = 1 \/ d = 2 \/ d = 3)%nat as [->|[->|[->| ->]]] by lia; cbn [dir_step fst snd] in S1; lia.
  - intros l ND H. destruct l as [|a [|b l]]; [vm_compute; discriminate|vm_compute; discriminate|]. exfalso.
    destruct (H a) as (r & Hr & E); [now left|]. destruct (H b) as (r' & Hr' & E'); [right; now left|]. apply ROW in Hr, Hr'. apply Z.eqb_eq in E, E'.
    inversion ND as [|? ? NI _]; subst. apply NI. left. lia.
Qed.
(** Merged, not merged since larger than mergeSize, and kept because of a border region. *)
Example C49_examples :
  mergeAndFilterRegions 2 10 3 (openField 6 1) row6 = Ok ([1; 1; 1; 1; 0; 0], 1, []) /\
  mergeAndFilterRegions 2 1 3 (openField 6 1) row6 = Ok ([1; 1; 2; 2; 0; 0], 2, []) /\
  mergeAndFilterRegions 2 1 3 (openField 6 1) [1; 1; 2; 2; 32769; 3] = Ok ([1; 1; 2; 2; 32769; 3], 3, []).
Proof. repeat split; vm_compute; reflexivity. Qed.
Example C49_build_example : exists chf', BuildRegionsMonotone (openField 5 4) 1 2 3 = Ok (chf', 6) /\
  map csReg (chf_spans chf') = [32771; 32771; 32771; 32771; 32771; 32769; 5; 5; 5; 32770; 32769; 5; 5; 5; 32770; 32772; 32772; 32772; 32772; 32772].
Proof. eexists. split; vm_compute; reflexivity. Qed.
