(** The monotone sweep of BuildRegionsMonotone (C48). *)
From Coq Require Import ZArith List Bool Lia Relations.
From Verif.Base Require Import Res GoNum Grid.
From Verif.Model Require Import Heightfield Dirs Compact Erode Region.
From Verif.Spec Require Import HeightfieldSpec CompactSpec ErodeSpec RegionSpec.
From Verif.Proofs Require Import CompactProofs ErodeProofs ErodeDist ErodeOpen RegionBase RegionRow RegionSweep.
From Verif.Properties Require Import RecastHeightfield Erode.
Import ListNotations.
Open Scope Z_scope.

(** The sweep of every well-formed field (see C45_hypothesis) returns, if no row has as many
    runs as the longer side of the grid has cells, and there are at most 32760 runs:
    unwalkable spans get region 0, walkable spans of the border that of their side, other walkable
    spans an id below the reported next id. *)
Theorem C48_values : forall chf bs, chf_wf chf -> chf_spanCount chf < 2 ^ 31 -> 0 <= bs ->
  (forall y, at_most (Z.max (chf_w chf) (chf_h chf) - 1) (fun i => exists x, run_start chf bs x y i)) ->
  at_most 32760 (fun i => exists x y, run_start chf bs x y i) ->
  exists src id, sweepRegions chf bs = Ok (src, id) /\ zlen src = chf_spanCount chf /\ 1 <= id < 32768 /\
    forall x y i, span_at chf x y i -> exists r, get src i = Ok r /\
      (~ walkable chf i -> r = 0) /\
      (walkable chf i -> interior chf bs x y -> 1 <= r < id) /\
      (walkable chf i -> ~ interior chf bs x y -> r = side_reg chf bs x y).
Proof.
  intros chf bs wf Hn Hb H1 H2. destruct (sweepRegions_spec chf wf Hn bs Hb H1 H2) as (src & id & E & L & I & V & _).
  exists src, id. split; [exact E|]. split; [exact L|]. split; [lia|]. exact V.
Qed.

(** Two spans of one region (not one of the border) are joined by connections between spans
    of that region and of one area; in particular they have the same area. *)
Theorem C48_connected : forall chf bs src id, chf_wf chf -> chf_spanCount chf < 2 ^ 31 -> 0 <= bs ->
  (forall y, at_most (Z.max (chf_w chf) (chf_h chf) - 1) (fun i => exists x, run_start chf bs x y i)) ->
  at_most 32760 (fun i => exists x y, run_start chf bs x y i) ->
  sweepRegions chf bs = Ok (src, id) ->
  forall i j r, get src i = Ok r -> get src j = Ok r -> r <> 0 -> ~ border_reg r ->
    region_path chf src i j /\ get (chf_areas chf) i = get (chf_areas chf) j.
Proof.
  intros chf bs src id wf Hn Hb H1 H2 E i j r Gi Gj Nr Br.
  destruct (sweepRegions_spec chf wf Hn bs Hb H1 H2) as (src' & id' & E' & _ & _ & _ & C & _).
  rewrite E in E'. apply Ok_inj in E'. injection E' as -> ->. pose proof (C i j r Gi Gj Nr Br) as P. split; [exact P|].
  clear - P. induction P as [a b (Q & _)|a|a b _ IH|a b c _ IH1 _ IH2]; congruence.
Qed.

(** Where connections along x are mutual, a region has at most one span in a cell. *)
Theorem C48_no_overlap : forall chf bs src id, chf_wf chf -> chf_spanCount chf < 2 ^ 31 -> 0 <= bs ->
  (forall y, at_most (Z.max (chf_w chf) (chf_h chf) - 1) (fun i => exists x, run_start chf bs x y i)) ->
  at_most 32760 (fun i => exists x y, run_start chf bs x y i) ->
  mutual_x chf -> chf_w chf <= 65535 ->
  sweepRegions chf bs = Ok (src, id) ->
  forall x y i j r, span_at chf x y i -> span_at chf x y j -> get src i = Ok r -> get src j = Ok r ->
    r <> 0 -> ~ border_reg r -> i = j.
Proof.
  intros chf bs src id wf Hn Hb H1 H2 HM Hw E.
  destruct (sweepRegions_spec chf wf Hn bs Hb H1 H2) as (src' & id' & E' & _ & _ & _ & _ & U).
  rewrite E in E'. apply Ok_inj in E'. injection E' as -> ->. exact (U HM Hw).
Qed.

(** Fields built with walkableClimb <= walkableHeight have mutual connections. *)
Theorem C48_mutual_hypothesis : forall wh climb hf chf n, hf_shape hf -> heights_ok hf ->
  GetHeightFieldSpanCount hf = Ok n -> n < 2147483648 ->
  (forall x y, wf_column (col_at hf x y)) -> (forall x y, walkables (col_at hf x y) <= 63) -> climb <= wh ->
  BuildCompactHeightfield wh climb hf = Ok chf -> mutual_x chf.
Proof.
  intros wh climb hf chf n Hsh Hok En Hn Hwf H63 Hcl E x y i x' y' j (Hx & Hy & c & Hc & Hi) (EP & s & c' & Hs & Hcon & Hc' & Ej).
  injection EP as -> ->.
  assert (H255 : forall x y, walkables (col_at hf x y) <= 255) by (intros a b; specialize (H63 a b); lia).
  destruct (C41_layout wh climb hf n Hsh Hok En Hn H255) as (chf' & E' & Ew & Eh & _ & _ & _ & _ & _ & Lc & _). rewrite E in E'. apply Ok_inj in E'. subst chf'.
  assert (G : in_grid hf x y) by (split; lia).
  destruct (Lc x y G) as (c2 & C2 & W2 & _). rewrite Hc in C2. apply Ok_inj in C2. subst c2. specialize (H63 x y) as H63xy.
  destruct (C42_mutual wh climb hf chf n Hsh Hok En Hn Hwf H63 Hcl E x y c (i - cIndex c) 0%nat 2%nat s (GetCon (csCon s) (Z.of_nat 0))) as (nc & ns & N1 & N2 & N3 & N4);
    try assumption; try reflexivity; try lia.
  { rewrite <- Hs. f_equal. lia. }
  cbn [dir_step fst snd] in *. rewrite N1 in Hc'. apply Ok_inj in Hc'. subst c'. subst j.
  split; [f_equal; cbn [dir_step fst snd]; lia|]. exists ns, c. split; [exact N3|]. rewrite N4. split; [lia|]. split; [exact Hc|]. lia.
Qed.

(** Otherwise two floors of a cell can get the same region, although the code says "monotone
    partitioning does not generate overlapping regions". *)
Theorem C48_no_overlap_refuted : exists hf chf src id,
  hf_shape hf /\ (forall x y, wf_column (col_at hf x y)) /\
  BuildCompactHeightfield 3 20 hf = Ok chf /\ sweepRegions chf 0 = Ok (src, id) /\
  cell_at chf 1 0 = Ok (mkCell 1 2) /\ get src 1 = Ok 1 /\ get src 2 = Ok 1.
Proof.
  exists (mkHF 2 1 [[mkSpan 0 1 63]; [mkSpan 0 1 63; mkSpan 10 12 63]]).
  do 3 eexists. split; [unfold hf_shape, zlen; cbn; lia|]. split.
  - intros x y. unfold col_at. cbn [hf_w hf_h hf_spans].
    destruct (_ && _); [|split; constructor].
    destruct (Z.to_nat (x + y * 2)) as [|[|[|k]]]; cbn [nth]; split; repeat constructor.
  - split; [vm_compute; reflexivity|]. split; [vm_compute; reflexivity|]. repeat split; reflexivity.
Qed.

(** A row with as many runs as the longer side has cells overruns the array of runs, since
    the ids of runs start at 1: a single walkable cell, or two unconnected ones. *)
Theorem C48_few_runs_refuted :
  (chf_wf (openField 1 1) /\ sweepRegions (openField 1 1) 0 = Panic) /\
  exists hf chf, hf_shape hf /\ hf_w hf = 2 /\ hf_h hf = 2 /\ (forall x y, wf_column (col_at hf x y)) /\
    BuildCompactHeightfield 3 2 hf = Ok chf /\ sweepRegions chf 0 = Panic.
Proof.
  split; [split; [apply open_wf; lia|reflexivity]|].
  exists (mkHF 2 2 [[mkSpan 0 1 63]; [mkSpan 0 10 63]; []; []]). eexists. split; [unfold hf_shape, zlen; cbn; lia|]. split; [reflexivity|]. split; [reflexivity|]. split.
  - intros x y. unfold col_at. cbn [hf_w hf_h hf_spans].
    destruct (_ && _); [|split; constructor].
    destruct (Z.to_nat (x + y * 2)) as [|[|[|[|[|k]]]]]; cbn [nth]; split; repeat constructor.
  - split; [vm_compute; reflexivity|]. vm_compute. reflexivity.
Qed.

(** An open field of any size has one run per row. *)
Lemma open_run_start : forall w h bs x y i, 0 < w -> 0 < h -> run_start (openField w h) bs x y i -> x = Z.max 0 bs /\ 0 <= y < h /\ i = x + y * w.
Proof.
  intros w h bs x y i Hw Hh (HA & [Ix Iy] & HW & HN). apply (open_at w h Hw Hh) in HA. destruct HA as (Hx & Hy & ->). split; [|split; [exact Hy|reflexivity]].
  destruct (Z.eq_dec x (Z.max 0 bs)) as [E|E]; [exact E|]. exfalso. apply HN. assert (S : stays w h x y 0) by (split; cbn [dir_step fst snd]; lia).
  do 3 eexists. split; [apply (open_linked w h Hw Hh x y 0); try assumption; lia|]. cbn [dir_step fst snd]. split; [lia|].
  rewrite !(open_area w h) by lia. reflexivity.
Qed.
Lemma at_most_1 : forall n (P : Z -> Prop), 1 <= n -> (forall i j, P i -> P j -> i = j) -> at_most n P.
Proof.
  intros n P Hn HP l ND HL. destruct l as [|a [|b l]]; cbn; try lia. exfalso. inversion ND; subst. apply H1. left. apply HP; apply HL; cbn; auto.
Qed.
Lemma NoDup_map_in : forall {A B} (f : A -> B) l, (forall a b, In a l -> In b l -> f a = f b -> a = b) -> NoDup l -> NoDup (map f l).
Proof.
  intros A B f l H ND. induction ND as [|a l Na ND IH]; cbn; constructor.
  - intros Q. apply in_map_iff in Q. destruct Q as (b & E & Hb). apply Na. rewrite <- (H b a); [exact Hb|now right|now left|exact E].
  - apply IH. intros b c Hb Hc. apply H; now right.
Qed.
Example C48_open_hypotheses : forall w h bs, 2 <= w -> 0 < h <= 32760 -> w * h < 2 ^ 31 -> 0 <= bs ->
  let chf := openField w h in chf_wf chf /\ chf_spanCount chf < 2 ^ 31 /\ mutual_x chf /\
  (forall y, at_most (Z.max (chf_w chf) (chf_h chf) - 1) (fun i => exists x, run_start chf bs x y i)) /\
  at_most 32760 (fun i => exists x y, run_start chf bs x y i).
Proof.
  intros w h bs Hw Hh HN Hb chf. unfold chf. split; [apply open_wf; lia|]. split; [exact HN|]. split; [|split].
  - intros x y i x' y' j HA (EP & s & c & Hs & Hc & HC & ->). injection EP as -> ->. apply (open_at w h) in HA; try lia. destruct HA as (Hx & Hy & ->).
    rewrite (open_span w h) in Hs by lia. apply Ok_inj in Hs. subst s. cbn [csCon] in Hc.
    assert (x <> 0). { intros ->. destruct (open_con w h 0 y 0 Hx Hy) as [_ Q]; [lia|]. apply Hc, Q. unfold stays. cbn [dir_step fst snd]. lia. }
    assert (S : stays w h x y 0) by (split; cbn [dir_step fst snd]; lia).
    destruct (open_con w h x y 0 Hx Hy) as [Q _]; [lia|]. cbn [csCon]. rewrite (Q S). cbn [dir_step fst snd] in *.
    rewrite (open_cell w h) in HC by lia. apply Ok_inj in HC. subst c. cbn [cIndex].
    assert (S2 : stays w h (x + -1) (y + 0) 2) by (split; cbn [dir_step fst snd]; lia).
    pose proof (open_linked w h ltac:(lia) ltac:(lia) (x + -1) (y + 0) 2 ltac:(lia) ltac:(lia) ltac:(lia) S2) as LK. cbn [dir_step fst snd] in LK.
    replace (x + -1 + 1) with x in LK by lia. replace (y + 0 + 0) with y in LK by lia. rewrite !Z.add_0_r in *. exact LK.
  - intros y. apply at_most_1; [cbn; lia|]. intros i j (x1 & R1) (x2 & R2). apply open_run_start in R1, R2; lia.
  - intros l ND HL. assert (NoDup (map (fun i => i / w) l)) as ND2.
    { revert HL ND. clear - Hw Hh Hb. intros HL ND. apply NoDup_map_in; [|exact ND]. intros i j Hi Hj E. destruct (HL i Hi) as (x1 & y1 & R1), (HL j Hj) as (x2 & y2 & R2).
      pose proof R1 as R1'. pose proof R2 as R2'. apply open_run_start in R1, R2; try lia. destruct R1' as (Q1 & _), R2' as (Q2 & _). apply (open_at w h) in Q1, Q2; try lia.
      destruct R1 as (-> & _ & ->), R2 as (-> & _ & ->). rewrite !Z_div_plus_full, !Z.div_small in E by lia. lia. }
    assert (incl (map (fun i => i / w) l) (zseq (Z.to_nat h))) as IN.
    { intros v Hv. apply in_map_iff in Hv. destruct Hv as (i & <- & Hi). destruct (HL i Hi) as (x & y & R). pose proof R as (Q & _). apply (open_at w h) in Q; try lia.
      destruct Q as (Qx & Qy & ->). apply in_zseq. rewrite Z_div_plus_full, Z.div_small by lia. lia. }
    pose proof (NoDup_incl_length ND2 IN) as LE. rewrite map_length, zseq_length in LE. unfold zlen. lia.
Qed.
(** An open field of 5 x 4 cells and a border of 1: the border regions of the four sides, one
    region 5 inside, and the next id 6. *)
Example C48_example : sweepRegions (openField 5 4) 1 =
  Ok ([32771; 32771; 32771; 32771; 32771; 32769; 5; 5; 5; 32770; 32769; 5; 5; 5; 32770; 32772; 32772; 32772; 32772; 32772], 6).
Proof. vm_compute. reflexivity. Qed.

Print Assumptions C48_values.
Print Assumptions C48_connected.
Print Assumptions C48_no_overlap.
Print Assumptions C48_mutual_hypothesis.
Print Assumptions C48_no_overlap_refuted.
Print Assumptions C48_few_runs_refuted.
