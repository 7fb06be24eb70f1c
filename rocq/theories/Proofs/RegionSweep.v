(** The monotone sweep over all rows (C48). *)
From Coq Require Import ZArith List Bool Lia Sorted Relations.
From Verif.Base Require Import Res GoNum Bits Grid.
From Verif.Model Require Import Heightfield Dirs Compact Erode Region.
From Verif.Spec Require Import HeightfieldSpec CompactSpec ErodeSpec RegionSpec.
From Verif.Proofs Require Import ErodeProofs ErodeDist RegionBase RegionRow.
Import ListNotations.
Open Scope Z_scope.

Section Sweep.
Variable chf : CompactHeightfield.
Hypothesis wf : chf_wf chf.
Hypothesis small : chf_spanCount chf < 2 ^ 31.
Variable bs : Z.
Hypothesis Hbs : 0 <= bs.
Notation w := (chf_w chf).
Notation h := (chf_h chf).
Notation N := (chf_spanCount chf).
Notation A := (A chf).
Definition nsweeps : Z := Z.max w h.
Hypothesis fewRow : forall y, at_most (nsweeps - 1) (fun i => exists x, run_start chf bs x y i).
Hypothesis fewAll : at_most 32760 (fun i => exists x y, run_start chf bs x y i).
Definition id0 : Z := if 0 <? bs then 5 else 1.

Record G (y : Z) (st : list Z * list sweepSpan * Z) : Prop := {
  g_len : zlen (fst (fst st)) = N;
  g_sw : zlen (snd (fst st)) = nsweeps;
  g_Z : forall x' y' i, span_at chf x' y' i -> A i = 0 -> dv (fst (fst st)) i = 0;
  g_B : forall x' y' i, span_at chf x' y' i -> A i <> 0 -> ~ interior chf bs x' y' -> dv (fst (fst st)) i = side_reg chf bs x' y';
  g_D : forall x' y' i, span_at chf x' y' i -> A i <> 0 -> interior chf bs x' y' -> y' < y -> 1 <= dv (fst (fst st)) i < snd st;
  g_U : forall x' y' i, span_at chf x' y' i -> interior chf bs x' y' -> y <= y' -> dv (fst (fst st)) i = 0;
  g_C : forall i j, inreg chf (dv (fst (fst st))) i -> inreg chf (dv (fst (fst st))) j -> dv (fst (fst st)) i = dv (fst (fst st)) j -> dv (fst (fst st)) i < 32768 ->
    conn chf (inreg chf (dv (fst (fst st)))) (dv (fst (fst st))) i j;
  g_E : mutual_x chf -> w <= 65535 -> forall x y' i j, span_at chf x y' i -> span_at chf x y' j -> 1 <= dv (fst (fst st)) i < 32768 -> dv (fst (fst st)) i = dv (fst (fst st)) j -> i = j;
  g_S : exists SL, NoDup SL /\ (forall i, In i SL -> exists x y', y' < y /\ run_start chf bs x y' i) /\ id0 <= snd st <= id0 + zlen SL }.

Lemma side_range : forall x y, 32769 <= side_reg chf bs x y <= 32772.
Proof. intros x y. unfold side_reg. destruct (_ <=? y); [lia|]. destruct (y <? bs); [lia|]. destruct (_ <=? x); lia. Qed.

Lemma at_most_le : forall a b P, a <= b -> at_most a P -> at_most b P.
Proof. intros a b P H HA l H1 H2. specialize (HA l H1 H2). lia. Qed.
Lemma id_bound : forall y st, G y st -> 1 <= snd st <= 32765.
Proof.
  intros y st HG. destruct (g_S _ _ HG) as (SL & S1 & S2 & S3).
  assert (zlen SL <= 32760) by (apply fewAll; [exact S1|]; intros i Hi; destruct (S2 i Hi) as (x & y' & _ & R); eauto).
  unfold id0 in S3. destruct (0 <? bs); lia.
Qed.

Lemma G_row : forall y st, bs <= y < h - bs -> G y st -> exists st', sweepRow chf bs st y = Ok st' /\ G (y + 1) st'.
Proof.
  intros y [[src sweeps] id] Hy HG. pose proof (id_bound _ _ HG) as IB. cbn [snd] in IB.
  pose proof (ok_h _ wf) as Hh.
  assert (NS1 : 1 <= nsweeps) by (unfold nsweeps; lia).
  destruct (row_done chf wf small bs Hbs y src id nsweeps (Z.min (nsweeps - 1) 32760) Hy (g_len _ _ HG) ltac:(lia)) with (sweeps := sweeps)
    as (src2 & sw2 & id2 & SL & E & L2 & LS2 & S1 & S2 & I2 & SM & VO & V0 & V1 & CC & UU); cbn [fst snd] in *.
  - exact (g_Z _ _ HG).
  - intros x' y' i Hs HA HI. pose proof (g_B _ _ HG x' y' i Hs HA HI) as B. cbn [fst snd] in B. rewrite B. pose proof (side_range x' y'). lia.
  - exact (g_D _ _ HG).
  - exact (g_U _ _ HG).
  - intros l Hl Hp. pose proof (fewRow y l Hl Hp) as B1. assert (zlen l <= 32760); [|lia]. apply fewAll; [exact Hl|]. intros i Hi. destruct (Hp i Hi) as (x & R). eauto.
  - lia.
  - lia.
  - exact (g_C _ _ HG).
  - exact (g_E _ _ HG).
  - exact (g_sw _ _ HG).
  - exact NS1.
  - exists (src2, sw2, id2). split; [exact E|].
    assert (ST : exists SL', NoDup SL' /\ (forall i, In i SL' -> exists x y', y' < y + 1 /\ run_start chf bs x y' i) /\ id0 <= id2 <= id0 + zlen SL').
    { destruct (g_S _ _ HG) as (T & T1 & T2 & T3). cbn [snd] in T3. exists (T ++ SL). split; [|split].
      - apply NoDup_app_intro; [exact T1|exact S1|]. intros i Q1 Q2. destruct (T2 i Q1) as (x1 & y1 & L1 & R1). destruct (S2 i Q2) as (x2 & R2).
        destruct R1 as (R1 & _). destruct R2 as (R2 & _). destruct (ok_unique _ wf _ _ _ _ _ R1 R2). lia.
      - intros i Q. apply in_app_iff in Q. destruct Q as [Q|Q]; [destruct (T2 i Q) as (x1 & y1 & L1 & R1); exists x1, y1; split; [lia|exact R1]|].
        destruct (S2 i Q) as (x & R). exists x, y. split; [lia|exact R].
      - rewrite zlen_app. lia. }
    assert (ID2 : id2 <= 32767).
    { destruct ST as (T & T1 & T2 & T3). assert (zlen T <= 32760) by (apply fewAll; [exact T1|]; intros i Hi; destruct (T2 i Hi) as (x & y' & _ & R); eauto).
      unfold id0 in T3. destruct (0 <? bs); lia. }
    assert (CASE : forall x' y', (y' = y /\ interior chf bs x' y') \/ ~ (y' = y /\ interior chf bs x' y')) by (intros; unfold interior; lia).
    constructor; cbn [fst snd].
    + exact L2.
    + exact LS2.
    + intros x' y' i Hs HA. destruct (CASE x' y') as [[-> HI]|HI]; [exact (V0 _ _ Hs HI HA)|]. rewrite (VO _ _ _ Hs HI). exact (g_Z _ _ HG _ _ _ Hs HA).
    + intros x' y' i Hs HA HI. rewrite (VO _ _ _ Hs) by tauto. exact (g_B _ _ HG _ _ _ Hs HA HI).
    + intros x' y' i Hs HA HI HL. destruct (Z.eq_dec y' y) as [->|Ne]; [exact (V1 _ _ Hs HI HA)|]. rewrite (VO _ _ _ Hs) by tauto.
      pose proof (g_D _ _ HG _ _ _ Hs HA HI ltac:(lia)) as B. cbn [fst snd] in B. lia.
    + intros x' y' i Hs HI HL. rewrite (VO _ _ _ Hs) by lia. apply (g_U _ _ HG _ _ _ Hs HI). lia.
    + exact (CC ID2).
    + exact (UU ID2).
    + exact ST.
Qed.

Lemma krange_at : forall a n pre x post, krange a n = pre ++ x :: post -> x = a + zlen pre.
Proof.
  intros a n pre x post E. assert (nth_error (krange a n) (length pre) = Some x) as Q by (rewrite E, nth_error_app2, Nat.sub_diag by lia; reflexivity).
  unfold krange in Q. rewrite nth_error_map in Q. unfold zseq in Q. rewrite nth_error_map in Q.
  destruct (nth_error (seq 0 (Z.to_nat n)) (length pre)) as [k|] eqn:E2; [|discriminate]. cbn in Q. injection Q as <-.
  assert (length pre < length (seq 0 (Z.to_nat n)))%nat by (apply nth_error_Some; congruence). rewrite seq_length in H.
  rewrite (nth_error_nth' _ 0%nat) in E2 by (rewrite seq_length; lia). rewrite seq_nth in E2 by lia. injection E2 as <-. unfold zlen. lia.
Qed.

Lemma sweep_done : exists src id, sweepRegions chf bs = Ok (src, id) /\ exists sweeps y, h - bs <= y /\ G y (src, sweeps, id).
Proof.
  unfold sweepRegions. destruct (paintBorders_ok chf wf bs Hbs) as (src & -> & L & V). cbn [bind].
  pose proof (ok_w _ wf) as Hw. pose proof (ok_h _ wf) as Hh.
  assert (IMX : iMax w h = nsweeps) by (unfold iMax, nsweeps; rewrite Z.gtb_ltb; destruct (Z.ltb_spec h w); lia). rewrite IMX.
  assert (BD : forall x y, (bs <=? x) && (x <? w - bs) && (bs <=? y) && (y <? h - bs) = true <-> interior chf bs x y).
  { intros x y. unfold interior. rewrite !andb_true_iff, !Z.leb_le, !Z.ltb_lt. tauto. }
  destruct (foldM_inv (sweepRow chf bs) (fun pre st => G (bs + zlen pre) st) (krange bs (h - bs - bs))
    (src, repeat (mkSweep 0 0 0 0) (Z.to_nat nsweeps), if 0 <? bs then 5 else 1)) as ([[src' sweeps'] id'] & -> & HG).
  - change (zlen (@nil Z)) with 0. rewrite Z.add_0_r.
    assert (VI : forall x y i, span_at chf x y i -> interior chf bs x y -> dv src i = 0).
    { intros x y i Hs HI. rewrite (V _ _ _ Hs). destruct (A i =? 0); [reflexivity|]. rewrite (proj2 (BD x y) HI). reflexivity. }
    assert (VB : forall x y i, span_at chf x y i -> A i <> 0 -> ~ interior chf bs x y -> dv src i = side_reg chf bs x y).
    { intros x y i Hs HA HI. rewrite (V _ _ _ Hs). rewrite (proj2 (Z.eqb_neq _ _) HA). destruct (_ && _) eqn:B; [apply BD in B; contradiction|reflexivity]. }
    assert (VZ : forall x y i, span_at chf x y i -> A i = 0 -> dv src i = 0) by (intros x y i Hs HA; rewrite (V _ _ _ Hs), HA; reflexivity).
    assert (VBIG : forall i, 0 <= i < N -> 1 <= dv src i -> 32768 <= dv src i).
    { intros i Ri F. destruct (ok_cover _ wf i Ri) as (x & y & Hs). destruct (Z.eq_dec (A i) 0) as [Q|Q]; [rewrite (VZ _ _ _ Hs Q) in F; lia|].
      assert (interior chf bs x y \/ ~ interior chf bs x y) as [HI|HI] by (unfold interior; lia); [rewrite (VI _ _ _ Hs HI) in F; lia|].
      rewrite (VB _ _ _ Hs Q HI). pose proof (side_range x y). lia. }
    constructor; cbn [fst snd].
    + exact L.
    + unfold zlen. rewrite repeat_length. unfold nsweeps. lia.
    + exact VZ.
    + exact VB.
    + intros x' y' i Hs HA [_ HI] HL. lia.
    + intros x' y' i Hs HI _. exact (VI _ _ _ Hs HI).
    + intros i j [Ri Fi] _ _ Q. pose proof (VBIG i Ri Fi). lia.
    + intros _ _ x y i j Hi _ Q _. pose proof (VBIG i (ok_at _ wf _ _ _ Hi) ltac:(lia)). lia.
    + exists []. split; [constructor|]. split; [intros i []|]. change (zlen (@nil Z)) with 0. unfold id0. lia.
  - intros pre y post st E HG. pose proof (krange_at _ _ _ _ _ E) as Ey. subst y.
    assert (In (bs + zlen pre) (krange bs (h - bs - bs))) as Q by (rewrite E; apply in_app_iff; right; now left). apply in_krange in Q.
    destruct (G_row (bs + zlen pre) st ltac:(lia) HG) as (st' & E' & HG'). exists st'. split; [exact E'|]. rewrite zlen_snoc. now rewrite Z.add_assoc.
  - cbn [bind]. exists src', id'. split; [reflexivity|]. exists sweeps', (bs + zlen (krange bs (h - bs - bs))). split; [|exact HG].
    unfold krange, zlen. rewrite map_length, zseq_length. lia.
Qed.

Lemma conn_path : forall src i j, zlen src = N -> 0 <= i < N -> 0 <= j < N -> conn chf (inreg chf (dv src)) (dv src) i j -> region_path chf src i j.
Proof.
  intros src i j L Ri Rj H. clear Ri Rj. induction H as [a b ([R1 _] & [R2 _] & (EA & AD) & EF)|a|a b H IH|a b c H1 IH1 H2 IH2].
  - apply rst_step. split; [rewrite !(area_get chf wf) by assumption; now f_equal|]. split; [rewrite !get_dv by lia; now f_equal|exact AD].
  - apply rst_refl.
  - now apply rst_sym.
  - eapply rst_trans; eassumption.
Qed.

Theorem sweepRegions_spec : exists src id, sweepRegions chf bs = Ok (src, id) /\ zlen src = N /\ 1 <= id <= 32765 /\
  (forall x y i, span_at chf x y i -> exists r, get src i = Ok r /\
    (~ walkable chf i -> r = 0) /\
    (walkable chf i -> interior chf bs x y -> 1 <= r < id) /\
    (walkable chf i -> ~ interior chf bs x y -> r = side_reg chf bs x y)) /\
  (forall i j r, get src i = Ok r -> get src j = Ok r -> r <> 0 -> ~ border_reg r -> region_path chf src i j) /\
  (mutual_x chf -> w <= 65535 -> forall x y i j r, span_at chf x y i -> span_at chf x y j -> get src i = Ok r -> get src j = Ok r -> r <> 0 -> ~ border_reg r -> i = j).
Proof.
  destruct sweep_done as (src & id & E & sweeps & y0 & Hy0 & HG). exists src, id. split; [exact E|].
  pose proof (g_len _ _ HG) as L. pose proof (id_bound _ _ HG) as IB. cbn [fst snd] in L, IB. split; [exact L|]. split; [exact IB|].
  assert (VAL : forall x y i, span_at chf x y i -> get src i = Ok (dv src i) /\ (~ walkable chf i -> dv src i = 0) /\
    (walkable chf i -> interior chf bs x y -> 1 <= dv src i < id) /\ (walkable chf i -> ~ interior chf bs x y -> dv src i = side_reg chf bs x y)).
  { intros x y i Hs. pose proof (ok_at _ wf _ _ _ Hs) as R. split; [apply get_dv; lia|].
    assert (WA : walkable chf i <-> A i <> 0).
    { unfold walkable. rewrite (area_get chf wf) by exact R. split; [intros (a & Ea & Na); apply Ok_inj in Ea; congruence|intros Q; exists (A i); auto]. }
    split; [|split].
    - intros Q. apply (g_Z _ _ HG _ _ _ Hs). destruct (Z.eq_dec (A i) 0) as [e|e]; [exact e|]. exfalso. apply Q, WA, e.
    - intros Q HI. pose proof (g_D _ _ HG _ _ _ Hs (proj1 WA Q) HI) as B. apply B. destruct HI. lia.
    - intros Q HI. exact (g_B _ _ HG _ _ _ Hs (proj1 WA Q) HI). }
  split; [|split].
  - intros x y i Hs. exists (dv src i). exact (VAL _ _ _ Hs).
  - intros i j r Gi Gj Nr Br. pose proof (get_range _ _ _ Gi) as Ri. pose proof (get_range _ _ _ Gj) as Rj.
    rewrite get_dv in Gi, Gj by assumption. apply Ok_inj in Gi, Gj. unfold border_reg in Br. rewrite L in Ri, Rj.
    assert (1 <= r).
    { destruct (ok_cover _ wf i Ri) as (x & y & Hs). destruct (VAL _ _ _ Hs) as (_ & V1 & V2 & V3).
      assert (walkable chf i \/ ~ walkable chf i) as [Q|Q].
      { unfold walkable. rewrite (area_get chf wf) by exact Ri. destruct (Z.eq_dec (A i) 0) as [e|e]; [right; intros (a & Ea & Na); apply Ok_inj in Ea; congruence|left; exists (A i); auto]. }
      - assert (interior chf bs x y \/ ~ interior chf bs x y) as [HI|HI] by (unfold interior; lia); [specialize (V2 Q HI); lia|]. rewrite (V3 Q HI) in Gi. pose proof (side_range x y). lia.
      - rewrite (V1 Q) in Gi. congruence. }
    apply conn_path; try assumption. apply (g_C _ _ HG); cbn [fst snd]; try (split; [assumption|lia]); lia.
  - intros HM Hw x y i j r Hi Hj Gi Gj Nr Br. destruct (VAL _ _ _ Hi) as (Ei & V1 & V2 & V3). destruct (VAL _ _ _ Hj) as (Ej & _).
    rewrite Ei in Gi. rewrite Ej in Gj. apply Ok_inj in Gi, Gj. unfold border_reg in Br.
    apply (g_E _ _ HG HM Hw x y i j Hi Hj); cbn [fst snd]; [|congruence].
    assert (walkable chf i \/ ~ walkable chf i) as [Q|Q].
    { pose proof (ok_at _ wf _ _ _ Hi) as Ri. unfold walkable. rewrite (area_get chf wf) by exact Ri. destruct (Z.eq_dec (A i) 0) as [e|e]; [right; intros (a & Ea & Na); apply Ok_inj in Ea; congruence|left; exists (A i); auto]. }
    + assert (interior chf bs x y \/ ~ interior chf bs x y) as [HI|HI] by (unfold interior; lia); [specialize (V2 Q HI); lia|]. rewrite (V3 Q HI) in Gi. pose proof (side_range x y). lia.
    + rewrite (V1 Q) in Gi. congruence.
Qed.
End Sweep.
