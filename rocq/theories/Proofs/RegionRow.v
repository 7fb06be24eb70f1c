(** One row of the monotone sweep (C48). *)
From Coq Require Import ZArith List Bool Lia Sorted Relations.
From Verif.Base Require Import Res GoNum Bits Grid.
From Verif.Model Require Import Heightfield Dirs Compact Erode Region.
From Verif.Spec Require Import HeightfieldSpec CompactSpec ErodeSpec RegionSpec.
From Verif.Proofs Require Import ErodeProofs ErodeDist RegionBase.
Import ListNotations.
Open Scope Z_scope.

Definition sw0 : sweepSpan := mkSweep 0 0 0 0.

Section Row.
Variable chf : CompactHeightfield.
Hypothesis wf : chf_wf chf.
Hypothesis small : chf_spanCount chf < 2 ^ 31.
Notation w := (chf_w chf).
Notation h := (chf_h chf).
Notation N := (chf_spanCount chf).
Notation A := (A chf).
Notation sw l k := (vn sw0 l k).

(** A connection between two spans of the same area. *)
Definition adjA (i j : Z) : Prop := A i = A j /\ exists x y d x' y', span_at chf x y i /\ (d < 4)%nat /\ linked chf d x y i x' y' j.
(** Paths inside a set of spans and a class of [f]. *)
Definition conn (P : Z -> Prop) (f : Z -> Z) : Z -> Z -> Prop :=
  clos_refl_sym_trans Z (fun i j => P i /\ P j /\ adjA i j /\ f i = f j).
Lemma conn_mono : forall (P Q : Z -> Prop) f g i j, (forall k, P k -> Q k) ->
  (forall k l, P k -> P l -> f k = f l -> g k = g l) -> conn P f i j -> conn Q g i j.
Proof.
  intros P Q f g i j HP HF H. induction H as [a b (H1 & H2 & H3 & H4)|a|a b H IH|a b c H1 IH1 H2 IH2].
  - apply rst_step. repeat split; auto; apply H3.
  - apply rst_refl.
  - now apply rst_sym.
  - eapply rst_trans; eassumption.
Qed.

Variable bs : Z.
Hypothesis Hbs : 0 <= bs.
Variables (y : Z) (src0 : list Z) (id NS M : Z).
Hypothesis Hy : bs <= y < h - bs.
Hypothesis L0 : zlen src0 = N.
Hypothesis idr : 1 <= id <= 32767.
Hypothesis Z0 : forall x' y' i, span_at chf x' y' i -> A i = 0 -> dv src0 i = 0.
Hypothesis B0 : forall x' y' i, span_at chf x' y' i -> A i <> 0 -> ~ interior chf bs x' y' -> 32768 <= dv src0 i < 65536.
Hypothesis D0 : forall x' y' i, span_at chf x' y' i -> A i <> 0 -> interior chf bs x' y' -> y' < y -> 1 <= dv src0 i < id.
Hypothesis U0 : forall x' y' i, span_at chf x' y' i -> interior chf bs x' y' -> y <= y' -> dv src0 i = 0.
Hypothesis few : at_most M (fun i => exists x, run_start chf bs x y i).
Hypothesis M1 : M <= NS - 1.
Hypothesis M2 : M <= 32760.

Notation O := (order chf (rowCells chf bs y)).
Lemma rowCells_in : forall x y', In (x, y') (rowCells chf bs y) <-> bs <= x < w - bs /\ y' = y.
Proof.
  intros x y'. unfold rowCells. rewrite in_map_iff. split.
  - intros (x' & E & Hx). injection E as <- <-. apply in_krange in Hx. lia.
  - intros [Hx ->]. exists x. split; [reflexivity|]. apply in_krange. lia.
Qed.
Lemma rowCells_sub : forall xy, In xy (rowCells chf bs y) -> In xy (cells w h).
Proof. intros [x y'] H. apply rowCells_in in H. apply in_cells. lia. Qed.
Lemma NoDup_rowCells : NoDup (rowCells chf bs y).
Proof. unfold rowCells. apply FinFun.Injective_map_NoDup; [|apply NoDup_krange]. intros p q E. now injection E. Qed.
Lemma in_row : forall x y' i, In (x, y', i) O <-> span_at chf x y' i /\ y' = y /\ bs <= x < w - bs.
Proof. intros x y' i. rewrite in_order_sub by exact rowCells_sub. rewrite rowCells_in. tauto. Qed.
Lemma row_nodup : NoDup (map snd O).
Proof. apply order_snd_NoDup; [exact wf|exact NoDup_rowCells|exact rowCells_sub]. Qed.
Lemma row_range : forall t, In t O -> 0 <= snd t < N.
Proof. intros [[x y'] i] H. apply in_row in H. eapply ok_at; [exact wf|apply H]. Qed.
Lemma row_sorted : StronglySorted (fun a b : triple => fst (fst a) <= fst (fst b)) O.
Proof.
  apply (order_sorted chf (fun xy => fst xy)). unfold rowCells, krange. rewrite map_map.
  pose proof (zseq_sorted (Z.to_nat (w - bs - bs))) as S. induction S as [|a l S IH F]; [constructor|]. cbn [map]. constructor; [exact IH|].
  apply Forall_forall. intros p Hp. apply in_map_iff in Hp. destruct Hp as (z & <- & Hz). cbn [fst]. rewrite Forall_forall in F. specialize (F z Hz). lia.
Qed.
Lemma row_in : forall pre t post, O = pre ++ t :: post -> In t O.
Proof. intros pre t post ->. apply in_app_iff. right. now left. Qed.
Lemma row_pre : forall pre post t, O = pre ++ post -> In t pre -> In t O.
Proof. intros pre post t -> H. apply in_app_iff. now left. Qed.

Definition count (k : Z) (f : Z -> Z) (pre : list triple) : Z := zlen (filter (fun t => f (snd t) =? k) pre).
Definition real (nei : Z) : Prop := nei <> 0 /\ nei <> 65535.

(** With mutual connections: at most one span per cell, and exact counts. *)
Record J2 (pre : list triple) (f : Z -> Z) (sweeps : list sweepSpan) (prv : list Z) (rid : Z) : Prop := {
  u_cell : forall x i i', In (x, y, i) pre -> In (x, y, i') pre -> A i <> 0 -> A i' <> 0 -> f i = f i' -> i = i';
  u_west : forall x i, In (x, y, i) pre -> A i <> 0 ->
    (exists j, In (x - 1, y, j) pre /\ linked chf 0 x y i (x - 1) y j /\ A j <> 0 /\ f j = f i) \/
    (forall x' i', In (x', y, i') pre -> A i' <> 0 -> f i' = f i -> x <= x');
  u_ns : forall k, 1 <= k < rid -> 0 <= sw_ns (sw sweeps k) <= count k f pre /\ (sw_nei (sw sweeps k) = 0 -> sw_ns (sw sweeps k) = 0) /\
    (real (sw_nei (sw sweeps k)) -> 1 <= sw_ns (sw sweeps k) <= dv prv (sw_nei (sw sweeps k)));
  u_two : forall k k', 1 <= k < rid -> 1 <= k' < rid -> k <> k' -> real (sw_nei (sw sweeps k)) -> sw_nei (sw sweeps k) = sw_nei (sw sweeps k') ->
    sw_ns (sw sweeps k) + sw_ns (sw sweeps k') <= dv prv (sw_nei (sw sweeps k));
  u_prv : forall r, 0 <= r -> 0 <= dv prv r <= zlen pre }.

Record J (pre : list triple) (st : rowState) : Prop := {
  j_len : zlen (fst (fst (fst st))) = N;
  j_sw : zlen (snd (fst (fst st))) = NS;
  j_prv : zlen (snd (fst st)) = id + 1;
  j_rid : 1 <= snd st;
  j_out : forall j, 0 <= j -> ~ In j (map snd pre) -> dv (fst (fst (fst st))) j = dv src0 j;
  j_in0 : forall t, In t pre -> A (snd t) = 0 -> dv (fst (fst (fst st))) (snd t) = 0;
  j_in1 : forall t, In t pre -> A (snd t) <> 0 -> 1 <= dv (fst (fst (fst st))) (snd t) < snd st;
  j_conn : forall t t', In t pre -> In t' pre -> A (snd t) <> 0 -> A (snd t') <> 0 ->
    dv (fst (fst (fst st))) (snd t) = dv (fst (fst (fst st))) (snd t') ->
    conn (fun i => In i (map snd pre)) (dv (fst (fst (fst st)))) (snd t) (snd t');
  j_nei : forall k, 1 <= k < snd st -> let nei := sw_nei (sw (snd (fst (fst st))) k) in
    nei = 0 \/ nei = 65535 \/ (1 <= nei < id /\ exists i j, In i (map snd pre) /\ A i <> 0 /\ dv (fst (fst (fst st))) i = k /\ adjA i j /\ dv src0 j = nei);
  j_starts : exists SL, NoDup SL /\ zlen SL = snd st - 1 /\ forall i, In i SL -> In i (map snd pre) /\ exists x, run_start chf bs x y i;
  j_uniq : mutual_x chf -> w <= 65535 -> J2 pre (dv (fst (fst (fst st)))) (snd (fst (fst st))) (snd (fst st)) (snd st) }.

Lemma west_spec : forall pre t post src sweeps prv rid s, O = pre ++ t :: post -> J pre (src, sweeps, prv, rid) -> rid <= 32767 ->
  get (chf_spans chf) (snd t) = Ok s -> A (snd t) <> 0 ->
  exists v, westReg chf (fst (fst t)) (snd (fst t)) (csCon s) (A (snd t)) src = Ok v /\
    ((v = 0 /\ run_start chf bs (fst (fst t)) y (snd t)) \/
     (1 <= v < rid /\ exists j, In (fst (fst t) - 1, y, j) pre /\ linked chf 0 (fst (fst t)) y (snd t) (fst (fst t) - 1) y j /\ A j = A (snd t) /\ dv src j = v)).
Proof.
  intros pre [[x y'] i] post src sweeps prv rid s EO HJ Hrid Hs HA. cbn [fst snd] in *.
  pose proof (row_in _ _ _ EO) as Ht. apply in_row in Ht. destruct Ht as (Hsp & -> & Hx).
  pose proof (ok_at _ wf _ _ _ Hsp) as Ri. pose proof (area_get chf wf i Ri) as Gi.
  assert (Hw : walkable chf i) by (exists (A i); auto).
  unfold westReg. change notConnected with 63. destruct (Z.eqb_spec (GetCon (csCon s) 0) 63) as [E|Ne].
  - exists 0. split; [reflexivity|]. left. split; [reflexivity|]. split; [exact Hsp|]. split; [split; lia|]. split; [exact Hw|].
    intros (x' & y' & j & (_ & s' & c & Gs & Nc & _) & _). rewrite Hs in Gs. apply Ok_inj in Gs. subst s'. apply Nc. exact E.
  - destruct (neighbour_ok chf wf 0 x y i s Hsp ltac:(lia) Hs Ne) as (x' & y' & j & En & HL & Hj). change (Z.of_nat 0) with 0 in En. rewrite En. cbn [bind snd].
    assert (x' = x - 1 /\ y' = y) as [-> ->] by (destruct HL as [E _]; injection E; cbn; lia).
    pose proof (ok_at _ wf _ _ _ Hj) as Rj. pose proof (j_len _ _ HJ) as L. cbn [fst snd] in L.
    rewrite (get_dv src j) by lia. cbn [bind].
    assert (St : (bs <= x - 1 -> A j <> A i) -> run_start chf bs x y i).
    { intros HNe. split; [exact Hsp|]. split; [split; lia|]. split; [exact Hw|]. intros (x2 & y2 & j2 & HL2 & Hb & HA2).
      destruct (linked_fun chf _ _ _ _ _ _ _ _ _ _ HL HL2) as (<- & <- & <-). rewrite Gi, (area_get chf wf j Rj) in HA2. apply Ok_inj in HA2. now apply HNe. }
    destruct (Z_lt_ge_dec (x - 1) bs) as [Hout|Hin].
    + assert (NI : ~ In j (map snd pre)).
      { intros Q. apply in_map_iff in Q. destruct Q as ([[x3 y3] j3] & E & Q). cbn in E. subst j3. apply (row_pre _ (((x, y, i) :: post)) _ EO) in Q. apply in_row in Q.
        destruct Q as (Q1 & _ & Q2). destruct (ok_unique _ wf _ _ _ _ _ Hj Q1) as [<- _]. lia. }
      pose proof (j_out _ _ HJ j ltac:(lia) NI) as V. cbn [fst snd] in V. rewrite V.
      destruct (Z.eq_dec (A j) 0) as [Aj|Aj].
      * rewrite (Z0 _ _ _ Hj Aj). cbn [isBorder Z.land]. change (isBorder 0) with false. cbn iota. rewrite (area_get chf wf j Rj). cbn [bind].
        rewrite Aj. destruct (Z.eqb_spec (A i) 0); [contradiction|]. exists 0. split; [reflexivity|]. left. split; [reflexivity|]. apply St. lia.
      * rewrite isBorder_hi by (apply (B0 _ _ _ Hj Aj); intros [Q _]; lia). exists 0. split; [reflexivity|]. left. split; [reflexivity|]. apply St. lia.
    + assert (Ij : In (x - 1, y, j) pre).
      { apply (sorted_before _ _ _ _ _ _ row_sorted EO); [apply in_row; repeat split; (exact Hj || lia || apply Hj)|intros Q; injection Q; lia|cbn [fst]; lia]. }
      destruct (Z.eq_dec (A j) 0) as [Aj|Aj].
      * pose proof (j_in0 _ _ HJ _ Ij Aj) as V. cbn [fst snd] in V. rewrite V. change (isBorder 0) with false. cbn iota.
        rewrite (area_get chf wf j Rj). cbn [bind]. rewrite Aj. destruct (Z.eqb_spec (A i) 0); [contradiction|]. exists 0. split; [reflexivity|]. left. split; [reflexivity|]. apply St. lia.
      * pose proof (j_in1 _ _ HJ _ Ij Aj) as V. cbn [fst snd] in V. rewrite isBorder_lo by lia. rewrite (area_get chf wf j Rj). cbn [bind].
        destruct (Z.eqb_spec (A i) (A j)) as [EA|NA].
        -- exists (dv src j). split; [reflexivity|]. right. split; [exact V|]. exists j. auto.
        -- exists 0. split; [reflexivity|]. left. split; [reflexivity|]. apply St. intros _ Q. apply NA. now symmetry.
Qed.

(** What the -y neighbour does to the row id [p]. *)
Inductive north (i p : Z) (sweeps : list sweepSpan) (prv : list Z) : list sweepSpan -> list Z -> Prop :=
| north_none : north i p sweeps prv sweeps prv
| north_more : forall nr j, adjA i j -> dv src0 j = nr -> 1 <= nr < id -> sw_nei (sw sweeps p) = 0 \/ sw_nei (sw sweeps p) = nr ->
    north i p sweeps prv (upd sweeps (Z.to_nat p) (mkSweep (sw_rid (sw sweeps p)) (sw_id (sw sweeps p)) (u16 (sw_ns (sw sweeps p) + 1)) nr))
      (upd prv (Z.to_nat nr) (i32 (dv prv nr + 1)))
| north_clash : north i p sweeps prv
    (upd sweeps (Z.to_nat p) (mkSweep (sw_rid (sw sweeps p)) (sw_id (sw sweeps p)) (sw_ns (sw sweeps p)) 65535)) prv.

Lemma north_spec : forall pre t post src sweeps0 prv0 rid s p sweeps prv, O = pre ++ t :: post -> J pre (src, sweeps0, prv0, rid) ->
  get (chf_spans chf) (snd t) = Ok s -> A (snd t) <> 0 -> zlen sweeps = NS -> zlen prv = id + 1 -> 0 <= p < NS ->
  exists sweeps' prv', northNei chf (fst (fst t)) (snd (fst t)) (csCon s) (A (snd t)) src p sweeps prv = Ok (sweeps', prv') /\
    north (snd t) p sweeps prv sweeps' prv'.
Proof.
  intros pre [[x y'] i] post src sweeps0 prv0 rid s p sweeps prv EO HJ Hs HA Lsw Lprv Hp. cbn [fst snd] in *.
  pose proof (row_in _ _ _ EO) as Ht. apply in_row in Ht. destruct Ht as (Hsp & -> & Hx).
  unfold northNei. change notConnected with 63. destruct (Z.eqb_spec (GetCon (csCon s) 3) 63) as [E|Ne].
  { exists sweeps, prv. split; [reflexivity|]. constructor. }
  destruct (neighbour_ok chf wf 3 x y i s Hsp ltac:(lia) Hs Ne) as (x' & y' & j & En & HL & Hj). change (Z.of_nat 3) with 3 in En. rewrite En. cbn [bind snd].
  assert (x' = x /\ y' = y - 1) as [-> ->] by (destruct HL as [E _]; injection E; cbn; lia).
  pose proof (ok_at _ wf _ _ _ Hj) as Rj. pose proof (j_len _ _ HJ) as L. cbn [fst snd] in L. rewrite (get_dv src j) by lia. cbn [bind].
  assert (NI : ~ In j (map snd pre)).
  { intros Q. apply in_map_iff in Q. destruct Q as ([[x3 y3] j3] & E & Q). cbn in E. subst j3. apply (row_pre _ (((x, y, i) :: post)) _ EO) in Q. apply in_row in Q.
    destruct Q as (Q1 & Q3 & Q2). destruct (ok_unique _ wf _ _ _ _ _ Hj Q1) as [_ <-]. lia. }
  pose proof (j_out _ _ HJ j ltac:(lia) NI) as V. cbn [fst snd] in V. rewrite V.
  destruct ((dv src0 j =? 0) || isBorder (dv src0 j)) eqn:EB.
  { exists sweeps, prv. split; [reflexivity|]. constructor. }
  apply orb_false_iff in EB. destruct EB as [EB1 EB2]. apply Z.eqb_neq in EB1.
  rewrite (area_get chf wf j Rj). cbn [bind]. destruct (Z.eqb_spec (A i) (A j)) as [EA|NA]; cbn [negb].
  2:{ exists sweeps, prv. split; [reflexivity|]. constructor. }
  assert (HI : interior chf bs x (y - 1)).
  { destruct (Z_lt_ge_dec (y - 1) bs) as [Q|Q]; [|split; lia]. rewrite isBorder_hi in EB2; [discriminate|]. apply (B0 _ _ _ Hj); [congruence|]. intros [_ Q']. lia. }
  pose proof (D0 _ _ _ Hj ltac:(congruence) HI ltac:(lia)) as Rnr.
  rewrite (get_vn sw0 sweeps p) by lia. cbn [bind].
  destruct ((sw_nei (sw sweeps p) =? 0) || (sw_nei (sw sweeps p) =? dv src0 j)) eqn:EN.
  - rewrite (set_in_range sweeps) by lia. cbn [bind]. rewrite (get_dv prv) by lia. cbn [bind]. rewrite (set_in_range prv) by lia. cbn [bind].
    do 2 eexists. split; [reflexivity|]. apply (north_more i p sweeps prv (dv src0 j) j).
    + split; [exact EA|]. exists x, y, 3%nat, x, (y - 1). auto.
    + reflexivity.
    + exact Rnr.
    + apply orb_true_iff in EN. destruct EN as [EN|EN]; apply Z.eqb_eq in EN; auto.
  - rewrite (set_in_range sweeps) by lia. cbn [bind]. do 2 eexists. split; [reflexivity|]. apply north_clash.
Qed.

(** The row id of a span: a new one, or the one of its -x neighbour. *)
Definition stage1 (pre : list triple) (x i : Z) (src : list Z) (sweeps : list sweepSpan) (rid p : Z) (sweeps1 : list sweepSpan) (rid1 : Z) : Prop :=
  (p = rid /\ rid1 = rid + 1 /\ rid < NS /\ rid <= 32760 /\ run_start chf bs x y i /\ sweeps1 = upd sweeps (Z.to_nat rid) (mkSweep rid (sw_id (sw sweeps rid)) 0 0)) \/
  (1 <= p < rid /\ rid1 = rid /\ sweeps1 = sweeps /\
   exists j, In (x - 1, y, j) pre /\ linked chf 0 x y i (x - 1) y j /\ A j = A i /\ dv src j = p).

Lemma starts_bound : forall SL, NoDup SL -> (forall i, In i SL -> exists x, run_start chf bs x y i) -> zlen SL <= M.
Proof. intros SL H1 H2. apply few; assumption. Qed.
Lemma rid_bound : forall pre st, J pre st -> snd st <= 32761 /\ snd st <= NS.
Proof. intros pre st HJ. destruct (j_starts _ _ HJ) as (SL & H1 & H2 & H3). assert (zlen SL <= M) by (apply starts_bound; [exact H1|]; intros i Hi; now apply H3). lia. Qed.
Lemma pre_notin : forall pre t post, O = pre ++ t :: post -> ~ In (snd t) (map snd pre).
Proof. intros pre t post E. pose proof row_nodup as ND. rewrite E, map_app in ND. cbn [map] in ND. apply NoDup_remove_2 in ND. intros Q. apply ND. apply in_app_iff. now left. Qed.

Lemma stage1_spec : forall pre t post src sweeps prv rid s, O = pre ++ t :: post -> J pre (src, sweeps, prv, rid) ->
  get (chf_spans chf) (snd t) = Ok s -> A (snd t) <> 0 ->
  exists v p sweeps1 rid1, westReg chf (fst (fst t)) (snd (fst t)) (csCon s) (A (snd t)) src = Ok v /\ openSweep v sweeps rid = Ok (p, sweeps1, rid1) /\
    stage1 pre (fst (fst t)) (snd t) src sweeps rid p sweeps1 rid1.
Proof.
  intros pre t post src sweeps prv rid s EO HJ Hs HA. pose proof (rid_bound _ _ HJ) as RB. cbn [snd] in RB. pose proof (j_rid _ _ HJ) as R1. cbn [snd] in R1.
  destruct (west_spec _ _ _ _ _ _ _ _ EO HJ ltac:(lia) Hs HA) as (v & Ev & HV). exists v. unfold openSweep.
  destruct HV as [[-> St]|[Hv HL]].
  - destruct (j_starts _ _ HJ) as (SL & S1 & S2 & S3). cbn [snd] in S2.
    assert (zlen (snd t :: SL) <= M) as B.
    { apply starts_bound. constructor; [|exact S1]. intros Q. apply S3 in Q. destruct Q as [Q _]. exact (pre_notin _ _ _ EO Q).
      intros i [<-|Hi]; [eauto|now apply S3]. }
    rewrite zlen_cons in B. pose proof (j_sw _ _ HJ) as LS. cbn [fst snd] in LS. cbn [Z.eqb].
    rewrite (get_vn sw0 sweeps rid) by lia. cbn [bind]. rewrite (set_in_range sweeps) by lia. cbn [bind]. do 3 eexists. split; [exact Ev|]. split; [reflexivity|]. left.
    rewrite u16_id by (unfold is_u16; lia). repeat split; try lia; apply St.
  - rewrite (proj2 (Z.eqb_neq v 0)) by lia. do 3 eexists. split; [exact Ev|]. split; [reflexivity|]. right. split; [exact Hv|]. split; [reflexivity|]. split; [reflexivity|exact HL].
Qed.

Lemma count_app : forall k f l l', count k f (l ++ l') = count k f l + count k f l'.
Proof. intros. unfold count. rewrite filter_app. apply zlen_app. Qed.
Lemma count_ext : forall k f g l, (forall t, In t l -> f (snd t) = g (snd t)) -> count k f l = count k g l.
Proof. intros k f g l H. unfold count. f_equal. induction l as [|t l IH]; [reflexivity|]. cbn [filter]. rewrite (H t (or_introl eq_refl)), IH; [reflexivity|]. intros. apply H. now right. Qed.
Lemma count_nonneg : forall k f l, 0 <= count k f l.
Proof. intros. apply zlen_nonneg. Qed.
Lemma count_le : forall pre post f k, O = pre ++ post ->
  (forall x i i', In (x, y, i) pre -> In (x, y, i') pre -> f i = k -> f i' = k -> i = i') -> count k f pre <= w.
Proof.
  intros pre post f k EO HU. unfold count. set (F := filter (fun t : triple => f (snd t) =? k) pre). change (zlen F <= w).
  assert (NoDup (map (fun t => fst (fst t)) F) /\ incl (map (fun t => fst (fst t)) F) (zseq (Z.to_nat w))) as [N1 N2].
  { assert (HF : forall t, In t F -> In t pre /\ f (snd t) = k) by (intros t Ht; unfold F in Ht; apply filter_In in Ht; destruct Ht as [H1 H2]; apply Z.eqb_eq in H2; auto).
    assert (NF : NoDup F).
    { unfold F. apply NoDup_filter. pose proof row_nodup as ND. apply NoDup_map_inv in ND. rewrite EO in ND. clear -ND. induction pre as [|a l IH]; [constructor|].
      cbn [app] in ND. inversion ND; subst. constructor; [|now apply IH]. intros Q. apply H1. apply in_app_iff. now left. }
    split.
    - revert NF HF. generalize F as l. clear F. induction l as [|t l IH]; intros NF HF; [constructor|]. inversion NF; subst. cbn [map]. constructor.
      + intros Q. apply in_map_iff in Q. destruct Q as (t' & E & Q). apply H1. replace t with t'; [exact Q|].
        destruct (HF t (or_introl eq_refl)) as [P1 K1]. destruct (HF t' (or_intror Q)) as [P2 K2].
        destruct t as [[x1 y1] i1], t' as [[x2 y2] i2]. cbn [fst snd] in *. subst x2.
        pose proof (row_pre _ _ _ EO P1) as Q1. pose proof (row_pre _ _ _ EO P2) as Q2. apply in_row in Q1, Q2. destruct Q1 as (_ & -> & _), Q2 as (_ & -> & _).
        rewrite (HU _ _ _ P1 P2 K1 K2). reflexivity.
      + apply IH; [assumption|]. intros. apply HF. now right.
    - intros x Hx. apply in_map_iff in Hx. destruct Hx as ([[x1 y1] i1] & E & Hx). cbn [fst] in E. subst x1. apply HF in Hx. destruct Hx as [Hx _].
      apply (row_pre _ _ _ EO) in Hx. apply in_row in Hx. apply in_zseq. lia. }
  pose proof (NoDup_incl_length N1 N2) as LE. rewrite map_length, zseq_length in LE. unfold zlen. pose proof (ok_w _ wf). clearbody F. unfold triple in *. lia.
Qed.

Lemma x_before : forall pre x i post x' y' i', O = pre ++ (x, y, i) :: post -> In (x', y', i') pre -> x' <= x.
Proof.
  intros pre x i post x' y' i' EO Hi. pose proof row_sorted as S. rewrite EO in S. clear -S Hi. induction pre as [|a l IH]; [destruct Hi|].
  cbn [app] in S. inversion S; subst. destruct Hi as [->|Hi]; [|now apply IH]. rewrite Forall_forall in H2. apply (H2 (x, y, i)). apply in_app_iff. right. now left.
Qed.

Lemma sweeps1_old : forall pre x i src sweeps rid p sweeps1 rid1 k, zlen sweeps = NS -> 1 <= rid -> stage1 pre x i src sweeps rid p sweeps1 rid1 -> 1 <= k < rid -> sw sweeps1 k = sw sweeps k.
Proof.
  intros pre x i src sweeps rid p sweeps1 rid1 k L R [(-> & -> & H1 & H2 & _ & ->)|(_ & _ & -> & _)] Hk; [|reflexivity].
  rewrite vn_upd by lia. destruct (Z.eqb_spec k rid); [lia|reflexivity].
Qed.
Lemma sweeps1_new : forall pre x i src sweeps rid p sweeps1 rid1 k, zlen sweeps = NS -> 1 <= rid -> stage1 pre x i src sweeps rid p sweeps1 rid1 -> rid <= k < rid1 ->
  k = p /\ sw_nei (sw sweeps1 k) = 0 /\ sw_ns (sw sweeps1 k) = 0.
Proof.
  intros pre x i src sweeps rid p sweeps1 rid1 k L R [(-> & -> & H1 & H2 & _ & ->)|(_ & -> & -> & _)] Hk; [|lia].
  assert (k = rid) as -> by lia. rewrite vn_upd by lia. rewrite Z.eqb_refl. auto.
Qed.
Lemma stage1_p : forall pre x i src sweeps rid p sweeps1 rid1, zlen sweeps = NS -> 1 <= rid <= NS -> stage1 pre x i src sweeps rid p sweeps1 rid1 ->
  1 <= p < rid1 /\ rid <= rid1 /\ zlen sweeps1 = NS /\ p < NS.
Proof.
  intros pre x i src sweeps rid p sweeps1 rid1 L R [(-> & -> & H1 & H2 & _ & ->)|(Hp & -> & -> & _)]; [rewrite zlen_upd|]; lia.
Qed.

Lemma J2_step : forall pre x i post src sweeps prv rid p sweeps1 rid1 sweeps2 prv2, O = pre ++ (x, y, i) :: post -> mutual_x chf -> w <= 65535 ->
  J pre (src, sweeps, prv, rid) -> J2 pre (dv src) sweeps prv rid -> A i <> 0 -> stage1 pre x i src sweeps rid p sweeps1 rid1 ->
  north i p sweeps1 prv sweeps2 prv2 -> J2 (pre ++ [(x, y, i)]) (dv (upd src (Z.to_nat i) p)) sweeps2 prv2 rid1.
Proof.
  intros pre x i post src sweeps prv rid p sweeps1 rid1 sweeps2 prv2 EO HM Hw HJ H2 HA H1 HN.
  pose proof (row_in _ _ _ EO) as Ht. pose proof (row_range _ Ht) as Ri. cbn [snd] in Ri. apply in_row in Ht. destruct Ht as (Hsp & _ & Hx).
  pose proof (j_len _ _ HJ) as L. pose proof (j_sw _ _ HJ) as LS. pose proof (j_prv _ _ HJ) as LP. pose proof (j_rid _ _ HJ) as R1. pose proof (rid_bound _ _ HJ) as RB. cbn [fst snd] in L, LS, LP, R1, RB.
  destruct (stage1_p pre x i src sweeps rid p sweeps1 rid1 LS ltac:(lia) H1) as (Hp & Hr & LS1 & HpN).
  set (f' := dv (upd src (Z.to_nat i) p)).
  assert (NI : ~ In i (map snd pre)) by (exact (pre_notin _ _ _ EO)).
  assert (RP : forall t, In t pre -> 0 <= snd t < N) by (intros t Q; apply row_range; eapply row_pre; eassumption).
  assert (Fo : forall t, In t pre -> f' (snd t) = dv src (snd t)).
  { intros t Q. unfold f'. pose proof (RP _ Q). rewrite dv_upd by lia. destruct (Z.eqb_spec (snd t) i) as [E|]; [|reflexivity]. exfalso. apply NI. rewrite <- E. now apply in_map. }
  assert (Fi : f' i = p) by (unfold f'; rewrite dv_upd by lia; now rewrite Z.eqb_refl).
  assert (In1 : forall x1 i1, In (x1, y, i1) pre -> A i1 <> 0 -> 1 <= dv src i1 < rid) by (intros x1 i1 Q Qa; exact (j_in1 _ _ HJ (x1, y, i1) Q Qa)).
  assert (UC : forall x1 i1 i2, In (x1, y, i1) (pre ++ [(x, y, i)]) -> In (x1, y, i2) (pre ++ [(x, y, i)]) -> A i1 <> 0 -> A i2 <> 0 -> f' i1 = f' i2 -> i1 = i2).
  { assert (UN : forall i2, In (x, y, i2) pre -> A i2 <> 0 -> dv src i2 = p -> i = i2).
    { intros i2 Q2 A2 E2. pose proof (In1 _ _ Q2 A2) as B2. destruct H1 as [(-> & _)|(Hp' & _ & _ & j & Ij & Lj & Aj & Vj)]; [lia|].
      destruct (u_west _ _ _ _ _ H2 x i2 Q2 A2) as [(j' & Ij' & Lj' & Aj' & Vj')|St].
      - assert (j = j') as <- by (apply (u_cell _ _ _ _ _ H2 (x - 1)); try assumption; congruence).
        pose proof (HM _ _ _ _ _ _ Hsp Lj) as M1'. assert (S2 : span_at chf x y i2) by (apply (row_pre _ _ _ EO) in Q2; now apply in_row in Q2).
        pose proof (HM _ _ _ _ _ _ S2 Lj') as M2'. now destruct (linked_fun chf _ _ _ _ _ _ _ _ _ _ M1' M2') as (_ & _ & ->).
      - assert (x <= x - 1) by (apply (St _ j Ij); congruence). lia. }
    intros x1 i1 i2 Q1 Q2 A1 A2 E. apply in_app_iff in Q1, Q2. destruct Q1 as [Q1|[Q1|[]]], Q2 as [Q2|[Q2|[]]].
    - apply (u_cell _ _ _ _ _ H2 x1); try assumption. pose proof (Fo _ Q1) as e1. pose proof (Fo _ Q2) as e2. cbn [snd] in e1, e2. congruence.
    - injection Q2 as <- <-. pose proof (Fo _ Q1) as e1. cbn [snd] in e1. symmetry. apply UN; try assumption. congruence.
    - injection Q1 as <- <-. pose proof (Fo _ Q2) as e1. cbn [snd] in e1. apply UN; try assumption. congruence.
    - congruence. }
  assert (CK : forall k, count k f' (pre ++ [(x, y, i)]) = count k (dv src) pre + (if p =? k then 1 else 0)).
  { intros k. rewrite count_app, (count_ext k f' (dv src) pre) by exact Fo. unfold count at 2. cbn [filter snd]. rewrite Fi. destruct (p =? k); reflexivity. }
  assert (CW : count p f' (pre ++ [(x, y, i)]) <= w).
  { apply (count_le _ post); [now rewrite <- app_assoc|]. intros x1 i1 i2 Q1 Q2 E1 E2.
    assert (forall i3, In (x1, y, i3) (pre ++ [(x, y, i)]) -> f' i3 = p -> A i3 <> 0) as W3.
    { intros i3 Q3 E3 Z3. apply in_app_iff in Q3. destruct Q3 as [Q3|[Q3|[]]]; [|congruence].
      pose proof (j_in0 _ _ HJ _ Q3 Z3) as V. cbn [fst snd] in V. pose proof (Fo _ Q3) as e. cbn [snd] in e. lia. }
    apply (UC x1); auto; congruence. }
  pose proof (u_prv _ _ _ _ _ H2) as UP.
  assert (LN : @zlen triple pre < N).
  { pose proof row_nodup as ND. rewrite EO in ND. assert (incl (map snd (pre ++ (x, y, i) :: post)) (zseq (Z.to_nat N))) as IC.
    { intros k Hk. apply in_map_iff in Hk. destruct Hk as (t & <- & Hk). rewrite <- EO in Hk. apply row_range in Hk. apply in_zseq. lia. }
    pose proof (NoDup_incl_length ND IC) as LE. rewrite map_length, zseq_length, app_length in LE. cbn [length] in LE. unfold zlen, triple. lia. }
  (* the values of sweeps1 *)
  assert (S1 : forall k, 1 <= k < rid1 -> 0 <= sw_ns (sw sweeps1 k) <= count k (dv src) pre /\ (sw_nei (sw sweeps1 k) = 0 -> sw_ns (sw sweeps1 k) = 0) /\
    (real (sw_nei (sw sweeps1 k)) -> 1 <= sw_ns (sw sweeps1 k) <= dv prv (sw_nei (sw sweeps1 k)))).
  { intros k Hk. destruct (Z_lt_ge_dec k rid) as [Q|Q].
    - rewrite (sweeps1_old _ _ _ _ _ _ _ _ _ k LS R1 H1) by lia. apply (u_ns _ _ _ _ _ H2). lia.
    - destruct (sweeps1_new _ _ _ _ _ _ _ _ _ k LS R1 H1 ltac:(lia)) as (_ & -> & ->). pose proof (count_nonneg k (dv src) pre). split; [lia|]. split; [auto|]. intros [Q' _]. congruence. }
  assert (S2 : forall k k', 1 <= k < rid1 -> 1 <= k' < rid1 -> k <> k' -> real (sw_nei (sw sweeps1 k)) -> sw_nei (sw sweeps1 k) = sw_nei (sw sweeps1 k') ->
    sw_ns (sw sweeps1 k) + sw_ns (sw sweeps1 k') <= dv prv (sw_nei (sw sweeps1 k))).
  { intros k k' Hk Hk' Nk Rk E. destruct (Z_lt_ge_dec k rid) as [Q|Q].
    2:{ destruct (sweeps1_new _ _ _ _ _ _ _ _ _ k LS R1 H1 ltac:(lia)) as (_ & E0 & _). destruct Rk. congruence. }
    destruct (Z_lt_ge_dec k' rid) as [Q'|Q'].
    2:{ destruct (sweeps1_new _ _ _ _ _ _ _ _ _ k' LS R1 H1 ltac:(lia)) as (_ & E0 & _). destruct Rk. congruence. }
    pose proof (sweeps1_old _ _ _ _ _ _ _ _ _ k LS R1 H1 ltac:(lia)) as e. pose proof (sweeps1_old _ _ _ _ _ _ _ _ _ k' LS R1 H1 ltac:(lia)) as e'.
    rewrite e in Rk, E |- *. rewrite e' in E |- *. apply (u_two _ _ _ _ _ H2); try assumption; lia. }
  constructor.
  - exact UC.
  - intros x1 i1 Q1 A1. apply in_app_iff in Q1. destruct Q1 as [Q1|[Q1|[]]].
    + pose proof (Fo _ Q1) as e1. cbn [snd] in e1. destruct (u_west _ _ _ _ _ H2 x1 i1 Q1 A1) as [(j & Ij & Lj & Aj & Vj)|St].
      * left. exists j. pose proof (Fo _ Ij) as e2. cbn [snd] in e2. split; [apply in_app_iff; now left|]. split; [exact Lj|]. split; [exact Aj|congruence].
      * right. intros x' i' Q' A' E'. apply in_app_iff in Q'. destruct Q' as [Q'|[Q'|[]]].
        -- pose proof (Fo _ Q') as e2. cbn [snd] in e2. apply (St _ _ Q' A'). congruence.
        -- injection Q' as <- <-. exact (x_before _ _ _ _ _ _ _ EO Q1).
    + injection Q1 as <- <-. destruct H1 as [(-> & _)|(Hp' & _ & _ & j & Ij & Lj & Aj & Vj)].
      * right. intros x' i' Q' A' E'. apply in_app_iff in Q'. destruct Q' as [Q'|[Q'|[]]]; [|injection Q' as <- <-; lia].
        pose proof (Fo _ Q') as e2. cbn [snd] in e2. pose proof (In1 _ _ Q' A'). lia.
      * left. exists j. pose proof (Fo _ Ij) as e2. cbn [snd] in e2. split; [apply in_app_iff; now left|]. split; [exact Lj|]. split; [congruence|congruence].
  - intros k Hk. rewrite CK. destruct (S1 k Hk) as (B1 & B2 & B3). destruct HN as [|nr j Hj Ej Rn Hn|].
    + split; [destruct (p =? k); lia|]. auto.
    + rewrite vn_upd by lia. destruct (Z.eqb_spec k p) as [->|Nk].
      * cbn [sw_ns sw_nei]. rewrite CK, Z.eqb_refl in CW. rewrite u16_id by (unfold is_u16; lia). rewrite Z.eqb_refl. split; [lia|]. split; [lia|]. intros _.
        rewrite dv_upd by lia. rewrite Z.eqb_refl. pose proof (UP nr ltac:(lia)). rewrite i32_id by (unfold is_i32; lia).
        destruct Hn as [Hn|Hn]; [rewrite (B2 Hn); lia|]. rewrite Hn in B3. assert (real nr) by (split; lia). specialize (B3 H0). lia.
      * destruct (Z.eqb_spec p k); [lia|]. split; [lia|]. split; [exact B2|]. intros Rk. specialize (B3 Rk).
        destruct (Z_le_gt_dec 0 (sw_nei (sw sweeps1 k))) as [Q|Q].
        -- rewrite dv_upd by lia. destruct (Z.eqb_spec (sw_nei (sw sweeps1 k)) nr) as [e|]; [|lia]. rewrite e in B3. pose proof (UP nr ltac:(lia)). rewrite i32_id by (unfold is_i32; lia). lia.
        -- revert B3. unfold dv. replace (Z.to_nat (sw_nei (sw sweeps1 k))) with 0%nat by lia.
           rewrite nth_upd. destruct (Nat.eqb_spec 0 (Z.to_nat nr)); [lia|]. cbn [andb]. auto.
    + rewrite vn_upd by lia. destruct (Z.eqb_spec k p) as [->|Nk].
      * cbn [sw_ns sw_nei]. split; [destruct (p =? p); lia|]. split; [lia|]. intros [_ Q]. congruence.
      * destruct (Z.eqb_spec p k); [lia|]. split; [lia|]. auto.
  - intros k k' Hk Hk' Nk. destruct HN as [|nr j Hj Ej Rn Hn|].
    + now apply S2.
    + rewrite !vn_upd by lia. pose proof (UP nr ltac:(lia)) as Un. assert (Rnr : real nr) by (split; lia).
      destruct (Z.eqb_spec k p) as [->|Nkp], (Z.eqb_spec k' p) as [->|Nkp']; try lia; cbn [sw_ns sw_nei].
      * intros _ E. rewrite CK, Z.eqb_refl in CW. destruct (S1 p ltac:(lia)) as (B1 & B2 & B3). rewrite u16_id by (unfold is_u16; lia).
        rewrite dv_upd by lia. rewrite Z.eqb_refl, i32_id by (unfold is_i32; lia).
        destruct Hn as [Hn|Hn].
        -- rewrite (B2 Hn). destruct (S1 k' Hk') as (_ & _ & C3). rewrite <- E in C3. specialize (C3 Rnr). lia.
        -- rewrite <- Hn in Rnr. pose proof (S2 p k' ltac:(lia) Hk' Nk Rnr ltac:(congruence)) as T. rewrite Hn in T. lia.
      * intros _ E. rewrite CK, Z.eqb_refl in CW. destruct (S1 p ltac:(lia)) as (B1 & B2 & B3). rewrite u16_id by (unfold is_u16; lia).
        rewrite E. rewrite dv_upd by lia. rewrite Z.eqb_refl, i32_id by (unfold is_i32; lia).
        destruct Hn as [Hn|Hn].
        -- rewrite (B2 Hn). destruct (S1 k Hk) as (_ & _ & C3). rewrite E in C3. specialize (C3 Rnr). lia.
        -- rewrite <- Hn in Rnr. pose proof (S2 p k ltac:(lia) Hk ltac:(congruence) Rnr ltac:(congruence)) as T. rewrite Hn in T. lia.
      * intros Rk E. pose proof (S2 k k' Hk Hk' Nk Rk E) as T. destruct (Z_le_gt_dec 0 (sw_nei (sw sweeps1 k))) as [Q|Q].
        -- rewrite dv_upd by lia. destruct (Z.eqb_spec (sw_nei (sw sweeps1 k)) nr) as [e|]; [|lia]. rewrite e in T. rewrite i32_id by (unfold is_i32; lia). lia.
        -- revert T. unfold dv. replace (Z.to_nat (sw_nei (sw sweeps1 k))) with 0%nat by lia.
           rewrite nth_upd. destruct (Nat.eqb_spec 0 (Z.to_nat nr)); [lia|]. cbn [andb]. auto.
    + rewrite !vn_upd by lia.
      destruct (Z.eqb_spec k p) as [->|Nkp], (Z.eqb_spec k' p) as [->|Nkp']; try lia; cbn [sw_ns sw_nei].
      * intros [_ Q]. congruence.
      * intros [_ Q] E. congruence.
      * apply S2; assumption.
  - intros r Hr'. rewrite zlen_snoc. pose proof (UP r Hr') as U. destruct HN as [|nr j Hj Ej Rn Hn|]; try lia.
    rewrite dv_upd by lia. destruct (Z.eqb_spec r nr) as [->|]; [|lia]. rewrite i32_id by (unfold is_i32; lia). lia.
Qed.

Lemma conn_len : forall (P : Z -> Prop) f i j, conn P f i j -> i = j \/ f i = f j.
Proof.
  intros P f i j H. induction H as [a b (_ & _ & _ & E)|a|a b H IH|a b c H1 IH1 H2 IH2]; [right; exact E|now left|destruct IH; auto|].
  destruct IH1 as [->|E1]; [exact IH2|]. destruct IH2 as [<-|E2]; [now right|right; congruence].
Qed.

Lemma J_null : forall pre t post st, O = pre ++ t :: post -> J pre st -> A (snd t) = 0 -> J (pre ++ [t]) st.
Proof.
  intros pre [[x y'] i] post [[[src sweeps] prv] rid] EO HJ HA. cbn [snd] in HA.
  pose proof (row_in _ _ _ EO) as Ht. pose proof (row_range _ Ht) as Ri. cbn [snd] in Ri. apply in_row in Ht. destruct Ht as (Hsp & -> & Hx).
  pose proof (pre_notin _ _ _ EO) as NI. cbn [snd] in NI.
  assert (V : dv src i = 0).
  { pose proof (j_out _ _ HJ i ltac:(lia) NI) as V. cbn [fst snd] in V. rewrite V. exact (Z0 _ _ _ Hsp HA). }
  assert (W : forall t, In t (pre ++ [(x, y, i)]) -> A (snd t) <> 0 -> In t pre).
  { intros t Q Qa. apply in_app_iff in Q. destruct Q as [Q|[<-|[]]]; [exact Q|]. cbn [snd] in Qa. contradiction. }
  constructor; cbn [fst snd].
  - exact (j_len _ _ HJ).
  - exact (j_sw _ _ HJ).
  - exact (j_prv _ _ HJ).
  - exact (j_rid _ _ HJ).
  - intros j Hj Nj. apply (j_out _ _ HJ j Hj). intros Q. apply Nj. rewrite map_app. apply in_app_iff. now left.
  - intros t Q Qa. apply in_app_iff in Q. destruct Q as [Q|[<-|[]]]; [exact (j_in0 _ _ HJ t Q Qa)|exact V].
  - intros t Q Qa. exact (j_in1 _ _ HJ t (W t Q Qa) Qa).
  - intros t t' Q Q' Qa Qa' E. eapply conn_mono; [| |exact (j_conn _ _ HJ t t' (W t Q Qa) (W t' Q' Qa') Qa Qa' E)].
    + intros k Hk. rewrite map_app. apply in_app_iff. now left.
    + auto.
  - intros k Hk. destruct (j_nei _ _ HJ k Hk) as [Q|[Q|(Q & i1 & j1 & I1 & R)]]; [now left|right; now left|]. right. right. split; [exact Q|].
    exists i1, j1. split; [rewrite map_app; apply in_app_iff; now left|exact R].
  - destruct (j_starts _ _ HJ) as (SL & S1 & S2 & S3). exists SL. split; [exact S1|]. split; [exact S2|]. intros k Hk. destruct (S3 k Hk) as [Q1 Q2].
    split; [rewrite map_app; apply in_app_iff; now left|exact Q2].
  - intros HM Hw. pose proof (j_uniq _ _ HJ HM Hw) as H2. cbn [fst snd] in H2. constructor.
    + intros x1 i1 i2 Q1 Q2 A1 A2. apply (u_cell _ _ _ _ _ H2 x1); try assumption; [apply (W (x1, y, i1))|apply (W (x1, y, i2))]; assumption.
    + intros x1 i1 Q1 A1. apply (W (x1, y, i1)) in Q1; [|exact A1]. destruct (u_west _ _ _ _ _ H2 x1 i1 Q1 A1) as [(j & Ij & R)|St].
      * left. exists j. split; [apply in_app_iff; now left|exact R].
      * right. intros x' i' Q' A'. apply (W (x', y, i')) in Q'; [|exact A']. now apply St.
    + intros k Hk. destruct (u_ns _ _ _ _ _ H2 k Hk) as (B1 & B2). split; [|exact B2]. rewrite count_app.
      pose proof (count_nonneg k (dv src) [(x, y, i)]). unfold triple in *. lia.
    + exact (u_two _ _ _ _ _ H2).
    + intros r Hr. rewrite zlen_snoc. pose proof (u_prv _ _ _ _ _ H2 r Hr). unfold triple in *. lia.
Qed.

Lemma J_step : forall pre t post st, O = pre ++ t :: post -> J pre st ->
  exists st', sweepOne chf (fst (fst t)) (snd (fst t)) st (snd t) = Ok st' /\ J (pre ++ [t]) st'.
Proof.
  intros pre t post st EO HJ. pose proof (row_in _ _ _ EO) as Ht. pose proof (row_range _ Ht) as Ri.
  destruct st as [[[src sweeps] prv] rid]. unfold sweepOne.
  destruct (get_in_range (chf_spans chf) (snd t)) as [s Gs]; [rewrite (ok_spans _ wf); lia|]. rewrite Gs. cbn [bind].
  rewrite (area_get chf wf) by exact Ri. cbn [bind]. change nullArea with 0. destruct (Z.eqb_spec (A (snd t)) 0) as [HA|HA].
  { eexists. split; [reflexivity|]. eapply J_null; eassumption. }
  destruct (stage1_spec _ _ _ _ _ _ _ _ EO HJ Gs HA) as (v & p & sweeps1 & rid1 & -> & E1 & H1). cbn [bind]. rewrite E1. cbn [bind].
  pose proof (j_len _ _ HJ) as L. pose proof (j_sw _ _ HJ) as LS. pose proof (j_prv _ _ HJ) as LP. pose proof (j_rid _ _ HJ) as R1. pose proof (rid_bound _ _ HJ) as RB. cbn [fst snd] in L, LS, LP, R1, RB.
  destruct (stage1_p pre (fst (fst t)) (snd t) src sweeps rid p sweeps1 rid1 LS ltac:(lia) H1) as (Hp & Hr & LS1 & HpN).
  destruct (north_spec _ _ _ _ _ _ _ _ p sweeps1 prv EO HJ Gs HA LS1 LP ltac:(lia)) as (sweeps2 & prv2 & E2 & HN). rewrite E2. cbn [bind].
  rewrite (set_in_range src) by lia. cbn [bind]. eexists. split; [reflexivity|].
  destruct t as [[x y'] i]. cbn [fst snd] in *. apply in_row in Ht. destruct Ht as (Hsp & -> & Hx).
  pose proof (pre_notin _ _ _ EO) as NI. cbn [snd] in NI.
  set (f' := dv (upd src (Z.to_nat i) p)).
  assert (RP : forall t, In t pre -> 0 <= snd t < N) by (intros t Q; apply row_range; eapply row_pre; eassumption).
  assert (Fo' : forall k, In k (map snd pre) -> f' k = dv src k).
  { intros k Q. unfold f'. assert (0 <= k < N) by (apply in_map_iff in Q; destruct Q as (t & <- & Q); now apply RP). rewrite dv_upd by lia.
    destruct (Z.eqb_spec k i) as [->|]; [contradiction|reflexivity]. }
  assert (Fo : forall t, In t pre -> f' (snd t) = dv src (snd t)) by (intros t Q; apply Fo'; now apply in_map).
  assert (Fi : f' i = p) by (unfold f'; rewrite dv_upd by lia; now rewrite Z.eqb_refl).
  assert (Mono : forall a b, conn (fun k => In k (map snd pre)) (dv src) a b -> conn (fun k => In k (map snd (pre ++ [(x, y, i)]))) f' a b).
  { intros a b. apply conn_mono; [intros k Hk; rewrite map_app; apply in_app_iff; now left|]. intros k l Hk Hl E. now rewrite !Fo'. }
  assert (In_new : In i (map snd (pre ++ [(x, y, i)]))) by (rewrite map_app; apply in_app_iff; right; now left).
  assert (CN : forall t', In t' pre -> A (snd t') <> 0 -> dv src (snd t') = p -> conn (fun k => In k (map snd (pre ++ [(x, y, i)]))) f' i (snd t')).
  { intros t' Q Qa E. pose proof (j_in1 _ _ HJ t' Q Qa) as B. cbn [fst snd] in B.
    destruct H1 as [(-> & _)|(Hp' & _ & _ & j & Ij & Lj & Aj & Vj)]; [lia|].
    apply rst_trans with (y := j).
    - apply rst_step. split; [exact In_new|]. split; [rewrite map_app; apply in_app_iff; left; apply in_map_iff; exists (x - 1, y, j); auto|].
      split; [split; [congruence|exists x, y, 0%nat, (x - 1), y; repeat split; (lia || apply Hsp || apply Lj)]|]. pose proof (Fo _ Ij) as e. cbn [snd] in e. congruence.
    - apply Mono. apply (j_conn _ _ HJ (x - 1, y, j) t' Ij Q); cbn [fst snd]; congruence. }
  constructor; cbn [fst snd]; fold f'.
  - now rewrite zlen_upd.
  - destruct HN; rewrite ?zlen_upd; exact LS1.
  - destruct HN; rewrite ?zlen_upd; exact LP.
  - lia.
  - intros j Hj Nj. rewrite map_app in Nj. unfold f'. rewrite dv_upd by lia. destruct (Z.eqb_spec j i) as [->|].
    + exfalso. apply Nj. apply in_app_iff. right. now left.
    + apply (j_out _ _ HJ j Hj). intros Q. apply Nj. apply in_app_iff. now left.
  - intros t Q Qa. apply in_app_iff in Q. destruct Q as [Q|[<-|[]]]; [|contradiction]. rewrite Fo by exact Q. exact (j_in0 _ _ HJ t Q Qa).
  - intros t Q Qa. apply in_app_iff in Q. destruct Q as [Q|[<-|[]]]; [|cbn [snd]; rewrite Fi; lia]. rewrite Fo by exact Q. pose proof (j_in1 _ _ HJ t Q Qa) as B. cbn [fst snd] in B. lia.
  - intros t t' Q Q' Qa Qa' E. apply in_app_iff in Q, Q'. destruct Q as [Q|[<-|[]]], Q' as [Q'|[<-|[]]].
    + apply Mono. apply (j_conn _ _ HJ t t' Q Q' Qa Qa'). cbn [fst snd]. rewrite !Fo in E by assumption. exact E.
    + cbn [snd] in *. apply rst_sym. apply (CN t Q Qa). rewrite <- (Fo t Q). congruence.
    + cbn [snd] in *. apply (CN t' Q' Qa'). rewrite <- (Fo t' Q'). congruence.
    + apply rst_refl.
  - assert (OLD : forall k, 1 <= k < rid1 -> let nei := sw_nei (sw sweeps1 k) in nei = 0 \/ nei = 65535 \/
      (1 <= nei < id /\ exists i0 j, In i0 (map snd (pre ++ [(x, y, i)])) /\ A i0 <> 0 /\ f' i0 = k /\ adjA i0 j /\ dv src0 j = nei)).
    { intros k Hk. cbv zeta. destruct (Z_lt_ge_dec k rid) as [Q|Q].
      - rewrite (sweeps1_old _ _ _ _ _ _ _ _ _ k LS R1 H1) by lia. destruct (j_nei _ _ HJ k ltac:(cbn [snd]; lia)) as [B|[B|(B & i1 & j1 & I1 & I2 & I3 & R)]]; [now left|right; now left|].
        right. right. split; [exact B|]. exists i1, j1. split; [rewrite map_app; apply in_app_iff; now left|]. split; [exact I2|]. split; [rewrite Fo' by exact I1; exact I3|exact R].
      - destruct (sweeps1_new _ _ _ _ _ _ _ _ _ k LS R1 H1 ltac:(lia)) as (_ & -> & _). now left. }
    intros k Hk. destruct HN as [|nr j Hj Ej Rn Hn|].
    + exact (OLD k Hk).
    + rewrite vn_upd by lia. destruct (Z.eqb_spec k p) as [->|Nk]; [|exact (OLD k Hk)]. cbn [sw_nei]. right. right. split; [exact Rn|]. exists i, j. auto.
    + rewrite vn_upd by lia. destruct (Z.eqb_spec k p) as [->|Nk]; [|exact (OLD k Hk)]. cbn [sw_nei]. right. now left.
  - destruct (j_starts _ _ HJ) as (SL & S1 & S2 & S3). cbn [snd] in S2.
    destruct H1 as [(-> & -> & _ & _ & St & _)|(_ & -> & _ & _)].
    + exists (i :: SL). split; [constructor; [|exact S1]; intros Q; apply S3 in Q; destruct Q as [Q _]; contradiction|].
      split; [rewrite zlen_cons; lia|]. intros k [<-|Hk]; [split; [exact In_new|eauto]|]. destruct (S3 k Hk) as [Q1 Q2].
      split; [rewrite map_app; apply in_app_iff; now left|exact Q2].
    + exists SL. split; [exact S1|]. split; [exact S2|]. intros k Hk. destruct (S3 k Hk) as [Q1 Q2].
      split; [rewrite map_app; apply in_app_iff; now left|exact Q2].
  - intros HM Hw. exact (J2_step _ _ _ _ _ _ _ _ _ _ _ _ _ EO HM Hw HJ (j_uniq _ _ HJ HM Hw) HA H1 HN).
Qed.

Lemma J_row : forall sweeps, zlen sweeps = NS -> 1 <= NS -> exists st,
  eachSpan chf (rowCells chf bs y) (sweepOne chf) (src0, sweeps, repeat 0 (Z.to_nat (u16 (id + 1))), 1) = Ok st /\ J O st.
Proof.
  intros sweeps LS HNS. rewrite eachSpan_order by (exact wf || exact rowCells_sub).
  apply foldM_inv.
  - rewrite u16_id by (unfold is_u16; lia). constructor; cbn [fst snd]; try (intros; contradiction); try assumption; try lia.
    + unfold zlen. rewrite repeat_length. lia.
    + exists []. split; [constructor|]. split; [reflexivity|]. intros i [].
    + intros _ _. constructor; try (intros; contradiction || lia).
      intros r Hr. change (@zlen triple []) with 0. unfold dv. destruct (Nat.lt_ge_cases (Z.to_nat r) (Z.to_nat (id + 1))); [rewrite nth_repeat; lia|rewrite nth_overflow by (rewrite repeat_length; lia); lia].
  - intros pre t post st EO HJ. exact (J_step pre t post st EO HJ).
Qed.

(** * Region ids of a row *)
Lemma conn_class : forall (P : Z -> Prop) f i j, conn P f i j -> conn (fun k => P k /\ f k = f i) f i j.
Proof.
  intros P f i j H. induction H as [a b (H1 & H2 & H3 & H4)|a|a b H IH|a b c H1 IH1 H2 IH2].
  - apply rst_step. repeat split; auto; apply H3.
  - apply rst_refl.
  - apply rst_sym. destruct (conn_len _ _ _ _ H) as [->|E]; [apply rst_refl|]. eapply conn_mono; [| |exact IH]; [|auto].
    intros k [Q1 Q2]. split; congruence.
  - destruct (conn_len _ _ _ _ H1) as [->|E]; [exact IH2|]. eapply rst_trans; [exact IH1|]. eapply conn_mono; [| |exact IH2]; [|auto].
    intros k [Q1 Q2]. split; congruence.
Qed.

Definition ids (rid : Z) (sw1 : list sweepSpan) (prv : list Z) (pre : list Z) (st : list sweepSpan * Z) : Prop :=
  zlen (fst st) = NS /\ id <= snd st <= id + zlen pre /\
  (forall k, 0 <= k -> sw_nei (sw (fst st) k) = sw_nei (sw sw1 k) /\ sw_ns (sw (fst st) k) = sw_ns (sw sw1 k)) /\
  (forall k, In k pre -> (sw_id (sw (fst st) k) = sw_nei (sw sw1 k) /\ real (sw_nei (sw sw1 k)) /\ dv prv (sw_nei (sw sw1 k)) = sw_ns (sw sw1 k)) \/ id <= sw_id (sw (fst st) k) < snd st) /\
  (forall k k', In k pre -> In k' pre -> k <> k' -> sw_id (sw (fst st) k) = sw_id (sw (fst st) k') -> sw_id (sw (fst st) k) < id).

Lemma unique_row : forall src1 sw1 prv rid, J O (src1, sw1, prv, rid) ->
  exists st, foldM (uniqueOne prv) (krange 1 (rid - 1)) (sw1, id) = Ok st /\ ids rid sw1 prv (krange 1 (rid - 1)) st.
Proof.
  intros src1 sw1 prv rid HJ. pose proof (rid_bound _ _ HJ) as RB. pose proof (j_rid _ _ HJ) as R1. pose proof (j_sw _ _ HJ) as LS. pose proof (j_prv _ _ HJ) as LP. cbn [fst snd] in *.
  apply foldM_inv.
  - split; [exact LS|]. cbn [fst snd]. change (zlen (@nil Z)) with 0. split; [lia|]. split; [auto|]. split; [intros k []|intros k k' []].
  - intros pre k post [sweeps cur] EO (I1 & I2 & I3 & I4 & I5). cbn [fst snd] in *.
    assert (Hk : 1 <= k < rid) by (assert (In k (krange 1 (rid - 1))) as Q by (rewrite EO; apply in_app_iff; right; now left); apply in_krange in Q; lia).
    assert (LPk : zlen pre < rid - 1).
    { assert (zlen (krange 1 (rid - 1)) = rid - 1) as Q by (unfold krange, zlen; rewrite map_length, zseq_length; lia). rewrite EO, zlen_app, zlen_cons in Q. pose proof (zlen_nonneg post). lia. }
    assert (NIk : ~ In k pre).
    { pose proof (NoDup_krange 1 (rid - 1)) as ND. rewrite EO in ND. apply NoDup_remove_2 in ND. intros Q. apply ND. apply in_app_iff. now left. }
    assert (POS : forall k', In k' pre -> 1 <= k') by (intros k' Q; assert (In k' (krange 1 (rid - 1))) as Q' by (rewrite EO; apply in_app_iff; now left); apply in_krange in Q'; lia).
    unfold uniqueOne. rewrite (get_vn sw0 sweeps k) by lia. cbn [bind]. destruct (I3 k ltac:(lia)) as [N1 N2]. rewrite N1, N2.
    set (nei := sw_nei (sw sw1 k)) in *. change nullNei with 65535.
    assert (HC : exists b, (if negb (nei =? 65535) && negb (nei =? 0) then let* p := get prv nei in Ok (p =? sw_ns (sw sw1 k)) else Ok false) = Ok b /\
       (b = true -> real nei /\ dv prv nei = sw_ns (sw sw1 k))).
    { destruct (Z.eqb_spec nei 65535) as [Q|Q]; [exists false; split; [reflexivity|discriminate]|].
      destruct (Z.eqb_spec nei 0) as [Q'|Q']; [exists false; split; [reflexivity|discriminate]|]. cbn [negb andb].
      destruct (j_nei _ _ HJ k ltac:(cbn [snd]; lia)) as [B|[B|[B _]]]; [contradiction|contradiction|]. cbn [fst snd] in B. fold nei in B.
      rewrite (get_dv prv) by lia. cbn [bind]. exists (dv prv nei =? sw_ns (sw sw1 k)). split; [reflexivity|]. intros E. apply Z.eqb_eq in E. split; [split; assumption|exact E]. }
    destruct HC as (b & -> & HB). cbn [bind]. destruct b.
    + destruct (HB eq_refl) as [Rn En]. rewrite set_in_range by lia. cbn [bind]. eexists. split; [reflexivity|]. unfold ids. cbn [fst snd]. rewrite zlen_snoc.
      split; [now rewrite zlen_upd|]. split; [lia|]. split; [|split].
      * intros k' Hk'. rewrite vn_upd by lia. destruct (Z.eqb_spec k' k) as [->|]; [cbn [sw_nei sw_ns]; auto|]. now apply I3.
      * intros k' Q. apply in_app_iff in Q. destruct Q as [Q|[<-|[]]].
        -- pose proof (POS k' Q). rewrite vn_upd by lia. destruct (Z.eqb_spec k' k) as [->|]; [contradiction|]. now apply I4.
        -- rewrite vn_upd by lia. rewrite Z.eqb_refl. cbn [sw_id]. left. auto.
      * intros k1 k2 Q1 Q2 Nk. assert (P1 : 1 <= k1) by (apply in_app_iff in Q1; destruct Q1 as [Q1|[<-|[]]]; [auto|lia]).
        assert (P2 : 1 <= k2) by (apply in_app_iff in Q2; destruct Q2 as [Q2|[<-|[]]]; [auto|lia]).
        assert (Lk : nei < id) by (destruct (j_nei _ _ HJ k ltac:(cbn [snd]; lia)) as [B|[B|[B _]]]; cbn [fst snd] in B; fold nei in B; destruct Rn; [contradiction|contradiction|lia]).
        rewrite !vn_upd by lia. apply in_app_iff in Q1, Q2. destruct (Z.eqb_spec k1 k) as [->|D1], (Z.eqb_spec k2 k) as [->|D2]; cbn [sw_id]; try lia.
        destruct Q1 as [Q1|[Q1|[]]]; [|congruence]. destruct Q2 as [Q2|[Q2|[]]]; [|congruence]. now apply I5.
    + rewrite set_in_range by lia. cbn [bind]. eexists. split; [reflexivity|]. unfold ids. cbn [fst snd]. rewrite zlen_snoc. rewrite u16_id by (unfold is_u16; lia).
      split; [now rewrite zlen_upd|]. split; [lia|]. split; [|split].
      * intros k' Hk'. rewrite vn_upd by lia. destruct (Z.eqb_spec k' k) as [->|]; [cbn [sw_nei sw_ns]; auto|]. now apply I3.
      * intros k' Q. apply in_app_iff in Q. destruct Q as [Q|[<-|[]]].
        -- pose proof (POS k' Q). rewrite vn_upd by lia. destruct (Z.eqb_spec k' k) as [->|]; [contradiction|]. destruct (I4 k' Q) as [B|B]; [left; exact B|right; lia].
        -- rewrite vn_upd by lia. rewrite Z.eqb_refl. cbn [sw_id]. right. lia.
      * assert (NEW : forall k', In k' pre -> sw_id (sw sweeps k') = cur -> cur < id).
        { intros k' Q E. destruct (I4 k' Q) as [(B & Rn & _)|B]; [|lia].
          assert (In k' (krange 1 (rid - 1))) as Q' by (rewrite EO; apply in_app_iff; now left). apply in_krange in Q'.
          destruct (j_nei _ _ HJ k' ltac:(cbn [snd]; lia)) as [B'|[B'|[B' _]]]; cbn [fst snd] in B'; destruct Rn; [contradiction|contradiction|lia]. }
        intros k1 k2 Q1 Q2 Nk. assert (P1 : 1 <= k1) by (apply in_app_iff in Q1; destruct Q1 as [Q1|[<-|[]]]; [auto|lia]).
        assert (P2 : 1 <= k2) by (apply in_app_iff in Q2; destruct Q2 as [Q2|[<-|[]]]; [auto|lia]).
        rewrite !vn_upd by lia. apply in_app_iff in Q1, Q2. destruct (Z.eqb_spec k1 k) as [->|D1], (Z.eqb_spec k2 k) as [->|D2]; cbn [sw_id]; try lia.
        -- intros E. destruct Q2 as [Q2|[Q2|[]]]; [|congruence]. apply (NEW k2 Q2). congruence.
        -- intros E. destruct Q1 as [Q1|[Q1|[]]]; [|congruence]. rewrite E. apply (NEW k1 Q1). congruence.
        -- destruct Q1 as [Q1|[Q1|[]]]; [|congruence]. destruct Q2 as [Q2|[Q2|[]]]; [|congruence]. now apply I5.
Qed.

Lemma remap_row : forall src1 sw1 prv rid sw2, J O (src1, sw1, prv, rid) -> zlen sw2 = NS ->
  exists src2, eachSpan chf (rowCells chf bs y) (fun _ _ => remapOne sw2 rid) src1 = Ok src2 /\ zlen src2 = N /\
    (forall t, In t O -> dv src2 (snd t) = if A (snd t) =? 0 then 0 else sw_id (sw sw2 (dv src1 (snd t)))) /\
    (forall j, 0 <= j -> ~ In j (map snd O) -> dv src2 j = dv src0 j).
Proof.
  intros src1 sw1 prv rid sw2 HJ LS2. rewrite eachSpan_order by (exact wf || exact rowCells_sub).
  pose proof (rid_bound _ _ HJ) as RB. pose proof (j_len _ _ HJ) as L. cbn [fst snd] in *.
  destruct (pointwise chf (fun d (t : triple) => remapOne sw2 rid d (snd t)) (fun t v => if (0 <? v) && (v <? rid) then sw_id (sw sw2 v) else v) O) with (d0 := src1) as (d & E & Ld & V1 & V2).
  - exact row_nodup.
  - exact row_range.
  - intros d t Ht Ld. pose proof (row_range t Ht) as R. unfold remapOne. rewrite (get_dv d) by lia. cbn [bind].
    destruct ((0 <? dv d (snd t)) && (dv d (snd t) <? rid)) eqn:B; [|now rewrite upd_same by lia].
    apply andb_true_iff in B. destruct B as [B1 B2]. apply Z.ltb_lt in B1, B2. rewrite (get_vn sw0 sw2) by lia. cbn [bind]. apply set_in_range. lia.
  - exact L.
  - exists d. split; [exact E|]. split; [exact Ld|]. split.
    + intros t Ht. rewrite (V1 t Ht). destruct (Z.eqb_spec (A (snd t)) 0) as [HA|HA].
      * pose proof (j_in0 _ _ HJ t Ht HA) as Q. cbn [fst snd] in Q. rewrite Q. reflexivity.
      * pose proof (j_in1 _ _ HJ t Ht HA) as Q. cbn [fst snd] in Q. rewrite (proj2 (Z.ltb_lt 0 _)), (proj2 (Z.ltb_lt _ rid)) by lia. reflexivity.
    + intros j Hj Nj. rewrite (V2 j Hj Nj). exact (j_out _ _ HJ j Hj Nj).
Qed.

(** Spans of a region other than 0. *)
Definition inreg (f : Z -> Z) (k : Z) : Prop := 0 <= k < N /\ 1 <= f k.
Hypothesis C0 : forall i j, inreg (dv src0) i -> inreg (dv src0) j -> dv src0 i = dv src0 j -> dv src0 i < 32768 -> conn (inreg (dv src0)) (dv src0) i j.
Hypothesis E0 : mutual_x chf -> w <= 65535 -> forall x y' i j, span_at chf x y' i -> span_at chf x y' j -> 1 <= dv src0 i < 32768 -> dv src0 i = dv src0 j -> i = j.

Lemma row_done : forall sweeps, zlen sweeps = NS -> 1 <= NS -> exists src2 sw2 id2 SL,
  sweepRow chf bs (src0, sweeps, id) y = Ok (src2, sw2, id2) /\ zlen src2 = N /\ zlen sw2 = NS /\
  NoDup SL /\ (forall i, In i SL -> exists x, run_start chf bs x y i) /\ id <= id2 <= id + zlen SL /\ zlen SL <= M /\
  (forall x' y' i, span_at chf x' y' i -> ~ (y' = y /\ interior chf bs x' y') -> dv src2 i = dv src0 i) /\
  (forall x i, span_at chf x y i -> interior chf bs x y -> A i = 0 -> dv src2 i = 0) /\
  (forall x i, span_at chf x y i -> interior chf bs x y -> A i <> 0 -> 1 <= dv src2 i < id2) /\
  (id2 <= 32767 -> forall i j, inreg (dv src2) i -> inreg (dv src2) j -> dv src2 i = dv src2 j -> dv src2 i < 32768 -> conn (inreg (dv src2)) (dv src2) i j) /\
  (id2 <= 32767 -> mutual_x chf -> w <= 65535 -> forall x y' i j, span_at chf x y' i -> span_at chf x y' j -> 1 <= dv src2 i < 32768 -> dv src2 i = dv src2 j -> i = j).
Proof.
  intros sweeps LS HNS. unfold sweepRow.
  destruct (J_row sweeps LS HNS) as ([[[src1 sw1] prv] rid] & -> & HJ). cbn [bind].
  destruct (unique_row _ _ _ _ HJ) as ([sw2 id2] & -> & (I1 & I2 & I3 & I4 & I5)). cbn [bind fst snd] in *.
  destruct (remap_row _ _ _ _ sw2 HJ I1) as (src2 & -> & L2 & V1 & V2). cbn [bind].
  destruct (j_starts _ _ HJ) as (SL & S1 & S2 & S3). cbn [snd] in S2.
  pose proof (rid_bound _ _ HJ) as RB. pose proof (j_rid _ _ HJ) as R1. cbn [snd] in RB, R1.
  assert (LK : zlen (krange 1 (rid - 1)) = rid - 1) by (unfold krange, zlen; rewrite map_length, zseq_length; lia). rewrite LK in I2.
  assert (INR : forall x' y' i, span_at chf x' y' i -> In i (map snd O) -> y' = y /\ interior chf bs x' y').
  { intros x' y' i Hs Q. apply in_map_iff in Q. destruct Q as ([[x1 y1] i1] & E & Q). cbn in E. subst i1. apply in_row in Q. destruct Q as (Q1 & -> & Q2).
    destruct (ok_unique _ wf _ _ _ _ _ Hs Q1) as [<- <-]. split; [reflexivity|split; lia]. }
  assert (ROW : forall x i, span_at chf x y i -> interior chf bs x y -> In (x, y, i) O) by (intros x i Hs [HI _]; apply in_row; auto).
  assert (ROWD : forall i, In i (map snd O) \/ ~ In i (map snd O)) by (intros i; destruct (in_dec Z.eq_dec i (map snd O)); auto).
  assert (NEI : forall k, 1 <= k < rid -> real (sw_nei (sw sw1 k)) -> 1 <= sw_nei (sw sw1 k) < id /\
     exists i j, In i (map snd O) /\ A i <> 0 /\ dv src1 i = k /\ adjA i j /\ dv src0 j = sw_nei (sw sw1 k)).
  { intros k Hk [Q1 Q2]. destruct (j_nei _ _ HJ k Hk) as [B|[B|B]]; cbn [fst snd] in B; [contradiction|contradiction|exact B]. }
  assert (KR : forall k, 1 <= k < rid -> In k (krange 1 (rid - 1))) by (intros k Hk; apply in_krange; lia).
  assert (RW : forall i, In i (map snd O) -> A i <> 0 -> 1 <= dv src1 i < rid /\ dv src2 i = sw_id (sw sw2 (dv src1 i)) /\ 1 <= dv src2 i < id2).
  { intros i Q HA. apply in_map_iff in Q. destruct Q as (t & <- & Q). pose proof (j_in1 _ _ HJ t Q HA) as B. cbn [fst snd] in B. split; [exact B|].
    rewrite (V1 t Q). destruct (Z.eqb_spec (A (snd t)) 0); [contradiction|]. split; [reflexivity|].
    destruct (I4 _ (KR _ B)) as [(E & Rn & _)|E]; [|lia]. rewrite E. destruct (NEI _ B Rn). lia. }
  assert (RZ : forall i, In i (map snd O) -> A i = 0 -> dv src2 i = 0).
  { intros i Q HA. apply in_map_iff in Q. destruct Q as (t & <- & Q). rewrite (V1 t Q), HA. reflexivity. }
  assert (ROWR : forall i, In i (map snd O) -> 0 <= i < N) by (intros i Q; apply in_map_iff in Q; destruct Q as (t & <- & Q); now apply row_range).
  assert (ROW0 : forall i, In i (map snd O) -> dv src0 i = 0).
  { intros i Q. apply in_map_iff in Q. destruct Q as ([[x1 y1] i1] & <- & Q). apply in_row in Q. destruct Q as (Q1 & -> & Q2). apply (U0 _ _ _ Q1); [split; lia|lia]. }
  exists src2, sw2, id2, SL. split; [reflexivity|]. split; [exact L2|]. split; [exact I1|]. split; [exact S1|].
  split; [intros i Hi; now apply S3|]. split; [lia|]. split; [apply starts_bound; [exact S1|intros i Hi; now apply S3]|].
  split; [|split; [|split; [|split]]].
  - intros x' y' i Hs Hn. apply V2; [apply (ok_at _ wf _ _ _ Hs)|]. intros Q. apply Hn. exact (INR _ _ _ Hs Q).
  - intros x i Hs HI HA. apply RZ; [|exact HA]. apply in_map_iff. exists (x, y, i). split; [reflexivity|]. now apply ROW.
  - intros x i Hs HI HA. apply RW; [|exact HA]. apply in_map_iff. exists (x, y, i). split; [reflexivity|]. now apply ROW.
  - intros Hid2.
    assert (OLD : forall a b, conn (inreg (dv src0)) (dv src0) a b -> conn (inreg (dv src2)) (dv src2) a b).
    { assert (K : forall k, inreg (dv src0) k -> dv src2 k = dv src0 k).
      { intros k [Q1 Q2]. apply V2; [lia|]. intros Q. rewrite (ROW0 k Q) in Q2. lia. }
      intros a b. apply conn_mono; [intros k Q; split; [apply Q|rewrite (K k Q); apply Q]|]. intros k l Q1 Q2 E. now rewrite !K. }
    assert (NEW : forall a b, In a (map snd O) -> A a <> 0 -> In b (map snd O) -> A b <> 0 -> dv src1 a = dv src1 b -> conn (inreg (dv src2)) (dv src2) a b).
    { intros a b Qa Aa Qb Ab E. destruct (RW a Qa Aa) as (Ra & _).
      assert (conn (fun i => In i (map snd O)) (dv src1) a b) as Q.
      { apply in_map_iff in Qa, Qb. destruct Qa as (ta & <- & Qa), Qb as (tb & <- & Qb). exact (j_conn _ _ HJ ta tb Qa Qb Aa Ab E). }
      apply conn_class in Q. assert (W : forall k, In k (map snd O) /\ dv src1 k = dv src1 a -> A k <> 0).
      { intros k [Qk Ek] Zk. apply in_map_iff in Qk. destruct Qk as (t & <- & Qk). pose proof (j_in0 _ _ HJ t Qk Zk) as V. cbn [fst snd] in V. lia. }
      revert Q. apply conn_mono.
      - intros k Qk. destruct (RW k (proj1 Qk) (W k Qk)) as (_ & _ & B). split; [apply ROWR, Qk|lia].
      - intros k l Qk Ql _. destruct (RW k (proj1 Qk) (W k Qk)) as (_ & Ek & _). destruct (RW l (proj1 Ql) (W l Ql)) as (_ & El & _). rewrite Ek, El. f_equal. f_equal. destruct Qk as [_ ->], Ql as [_ ->]. reflexivity. }
    assert (HOOK : forall a, In a (map snd O) -> A a <> 0 -> dv src2 a < id -> exists b, inreg (dv src0) b /\ dv src0 b = dv src2 a /\ conn (inreg (dv src2)) (dv src2) a b).
    { intros a Qa Aa La. destruct (RW a Qa Aa) as (Ra & Ea & Ba). destruct (I4 _ (KR _ Ra)) as [(E & Rn & _)|E]; [|lia].
      destruct (NEI _ Ra Rn) as (Bn & i1 & j1 & Q1 & A1 & F1 & AD & F2).
      assert (IJ : inreg (dv src0) j1).
      { destruct AD as (_ & x1 & y1 & d & x2 & y2 & Hs & Hd & HL). split; [|lia].
        destruct HL as (Ex & s & c & Gs & Gc & Gcell & ->). destruct (ok_link _ wf _ _ _ _ _ Hs Hd Gs Gc) as (x3 & y3 & j3 & HL3 & Hj3).
        destruct HL3 as (Ex3 & s3 & c3 & Gs3 & _ & Gc3 & ->). rewrite Gs in Gs3. apply Ok_inj in Gs3. subst s3. rewrite <- Ex in Ex3. injection Ex3 as -> ->. rewrite Gcell in Gc3. apply Ok_inj in Gc3. subst c3.
        exact (ok_at _ wf _ _ _ Hj3). }
      assert (V2j : dv src2 j1 = dv src0 j1) by (apply V2; [apply IJ|intros Q; rewrite (ROW0 _ Q) in F2; lia]).
      exists j1. split; [exact IJ|]. split; [congruence|]. apply rst_trans with (y := i1); [apply NEW; try assumption; congruence|].
      destruct (RW i1 Q1 A1) as (_ & E1 & B1). apply rst_step. split; [split; [now apply ROWR|lia]|]. split; [split; [apply IJ|lia]|]. split; [exact AD|].
      rewrite E1, F1, V2j, F2. exact E. }
    intros a b [Ra Fa] [Rb Fb] E Lr.
    assert (RNZ : forall i, In i (map snd O) -> 1 <= dv src2 i -> A i <> 0) by (intros i Q F Z; rewrite (RZ i Q Z) in F; lia).
    destruct (ROWD a) as [Qa|Qa], (ROWD b) as [Qb|Qb].
    + pose proof (RNZ a Qa Fa) as Aa. pose proof (RNZ b Qb Fb) as Ab. destruct (RW a Qa Aa) as (Sa & Ea & Ba). destruct (RW b Qb Ab) as (Sb & Eb & Bb).
      destruct (Z.eq_dec (dv src1 a) (dv src1 b)) as [Ek|Nk]; [now apply NEW|].
      assert (dv src2 a < id) as La by (rewrite Ea; apply (I5 _ _ (KR _ Sa) (KR _ Sb) Nk); congruence).
      destruct (HOOK a Qa Aa La) as (a' & Ia & Fa' & Ca). destruct (HOOK b Qb Ab ltac:(lia)) as (b' & Ib & Fb' & Cb).
      eapply rst_trans; [exact Ca|]. eapply rst_trans; [|apply rst_sym; exact Cb]. apply OLD, C0; try assumption; lia.
    + pose proof (RNZ a Qa Fa) as Aa. destruct (RW a Qa Aa) as (Sa & Ea & Ba). pose proof (V2 b ltac:(lia) Qb) as Vb.
      assert (Ib : inreg (dv src0) b) by (split; [exact Rb|lia]).
      assert (La : dv src2 a < id).
      { rewrite E, Vb. destruct (ok_cover _ wf b Rb) as (x1 & y1 & Hs). destruct (Z.eq_dec (A b) 0) as [Zb|Zb]; [rewrite (Z0 _ _ _ Hs Zb) in Vb; lia|].
        destruct (Z_lt_ge_dec y1 y) as [Q|Q].
        - assert (interior chf bs x1 y1 \/ ~ interior chf bs x1 y1) as [HI|HI] by (unfold interior; lia).
          + apply (D0 _ _ _ Hs Zb HI Q).
          + pose proof (B0 _ _ _ Hs Zb HI). lia.
        - assert (interior chf bs x1 y1 \/ ~ interior chf bs x1 y1) as [HI|HI] by (unfold interior; lia).
          + rewrite (U0 _ _ _ Hs HI ltac:(lia)) in Vb. lia.
          + pose proof (B0 _ _ _ Hs Zb HI). lia. }
      destruct (HOOK a Qa Aa La) as (a' & Ia & Fa' & Ca). eapply rst_trans; [exact Ca|]. apply OLD, C0; try assumption; lia.
    + pose proof (RNZ b Qb Fb) as Ab. destruct (RW b Qb Ab) as (Sb & Eb & Bb). pose proof (V2 a ltac:(lia) Qa) as Va.
      assert (Ia : inreg (dv src0) a) by (split; [exact Ra|lia]).
      assert (Lb : dv src2 b < id).
      { rewrite <- E, Va. destruct (ok_cover _ wf a Ra) as (x1 & y1 & Hs). destruct (Z.eq_dec (A a) 0) as [Zb|Zb]; [rewrite (Z0 _ _ _ Hs Zb) in Va; lia|].
        destruct (Z_lt_ge_dec y1 y) as [Q|Q].
        - assert (interior chf bs x1 y1 \/ ~ interior chf bs x1 y1) as [HI|HI] by (unfold interior; lia).
          + apply (D0 _ _ _ Hs Zb HI Q).
          + pose proof (B0 _ _ _ Hs Zb HI). lia.
        - assert (interior chf bs x1 y1 \/ ~ interior chf bs x1 y1) as [HI|HI] by (unfold interior; lia).
          + rewrite (U0 _ _ _ Hs HI ltac:(lia)) in Va. lia.
          + pose proof (B0 _ _ _ Hs Zb HI). lia. }
      destruct (HOOK b Qb Ab Lb) as (b' & Ib & Fb' & Cb). eapply rst_trans; [|apply rst_sym; exact Cb]. apply OLD, C0; try assumption; lia.
    + pose proof (V2 a ltac:(lia) Qa) as Va. pose proof (V2 b ltac:(lia) Qb) as Vb. apply OLD, C0; try (split; [assumption|lia]); lia.
  - intros Hid2 HM Hw x y' i j Hi Hj Fi E.
    destruct (ROWD i) as [Qi|Qi].
    + destruct (INR _ _ _ Hi Qi) as [-> HI]. pose proof (ROW _ _ Hj HI) as Oj. pose proof (ROW _ _ Hi HI) as Oi.
      assert (Qj : In j (map snd O)) by (apply in_map_iff; exists (x, y, j); auto).
      assert (Ai : A i <> 0) by (intros Q; rewrite (RZ i Qi Q) in Fi; lia). assert (Aj : A j <> 0) by (intros Q; rewrite (RZ j Qj Q) in E; lia).
      destruct (RW i Qi Ai) as (Ri & Ei & Bi). destruct (RW j Qj Aj) as (Rj & Ej & Bj).
      pose proof (j_uniq _ _ HJ HM Hw) as H2. cbn [fst snd] in H2.
      destruct (Z.eq_dec (dv src1 i) (dv src1 j)) as [Ek|Nk]; [apply (u_cell _ _ _ _ _ H2 x); assumption|]. exfalso.
      assert (Li : dv src2 i < id) by (rewrite Ei; apply (I5 _ _ (KR _ Ri) (KR _ Rj) Nk); congruence).
      destruct (I4 _ (KR _ Ri)) as [(E1 & Rn1 & P1)|E1]; [|lia]. destruct (I4 _ (KR _ Rj)) as [(E2 & Rn2 & P2)|E2]; [|lia].
      assert (EN : sw_nei (sw sw1 (dv src1 i)) = sw_nei (sw sw1 (dv src1 j))) by congruence.
      pose proof (u_two _ _ _ _ _ H2 _ _ Ri Rj Nk Rn1 EN) as T. destruct (u_ns _ _ _ _ _ H2 _ Rj) as (_ & _ & T2). specialize (T2 Rn2). rewrite P1 in T. lia.
    + assert (Qj : ~ In j (map snd O)).
      { intros Q. apply Qi. destruct (INR _ _ _ Hj Q) as [-> HI]. apply in_map_iff. exists (x, y, i). split; [reflexivity|]. now apply ROW. }
      pose proof (V2 i (proj1 (ok_at _ wf _ _ _ Hi)) Qi) as Vi. pose proof (V2 j (proj1 (ok_at _ wf _ _ _ Hj)) Qj) as Vj.
      apply (E0 HM Hw x y'); try assumption; lia.
Qed.
End Row.
