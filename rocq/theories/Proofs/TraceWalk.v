(** One walk of walkContour2 (C69). *)
From Coq Require Import ZArith List Bool Lia Arith.
From Verif.Base Require Import Res GoNum Bits Grid.
From Verif.Model Require Import Heightfield Dirs Compact Erode Region Contour.
From Verif.Spec Require Import HeightfieldSpec CompactSpec ErodeSpec RegionSpec TraceSpec.
From Verif.Proofs Require Import ErodeProofs ErodeDist RegionBase TraceStep TraceVert.
Import ListNotations.
Open Scope Z_scope.

Section CHF.
Variable chf : CompactHeightfield.
Hypothesis wf : chf_wf chf.
Hypothesis mut : mutual chf.
Hypothesis R16 : regions16 chf.
Hypothesis OA : one_area chf.
Variable F : list Z.
Hypothesis FF : flagged chf F [].
Notation N := (chf_spanCount chf).
Notation outline := (outline chf).
Notation valid := (valid chf).
Notation flagged := (flagged chf).
Notation bit := (bit F).
Notation nxt := (nxt chf F).
Notation run := (run chf F).
Notation it := (it chf F).

Lemma edge_eq_dec : forall a b : Edge, {a = b} + {a <> b}.
Proof. decide equality; [apply Nat.eq_dec| | |]; apply Z.eq_dec. Qed.

Lemma clear_range : forall f d, 0 <= f < 16 -> 0 <= d < 4 -> 0 <= Z.clearbit f d < 16.
Proof.
  intros f d H D. assert (f = 0 \/ f = 1 \/ f = 2 \/ f = 3 \/ f = 4 \/ f = 5 \/ f = 6 \/ f = 7 \/ f = 8 \/ f = 9 \/ f = 10 \/ f = 11 \/ f = 12 \/ f = 13 \/ f = 14 \/ f = 15) as C by lia.
  assert (d = 0 \/ d = 1 \/ d = 2 \/ d = 3) as C' by lia.
  repeat (destruct C as [->|C]); try subst f; repeat (destruct C' as [->|C']); try subst d; cbn; lia.
Qed.
Lemma flagged_clear : forall G vis e, flagged G vis -> outline e ->
  flagged (upd G (Z.to_nat (eI e)) (Z.clearbit (dv G (eI e)) (Z.of_nat (eD e)))) (vis ++ [e]).
Proof.
  intros G vis e (L & H) O. pose proof (outline_valid _ _ O) as (A & D & _). pose proof (span_range chf wf _ _ _ A) as R.
  split; [now rewrite zlen_upd|]. intros x y i S. pose proof (span_range chf wf _ _ _ S) as R'. rewrite dv_upd by lia.
  destruct (H x y i S) as (B & W). destruct (Z.eqb_spec i (eI e)) as [->|NE].
  - split; [apply clear_range; [exact B|lia]|]. intros d Hd. destruct (ok_unique _ wf _ _ _ _ _ S A) as [-> ->].
    rewrite in_app_iff. cbn [In]. destruct (Nat.eq_dec d (eD e)) as [->|ND].
    + rewrite Z.clearbit_eq. rewrite Edge_eq. split; [discriminate|]. intros (_ & Q). destruct Q. auto.
    + rewrite Z.clearbit_neq by lia. rewrite (W d Hd). split; [intros (X & Y)|intros (X & Y)]; (split; [exact X|]); intros Q; apply Y; [|auto].
      destruct Q as [Q|[Q|[]]]; [exact Q|]. destruct ND. rewrite <- (Edge_eq e) in Q. now injection Q.
  - split; [exact B|]. intros d Hd. rewrite (W d Hd), in_app_iff. cbn [In]. split; intros (X & Y); (split; [exact X|]); intros Q; apply Y; [|auto].
    destruct Q as [Q|[Q|[]]]; [exact Q|]. destruct NE. rewrite Q. reflexivity.
Qed.
Lemma flagged_pass : forall G vis e, flagged G vis -> ~ outline e -> flagged G (vis ++ [e]).
Proof.
  intros G vis e (L & H) O. split; [exact L|]. intros x y i S. destruct (H x y i S) as (B & W). split; [exact B|]. intros d Hd.
  rewrite (W d Hd), in_app_iff. cbn [In]. split; intros (X & Y); (split; [exact X|]); intros Q; apply Y; [|auto].
  destruct Q as [Q|[Q|[]]]; [exact Q|]. subst e. contradiction.
Qed.
Lemma same_state : forall a b, valid a -> valid b -> (eI a =? eI b) && (Z.of_nat (eD a) =? Z.of_nat (eD b)) = true <-> a = b.
Proof.
  intros a b (A & _) (B & _). rewrite andb_true_iff, !Z.eqb_eq. split; [|intros ->; auto]. intros (E1 & E2). apply Nat2Z.inj in E2.
  rewrite <- E1 in B. destruct (ok_unique _ wf _ _ _ _ _ A B) as [X Y]. destruct a as [a1 a2 a3 a4], b as [b1 b2 b3 b4]. cbn [eX eY eI eD] in *. congruence.
Qed.

Lemma walk_run : forall k n e e0 vis G pts area, flagged G vis -> valid e -> valid e0 -> (forall a, In a (run k e) -> ~ In a vis) -> NoDup (run k e) ->
  it k e = e0 -> (forall j, (0 < j < k)%nat -> it j e <> e0) -> (0 < k <= n)%nat -> get (chf_areas chf) (eI e) = Ok area ->
  exists G' pts', walkLoop n chf area (eI e0) (Z.of_nat (eD e0)) (eX e) (eY e) (eI e) (Z.of_nat (eD e)) G pts = Ok (G', pts ++ pts', Closed) /\
    flagged G' (vis ++ run k e) /\ Forall2 (point_of chf) (filter bit (run k e)) pts'.
Proof.
  induction k as [|k IH]; intros n e e0 vis G pts area FL V V0 NV ND E NE K HA; [lia|]. destruct n as [|n]; [lia|]. cbn [walkLoop].
  pose proof V as (A & D & P). pose proof (span_range chf wf _ _ _ A) as R. pose proof FL as (LG & HG). destruct (HG _ _ _ A) as (BG & WG). specialize (WG _ D). rewrite Edge_eq in WG.
  rewrite get_dv by lia. cbn [bind]. destruct (nxt_valid chf wf R16 F FF e V) as [V' SR].
  assert (HA' : get (chf_areas chf) (eI (nxt e)) = Ok area) by (rewrite <- (OA _ _ P SR); exact HA).
  (* what follows a step *)
  assert (REST : forall G2 pts2, flagged G2 (vis ++ [e]) -> exists G' pts',
    (if (eI e0 =? eI (nxt e)) && (Z.of_nat (eD e0) =? Z.of_nat (eD (nxt e))) then Ok (G2, pts2, Closed)
     else walkLoop n chf area (eI e0) (Z.of_nat (eD e0)) (eX (nxt e)) (eY (nxt e)) (eI (nxt e)) (Z.of_nat (eD (nxt e))) G2 pts2) = Ok (G', pts2 ++ pts', Closed) /\
    flagged G' (vis ++ run (S k) e) /\ Forall2 (point_of chf) (filter bit (run k (nxt e))) pts').
  { intros G2 pts2 FL2. destruct k as [|k].
    - cbn [TraceStep.it] in E. rewrite (proj2 (same_state e0 (nxt e) V0 V') (eq_sym E)). exists G2, []. rewrite app_nil_r. split; [reflexivity|]. split; [exact FL2|constructor].
    - destruct ((eI e0 =? eI (nxt e)) && (Z.of_nat (eD e0) =? Z.of_nat (eD (nxt e)))) eqn:Q.
      { apply same_state in Q; [|assumption..]. destruct (NE 1%nat); [lia|]. symmetry. exact Q. }
      destruct (IH n (nxt e) e0 (vis ++ [e]) G2 pts2 area FL2 V' V0) as (G' & pts' & E' & FL' & F2).
      + intros a I Q'. apply in_app_iff in Q'. destruct Q' as [Q'|[<-|[]]]; [exact (NV a (or_intror I) Q')|]. cbn [TraceStep.run] in ND. apply NoDup_cons_iff in ND. tauto.
      + cbn [TraceStep.run] in ND. apply NoDup_cons_iff in ND. apply ND.
      + exact E.
      + intros j J. apply (NE (S j)). lia.
      + lia.
      + exact HA'.
      + exists G', pts'. rewrite <- app_assoc in FL'. auto. }
  assert (HI : ~ In e vis) by (apply NV; now left). destruct (Z.testbit (dv G (eI e)) (Z.of_nat (eD e))) eqn:TB.
  - assert (OE : outline e) by now apply WG. destruct (edgeVert_ok chf wf R16 e area A D HA) as (v & Ev & Pv). rewrite Ev. cbn [bind].
    rewrite set_in_range by lia. cbn [bind]. replace (Z.of_nat (eD e) + 1) with (Z.of_nat (eD e + 1)) by lia. rewrite land3_mod.
    pose proof (nxt_edge chf F FF _ OE) as NX. destruct (REST _ (pts ++ [v]) (flagged_clear G vis e FL OE)) as (G' & pts' & E' & FL' & F2).
    rewrite NX in E'. cbn [turned eX eY eI eD] in E'. exists G', (v :: pts'). rewrite E'. split; [now rewrite <- app_assoc|]. split; [exact FL'|].
    change (run (S k) e) with (e :: run k (nxt e)). cbn [filter]. rewrite (proj2 (bit_outline chf F FF e V) OE). constructor; assumption.
  - assert (NO : ~ outline e). { intro Q. assert (false = true) by (apply WG; auto). discriminate. }
    destruct (nxt_step chf wf R16 F FF e V NO) as (s & Es & NC & En & L & A' & _ & D'). rewrite Es. cbn [bind]. unfold notConnected.
    destruct (Z.eqb_spec (GetCon (csCon s) (Z.of_nat (eD e))) 63) as [Q|_]; [contradiction|]. rewrite En. cbn [bind].
    pose proof (span_range chf wf _ _ _ A') as R'. destruct (Z.eqb_spec (eI (nxt e)) (-1)) as [Q|_]; [lia|].
    replace (Z.of_nat (eD e) + 3) with (Z.of_nat (eD e + 3)) by lia. rewrite land3_mod, <- D'.
    destruct (REST G pts (flagged_pass G vis e FL NO)) as (G' & pts' & E' & FL' & F2). exists G', pts'. split; [exact E'|]. split; [exact FL'|].
    change (run (S k) e) with (e :: run k (nxt e)). cbn [filter]. destruct (bit e) eqn:Q; [apply (bit_outline chf F FF e V) in Q; contradiction|exact F2].
Qed.

Lemma firstDir_ok : forall f, 0 < f < 16 -> exists d, firstDir [0; 1; 2; 3; 4; 5; 6; 7] f = Ok (Z.of_nat d) /\ (d < 4)%nat /\
  Z.testbit f (Z.of_nat d) = true /\ forall d', (d' < d)%nat -> Z.testbit f (Z.of_nat d') = false.
Proof.
  intros f H. cbn [firstDir]. destruct (Z.testbit f 0) eqn:T0; [exists 0%nat; repeat split; auto; intros; lia|].
  destruct (Z.testbit f 1) eqn:T1; [exists 1%nat; repeat split; auto; intros d' ?; assert (d' = 0)%nat as -> by lia; assumption|].
  destruct (Z.testbit f 2) eqn:T2; [exists 2%nat; repeat split; auto; intros d' ?; assert (d' = 0 \/ d' = 1)%nat as [->| ->] by lia; assumption|].
  destruct (Z.testbit f 3) eqn:T3; [exists 3%nat; repeat split; auto; intros d' ?; assert (d' = 0 \/ d' = 1 \/ d' = 2)%nat as [->|[->| ->]] by lia; assumption|].
  exfalso. assert (f = 0); [|lia]. apply Z.bits_inj'. intros n Hn. rewrite Z.bits_0. destruct (Z_lt_dec n 4).
  - assert (n = 0 \/ n = 1 \/ n = 2 \/ n = 3) as [->|[->|[->| ->]]] by lia; assumption.
  - apply (testbit_high 4); lia.
Qed.

(** The start edge of a walk. *)
Lemma walk_ok : forall x y i G vis r, flagged G vis -> span_at chf x y i -> 0 < dv G i -> has_region chf i r -> short_outlines chf r ->
  (forall a, valid a -> In (nxt a) vis -> In a vis) ->
  exists G' pts p d, walkContour2 x y i chf G = Ok (G', pts, Closed) /\ (d < 4)%nat /\ (0 < p)%nat /\ it p (mkEdge x y i d) = mkEdge x y i d /\
    NoDup (run p (mkEdge x y i d)) /\ (forall a, In a (run p (mkEdge x y i d)) -> ~ In a vis) /\ outline (mkEdge x y i d) /\
    (forall d', (d' < d)%nat -> outline (mkEdge x y i d') -> In (mkEdge x y i d') vis) /\
    flagged G' (vis ++ run p (mkEdge x y i d)) /\ Forall2 (point_of chf) (filter bit (run p (mkEdge x y i d))) pts.
Proof.
  intros x y i G vis r FL A POS HR AM BACK. pose proof (span_range chf wf _ _ _ A) as R. pose proof FL as (LG & HG). destruct (HG _ _ _ A) as (BG & WG).
  destruct (firstDir_ok (dv G i)) as (d & E1 & D & T & TN); [lia|]. destruct (proj1 (WG d D) T) as [OE NI]. set (e := mkEdge x y i d) in *.
  pose proof (outline_valid _ _ OE) as V. destruct (period chf wf mut R16 F FF r e OE HR AM) as (p & P & E & ND).
  assert (NV : forall a, In a (run p e) -> ~ In a vis).
  { assert (B : forall j, In (it j e) vis -> In e vis).
    { induction j as [|j IHj]; intros Q; [exact Q|]. cbn [TraceStep.it] in Q. rewrite it_nxt in Q. apply IHj. apply BACK; [|exact Q]. now apply it_valid. }
    intros a I Q. apply in_run in I. destruct I as (j & _ & ->). exact (NI (B j Q)). }
  destruct (walk_run p (Z.to_nat 39999) e e vis G [] (RegionBase.A chf i)) as (G' & pts & EW & FL' & F2); try assumption; try lia.
  - intros j J Q. pose proof ND as ND'. destruct p as [|p]; [lia|]. cbn [TraceStep.run] in ND'. apply NoDup_cons_iff in ND'. apply (proj1 ND'). apply in_run.
    exists (j - 1)%nat. split; [lia|]. destruct j as [|j]; [lia|]. cbn [Nat.sub]. rewrite Nat.sub_0_r. symmetry. exact Q.
  - apply area_get; assumption.
  - exists G', pts, p, d. split.
    { unfold walkContour2. rewrite get_dv by lia. cbn [bind]. rewrite E1. cbn [bind]. rewrite (area_get chf wf i R). cbn [bind]. exact EW. }
    split; [exact D|]. split; [lia|]. split; [exact E|]. split; [exact ND|]. split; [exact NV|]. split; [exact OE|]. split; [|auto].
    intros d' D' OD. destruct (in_dec edge_eq_dec (mkEdge x y i d') vis) as [Q|Q]; [exact Q|]. exfalso.
    assert (Z.testbit (dv G i) (Z.of_nat d') = true) by (apply WG; [lia|auto]). rewrite TN in H; [discriminate|exact D'].
Qed.

(** ** Spans that are alone *)
Lemma lone_same : forall k e, valid e -> lone chf (eX e) (eY e) (eI e) -> eX (it k e) = eX e /\ eY (it k e) = eY e /\ eI (it k e) = eI e.
Proof.
  induction k as [|k IH]; intros e V LO; [auto|]. cbn [TraceStep.it]. assert (OE : outline e).
  { pose proof V as (A & D & P). split; [exact A|]. split; [exact D|]. split; [exact P|]. apply LO. exact D. }
  pose proof (nxt_edge chf F FF _ OE) as NX. destruct (IH (nxt e)) as (X & Y & I); [now apply nxt_valid|rewrite NX; exact LO|]. rewrite X, Y, I, NX. auto.
Qed.
End CHF.
