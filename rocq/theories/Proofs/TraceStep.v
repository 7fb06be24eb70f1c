(** Steps of the walk around a region (C69). *)
From Coq Require Import ZArith List Bool Lia Arith.
From Verif.Base Require Import Res GoNum Bits Grid.
From Verif.Model Require Import Heightfield Dirs Compact Erode Region Contour.
From Verif.Spec Require Import HeightfieldSpec CompactSpec ErodeSpec RegionSpec TraceSpec.
From Verif.Proofs Require Import ErodeProofs ErodeDist RegionBase.
Import ListNotations.
Open Scope Z_scope.

Lemma region_fun : forall chf i r r', has_region chf i r -> has_region chf i r' -> r = r'.
Proof. intros chf i r r' (s & E & <-) (s' & E' & <-). rewrite E in E'. apply Ok_inj in E'. now subst. Qed.
Lemma same_region_sym : forall chf i j, same_region chf i j -> same_region chf j i.
Proof. intros chf i j (r & A & B). exists r. auto. Qed.
Lemma same_region_trans : forall chf i j k, same_region chf i j -> same_region chf j k -> same_region chf i k.
Proof. intros chf i j k (r & A & B) (r' & C & D). rewrite (region_fun _ _ _ _ C B) in D. exists r. auto. Qed.
Lemma proper_same : forall chf i j, proper_region chf i -> same_region chf i j -> proper_region chf j.
Proof. intros chf i j (r & A & B) (r' & C & D). rewrite (region_fun _ _ _ _ C A) in D. exists r. auto. Qed.

Lemma Edge_eq : forall e, mkEdge (eX e) (eY e) (eI e) (eD e) = e.
Proof. now intros []. Qed.
Definition turned (e : Edge) (k : nat) : Edge := mkEdge (eX e) (eY e) (eI e) (Nat.modulo (eD e + k) 4).
Lemma mod4 : forall d, (Nat.modulo d 4 < 4)%nat.
Proof. intros. apply Nat.mod_upper_bound. lia. Qed.
Lemma land3_mod : forall d, Z.land (Z.of_nat d) 3 = Z.of_nat (Nat.modulo d 4).
Proof. intros d. change 3 with (Z.ones 2). rewrite Z.land_ones by lia. change (2 ^ 2) with 4. now rewrite Nat2Z.inj_mod. Qed.

(** ** Positions *)
Lemma turned_from : forall e, (eD e < 4)%nat -> edge_from (turned e 1) = edge_to e.
Proof. intros [x y i d] H. cbn [eD] in H. destruct d as [|[|[|[|d]]]]; try lia; reflexivity. Qed.
Lemma linked_from : forall chf d x y i x' y' j, (d < 4)%nat -> linked chf d x y i x' y' j ->
  edge_from (mkEdge x' y' j (Nat.modulo (d + 3) 4)) = edge_from (mkEdge x y i d).
Proof.
  intros chf d x y i x' y' j H (E & _). injection E as -> ->. unfold edge_from. cbn [eX eY eD].
  destruct d as [|[|[|[|d]]]]; try lia; cbn [Nat.modulo Nat.divmod Nat.add Nat.sub fst snd dir_step]; f_equal; lia.
Qed.
Lemma turn_facts : forall chf x y i d e, (d < 4)%nat -> proper_region chf i -> turn chf x y i d e ->
  edge_from e = edge_from (mkEdge x y i d) /\ same_region chf i (eI e) /\ outline chf e.
Proof.
  intros chf x y i d e H P T. revert H P. induction T as [x y i d O|x y i d x' y' j e L S T IH]; intros H P.
  - split; [reflexivity|]. split; [|exact O]. destruct P as (r & A & _). exists r. auto.
  - destruct IH as (A & B & C); [apply mod4|eapply proper_same; eauto|]. split; [|split; [eapply same_region_trans; eauto|exact C]].
    rewrite A. eapply linked_from; eauto.
Qed.
Lemma edge_next_facts : forall chf e e', outline chf e -> edge_next chf e e' ->
  edge_to e = edge_from e' /\ same_region chf (eI e) (eI e') /\ outline chf e'.
Proof.
  intros chf e e' (_ & D & P & _) T. apply turn_facts in T; [|apply mod4|exact P]. destruct T as (A & B & C).
  split; [|split; assumption]. rewrite A. symmetry. now apply turned_from.
Qed.
Lemma edge_moves : forall e, edge_to e <> edge_from e.
Proof. intros [x y i d] E. unfold edge_to, edge_from in E. cbn [eX eY eD] in E. destruct d as [|[|[|d]]]; injection E; lia. Qed.

Section CHF.
Variable chf : CompactHeightfield.
Hypothesis wf : chf_wf chf.
Hypothesis mut : mutual chf.
Hypothesis R16 : regions16 chf.
Notation N := (chf_spanCount chf).
Notation linked := (linked chf).
Notation span_at := (span_at chf).
Notation outline := (outline chf).

Definition valid (e : Edge) : Prop := span_at (eX e) (eY e) (eI e) /\ (eD e < 4)%nat /\ proper_region chf (eI e).
Lemma outline_valid : forall e, outline e -> valid e.
Proof. intros e (A & B & C & _). repeat split; try apply A; assumption. Qed.

Lemma linked_at : forall d x y i x' y' j, span_at x y i -> (d < 4)%nat -> linked d x y i x' y' j -> span_at x' y' j.
Proof.
  intros d x y i x' y' j H D L. pose proof L as (_ & s & c & S & NC & _). destruct (ok_link _ wf x y i d s H D S NC) as (a & b & k & L' & A).
  destruct (linked_fun chf _ _ _ _ _ _ _ _ _ _ L L') as (-> & -> & ->). exact A.
Qed.
Lemma span_range : forall x y i, span_at x y i -> 0 <= i < N.
Proof. intros. eapply ok_at; eauto. Qed.
Lemma span_region : forall x y i, span_at x y i -> exists r, has_region chf i r /\ 0 <= r < 65536.
Proof. intros x y i H. destruct (span_get chf wf x y i H) as [s E]. exists (csReg s). assert (has_region chf i (csReg s)) by (exists s; auto). split; [assumption|]. eapply R16; eauto. Qed.

(** Whether there is a neighbour. *)
Lemma link_dec : forall d x y i s, span_at x y i -> (d < 4)%nat -> get (chf_spans chf) i = Ok s ->
  GetCon (csCon s) (Z.of_nat d) = 63 /\ (forall x' y' j, ~ linked d x y i x' y' j) \/
  GetCon (csCon s) (Z.of_nat d) <> 63 /\ exists x' y' j, neighbour chf x y (csCon s) (Z.of_nat d) = Ok (x', y', j) /\ linked d x y i x' y' j /\ span_at x' y' j.
Proof.
  intros d x y i s H D S. destruct (Z.eq_dec (GetCon (csCon s) (Z.of_nat d)) 63) as [E|E]; [left|right].
  - split; [exact E|]. intros x' y' j (_ & s' & c & S' & NC & _). rewrite S in S'. apply Ok_inj in S'. subst. contradiction.
  - split; [exact E|]. eapply neighbour_ok; eauto.
Qed.

(** ** Marking *)
Lemma regionAcross_ok : forall d x y i s, span_at x y i -> (d < 4)%nat -> get (chf_spans chf) i = Ok s ->
  exists r, regionAcross chf x y (csCon s) (Z.of_nat d) = Ok r /\ (csReg s <> 0 -> (r = csReg s <-> goes_on chf x y i d)).
Proof.
  intros d x y i s H D S. unfold regionAcross, notConnected. destruct (link_dec d x y i s H D S) as [[E NL]|(E & x' & y' & j & En & L & A)].
  - rewrite E. exists 0. split; [reflexivity|]. intros R0. split; [congruence|]. intros (x' & y' & j & L & _). destruct (NL _ _ _ L).
  - destruct (Z.eqb_spec (GetCon (csCon s) (Z.of_nat d)) 63) as [Q|_]; [contradiction|]. rewrite En. cbn [bind snd].
    destruct (span_get chf wf _ _ _ A) as [t T]. rewrite T. cbn [bind]. exists (csReg t). split; [reflexivity|]. intros R0. split.
    + intros Q. exists x', y', j. split; [exact L|]. exists (csReg s). split; [exists s; auto|]. rewrite <- Q. exists t; auto.
    + intros (x2 & y2 & j2 & L2 & r & (s' & S' & <-) & (t' & T' & Q)). destruct (linked_fun chf _ _ _ _ _ _ _ _ _ _ L L2) as (_ & _ & <-).
      rewrite S in S'. apply Ok_inj in S'. subst s'. rewrite T in T'. apply Ok_inj in T'. subst t'. exact Q.
Qed.
Lemma goes_dec : forall x y i d, span_at x y i -> (d < 4)%nat -> goes_on chf x y i d \/ ~ goes_on chf x y i d.
Proof.
  intros x y i d H D. destruct (span_get chf wf x y i H) as [s S]. destruct (link_dec d x y i s H D S) as [[E NL]|(E & x' & y' & j & En & L & A)].
  - right. intros (x' & y' & j & L & _). destruct (NL _ _ _ L).
  - destruct (span_region _ _ _ H) as (r & Hr & _). destruct (span_region _ _ _ A) as (q & Hq & _). destruct (Z.eq_dec r q) as [->|NE].
    + left. exists x', y', j. split; [exact L|]. exists q. auto.
    + right. intros (x2 & y2 & j2 & L2 & p & P1 & P2). destruct (linked_fun chf _ _ _ _ _ _ _ _ _ _ L L2) as (_ & _ & <-).
      apply NE. rewrite (region_fun _ _ _ _ Hr P1). symmetry. eapply region_fun; eauto.
Qed.
Lemma proper_dec : forall x y i s, span_at x y i -> get (chf_spans chf) i = Ok s -> (csReg s =? 0) || isBorder (csReg s) = false <-> proper_region chf i.
Proof.
  intros x y i s H S. assert (HR : has_region chf i (csReg s)) by (exists s; auto). pose proof (R16 _ _ HR) as B. split.
  - intros E. exists (csReg s). split; [exact HR|]. apply orb_false_iff in E as [E1 E2]. apply Z.eqb_neq in E1.
    destruct (Z_lt_dec (csReg s) 32768); [lia|]. rewrite isBorder_hi in E2 by lia. discriminate.
  - intros (r & Q & P). rewrite (region_fun _ _ _ _ HR Q). apply orb_false_iff. split; [apply Z.eqb_neq; lia|]. apply isBorder_lo. lia.
Qed.
Lemma outline_dec : forall e, valid e -> outline e \/ ~ outline e /\ goes_on chf (eX e) (eY e) (eI e) (eD e).
Proof.
  intros e (A & B & C). destruct (goes_dec _ _ _ _ A B) as [G|G]; [right|left; repeat split; try apply A; assumption].
  split; [|exact G]. intros (_ & _ & _ & Q). contradiction.
Qed.

(** The marks [G] are those of the outline except for the edges in [vis]. *)
Definition flagged (G : list Z) (vis : list Edge) : Prop :=
  zlen G = N /\ forall x y i, span_at x y i -> 0 <= dv G i < 16 /\
    forall d, (d < 4)%nat -> (Z.testbit (dv G i) (Z.of_nat d) = true <-> outline (mkEdge x y i d) /\ ~ In (mkEdge x y i d) vis).

Lemma four_bits : forall b0 b1 b2 b3 : bool,
  let v (b : bool) k := if b then k else 0 in
  let f := Z.lor (Z.lor (Z.lor (Z.lor 0 (v b0 1)) (v b1 2)) (v b2 4)) (v b3 8) in
  0 <= Z.lxor f 15 < 16 /\ Z.testbit (Z.lxor f 15) 0 = negb b0 /\ Z.testbit (Z.lxor f 15) 1 = negb b1 /\
  Z.testbit (Z.lxor f 15) 2 = negb b2 /\ Z.testbit (Z.lxor f 15) 3 = negb b3.
Proof. intros [] [] [] []; cbn; repeat split; lia. Qed.

Lemma markOne_ok : forall x y i G, span_at x y i -> zlen G = N -> exists f, markOne chf x y G i = Ok (upd G (Z.to_nat i) f) /\
  0 <= f < 16 /\ forall d, (d < 4)%nat -> (Z.testbit f (Z.of_nat d) = true <-> outline (mkEdge x y i d)).
Proof.
  intros x y i G H L. pose proof (span_range _ _ _ H) as R. destruct (span_get chf wf x y i H) as [s S]. unfold markOne. rewrite S. cbn [bind].
  pose proof (proper_dec x y i s H S) as P. destruct ((csReg s =? 0) || isBorder (csReg s)).
  - exists 0. split; [apply set_in_range; lia|]. split; [lia|]. intros d D. rewrite Z.testbit_0_l. split; [discriminate|].
    intros (_ & _ & Q & _). apply P in Q. discriminate.
  - pose proof (proj1 P eq_refl) as Q.
    assert (NZ : csReg s <> 0). { destruct Q as (r & Hr & B). assert (has_region chf i (csReg s)) by (exists s; auto). rewrite <- (region_fun _ _ _ _ Hr H0). lia. }
    assert (RA : forall d, (d < 4)%nat -> exists r, regionAcross chf x y (csCon s) (Z.of_nat d) = Ok r /\ ((r =? csReg s) = false <-> outline (mkEdge x y i d))).
    { intros d D. destruct (regionAcross_ok d x y i s H D S) as (r & E & W). exists r. split; [exact E|]. specialize (W NZ). rewrite Z.eqb_neq, W. unfold TraceSpec.outline. cbn [eX eY eI eD]. tauto. }
    destruct (RA 0%nat) as (r0 & E0 & W0); [lia|]. destruct (RA 1%nat) as (r1 & E1 & W1); [lia|].
    destruct (RA 2%nat) as (r2 & E2 & W2); [lia|]. destruct (RA 3%nat) as (r3 & E3 & W3); [lia|].
    change (Z.of_nat 0) with 0 in E0. change (Z.of_nat 1) with 1 in E1. change (Z.of_nat 2) with 2 in E2. change (Z.of_nat 3) with 3 in E3.
    cbn [foldM]. rewrite E0. cbn [bind]. rewrite E1. cbn [bind]. rewrite E2. cbn [bind]. rewrite E3. cbn [bind].
    destruct (four_bits (r0 =? csReg s) (r1 =? csReg s) (r2 =? csReg s) (r3 =? csReg s)) as (F0 & F1 & F2 & F3 & F4).
    set (f := Z.lxor _ 15) in F0, F1, F2, F3, F4. exists f. split.
    { replace f with (Z.lxor (let r := if r0 =? csReg s then Z.lor 0 (Z.shiftl 1 0) else 0 in
         let r := if r1 =? csReg s then Z.lor r (Z.shiftl 1 1) else r in let r := if r2 =? csReg s then Z.lor r (Z.shiftl 1 2) else r in
         if r3 =? csReg s then Z.lor r (Z.shiftl 1 3) else r) 15); [apply set_in_range; lia|].
      subst f. destruct (r0 =? _), (r1 =? _), (r2 =? _), (r3 =? _); reflexivity. }
    split; [exact F0|]. intros d D. destruct d as [|[|[|[|d]]]]; [| | | |lia]; cbn [Z.of_nat Pos.of_succ_nat Pos.succ].
    + rewrite F1, negb_true_iff. exact W0.
    + rewrite F2, negb_true_iff. exact W1.
    + rewrite F3, negb_true_iff. exact W2.
    + rewrite F4, negb_true_iff. exact W3.
Qed.

Definition AS : list triple := order chf (rectCells 0 (chf_w chf) 0 (chf_h chf)).
Lemma rect_cells : forall xy, In xy (rectCells 0 (chf_w chf) 0 (chf_h chf)) -> In xy (cells (chf_w chf) (chf_h chf)).
Proof. intros [x y] H. apply in_rect in H. apply in_cells. lia. Qed.
Lemma in_O : forall x y i, In (x, y, i) AS <-> span_at x y i.
Proof.
  intros x y i. unfold AS. rewrite in_order_sub by exact rect_cells. split; [tauto|]. intros H. split; [|exact H]. destruct H as (A & B & _). apply in_rect. lia.
Qed.
Lemma O_nodup : NoDup (map snd AS).
Proof. apply order_snd_NoDup; [exact wf|apply NoDup_rect|exact rect_cells]. Qed.

Lemma mark_ok : exists F, markBoundaries chf (repeat 0 (Z.to_nat N)) = Ok F /\ flagged F [].
Proof.
  unfold markBoundaries. rewrite eachSpan_order by (exact wf || exact rect_cells). fold AS.
  destruct (foldM_inv (fun d (t : triple) => markOne chf (fst (fst t)) (snd (fst t)) d (snd t))
    (fun pre G => zlen G = N /\ forall x y i, In (x, y, i) pre -> 0 <= dv G i < 16 /\
      forall d, (d < 4)%nat -> (Z.testbit (dv G i) (Z.of_nat d) = true <-> outline (mkEdge x y i d))) AS (repeat 0 (Z.to_nat N))) as (F & EF & L & H).
  - split; [|intros x y i []]. unfold zlen. rewrite repeat_length. destruct wf. pose proof (zlen_nonneg (chf_spans chf)). lia.
  - intros pre [[x y] i] post G EO (L & H). cbn [fst snd].
    assert (HA : span_at x y i) by (apply in_O; rewrite EO; apply in_elt). pose proof (span_range _ _ _ HA) as R.
    destruct (markOne_ok x y i G HA L) as (f & E & Bf & Hf). exists (upd G (Z.to_nat i) f). split; [exact E|]. split; [now rewrite zlen_upd|].
    intros x' y' i' Q. assert (HA' : span_at x' y' i'). { apply in_O. rewrite EO. apply in_app_iff in Q. apply in_app_iff. destruct Q as [Q|[Q|[]]]; [now left|right; now left]. }
    pose proof (span_range _ _ _ HA') as R'. rewrite dv_upd by lia. destruct (Z.eqb_spec i' i) as [->|NE].
    + destruct (ok_unique _ wf _ _ _ _ _ HA HA') as [-> ->]. auto.
    + apply in_app_iff in Q. destruct Q as [Q|[Q|[]]]; [auto|congruence].
  - exists F. split; [exact EF|]. split; [exact L|]. intros x y i HA. destruct (H x y i (proj2 (in_O _ _ _) HA)) as (B & W). split; [exact B|].
    intros d D. rewrite (W d D). cbn [In]. tauto.
Qed.

(** ** The next state *)
Variable F : list Z.
Hypothesis FF : flagged F [].
Definition bit (e : Edge) : bool := Z.testbit (dv F (eI e)) (Z.of_nat (eD e)).
Lemma bit_outline : forall e, valid e -> (bit e = true <-> outline e).
Proof.
  intros e (A & B & _). destruct FF as (_ & H). destruct (H _ _ _ A) as (_ & W). unfold bit. rewrite (W _ B), Edge_eq. cbn [In]. tauto.
Qed.
Definition nxt (e : Edge) : Edge :=
  if bit e then turned e 1
  else match get (chf_spans chf) (eI e) with
       | Ok s => match neighbour chf (eX e) (eY e) (csCon s) (Z.of_nat (eD e)) with
                 | Ok (x, y, j) => mkEdge x y j (Nat.modulo (eD e + 3) 4)
                 | _ => e
                 end
       | _ => e
       end.
Lemma nxt_edge : forall e, outline e -> nxt e = turned e 1.
Proof. intros e H. unfold nxt. rewrite (proj2 (bit_outline e (outline_valid _ H)) H). reflexivity. Qed.
Lemma nxt_step : forall e, valid e -> ~ outline e -> exists s,
  get (chf_spans chf) (eI e) = Ok s /\ GetCon (csCon s) (Z.of_nat (eD e)) <> 63 /\
  neighbour chf (eX e) (eY e) (csCon s) (Z.of_nat (eD e)) = Ok (eX (nxt e), eY (nxt e), eI (nxt e)) /\
  linked (eD e) (eX e) (eY e) (eI e) (eX (nxt e)) (eY (nxt e)) (eI (nxt e)) /\ span_at (eX (nxt e)) (eY (nxt e)) (eI (nxt e)) /\
  same_region chf (eI e) (eI (nxt e)) /\ eD (nxt e) = Nat.modulo (eD e + 3) 4.
Proof.
  intros e V NO. destruct (outline_dec e V) as [Q|[_ (x' & y' & j' & L & SR)]]; [contradiction|]. pose proof V as (A & B & C).
  destruct (span_get chf wf _ _ _ A) as [s S]. exists s. split; [exact S|].
  destruct (link_dec _ _ _ _ s A B S) as [[_ NL]|(E & x & y & j & En & L' & A')]; [destruct (NL _ _ _ L)|].
  destruct (linked_fun chf _ _ _ _ _ _ _ _ _ _ L L') as (-> & -> & ->).
  assert (X : nxt e = mkEdge x y j (Nat.modulo (eD e + 3) 4)).
  { unfold nxt. destruct (bit e) eqn:Q; [apply bit_outline in Q; [contradiction|exact V]|]. rewrite S, En. reflexivity. }
  rewrite X. cbn [eX eY eI eD]. auto 8.
Qed.
Lemma nxt_valid : forall e, valid e -> valid (nxt e) /\ same_region chf (eI e) (eI (nxt e)).
Proof.
  intros e V. destruct (outline_dec e V) as [Q|[Q _]].
  - rewrite (nxt_edge _ Q). destruct V as (A & B & C). split; [split; [exact A|split; [apply mod4|exact C]]|]. destruct C as (r & C & _). exists r. auto.
  - destruct (nxt_step e V Q) as (s & _ & _ & _ & _ & A' & SR & D). split; [|exact SR]. split; [exact A'|].
    split; [rewrite D; apply mod4|]. eapply proper_same; [apply V|exact SR].
Qed.
Lemma nxt_inj : forall a b, valid a -> valid b -> nxt a = nxt b -> a = b.
Proof.
  assert (M1 : forall d d', (d < 4)%nat -> (d' < 4)%nat -> Nat.modulo (d + 1) 4 = Nat.modulo (d' + 1) 4 -> d = d').
  { intros d d' H H'. destruct d as [|[|[|[|d]]]]; try lia; destruct d' as [|[|[|[|d']]]]; try lia; cbn; intro; congruence || discriminate. }
  assert (M3 : forall d d', (d < 4)%nat -> (d' < 4)%nat -> Nat.modulo (d + 3) 4 = Nat.modulo (d' + 3) 4 -> d = d').
  { intros d d' H H'. destruct d as [|[|[|[|d]]]]; try lia; destruct d' as [|[|[|[|d']]]]; try lia; cbn; intro; congruence || discriminate. }
  assert (M2 : forall d d', (d < 4)%nat -> (d' < 4)%nat -> Nat.modulo (d + 1) 4 = Nat.modulo (d' + 3) 4 -> Nat.modulo (d' + 2) 4 = d).
  { intros d d' H H'. destruct d as [|[|[|[|d]]]]; try lia; destruct d' as [|[|[|[|d']]]]; try lia; cbn; intro; congruence || discriminate. }
  assert (MIX : forall a b, valid a -> valid b -> outline a -> ~ outline b -> nxt a = nxt b -> False).
  { intros a b VA VB OA NB E. destruct (nxt_step b VB NB) as (s & _ & _ & _ & L & A' & SR & D). rewrite <- E, (nxt_edge _ OA) in L, A', SR, D.
    cbn [turned eX eY eI eD] in L, A', SR, D. destruct VA as (SA & DA & _), VB as (SB & DB & _). pose proof (mut _ _ _ _ _ _ _ SB DB L) as L2.
    rewrite (M2 _ _ DA DB D) in L2. destruct OA as (_ & _ & _ & Q). apply Q. exists (eX b), (eY b), (eI b). split; [exact L2|now apply same_region_sym]. }
  intros a b VA VB E. destruct (outline_dec a VA) as [OA|[NA _]], (outline_dec b VB) as [OB|[NB _]].
  - rewrite (nxt_edge _ OA), (nxt_edge _ OB) in E. destruct a as [x y i d], b as [x' y' i' d']. unfold turned in E. cbn [eX eY eI eD] in E. injection E as -> -> -> E.
    f_equal. destruct VA as (_ & DA & _), VB as (_ & DB & _). cbn [eD] in *. auto.
  - destruct (MIX a b); auto.
  - destruct (MIX b a); auto.
  - destruct (nxt_step a VA NA) as (s & _ & _ & _ & L & A' & SR & D). destruct (nxt_step b VB NB) as (t & _ & _ & _ & L2 & _ & _ & D2). rewrite <- E in L2, D2.
    destruct VA as (SA & DA & _), VB as (SB & DB & _). rewrite D in D2. apply M3 in D2; [|assumption..].
    pose proof (mut _ _ _ _ _ _ _ SA DA L) as Q1. pose proof (mut _ _ _ _ _ _ _ SB DB L2) as Q2. rewrite D2 in Q1.
    destruct (linked_fun chf _ _ _ _ _ _ _ _ _ _ Q1 Q2) as (X & Y & I). destruct a as [a1 a2 a3 a4], b as [b1 b2 b3 b4]. cbn [eX eY eI eD] in *. congruence.
Qed.
Lemma nxt_from : forall e, valid e -> edge_from (nxt e) = if bit e then edge_to e else edge_from e.
Proof.
  intros e V. destruct (outline_dec e V) as [Q|[Q _]].
  - rewrite (proj2 (bit_outline e V) Q), (nxt_edge _ Q). apply turned_from, V.
  - destruct (bit e) eqn:B; [apply bit_outline in B; [contradiction|exact V]|].
    destruct (nxt_step e V Q) as (s & _ & _ & _ & L & A' & SR & D). rewrite <- (Edge_eq (nxt e)), D, (linked_from chf _ _ _ _ _ _ _ (proj1 (proj2 V)) L). now rewrite Edge_eq.
Qed.

(** ** Runs *)
Fixpoint run (k : nat) (e : Edge) : list Edge := match k with O => [] | S k => e :: run k (nxt e) end.
Fixpoint it (k : nat) (e : Edge) : Edge := match k with O => e | S k => it k (nxt e) end.
Lemma it_nxt : forall k e, it k (nxt e) = nxt (it k e).
Proof. induction k as [|k IH]; intros e; [reflexivity|]. cbn [it]. apply IH. Qed.
Lemma it_add : forall j k e, it (j + k) e = it k (it j e).
Proof. induction j as [|j IH]; intros k e; [reflexivity|]. cbn [Nat.add it]. apply IH. Qed.
Lemma it_valid : forall k e, valid e -> valid (it k e) /\ same_region chf (eI e) (eI (it k e)).
Proof.
  induction k as [|k IH]; intros e V; cbn [it]; [split; [exact V|]; destruct V as (_ & _ & r & C & _); exists r; auto|].
  destruct (nxt_valid e V) as [V' S]. destruct (IH _ V') as [V2 S2]. split; [exact V2|]. eapply same_region_trans; eauto.
Qed.
Lemma in_run : forall k e a, In a (run k e) <-> exists j, (j < k)%nat /\ a = it j e.
Proof.
  induction k as [|k IH]; intros e a; cbn [run In]; [split; [intros []|intros (j & H & _); lia]|]. rewrite IH. split.
  - intros [<-|(j & H & ->)]; [exists O; split; [lia|reflexivity]|]. exists (S j). split; [lia|reflexivity].
  - intros ([|j] & H & ->); [now left|right]. exists j. split; [lia|reflexivity].
Qed.
Lemma run_length : forall k e, length (run k e) = k.
Proof. induction k as [|k IH]; intros e; cbn [run length]; auto. Qed.
Lemma run_snoc : forall k e, run (S k) e = run k e ++ [it k e].
Proof. induction k as [|k IH]; intros e; [reflexivity|]. change (run (S (S k)) e) with (e :: run (S k) (nxt e)). rewrite IH. reflexivity. Qed.

Lemma return_or_nodup : forall k e, valid e -> (exists p, (0 < p <= k)%nat /\ it p e = e /\ NoDup (run p e)) \/ NoDup (run (S k) e).
Proof.
  assert (dec : forall a b : Edge, {a = b} + {a <> b}). { decide equality; [apply Nat.eq_dec| | |]; apply Z.eq_dec. }
  induction k as [|k IH]; intros e V; [right; cbn [run]; constructor; [intros []|constructor]|].
  destruct (IH e V) as [(p & P & E & ND)|ND]; [left; exists p; split; [lia|auto]|].
  destruct (in_dec dec (it (S k) e) (run (S k) e)) as [I|NI].
  - left. exists (S k). split; [lia|]. split; [|exact ND]. apply in_run in I. destruct I as ([|j] & J & E); [exact E|exfalso].
    cbn [it] in E. rewrite !it_nxt in E. apply nxt_inj in E; [|apply it_valid, V..].
    rewrite run_snoc in ND. apply NoDup_remove_2 in ND. apply ND. rewrite app_nil_r. apply in_run. exists j. split; [lia|exact E].
  - right. rewrite run_snoc. apply NoDup_app_intro; [exact ND|constructor; [intros []|constructor]|]. intros a H [<-|[]]. contradiction.
Qed.

Lemma states_bound : forall r n l, at_most n (fun i => has_region chf i r) -> NoDup l -> (forall e, In e l -> valid e /\ has_region chf (eI e) r) -> zlen l <= 4 * n.
Proof.
  intros r n l AM ND H. set (sp := nodup Z.eq_dec (map eI l)). assert (B : zlen sp <= n).
  { apply AM; [apply NoDup_nodup|]. intros i I. apply nodup_In, in_map_iff in I. destruct I as (e & <- & I). apply H, I. }
  assert (zlen (map (fun e => (eI e, eD e)) l) <= zlen (list_prod sp [0; 1; 2; 3]%nat)) as Q.
  { unfold zlen. apply Nat2Z.inj_le. apply NoDup_incl_length.
    - clear B sp AM. induction l as [|e l IH]; [constructor|]. inversion ND; subst. cbn [map]. constructor; [|apply IH; [assumption|intros; apply H; now right]].
      intros I. apply in_map_iff in I. destruct I as (e' & E & I). apply H2. replace e with e'; [exact I|].
      destruct (H e (or_introl eq_refl)) as ((A & _) & _). destruct (H e' (or_intror I)) as ((A' & _) & _). injection E as E1 E2. rewrite E1 in A'.
      destruct (ok_unique _ wf _ _ _ _ _ A A') as [X Y]. destruct e as [a1 a2 a3 a4], e' as [b1 b2 b3 b4]. cbn [eX eY eI eD] in *. congruence.
    - intros [i d] I. apply in_map_iff in I. destruct I as (e & E & I). injection E as <- <-. apply in_prod.
      + apply nodup_In. now apply in_map.
      + destruct (H e I) as ((_ & D & _) & _). cbn [In]. lia. }
  unfold zlen in *. rewrite map_length, prod_length in Q. cbn [length] in Q. lia.
Qed.
Lemma few_short : forall r, at_most 9999 (fun i => has_region chf i r) -> 0 < r < 32768 -> short_outlines chf r.
Proof.
  intros r AM BR l ND H. assert (zlen l <= 4 * 9999); [|lia]. eapply states_bound; [exact AM|exact ND|]. intros e I. destruct (H e I) as (P & HR). split; [|exact HR]. clear I H.
  assert (span_at (eX e) (eY e) (eI e) /\ (eD e < 4)%nat) as (A & D); [|split; [exact A|split; [exact D|exists r; auto]]]. clear HR ND AM BR r l.
  induction P as [e O|e O|e x' y' j P IH L S].
  - split; apply O.
  - cbn [eX eY eI eD]. split; [apply O|apply Nat.mod_upper_bound; lia].
  - cbn [eX eY eI eD]. split; [eapply linked_at; [apply IH|apply IH|exact L]|apply Nat.mod_upper_bound; lia].
Qed.
Lemma it_passed : forall k e, outline e -> passed chf (it k e).
Proof.
  intros k e O. induction k as [|k IH]; [now apply passed_edge|]. cbn [it]. rewrite it_nxt. pose proof (proj1 (it_valid k e (outline_valid _ O))) as V.
  destruct (bit (it k e)) eqn:B.
  - apply bit_outline in B; [|exact V]. rewrite (nxt_edge _ B). now apply passed_corner.
  - assert (NO : ~ outline (it k e)) by (intro Q; apply bit_outline in Q; [congruence|exact V]).
    destruct (nxt_step _ V NO) as (s & _ & _ & _ & L & _ & SR & D). rewrite <- (Edge_eq (nxt (it k e))), D. eapply passed_turn; eauto.
Qed.
Lemma period : forall r e, outline e -> has_region chf (eI e) r -> short_outlines chf r ->
  exists p, (0 < p <= Z.to_nat 39996)%nat /\ it p e = e /\ NoDup (run p e).
Proof.
  intros r e O Hr AM. pose proof (outline_valid _ O) as V. destruct (return_or_nodup (Z.to_nat 39996) e V) as [H|ND]; [exact H|exfalso].
  pose proof (AM _ ND) as Q. assert (zlen (run (S (Z.to_nat 39996)) e) = 39997) as L by (unfold zlen; rewrite run_length; lia).
  rewrite L in Q. assert (39997 <= 39996); [|lia]. apply Q. intros a I. apply in_run in I. destruct I as (j & _ & ->). destruct (it_valid j e V) as [V' (q & Q1 & Q2)].
  split; [now apply it_passed|]. now rewrite (region_fun _ _ _ _ Hr Q1).
Qed.
Lemma run_back : forall p e a, valid e -> valid a -> (0 < p)%nat -> it p e = e -> In (nxt a) (run p e) -> In a (run p e).
Proof.
  intros p e a V VA P E I. apply in_run in I. destruct I as (j & J & Q). assert (nxt a = nxt (it (j + (p - 1)) e)) as Q2.
  { rewrite <- it_nxt. change (it (j + (p - 1)) (nxt e)) with (it (S (j + (p - 1))) e). replace (S (j + (p - 1))) with (p + j)%nat by lia. now rewrite it_add, E. }
  apply nxt_inj in Q2; [|exact VA|apply it_valid, V]. apply in_run. destruct j as [|j].
  - exists (p - 1)%nat. split; [lia|]. exact Q2.
  - exists j. split; [lia|]. rewrite Q2. replace (S j + (p - 1))%nat with (p + j)%nat by lia. now rewrite it_add, E.
Qed.
Lemma run_fwd : forall p e a, (0 < p)%nat -> it p e = e -> In a (run p e) -> In (nxt a) (run p e).
Proof.
  intros p e a P E I. apply in_run in I. destruct I as (j & J & ->). rewrite <- it_nxt. change (it j (nxt e)) with (it (S j) e). apply in_run.
  destruct (Nat.eq_dec (S j) p) as [->|NE]; [exists O; split; [lia|exact E]|]. exists (S j). split; [lia|reflexivity].
Qed.

(** ** Outlines in runs *)
Lemma turn_run : forall k e, valid e -> outline (it k e) -> exists a l, filter bit (run k e ++ [it k e]) = a :: l /\ turn chf (eX e) (eY e) (eI e) (eD e) a.
Proof.
  assert (TE : forall e, outline e -> turn chf (eX e) (eY e) (eI e) (eD e) e).
  { intros [x y i d] O. now apply turn_edge. }
  induction k as [|k IH]; intros e V H.
  - cbn [it] in H. cbn [run app it filter]. rewrite (proj2 (bit_outline e V) H). exists e, []. split; [reflexivity|auto].
  - cbn [it] in H. cbn [run app it]. cbn [filter]. destruct (bit e) eqn:B.
    + exists e. eexists. split; [reflexivity|]. apply TE. now apply bit_outline.
    + destruct (IH (nxt e) (proj1 (nxt_valid e V)) H) as (a & l & E & T). exists a, l. split; [exact E|].
      assert (NO : ~ outline e) by (intro Q; apply bit_outline in Q; [congruence|exact V]).
      destruct (nxt_step e V NO) as (s & _ & _ & _ & L & _ & SR & D). rewrite D in T. eapply turn_step; eauto.
Qed.
Lemma run_next : forall k e l1 a b l2, valid e -> outline (it k e) -> filter bit (run k e ++ [it k e]) = l1 ++ a :: b :: l2 -> edge_next chf a b.
Proof.
  induction k as [|k IH]; intros e l1 a b l2 V H E.
  - exfalso. apply (f_equal (@length Edge)) in E. cbn [run app it filter] in E. rewrite app_length in E. cbn [length] in E. destruct (bit e); cbn [length] in E; lia.
  - cbn [it] in H. cbn [run app it filter] in E. pose proof (proj1 (nxt_valid e V)) as V'. destruct (bit e) eqn:B.
    + destruct l1 as [|c l1].
      * cbn [app] in E. injection E as <- E. destruct (turn_run k (nxt e) V' H) as (a' & l & E' & T). rewrite E' in E. injection E as <- _.
        apply bit_outline in B; [|exact V]. rewrite (nxt_edge _ B) in T. exact T.
      * cbn [app] in E. injection E as _ E. eapply IH; eauto.
    + eapply IH; eauto.
Qed.
Lemma loop_closed : forall p e, outline e -> (0 < p)%nat -> it p e = e -> closed_outline chf (filter bit (run p e)) /\ exists l, filter bit (run p e) = e :: l.
Proof.
  intros p e H P E. pose proof (outline_valid _ H) as V.
  assert (OL : Forall outline (filter bit (run p e))).
  { apply Forall_forall. intros a I. apply filter_In in I. destruct I as [I B]. apply in_run in I. destruct I as (j & _ & ->). apply bit_outline in B; [exact B|apply it_valid, V]. }
  assert (HD : exists l, filter bit (run p e) = e :: l).
  { destruct p as [|p]; [lia|]. cbn [run filter]. rewrite (proj2 (bit_outline e V) H). eexists. reflexivity. }
  split; [|exact HD]. destruct HD as [l HD]. split; [rewrite HD; discriminate|]. split; [exact OL|]. intros k a b Ha Hb.
  assert (LAST : filter bit (run p e ++ [it p e]) = filter bit (run p e) ++ [e]).
  { rewrite filter_app, E. cbn [filter]. now rewrite (proj2 (bit_outline e V) H). }
  assert (NX : edge_next chf a b).
  { assert (Hk : (k < length (filter bit (run p e)))%nat) by (apply nth_error_Some; congruence).
    apply nth_error_split in Ha. destruct Ha as (l1 & l2 & Ea & Lk). destruct (Nat.eq_dec (k + 1) (length (filter bit (run p e)))) as [Q|Q].
    - rewrite Q, Nat.mod_same in Hb by lia. rewrite HD in Hb. cbn [nth_error] in Hb. injection Hb as <-.
      assert (l2 = []). { rewrite Ea, app_length in Q. cbn [length] in Q. destruct l2; [reflexivity|cbn [length] in Q; lia]. } subst l2.
      apply (run_next p e l1 a e []); [exact V|now rewrite E|]. rewrite LAST, Ea, <- app_assoc. reflexivity.
    - rewrite Nat.mod_small in Hb by lia. rewrite Ea in Hb. rewrite nth_error_app2 in Hb by lia. replace (k + 1 - length l1)%nat with 1%nat in Hb by lia. cbn [nth_error] in Hb.
      destruct l2 as [|c l2]; [discriminate|]. cbn in Hb. injection Hb as ->.
      apply (run_next p e l1 a b (l2 ++ [e])); [exact V|now rewrite E|]. rewrite LAST, Ea, <- app_assoc. reflexivity. }
  split; [exact NX|]. assert (OA : outline a). { rewrite Forall_forall in OL. apply OL. eapply nth_error_In; eauto. }
  destruct (edge_next_facts chf a b OA NX) as (A & B & _). auto.
Qed.

(** ** Every loop has an edge where a walk begins *)
Lemma no_rise : forall (c : Z * Z -> Z) (d0 d2 : nat) k e, valid e ->
  (forall a, valid a -> outline a -> c (edge_to a) = c (edge_from a) \/ eD a = d0 \/ c (edge_to a) < c (edge_from a)) ->
  (forall a, valid a -> outline a -> eD a = d2 -> c (edge_to a) < c (edge_from a)) ->
  (forall a, In a (run k e) -> outline a -> eD a <> d0) ->
  c (edge_from (it k e)) <= c (edge_from e) /\ ((exists a, In a (run k e) /\ outline a /\ eD a = d2) -> c (edge_from (it k e)) < c (edge_from e)).
Proof.
  intros c d0 d2. induction k as [|k IH]; intros e V H1 H2 H3; [cbn [it run]; split; [lia|intros (a & [] & _)]|].
  destruct (IH (nxt e) (proj1 (nxt_valid e V)) H1 H2) as [A B]. { intros a I. apply H3. now right. }
  cbn [it]. pose proof (nxt_from e V) as P. destruct (bit e) eqn:BE.
  - pose proof (proj1 (bit_outline e V) BE) as OE. rewrite P in A, B. assert (c (edge_to e) <= c (edge_from e)) as LE.
    { destruct (H1 e V OE) as [Q|[Q|Q]]; [lia| |lia]. destruct (H3 e); auto. now left. }
    split; [lia|]. intros (a & [<-|I] & OA & DA).
    + specialize (H2 e V OE DA). lia.
    + assert (c (edge_from (it k (nxt e))) < c (edge_to e)) by (apply B; exists a; auto). lia.
  - rewrite P in A, B. split; [exact A|]. intros (a & [<-|I] & OA & DA).
    + apply bit_outline in OA; [congruence|exact V].
    + apply B. exists a; auto.
Qed.
Lemma has_start : forall p e, outline e -> (0 < p)%nat -> it p e = e ->
  exists a, In a (run p e) /\ outline a /\ forall d, (d < eD a)%nat -> ~ outline (mkEdge (eX a) (eY a) (eI a) d).
Proof.
  intros p e H P E. pose proof (outline_valid _ H) as V.
  assert (IE : In e (run p e)) by (apply in_run; exists O; split; [lia|reflexivity]).
  assert (DD : forall d0, (exists a, In a (run p e) /\ outline a /\ eD a = d0) \/ forall a, In a (run p e) -> outline a -> eD a <> d0).
  { intros d0. destruct (existsb (fun a => bit a && Nat.eqb (eD a) d0) (run p e)) eqn:X.
    - left. apply existsb_exists in X. destruct X as (a & I & X). apply andb_true_iff in X as [X1 X2]. apply Nat.eqb_eq in X2. exists a. split; [exact I|]. split; [|exact X2].
      apply in_run in I. destruct I as (j & _ & ->). apply bit_outline in X1; [exact X1|apply it_valid, V].
    - right. intros a I OA Q. assert (existsb (fun a => bit a && Nat.eqb (eD a) d0) (run p e) = true); [|congruence]. apply existsb_exists. exists a. split; [exact I|].
      rewrite Q, Nat.eqb_refl, andb_true_r. apply bit_outline; [now apply outline_valid|exact OA]. }
  destruct (DD 0%nat) as [(a & I & OA & D0)|N0].
  { exists a. split; [exact I|]. split; [exact OA|]. rewrite D0. intros d Q. lia. }
  assert (CASES : forall a, valid a -> eD a = 0%nat \/ eD a = 1%nat \/ eD a = 2%nat \/ eD a = 3%nat) by (intros a (_ & D & _); lia).
  assert (N2 : forall a, In a (run p e) -> outline a -> eD a <> 2%nat).
  { intros a I OA Q. destruct (no_rise snd 0%nat 2%nat p e V) as [_ X].
    - intros b VB _. unfold edge_to, edge_from. destruct (CASES b VB) as [W|[W|[W|W]]]; rewrite W; cbn [snd]; auto. right. right. lia.
    - intros b VB _ W. unfold edge_to, edge_from. rewrite W. cbn [snd]. lia.
    - exact N0.
    - rewrite E in X. assert (snd (edge_from e) < snd (edge_from e)); [|lia]. apply X. exists a. auto. }
  destruct (DD 1%nat) as [(a & I & OA & D1)|N1].
  - exists a. split; [exact I|]. split; [exact OA|]. rewrite D1. intros d Q. assert (d = 0)%nat by lia. subst d. intros OB.
    apply (N0 (mkEdge (eX a) (eY a) (eI a) 0)); [|exact OB|reflexivity]. apply run_back; auto; [now apply outline_valid|].
    rewrite (nxt_edge _ OB). unfold turned. cbn [eX eY eI eD Nat.add]. change (Nat.modulo 1 4) with 1%nat. rewrite <- D1, Edge_eq. exact I.
  - exfalso. assert (N3 : forall a, In a (run p e) -> outline a -> eD a <> 3%nat).
    { intros a I OA Q. destruct (no_rise fst 1%nat 3%nat p e V) as [_ X].
      - intros b VB _. unfold edge_to, edge_from. destruct (CASES b VB) as [W|[W|[W|W]]]; rewrite W; cbn [fst]; auto. right. right. lia.
      - intros b VB _ W. unfold edge_to, edge_from. rewrite W. cbn [fst]. lia.
      - exact N1.
      - rewrite E in X. assert (fst (edge_from e) < fst (edge_from e)); [|lia]. apply X. exists a. auto. }
    specialize (N0 e IE H). specialize (N1 e IE H). specialize (N2 e IE H). specialize (N3 e IE H). destruct (CASES e V) as [?|[?|[?|?]]]; contradiction.
Qed.
End CHF.
