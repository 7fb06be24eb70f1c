(** Distances of ErodeWalkableArea (C45). *)
From Coq Require Import ZArith List Bool Lia Sorted.
From Verif.Base Require Import Res GoNum Grid.
From Verif.Model Require Import Heightfield Dirs Compact Erode.
From Verif.Spec Require Import HeightfieldSpec CompactSpec ErodeSpec.
From Verif.Proofs Require Import ErodeProofs.
Import ListNotations.
Open Scope Z_scope.

Lemma dirs_ok : forall d, (d < 4)%nat -> GetDirOffsetX (Z.of_nat d) = Ok (fst (dir_step d)) /\ GetDirOffsetY (Z.of_nat d) = Ok (snd (dir_step d)).
Proof. intros d H. destruct d as [|[|[|[|d]]]]; try lia; split; reflexivity. Qed.

Section CHF.
Variable chf : CompactHeightfield.
Hypothesis wf : chf_wf chf.
Notation w := (chf_w chf).
Notation h := (chf_h chf).
Notation N := (chf_spanCount chf).

Lemma linked_fun : forall d x y i x1 y1 j1 x2 y2 j2, linked chf d x y i x1 y1 j1 -> linked chf d x y i x2 y2 j2 -> x1 = x2 /\ y1 = y2 /\ j1 = j2.
Proof.
  intros d x y i x1 y1 j1 x2 y2 j2 (E1 & s1 & c1 & S1 & _ & C1 & ->) (E2 & s2 & c2 & S2 & _ & C2 & ->).
  injection E1 as -> ->. injection E2 as -> ->. rewrite S1 in S2. apply Ok_inj in S2. subst s2. rewrite C1 in C2. apply Ok_inj in C2. subst c2. auto.
Qed.
Lemma span_get : forall x y i, span_at chf x y i -> exists s, get (chf_spans chf) i = Ok s.
Proof. intros x y i H. apply get_in_range. rewrite (ok_spans _ wf). eapply ok_at; eauto. Qed.

Lemma neighbour_ok : forall d x y i s, span_at chf x y i -> (d < 4)%nat -> get (chf_spans chf) i = Ok s -> GetCon (csCon s) (Z.of_nat d) <> 63 ->
  exists x' y' j, neighbour chf x y (csCon s) (Z.of_nat d) = Ok (x', y', j) /\ linked chf d x y i x' y' j /\ span_at chf x' y' j.
Proof.
  intros d x y i s H Hd Hs Hc. destruct (ok_link _ wf x y i d s H Hd Hs Hc) as (x' & y' & j & HL & HA).
  exists x', y', j. split; [|split; assumption]. destruct HL as (E & s' & c & S' & _ & C & ->). injection E as -> ->.
  rewrite Hs in S'. apply Ok_inj in S'. subst s'.
  unfold neighbour. destruct (dirs_ok d Hd) as [-> ->]. cbn [bind]. unfold cell_at in C. unfold cidx. rewrite C. reflexivity.
Qed.

(** ** Sources of a span *)
Definition srcsDir (con x y : Z) (de : Z * Z) : list (Z * Z) :=
  if GetCon con (fst de) =? notConnected then []
  else match neighbour chf x y con (fst de) with
       | Ok (ax, ay, ai) => (ai, 2) ::
           match get (chf_spans chf) ai with
           | Ok sa => if GetCon (csCon sa) (snd de) =? notConnected then []
                      else match neighbour chf ax ay (csCon sa) (snd de) with Ok m => [(snd m, 3)] | _ => [] end
           | _ => [] end
       | _ => [] end.
Definition zdirs (des : list (nat * nat)) : list (Z * Z) := map (fun de => (Z.of_nat (fst de), Z.of_nat (snd de))) des.
Definition srcs (des : list (nat * nat)) (t : triple) : list (Z * Z) :=
  match get (chf_spans chf) (snd t) with
  | Ok s => flat_map (srcsDir (csCon s) (fst (fst t)) (snd (fst t))) (zdirs des) | _ => [] end.

(** One move from span [i] back to a span [j] of cost [k]. *)
Definition move (des : list (nat * nat)) (x y i x' y' j k : Z) : Prop :=
  exists d e, In (d, e) des /\
    ((k = 2 /\ linked chf d x y i x' y' j) \/ (k = 3 /\ exists x1 y1 a, linked chf d x y i x1 y1 a /\ span_at chf x1 y1 a /\ linked chf e x1 y1 a x' y' j)).
Definition smalls (des : list (nat * nat)) : Prop := forall d e, In (d, e) des -> (d < 4)%nat /\ (e < 4)%nat.

Lemma relaxDir_ok : forall d e x y i s dist, span_at chf x y i -> get (chf_spans chf) i = Ok s -> (d < 4)%nat -> (e < 4)%nat -> zlen dist = N ->
  relaxDir chf x y (csCon s) i dist (Z.of_nat d, Z.of_nat e) = Ok (relaxedL dist i (srcsDir (csCon s) x y (Z.of_nat d, Z.of_nat e))).
Proof.
  intros d e x y i s dist HA Hs Hd He L. unfold relaxDir, srcsDir. cbn [fst snd].
  destruct (Z.eqb_spec (GetCon (csCon s) (Z.of_nat d)) notConnected) as [|N1]; [reflexivity|].
  destruct (neighbour_ok d x y i s HA Hd Hs N1) as (ax & ay & ai & -> & _ & HB). cbn [bind].
  destruct (span_get _ _ _ HB) as [sa Hsa]. rewrite Hsa. cbn [bind].
  assert (0 <= i < N) as Ri by (eapply ok_at; eauto). assert (0 <= ai < N) as Ra by (eapply ok_at; eauto).
  rewrite relax_ok by lia. cbn [bind].
  destruct (Z.eqb_spec (GetCon (csCon sa) (Z.of_nat e)) notConnected) as [|N2]; [reflexivity|].
  destruct (neighbour_ok e ax ay ai sa HB He Hsa N2) as (bx & by_ & bi & -> & _ & HC). cbn [bind snd].
  assert (0 <= bi < N) as Rb by (eapply ok_at; eauto).
  rewrite relax_ok by (rewrite relaxed_len; lia). reflexivity.
Qed.
Lemma relaxedL_len : forall ss d i, zlen (relaxedL d i ss) = zlen d.
Proof. induction ss as [|s ss IH]; intros d i; [reflexivity|]. unfold relaxedL in *. cbn [fold_left]. rewrite IH. apply relaxed_len. Qed.
Lemma distSpan_ok : forall des x y i dist, smalls des -> span_at chf x y i -> zlen dist = N ->
  distSpan chf (zdirs des) x y dist i = Ok (relaxedL dist i (srcs des (x, y, i))).
Proof.
  intros des x y i dist Hsm HA L. unfold distSpan, srcs. cbn [fst snd]. destruct (span_get _ _ _ HA) as [s Hs]. rewrite Hs. cbn [bind].
  revert dist L. unfold zdirs. induction des as [|[d e] des IH]; intros dist L; [reflexivity|]. cbn [map foldM flat_map fst snd].
  destruct (Hsm d e) as [Hd He]; [left; reflexivity|]. rewrite (relaxDir_ok d e x y i s) by assumption. cbn [bind].
  unfold relaxedL at 2. rewrite fold_left_app. apply IH.
  - intros d' e' H. apply Hsm. right. exact H.
  - rewrite relaxedL_len. exact L.
Qed.

Lemma srcs_spec : forall des x y i j k, smalls des -> span_at chf x y i ->
  (In (j, k) (srcs des (x, y, i)) <-> exists x' y', move des x y i x' y' j k /\ span_at chf x' y' j).
Proof.
  intros des x y i j k Hsm HA. unfold srcs. cbn [fst snd]. destruct (span_get _ _ _ HA) as [s Hs]. rewrite Hs. unfold zdirs. rewrite in_flat_map. split.
  - intros (de & H1 & H2). apply in_map_iff in H1. destruct H1 as ([d e] & <- & H1). destruct (Hsm d e H1) as [Hd He]. cbn [fst snd] in H2.
    unfold srcsDir in H2. cbn [fst snd] in H2.
    destruct (Z.eqb_spec (GetCon (csCon s) (Z.of_nat d)) notConnected) as [|N1]; [destruct H2|].
    destruct (neighbour_ok d x y i s HA Hd Hs N1) as (ax & ay & ai & Ea & La & HB). rewrite Ea in H2.
    destruct (span_get _ _ _ HB) as [sa Hsa]. rewrite Hsa in H2. destruct H2 as [H2|H2].
    { injection H2 as <- <-. exists ax, ay. split; [|exact HB]. exists d, e. split; [exact H1|]. left. auto. }
    destruct (Z.eqb_spec (GetCon (csCon sa) (Z.of_nat e)) notConnected) as [|N2]; [destruct H2|].
    destruct (neighbour_ok e ax ay ai sa HB He Hsa N2) as (bx & by_ & bi & Eb & Lb & HC). rewrite Eb in H2. cbn [snd] in H2. destruct H2 as [H2|[]].
    injection H2 as <- <-. exists bx, by_. split; [|exact HC]. exists d, e. split; [exact H1|]. right. split; [reflexivity|]. exists ax, ay, ai. auto.
  - intros (x' & y' & (d & e & H1 & H2) & HB). destruct (Hsm d e H1) as [Hd He]. exists (Z.of_nat d, Z.of_nat e).
    split; [apply in_map_iff; exists (d, e); auto|]. unfold srcsDir. cbn [fst snd].
    assert (forall a b c, linked chf d x y i a b c -> exists x1 y1 a1, GetCon (csCon s) (Z.of_nat d) <> 63 /\ neighbour chf x y (csCon s) (Z.of_nat d) = Ok (x1, y1, a1) /\ a = x1 /\ b = y1 /\ c = a1) as G.
    { intros a b c HL. pose proof HL as (_ & s' & c' & S' & N' & _). rewrite Hs in S'. apply Ok_inj in S'. subst s'.
      destruct (neighbour_ok d x y i s HA Hd Hs N') as (x1 & y1 & a1 & E1 & L1 & _). exists x1, y1, a1. split; [exact N'|]. split; [exact E1|]. eapply linked_fun; eauto. }
    destruct H2 as [[-> HL]|(-> & x1 & y1 & a & HL & HA1 & HL2)].
    + destruct (G _ _ _ HL) as (x1 & y1 & a1 & N1 & E1 & -> & -> & ->). destruct (Z.eqb_spec (GetCon (csCon s) (Z.of_nat d)) notConnected); [contradiction|].
      rewrite E1. left. reflexivity.
    + destruct (G _ _ _ HL) as (x2 & y2 & a2 & N1 & E1 & -> & -> & ->). destruct (Z.eqb_spec (GetCon (csCon s) (Z.of_nat d)) notConnected); [contradiction|].
      rewrite E1. right. pose proof HL2 as (_ & sa & c' & Sa & N2 & _). rewrite Sa. destruct (Z.eqb_spec (GetCon (csCon sa) (Z.of_nat e)) notConnected); [contradiction|].
      destruct (neighbour_ok e x2 y2 a2 sa HA1 He Sa N2) as (x3 & y3 & a3 & -> & L3 & _). cbn [snd]. left. f_equal. symmetry. eapply linked_fun; eauto.
Qed.

(** ** The two distance passes *)
Definition des1 : list (nat * nat) := [(0, 3); (3, 2)]%nat.
Definition des2 : list (nat * nat) := [(2, 1); (1, 0)]%nat.
Lemma smalls1 : smalls des1.
Proof. intros d e [H|[H|[]]]; injection H as <- <-; lia. Qed.
Lemma smalls2 : smalls des2.
Proof. intros d e [H|[H|[]]]; injection H as <- <-; lia. Qed.

Definition pos (xy : Z * Z) : Z := cidx w (fst xy) (snd xy).
Lemma move1_pos : forall x y i x' y' j k, move des1 x y i x' y' j k -> span_at chf x y i -> span_at chf x' y' j -> pos (x', y') < pos (x, y).
Proof.
  intros x y i x' y' j k (d & e & H1 & H2) (Hx & Hy & _) (Hx' & Hy' & _). unfold pos, cidx. cbn [fst snd].
  destruct H1 as [H1|[H1|[]]]; injection H1 as <- <-; (destruct H2 as [[_ (E & _)]|(_ & x1 & y1 & a & (E & _) & _ & (E2 & _))];
    [injection E as -> ->; cbn [dir_step fst snd] in *|injection E as -> ->; injection E2 as -> ->; cbn [dir_step fst snd] in *]); nia.
Qed.
Lemma move2_pos : forall x y i x' y' j k, move des2 x y i x' y' j k -> span_at chf x y i -> span_at chf x' y' j -> pos (x, y) < pos (x', y').
Proof.
  intros x y i x' y' j k (d & e & H1 & H2) (Hx & Hy & _) (Hx' & Hy' & _). unfold pos, cidx. cbn [fst snd].
  destruct H1 as [H1|[H1|[]]]; injection H1 as <- <-; (destruct H2 as [[_ (E & _)]|(_ & x1 & y1 & a & (E & _) & _ & (E2 & _))];
    [injection E as -> ->; cbn [dir_step fst snd] in *|injection E as -> ->; injection E2 as -> ->; cbn [dir_step fst snd] in *]); nia.
Qed.

Lemma zseq_sorted : forall n, StronglySorted Z.lt (zseq n).
Proof.
  intros n. unfold zseq. generalize 0%nat. induction n as [|n IH]; intros a; [constructor|]. cbn [seq map]. constructor; [apply IH|].
  apply Forall_forall. intros z Hz. apply in_map_iff in Hz. destruct Hz as (k & <- & Hk). apply in_seq in Hk. lia.
Qed.
Lemma sorted_map : forall {A} (f : A -> Z) l, StronglySorted Z.lt (map f l) -> StronglySorted (fun a b => f a < f b) l.
Proof.
  induction l as [|a l IH]; intros H; [constructor|]. cbn [map] in H. inversion H; subst. constructor; [apply IH; assumption|].
  apply Forall_forall. intros b Hb. rewrite Forall_forall in H3. apply H3. apply in_map, Hb.
Qed.
Lemma cells_sorted : StronglySorted (fun a b => pos a < pos b) (cells w h).
Proof.
  apply sorted_map. unfold pos. rewrite cells_idx by (apply wf). apply zseq_sorted.
Qed.
Lemma sorted_rev : forall {A} (R : A -> A -> Prop) l, StronglySorted R l -> StronglySorted (fun a b => R b a) (rev l).
Proof.
  induction l as [|a l IH]; intros H; [constructor|]. inversion H; subst. cbn [rev]. specialize (IH H2).
  assert (forall b, In b (rev l) -> R a b) as Q by (intros b Hb; rewrite <- in_rev in Hb; rewrite Forall_forall in H3; auto).
  clear - IH Q. induction (rev l) as [|c k IHk]; [constructor; constructor|]. inversion IH; subst. cbn [app]. constructor.
  - apply IHk; [assumption|]. intros b Hb. apply Q. right. exact Hb.
  - apply Forall_forall. intros b Hb. apply in_app_iff in Hb. rewrite Forall_forall in H2. destruct Hb as [Hb|[<-|[]]]; [apply H2, Hb|]. apply Q. left. reflexivity.
Qed.

Lemma order_idx_NoDup : forall cs, NoDup cs -> (forall xy, In xy cs <-> In xy (cells w h)) -> NoDup (map snd (order chf cs)).
Proof.
  intros cs Hn Hin. pose proof (order_NoDup chf cs Hn) as ND.
  assert (forall t, In t (order chf cs) -> span_at chf (fst (fst t)) (snd (fst t)) (snd t)) as HT by (intros [[x y] i] Ht; cbn; apply (in_order chf cs x y i Hin); exact Ht).
  revert HT. induction ND as [|t l Ht ND IH]; intros HT; [constructor|]. cbn [map]. constructor.
  - intros Q. apply in_map_iff in Q. destruct Q as (t' & E & Q). apply Ht.
    pose proof (HT t (or_introl eq_refl)) as A1. pose proof (HT t' (or_intror Q)) as A2. rewrite E in A2. destruct (ok_unique _ wf _ _ _ _ _ A1 A2) as [Ex Ey].
    destruct t as [[x y] i], t' as [[x' y'] i']. cbn in *. subst. exact Q.
  - apply IH. intros t' Ht'. apply HT. right. exact Ht'.
Qed.

Lemma dist_pass : forall (r : Z * Z -> Z) cs des d0, NoDup cs -> (forall xy, In xy cs <-> In xy (cells w h)) ->
  StronglySorted (fun a b => r a < r b) cs -> smalls des ->
  (forall x y i x' y' j k, move des x y i x' y' j k -> span_at chf x y i -> span_at chf x' y' j -> r (x', y') < r (x, y)) ->
  zlen d0 = N ->
  exists d, overSpans chf cs (distSpan chf (zdirs des)) d0 = Ok d /\ zlen d = N /\
    forall x y i, span_at chf x y i -> dv d i = best (dv d) (dv d0 i) (srcs des (x, y, i)).
Proof.
  intros r cs des d0 Hn Hin Hs Hsm Hr L. rewrite overSpans_order by (try assumption; intros xy; apply Hin).
  destruct (pass_ok chf (srcs des) (fun d t => distSpan chf (zdirs des) (fst (fst t)) (snd (fst t)) d (snd t)) (order chf cs)) with (d0 := d0) as (d & E & Ld & V & _); try assumption.
  - apply order_idx_NoDup; assumption.
  - intros [[x y] i] Ht. apply in_order in Ht; [|assumption]. eapply ok_at; eauto.
  - intros d [[x y] i] Ht Ld. apply in_order in Ht; [|assumption]. apply distSpan_ok; assumption.
  - intros pre [[x y] i] post [j k] E Hj.
    assert (In (x, y, i) (order chf cs)) as Ht by (rewrite E; apply in_app_iff; right; left; reflexivity).
    apply in_order in Ht; [|assumption]. apply srcs_spec in Hj; try assumption. destruct Hj as (x' & y' & HM & HB).
    pose proof (Hr _ _ _ _ _ _ _ HM Ht HB) as R. cbn [fst]. apply in_map_iff. exists (x', y', j). split; [reflexivity|].
    refine (sorted_before _ _ _ _ _ _ (order_sorted chf r cs Hs) E _ _ _).
    + apply in_order; assumption.
    + intros Q. injection Q as -> -> ->. lia.
    + cbn [fst]. lia.
  - exists d. split; [exact E|]. split; [exact Ld|]. intros x y i HA. apply (V (x, y, i)). apply in_order; assumption.
Qed.

(** ** Marking *)
Definition okDir (x y con : Z) (d : nat) : bool :=
  negb (GetCon con (Z.of_nat d) =? notConnected) &&
  match neighbour chf x y con (Z.of_nat d) with Ok n => match get (chf_areas chf) (snd n) with Ok a => negb (a =? nullArea) | _ => false end | _ => false end.
Lemma okDir_spec : forall x y i s d, span_at chf x y i -> get (chf_spans chf) i = Ok s -> (d < 4)%nat ->
  (okDir x y (csCon s) d = true <-> exists x' y' j a, linked chf d x y i x' y' j /\ get (chf_areas chf) j = Ok a /\ a <> 0).
Proof.
  intros x y i s d HA Hs Hd. unfold okDir. destruct (Z.eqb_spec (GetCon (csCon s) (Z.of_nat d)) notConnected) as [E|N1]; cbn [negb andb].
  - split; [discriminate|]. intros (x' & y' & j & a & (_ & s' & c & S' & N' & _) & _). rewrite Hs in S'. apply Ok_inj in S'. subst s'. contradiction.
  - destruct (neighbour_ok d x y i s HA Hd Hs N1) as (x1 & y1 & j1 & -> & L1 & HB). cbn [snd].
    destruct (get_in_range (chf_areas chf) j1) as [a Ha]. { rewrite (ok_areas _ wf). eapply ok_at; eauto. }
    rewrite Ha. split.
    + intros E. exists x1, y1, j1, a. split; [exact L1|]. split; [exact Ha|]. destruct (Z.eqb_spec a nullArea); [discriminate|assumption].
    + intros (x' & y' & j & a' & L' & A' & N'). destruct (linked_fun _ _ _ _ _ _ _ _ _ _ L1 L') as (-> & -> & ->). rewrite A' in Ha. apply Ok_inj in Ha. subst a'.
      destruct (Z.eqb_spec a nullArea); [contradiction|reflexivity].
Qed.
Lemma walkableNeis_ok : forall x y i s, span_at chf x y i -> get (chf_spans chf) i = Ok s ->
  walkableNeis chf x y (csCon s) = Ok (Z.b2z (okDir x y (csCon s) 0) + Z.b2z (okDir x y (csCon s) 1) + Z.b2z (okDir x y (csCon s) 2) + Z.b2z (okDir x y (csCon s) 3)).
Proof.
  intros x y i s HA Hs. unfold walkableNeis. cbn [foldM].
  assert (forall d nc, (d < 4)%nat -> (if GetCon (csCon s) (Z.of_nat d) =? notConnected then Ok nc
      else let* n := neighbour chf x y (csCon s) (Z.of_nat d) in let* a := get (chf_areas chf) (snd n) in Ok (if a =? nullArea then nc else nc + 1)) = Ok (nc + Z.b2z (okDir x y (csCon s) d))) as G.
  { intros d nc Hd. unfold okDir. destruct (Z.eqb_spec (GetCon (csCon s) (Z.of_nat d)) notConnected) as [E|N1]; cbn [negb andb]; [cbn; f_equal; lia|].
    destruct (neighbour_ok d x y i s HA Hd Hs N1) as (x1 & y1 & j1 & -> & L1 & HB). cbn [bind snd].
    destruct (get_in_range (chf_areas chf) j1) as [a Ha]. { rewrite (ok_areas _ wf). eapply ok_at; eauto. }
    rewrite Ha. cbn [bind]. destruct (a =? nullArea); cbn; f_equal; lia. }
  pose proof (fun nc => G 0%nat nc ltac:(lia)) as G0. pose proof (fun nc => G 1%nat nc ltac:(lia)) as G1.
  pose proof (fun nc => G 2%nat nc ltac:(lia)) as G2. pose proof (fun nc => G 3%nat nc ltac:(lia)) as G3. clear G.
  change (Z.of_nat 0) with 0 in G0. change (Z.of_nat 1) with 1 in G1. change (Z.of_nat 2) with 2 in G2. change (Z.of_nat 3) with 3 in G3.
  rewrite G0. cbn [bind]. rewrite G1. cbn [bind]. rewrite G2. cbn [bind]. rewrite G3. reflexivity.
Qed.
Lemma markSpan_ok : forall x y i dist, span_at chf x y i -> zlen dist = N ->
  (border chf x y i /\ markSpan chf x y dist i = Ok (upd dist (Z.to_nat i) 0)) \/ (~ border chf x y i /\ markSpan chf x y dist i = Ok dist).
Proof.
  intros x y i dist HA L. pose proof (ok_at _ wf _ _ _ HA) as Ri. unfold markSpan.
  destruct (get_in_range (chf_areas chf) i) as [a Ha]; [rewrite (ok_areas _ wf); exact Ri|]. rewrite Ha. cbn [bind].
  destruct (Z.eqb_spec a nullArea) as [E|N1].
  { left. split; [left; rewrite Ha, E; reflexivity|]. apply set_in_range. lia. }
  destruct (span_get _ _ _ HA) as [s Hs]. rewrite Hs. cbn [bind]. rewrite (walkableNeis_ok x y i s HA Hs). cbn [bind].
  assert (forall d, (d < 4)%nat -> okDir x y (csCon s) d = false -> border chf x y i) as B.
  { intros d Hd F. right. exists d. split; [exact Hd|]. intros Q. apply (okDir_spec x y i s d HA Hs Hd) in Q. congruence. }
  destruct (okDir x y (csCon s) 0) eqn:E0; [|left; split; [apply (B 0%nat); [lia|exact E0]|destruct (okDir x y (csCon s) 1), (okDir x y (csCon s) 2), (okDir x y (csCon s) 3); cbn; apply set_in_range; lia]].
  destruct (okDir x y (csCon s) 1) eqn:E1; [|left; split; [apply (B 1%nat); [lia|exact E1]|destruct (okDir x y (csCon s) 2), (okDir x y (csCon s) 3); cbn; apply set_in_range; lia]].
  destruct (okDir x y (csCon s) 2) eqn:E2; [|left; split; [apply (B 2%nat); [lia|exact E2]|destruct (okDir x y (csCon s) 3); cbn; apply set_in_range; lia]].
  destruct (okDir x y (csCon s) 3) eqn:E3; [|left; split; [apply (B 3%nat); [lia|exact E3]|cbn; apply set_in_range; lia]].
  right. split; [|reflexivity]. intros [Q|(d & Hd & Q)].
  - rewrite Ha in Q. apply Ok_inj in Q. contradiction.
  - apply Q. apply (okDir_spec x y i s d HA Hs Hd). destruct d as [|[|[|[|d]]]]; try assumption. lia.
Qed.

Lemma mark_pass : exists d, overSpans chf (cells w h) (markSpan chf) (repeat 255 (Z.to_nat N)) = Ok d /\ zlen d = N /\
  forall x y i, span_at chf x y i -> (border chf x y i -> dv d i = 0) /\ (~ border chf x y i -> dv d i = 255).
Proof.
  rewrite overSpans_order by (try assumption; auto).
  assert (0 <= N) as HN by (rewrite <- (ok_spans _ wf); apply zlen_nonneg).
  pose proof (order_idx_NoDup (cells w h) (NoDup_cells w h) (fun xy => iff_refl _)) as ND.
  destruct (foldM_inv (fun d (t : triple) => markSpan chf (fst (fst t)) (snd (fst t)) d (snd t)) (fun pre d => zlen d = N /\
     (forall t, In t pre -> (border chf (fst (fst t)) (snd (fst t)) (snd t) -> dv d (snd t) = 0) /\ (~ border chf (fst (fst t)) (snd (fst t)) (snd t) -> dv d (snd t) = 255)) /\
     (forall j, 0 <= j < N -> ~ In j (map snd pre) -> dv d j = 255)) (order chf (cells w h)) (repeat 255 (Z.to_nat N))) as (d & E & L & V & _).
  - split; [unfold zlen; rewrite repeat_length; lia|]. split; [intros t []|]. intros j Hj _. unfold dv.
    assert (In (nth (Z.to_nat j) (repeat 255 (Z.to_nat N)) 0) (repeat 255 (Z.to_nat N))) as Q by (apply nth_In; rewrite repeat_length; lia).
    apply repeat_spec in Q. exact Q.
  - intros pre [[x y] i] post d E (L & V1 & V2). cbn [fst snd].
    assert (span_at chf x y i) as HA by (apply (in_order chf (cells w h)); [intros; reflexivity|rewrite E; apply in_app_iff; right; left; reflexivity]).
    pose proof (ok_at _ wf _ _ _ HA) as Ri.
    assert (forall j, In j (map snd pre) -> 0 <= j /\ j <> i) as P.
    { intros j Hj. split.
      - apply in_map_iff in Hj. destruct Hj as ([[x' y'] j'] & <- & Hj). cbn [snd].
        assert (span_at chf x' y' j') as HB by (apply (in_order chf (cells w h)); [intros; reflexivity|rewrite E; apply in_app_iff; left; exact Hj]).
        apply (ok_at _ wf _ _ _ HB).
      - intros ->. rewrite E, map_app in ND. cbn [map snd] in ND. apply NoDup_remove_2 in ND. apply ND. apply in_app_iff. left. exact Hj. }
    assert (~ In i (map snd pre)) as NI by (intros Q; destruct (P i Q); congruence).
    destruct (markSpan_ok x y i d HA L) as [[B ->]|[B ->]]; eexists; (split; [reflexivity|]).
    + split; [rewrite zlen_upd; exact L|]. split.
      * intros t Ht. apply in_app_iff in Ht. destruct Ht as [Ht|[<-|[]]].
        -- destruct (P (snd t)) as [P1 P2]; [apply in_map, Ht|]. rewrite dv_upd by lia. destruct (Z.eqb_spec (snd t) i); [contradiction|]. apply V1, Ht.
        -- cbn [fst snd]. rewrite dv_upd by lia. rewrite Z.eqb_refl. split; [reflexivity|contradiction].
      * intros j Hj Nj. rewrite map_app in Nj. rewrite dv_upd by lia. destruct (Z.eqb_spec j i) as [->|].
        -- exfalso. apply Nj. apply in_app_iff. right. left. reflexivity.
        -- apply V2; [exact Hj|]. intros Q. apply Nj. apply in_app_iff. left. exact Q.
    + split; [exact L|]. split.
      * intros t Ht. apply in_app_iff in Ht. destruct Ht as [Ht|[<-|[]]]; [apply V1, Ht|]. cbn [fst snd]. split; [contradiction|]. intros _. apply V2; [lia|exact NI].
      * intros j Hj Nj. apply V2; [exact Hj|]. intros Q. apply Nj. rewrite map_app. apply in_app_iff. left. exact Q.
  - exists d. split; [exact E|]. split; [exact L|]. intros x y i HA. apply (V (x, y, i)). apply (in_order chf (cells w h)); [intros; reflexivity|exact HA].
Qed.

(** ** The whole function, with the distances as they are computed *)
Lemma areas_pass : forall d thr areas, zlen d = N -> zlen areas = N -> 0 <= N ->
  exists areas', foldM (fun areas i => let* d := get d i in if d <? thr then set areas i nullArea else Ok areas) (zseq (Z.to_nat N)) areas = Ok areas' /\
    zlen areas' = N /\ forall i, 0 <= i < N -> get areas' i = if dv d i <? thr then Ok 0 else get areas i.
Proof.
  intros d thr areas Ld La HN.
  destruct (foldM_inv (fun areas i => let* d := get d i in if d <? thr then set areas i nullArea else Ok areas)
    (fun pre ar => zlen ar = N /\ forall i, 0 <= i < N -> get ar i = if (i <? zlen pre) && (dv d i <? thr) then Ok 0 else get areas i) (zseq (Z.to_nat N)) areas) as (ar & E & L & V).
  - split; [exact La|]. intros i Hi. change (zlen []) with 0. destruct (Z.ltb_spec i 0); [lia|]. reflexivity.
  - intros pre i post ar E (L & V). apply zseq_split in E. destruct E as [-> Hi]. unfold zlen in Hi.
    assert (0 <= zlen pre < N) as Ri by (unfold zlen; lia). rewrite (get_dv d) by lia. cbn [bind].
    destruct (Z.ltb_spec (dv d (zlen pre)) thr) as [T|T].
    + rewrite set_in_range by lia. eexists. split; [reflexivity|]. split; [now rewrite zlen_upd|]. intros j Hj. rewrite get_upd by lia. rewrite zlen_snoc.
      destruct (Z.eqb_spec j (zlen pre)) as [->|].
      * destruct (Z.ltb_spec (zlen pre) (zlen ar)); [|lia]. destruct (Z.ltb_spec (zlen pre) (zlen pre + 1)); [|lia]. destruct (Z.ltb_spec (dv d (zlen pre)) thr); [reflexivity|lia].
      * cbn [andb]. rewrite (V j Hj). destruct (Z.ltb_spec j (zlen pre)), (Z.ltb_spec j (zlen pre + 1)); try lia; reflexivity.
    + eexists. split; [reflexivity|]. split; [exact L|]. intros j Hj. rewrite (V j Hj), zlen_snoc.
      destruct (Z.ltb_spec j (zlen pre)), (Z.ltb_spec j (zlen pre + 1)); try lia; try reflexivity. assert (j = zlen pre) as -> by lia.
      destruct (Z.ltb_spec (dv d (zlen pre)) thr); [lia|reflexivity].
  - exists ar. split; [exact E|]. split; [exact L|]. intros i Hi. rewrite (V i Hi). unfold zlen. rewrite zseq_length. destruct (Z.ltb_spec i (Z.of_nat (Z.to_nat N))); [reflexivity|lia].
Qed.

Lemma erode_run : forall radius, exists d0 d1 d2 areas',
  ErodeWalkableArea radius chf = Ok (mkCHF w h N (chf_wh chf) (chf_climb chf) (chf_cells chf) (chf_spans chf) areas') /\
  zlen areas' = N /\
  (forall x y i, span_at chf x y i -> (border chf x y i -> dv d0 i = 0) /\ (~ border chf x y i -> dv d0 i = 255)) /\
  (forall x y i, span_at chf x y i -> dv d1 i = best (dv d1) (dv d0 i) (srcs des1 (x, y, i))) /\
  (forall x y i, span_at chf x y i -> dv d2 i = best (dv d2) (dv d1 i) (srcs des2 (x, y, i))) /\
  (forall i, 0 <= i < N -> get areas' i = if dv d2 i <? u8 (i32 (radius * 2)) then Ok 0 else get (chf_areas chf) i).
Proof.
  intros radius. unfold ErodeWalkableArea. cbv zeta.
  assert (0 <= N) as HN by (rewrite <- (ok_spans _ wf); apply zlen_nonneg).
  destruct mark_pass as (d0 & -> & L0 & V0). cbn [bind].
  destruct (dist_pass pos (cells w h) des1 d0 (NoDup_cells w h) (fun xy => iff_refl _) cells_sorted smalls1 move1_pos L0) as (d1 & E1 & L1 & V1).
  change (zdirs des1) with [(0, 3); (3, 2)] in E1. rewrite E1. cbn [bind].
  destruct (dist_pass (fun p => - pos p) (rev (cells w h)) des2 d1) as (d2 & E2 & L2 & V2); try assumption.
  - apply NoDup_rev, NoDup_cells.
  - intros xy. symmetry. apply in_rev.
  - pose proof (sorted_rev _ _ cells_sorted) as Q. clear - Q. induction Q as [|a l Q IH F]; constructor; [exact IH|]. revert F. apply Forall_impl. intros b. lia.
  - exact smalls2.
  - intros x y i x' y' j k HM HA HB. pose proof (move2_pos _ _ _ _ _ _ _ HM HA HB). lia.
  - change (zdirs des2) with [(2, 1); (1, 0)] in E2. rewrite E2. cbn [bind].
    destruct (areas_pass d2 (u8 (i32 (radius * 2))) (chf_areas chf) L2 (ok_areas _ wf) HN) as (ar & E3 & L3 & V3).
    exists d0, d1, d2, ar. split.
    + match goal with |- context [foldM ?f ?l ?s] => assert (foldM f l s = Ok ar) as -> by exact E3 end. reflexivity.
    + auto.
Qed.

(** ** Without overflow the distances are exact *)
Hypothesis small : w <= 127 \/ h <= 127.
Section Exact.
Variables d0 d1 d2 : list Z.
Hypothesis V0 : forall x y i, span_at chf x y i -> (border chf x y i -> dv d0 i = 0) /\ (~ border chf x y i -> dv d0 i = 255).
Hypothesis V1 : forall x y i, span_at chf x y i -> dv d1 i = best (dv d1) (dv d0 i) (srcs des1 (x, y, i)).
Hypothesis V2 : forall x y i, span_at chf x y i -> dv d2 i = best (dv d2) (dv d1 i) (srcs des2 (x, y, i)).

Lemma border_dec : forall x y i, span_at chf x y i -> border chf x y i \/ ~ border chf x y i.
Proof.
  intros x y i HA. destruct (markSpan_ok x y i (repeat 255 (Z.to_nat N)) HA) as [[B _]|[B _]]; auto.
  unfold zlen. rewrite repeat_length. assert (0 <= N) by (rewrite <- (ok_spans _ wf); apply zlen_nonneg). lia.
Qed.
Lemma inner_linked : forall x y i d, span_at chf x y i -> ~ border chf x y i -> (d < 4)%nat -> exists x' y' j, linked chf d x y i x' y' j /\ span_at chf x' y' j.
Proof.
  intros x y i d HA HB Hd. destruct (span_get _ _ _ HA) as [s Hs].
  destruct (Z.eq_dec (GetCon (csCon s) (Z.of_nat d)) 63) as [E|N1]; [|eapply ok_link; eauto].
  exfalso. apply HB. right. exists d. split; [exact Hd|]. intros (x' & y' & j & a & (_ & s' & c & S' & N' & _) & _). rewrite Hs in S'. apply Ok_inj in S'. subst s'. contradiction.
Qed.

Lemma best_nonneg : forall f ss v, 0 <= v -> 0 <= best f v ss.
Proof. intros f ss v Hv. destruct (best_in f ss v) as [->|(s & _ & ->)]; [exact Hv|]. apply u8_range. Qed.
Lemma d1_nonneg : forall x y i, span_at chf x y i -> 0 <= dv d1 i.
Proof. intros x y i HA. rewrite (V1 x y i HA). apply best_nonneg. destruct (V0 x y i HA) as [B1 B2]. destruct (border_dec x y i HA) as [B|B]; [rewrite B1 by exact B|rewrite B2 by exact B]; lia. Qed.

Lemma d1_bound_x : forall x y i, span_at chf x y i -> x <= 126 -> dv d1 i <= 2 * x.
Proof.
  assert (forall n x y i, Z.of_nat n = x -> span_at chf x y i -> x <= 126 -> dv d1 i <= 2 * x) as G.
  { induction n as [|n IH]; intros x y i En HA Hx; (destruct (border_dec x y i HA) as [B|B];
      [rewrite (V1 x y i HA); destruct (best_le (dv d1) (srcs des1 (x, y, i)) (dv d0 i)) as [Q _]; rewrite (proj1 (V0 x y i HA) B) in *; pose proof (proj1 HA); lia|]).
    - exfalso. destruct (inner_linked x y i 0%nat HA B ltac:(lia)) as (x' & y' & j & (E & _) & (Hx' & _)). injection E as -> ->. cbn in Hx'. lia.
    - destruct (inner_linked x y i 0%nat HA B ltac:(lia)) as (x' & y' & j & HL & HB). pose proof HL as (E & _). injection E as -> ->. cbn [dir_step fst snd] in *.
      specialize (IH (x + -1) (y + 0) j ltac:(lia) HB ltac:(lia)). rewrite (V1 x y i HA).
      destruct (best_le (dv d1) (srcs des1 (x, y, i)) (dv d0 i)) as [_ Q]. specialize (Q (j, 2)). cbn [fst snd] in Q.
      assert (In (j, 2) (srcs des1 (x, y, i))) as HI.
      { apply srcs_spec; [exact smalls1|exact HA|]. exists (x + -1), (y + 0). split; [|exact HB]. exists 0%nat, 3%nat. split; [left; reflexivity|]. left. auto. }
      specialize (Q HI). pose proof (d1_nonneg _ _ _ HB). rewrite u8_id in Q by (unfold is_u8; lia). lia. }
  intros x y i HA Hx. apply (G (Z.to_nat x) x y i); [destruct HA; lia|exact HA|exact Hx].
Qed.
Lemma d1_bound_y : forall x y i, span_at chf x y i -> y <= 126 -> dv d1 i <= 2 * y.
Proof.
  assert (forall n x y i, Z.of_nat n = y -> span_at chf x y i -> y <= 126 -> dv d1 i <= 2 * y) as G.
  { induction n as [|n IH]; intros x y i En HA Hx; (destruct (border_dec x y i HA) as [B|B];
      [rewrite (V1 x y i HA); destruct (best_le (dv d1) (srcs des1 (x, y, i)) (dv d0 i)) as [Q _]; rewrite (proj1 (V0 x y i HA) B) in *; lia|]).
    - exfalso. destruct (inner_linked x y i 3%nat HA B ltac:(lia)) as (x' & y' & j & (E & _) & (_ & Hy' & _)). injection E as -> ->. cbn in Hy'. lia.
    - destruct (inner_linked x y i 3%nat HA B ltac:(lia)) as (x' & y' & j & HL & HB). pose proof HL as (E & _). injection E as -> ->. cbn [dir_step fst snd] in *.
      specialize (IH (x + 0) (y + -1) j ltac:(lia) HB ltac:(lia)). rewrite (V1 x y i HA).
      destruct (best_le (dv d1) (srcs des1 (x, y, i)) (dv d0 i)) as [_ Q]. specialize (Q (j, 2)). cbn [fst snd] in Q.
      assert (In (j, 2) (srcs des1 (x, y, i))) as HI.
      { apply srcs_spec; [exact smalls1|exact HA|]. exists (x + 0), (y + -1). split; [|exact HB]. exists 3%nat, 2%nat. split; [right; left; reflexivity|]. left. auto. }
      specialize (Q HI). pose proof (d1_nonneg _ _ _ HB). rewrite u8_id in Q by (unfold is_u8; lia). lia. }
  intros x y i HA Hx. apply (G (Z.to_nat y) x y i); [destruct HA as (_ & ? & _); lia|exact HA|exact Hx].
Qed.
Lemma d1_range : forall x y i, span_at chf x y i -> 0 <= dv d1 i <= 252.
Proof.
  intros x y i HA. split; [eapply d1_nonneg; eauto|]. pose proof HA as (Hx & Hy & _).
  destruct small; [pose proof (d1_bound_x x y i HA)|pose proof (d1_bound_y x y i HA)]; lia.
Qed.
Lemma d2_range : forall x y i, span_at chf x y i -> 0 <= dv d2 i <= 252.
Proof.
  intros x y i HA. pose proof (d1_range x y i HA). rewrite (V2 x y i HA). split; [apply best_nonneg; lia|].
  destruct (best_le (dv d2) (srcs des2 (x, y, i)) (dv d1 i)). lia.
Qed.

Lemma src_cost : forall des x y i j k, smalls des -> span_at chf x y i -> In (j, k) (srcs des (x, y, i)) -> 2 <= k <= 3.
Proof. intros des x y i j k Hs HA H. apply srcs_spec in H; try assumption. destruct H as (x' & y' & (d & e & _ & [[-> _]|[-> _]]) & _); lia. Qed.

Definition dirs_of (des : list (nat * nat)) : list nat := map fst des.
Lemma move_reach : forall B des x y i x' y' j k n, span_at chf x y i -> move des x y i x' y' j k -> reach chf B (dirs_of des) des x' y' j n -> reach chf B (dirs_of des) des x y i (n + k).
Proof.
  intros B des x y i x' y' j k n HA (d & e & H1 & [[-> HL]|(-> & x1 & y1 & a & HL & _ & HL2)]) R.
  - eapply reach_straight; eauto. unfold dirs_of. change d with (fst (d, e)). apply in_map, H1.
  - eapply reach_diagonal; eauto.
Qed.

(** A pass computes exactly the least cost of its moves. *)
Lemma pass_exact : forall (r : Z * Z -> Z) des (B : Z -> Z -> Z -> Z -> Prop) (dA dB : list Z), smalls des ->
  (forall x y, 0 <= x < w -> 0 <= y < h -> 0 <= r (x, y)) ->
  (forall x y i x' y' j k, move des x y i x' y' j k -> span_at chf x y i -> span_at chf x' y' j -> r (x', y') < r (x, y)) ->
  (forall x y i, span_at chf x y i -> dv dB i = best (dv dB) (dv dA i) (srcs des (x, y, i))) ->
  (forall x y i, span_at chf x y i -> 0 <= dv dB i <= 252) ->
  (forall x y i n, B x y i n -> span_at chf x y i /\ dv dA i <= n) ->
  (forall x y i, span_at chf x y i -> dv dA i <= 252 -> B x y i (dv dA i)) ->
  (forall x y i, span_at chf x y i -> reach chf B (dirs_of des) des x y i (dv dB i)) /\
  (forall x y i n, reach chf B (dirs_of des) des x y i n -> span_at chf x y i /\ dv dB i <= n).
Proof.
  intros r des B dA dB Hsm Hr0 Hr V R HB1 HB2. split.
  - assert (forall n x y i, r (x, y) < Z.of_nat n -> span_at chf x y i -> reach chf B (dirs_of des) des x y i (dv dB i)) as G.
    { induction n as [|n IH]; intros x y i Hn HA.
      - exfalso. pose proof HA as (Hx & Hy & _). specialize (Hr0 x y Hx Hy). lia.
      - pose proof (R x y i HA) as RB. pose proof (V x y i HA) as EV. destruct (best_in (dv dB) (srcs des (x, y, i)) (dv dA i)) as [E|([j k] & Hs & E)].
        + rewrite E in EV. rewrite EV. apply reach_start. apply HB2; [exact HA|lia].
        + pose proof (src_cost _ _ _ _ _ _ Hsm HA Hs) as Hk. apply srcs_spec in Hs; try assumption. destruct Hs as (x' & y' & HM & HAj).
          cbn [fst snd] in E. pose proof (R x' y' j HAj) as Rj. rewrite u8_id in E by (unfold is_u8; lia). rewrite EV, E.
          eapply move_reach; [exact HA|exact HM|]. apply IH; [|exact HAj]. pose proof (Hr _ _ _ _ _ _ _ HM HA HAj). lia. }
    intros x y i HA. apply (G (Datatypes.S (Z.to_nat (r (x, y))))); [|exact HA]. pose proof HA as (Hx & Hy & _). specialize (Hr0 x y Hx Hy). lia.
  - intros x y i n H. induction H as [x y i n HB|x y i d x' y' j n HA Hd HL HR [HAj IH]|x y i d e x' y' j x2 y2 k n HA Hd HL HL2 HR [HAk IH]].
    + destruct (HB1 _ _ _ _ HB) as [HA Hle]. split; [exact HA|]. rewrite (V x y i HA). destruct (best_le (dv dB) (srcs des (x, y, i)) (dv dA i)). lia.
    + split; [exact HA|]. rewrite (V x y i HA). destruct (best_le (dv dB) (srcs des (x, y, i)) (dv dA i)) as [_ Q]. specialize (Q (j, 2)). cbn [fst snd] in Q.
      pose proof (R _ _ _ HAj). rewrite u8_id in Q by (unfold is_u8; lia). transitivity (dv dB j + 2); [apply Q|lia].
      apply srcs_spec; try assumption. exists x', y'. split; [|exact HAj]. unfold dirs_of in Hd. apply in_map_iff in Hd. destruct Hd as ([d' e] & <- & Hd).
      exists d', e. split; [exact Hd|]. left. auto.
    + split; [exact HA|]. rewrite (V x y i HA). destruct (best_le (dv dB) (srcs des (x, y, i)) (dv dA i)) as [_ Q]. specialize (Q (k, 3)). cbn [fst snd] in Q.
      pose proof (R _ _ _ HAk). rewrite u8_id in Q by (unfold is_u8; lia). transitivity (dv dB k + 3); [apply Q|lia].
      apply srcs_spec; try assumption. exists x2, y2. split; [|exact HAk]. exists d, e. split; [exact Hd|]. right. split; [reflexivity|]. exists x', y', j.
      split; [exact HL|]. split; [|exact HL2]. pose proof HL as (_ & s & c & Hs & Nc & _).
      destruct (ok_link _ wf x y i d s HA (proj1 (Hsm d e Hd)) Hs Nc) as (a1 & a2 & a3 & L' & HA'). destruct (linked_fun _ _ _ _ _ _ _ _ _ _ HL L') as (-> & -> & ->). exact HA'.
Qed.

Lemma pos_range : forall x y, 0 <= x < w -> 0 <= y < h -> 0 <= pos (x, y) < w * h.
Proof. intros x y Hx Hy. apply (cidx_range w h); assumption. Qed.

Lemma d1_exact : (forall x y i, span_at chf x y i -> reach_down chf x y i (dv d1 i)) /\ (forall x y i n, reach_down chf x y i n -> span_at chf x y i /\ dv d1 i <= n).
Proof.
  apply (pass_exact pos des1 (at_border chf) d0 d1 smalls1).
  - intros x y Hx Hy. apply pos_range; assumption.
  - exact move1_pos.
  - exact V1.
  - exact d1_range.
  - intros x y i n (HA & HB & ->). split; [exact HA|]. rewrite (proj1 (V0 x y i HA) HB). lia.
  - intros x y i HA Hle. destruct (V0 x y i HA) as [B1 B2]. destruct (border_dec x y i HA) as [B|B].
    + split; [exact HA|]. split; [exact B|]. apply B1, B.
    + rewrite (B2 B) in Hle. lia.
Qed.
Lemma d2_exact : (forall x y i, span_at chf x y i -> reach_both chf x y i (dv d2 i)) /\ (forall x y i n, reach_both chf x y i n -> span_at chf x y i /\ dv d2 i <= n).
Proof.
  destruct d1_exact as [X1 X2].
  apply (pass_exact (fun p => w * h - pos p) des2 (reach_down chf) d1 d2 smalls2).
  - intros x y Hx Hy. pose proof (pos_range x y Hx Hy). lia.
  - intros x y i x' y' j k HM HA HB. pose proof (move2_pos _ _ _ _ _ _ _ HM HA HB). lia.
  - exact V2.
  - exact d2_range.
  - exact X2.
  - intros x y i HA _. apply X1, HA.
Qed.
End Exact.

Theorem erode_exact : forall radius, 0 <= radius <= 127 ->
  exists areas', ErodeWalkableArea radius chf = Ok (mkCHF w h N (chf_wh chf) (chf_climb chf) (chf_cells chf) (chf_spans chf) areas') /\
  zlen areas' = N /\
  forall x y i, span_at chf x y i ->
    ((exists n, reach_both chf x y i n /\ n < 2 * radius) -> get areas' i = Ok 0) /\
    ((forall n, reach_both chf x y i n -> 2 * radius <= n) -> get areas' i = get (chf_areas chf) i).
Proof.
  intros radius Hr. destruct (erode_run radius) as (d0 & d1 & d2 & ar & E & L & V0 & V1 & V2 & VA).
  exists ar. split; [exact E|]. split; [exact L|]. intros x y i HA. destruct (d2_exact d0 d1 d2 V0 V1 V2) as [X1 X2].
  rewrite (VA i) by (eapply ok_at; eauto). rewrite i32_id by (unfold is_i32; lia). rewrite u8_id by (unfold is_u8; lia). split.
  - intros (n & Hn & Hlt). destruct (X2 _ _ _ _ Hn) as [_ Q]. destruct (Z.ltb_spec (dv d2 i) (radius * 2)); [reflexivity|lia].
  - intros Hn. specialize (Hn _ (X1 _ _ _ HA)). destruct (Z.ltb_spec (dv d2 i) (radius * 2)); [lia|reflexivity].
Qed.
End CHF.
