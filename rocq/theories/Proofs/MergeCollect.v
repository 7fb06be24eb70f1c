(** Collecting the regions of a field (C49). *)
From Coq Require Import ZArith List Bool Lia Relations.
From Verif.Base Require Import Res GoNum Grid.
From Verif.Model Require Import Heightfield Dirs Compact Erode Region RegionMerge.
From Verif.Spec Require Import HeightfieldSpec CompactSpec ErodeSpec RegionSpec.
From Verif.Proofs Require Import ErodeProofs ErodeDist RegionBase RegionRow ErodeOpen MergeBase.
Import ListNotations.
Open Scope Z_scope.

Lemma nodup_zlen : forall n l, NoDup l -> (forall i, In i l -> 0 <= i < n) -> 0 <= n -> zlen l <= n.
Proof.
  intros n l ND H Hn. assert (incl l (zseq (Z.to_nat n))) as I. { intros i Hi. apply in_zseq. specialize (H i Hi). lia. }
  pose proof (NoDup_incl_length ND I) as L. rewrite zseq_length in L. unfold zlen. lia.
Qed.

Lemma filter_zlen_le : forall {T} (f : T -> bool) l, zlen (filter f l) <= zlen l.
Proof. intros T f l. unfold zlen. induction l as [|a l IH]; cbn [filter length]; [lia|]. destruct (f a); cbn [length]; lia. Qed.

Section Collect.
Variable chf : CompactHeightfield.
Hypothesis wf : chf_wf chf.
Hypothesis small : chf_spanCount chf < 2 ^ 31.
Variable src : list Z.
Variable nreg : Z.
Notation w := (chf_w chf).
Notation h := (chf_h chf).
Notation N := (chf_spanCount chf).
Notation A := (A chf).
Notation s i := (dv src i).
Hypothesis Lsrc : zlen src = N.
Hypothesis Hn : 1 <= nreg <= 32768.
Hypothesis Hv : forall i, 0 <= i < N -> 0 <= s i < nreg \/ 32768 <= s i < 65536.
Hypothesis Ha : forall i j, 0 <= i < N -> 0 <= j < N -> s i = s j -> 0 < s i < nreg -> A i = A j.

(** There is a connection from the first span to the second. *)
Definition step (p q : Z) : Prop := exists x y d x' y', span_at chf x y p /\ (d < 4)%nat /\ linked chf d x y p x' y' q /\ span_at chf x' y' q.
Definition across (k c : Z) : Prop := c = 0 \/ exists p q, s p = k /\ step p q /\ s q = c.

Lemma s_get : forall x y i, span_at chf x y i -> get src i = Ok (s i).
Proof. intros x y i H. apply get_dv. rewrite Lsrc. eapply ok_at; eauto. Qed.

Lemma regAcross_ok : forall x y i sp d, span_at chf x y i -> get (chf_spans chf) i = Ok sp -> (d < 4)%nat ->
  (GetCon (csCon sp) (Z.of_nat d) = 63 /\ regAcross chf src x y (csCon sp) (Z.of_nat d) = Ok 0) \/
  exists x' y' j, GetCon (csCon sp) (Z.of_nat d) <> 63 /\ neighbour chf x y (csCon sp) (Z.of_nat d) = Ok (x', y', j) /\ step i j /\ span_at chf x' y' j /\
    regAcross chf src x y (csCon sp) (Z.of_nat d) = Ok (s j).
Proof.
  intros x y i sp d H Hs Hd. unfold regAcross, notConnected. destruct (Z.eqb_spec (GetCon (csCon sp) (Z.of_nat d)) 63) as [E|E]; [left; auto|right].
  destruct (neighbour_ok chf wf d x y i sp H Hd Hs E) as (x' & y' & j & En & HL & HA). exists x', y', j. split; [exact E|]. split; [exact En|].
  split; [exists x, y, d, x', y'; auto|]. split; [exact HA|]. rewrite En. cbn [bind snd]. eapply s_get; eauto.
Qed.
Lemma regAcross_across : forall x y i sp d, span_at chf x y i -> get (chf_spans chf) i = Ok sp -> (d < 4)%nat ->
  exists c, regAcross chf src x y (csCon sp) (Z.of_nat d) = Ok c /\ across (s i) c.
Proof.
  intros x y i sp d H Hs Hd. destruct (regAcross_ok x y i sp d H Hs Hd) as [[_ E]|(x' & y' & j & _ & _ & HS & _ & E)]; eexists; (split; [exact E|]).
  - now left.
  - right. exists i, j. auto.
Qed.
Lemma isSolid_ok : forall x y i d, span_at chf x y i -> (d < 4)%nat -> s i <> 0 -> exists sp b, get (chf_spans chf) i = Ok sp /\
  isSolidEdge chf src x y i (Z.of_nat d) = Ok b /\
  (b = false -> GetCon (csCon sp) (Z.of_nat d) <> 63 /\ exists x' y' j, neighbour chf x y (csCon sp) (Z.of_nat d) = Ok (x', y', j) /\ span_at chf x' y' j /\ s j = s i).
Proof.
  intros x y i d H Hd H0. destruct (span_get chf wf x y i H) as [sp Hs]. exists sp. unfold isSolidEdge. rewrite Hs. cbn [bind].
  destruct (regAcross_ok x y i sp d H Hs Hd) as [[_ E]|(x' & y' & j & NC & En & HS & HA & E)]; rewrite E; cbn [bind]; rewrite (s_get _ _ _ H); cbn [bind];
    eexists; (split; [reflexivity|]); (split; [reflexivity|]); intros B; apply negb_false_iff, Z.eqb_eq in B.
  - congruence.
  - split; [exact NC|]. exists x', y', j. auto.
Qed.
Lemma land3 : forall d, 0 <= d -> exists e, (e < 4)%nat /\ Z.land d 3 = Z.of_nat e.
Proof.
  intros d H. change 3 with (Z.ones 2). rewrite Z.land_ones by lia. change (2 ^ 2) with 4. exists (Z.to_nat (d mod 4)).
  pose proof (Z.mod_pos_bound d 4). lia.
Qed.

Lemma contourLoop_ok : forall n starti startDir x y i d cur cont k, span_at chf x y i -> s i = k -> k <> 0 -> (d < 4)%nat ->
  (forall c, In c cont -> across k c) -> exists cont' b, contourLoop n chf src starti startDir x y i (Z.of_nat d) cur cont = Ok (cont', b) /\ forall c, In c cont' -> across k c.
Proof.
  induction n as [|n IH]; intros starti startDir x y i d cur cont k H Hk K0 Hd HC; cbn [contourLoop]; [exists cont, true; auto|].
  destruct (isSolid_ok x y i d H Hd) as (sp & b & Hs & Eb & HB); [congruence|]. rewrite Hs, Eb. cbn [bind]. destruct b.
  - destruct (regAcross_across x y i sp d H Hs Hd) as (r & Er & Hr). rewrite Er. cbn [bind]. rewrite Hk in Hr.
    destruct (land3 (Z.of_nat d + 1)) as (e & He & ->); [lia|]. destruct (r =? cur).
    + destruct ((starti =? i) && (startDir =? Z.of_nat e)); [exists cont, true; auto|]. now apply IH.
    + assert (forall c, In c (cont ++ [r]) -> across k c) as HC'. { intros c Hc. apply in_app_iff in Hc. destruct Hc as [Hc|[<-|[]]]; [now apply HC|exact Hr]. }
      destruct ((starti =? i) && (startDir =? Z.of_nat e)); [exists (cont ++ [r]), true; auto|]. now apply IH.
  - destruct (HB eq_refl) as (NC & x' & y' & j & En & HA & Ej). unfold notConnected. destruct (Z.eqb_spec (GetCon (csCon sp) (Z.of_nat d)) 63) as [|_]; [contradiction|].
    rewrite En. cbn [bind]. destruct (land3 (Z.of_nat d + 3)) as (e & He & ->); [lia|].
    destruct ((starti =? j) && (startDir =? Z.of_nat e)); [exists cont, true; auto|]. apply IH; auto. congruence.
Qed.
Lemma walkContour_ok : forall x y i d, span_at chf x y i -> s i <> 0 -> (d < 4)%nat -> exists cont, walkContour chf src x y i (Z.of_nat d) = Ok cont /\
  forall c, In c cont -> across (s i) c.
Proof.
  intros x y i d H H0 Hd. unfold walkContour. destruct (span_get chf wf x y i H) as [sp Hs]. rewrite Hs. cbn [bind].
  destruct (regAcross_across x y i sp d H Hs Hd) as (r & Er & Hr). rewrite Er. cbn [bind].
  destruct (contourLoop_ok (Z.to_nat 39998) i (Z.of_nat d) x y i d r [r] (s i) H eq_refl H0 Hd) as (cont & b & E & HC).
  { intros c [<-|[]]. exact Hr. }
  rewrite E. cbn [bind]. destruct (b && (1 <? zlen cont)); [|exists cont; auto].
  destruct (dropDups_ok (S (length cont)) 0 cont 0) as (l & El & HI); try (unfold zlen; lia). exists l. split; [exact El|]. intros c Hc. apply HC, HI, Hc.
Qed.
Lemma firstSolid_ok : forall x y i ds, span_at chf x y i -> s i <> 0 -> (forall d, In d ds -> (d < 4)%nat) ->
  exists o, firstSolid chf src x y i (map Z.of_nat ds) = Ok o /\ forall z, o = Some z -> exists d, (d < 4)%nat /\ z = Z.of_nat d.
Proof.
  induction ds as [|d ds IH]; intros H H0 Hd; cbn [map firstSolid]; [exists None; split; [reflexivity|discriminate]|].
  destruct (isSolid_ok x y i d H) as (sp & b & Hs & Eb & _); [apply Hd; now left|exact H0|]. rewrite Eb. cbn [bind]. destruct b.
  - eexists. split; [reflexivity|]. intros z E. injection E as <-. exists d. split; [apply Hd; now left|reflexivity].
  - apply IH; auto. intros. apply Hd. now right.
Qed.

(** Equal up to Floors and Overlap. *)
Definition sameFO (a b : Rgn) : Prop := rCount a = rCount b /\ rID a = rID b /\ rArea a = rArea b /\ rVisited a = rVisited b /\ rConns a = rConns b.
Lemma noteFloors_ok : forall x y c r i reg, cell_at chf x y = Ok c -> 0 <= x < w -> 0 <= y < h ->
  exists reg', noteFloors src nreg r i (cIndex c) (cCount c) reg = Ok reg' /\ sameFO reg' reg /\ incl (rFloors reg) (rFloors reg') /\
    forall q, span_at chf x y q -> q <> i -> 0 < s q < nreg -> In (s q) (rFloors reg').
Proof.
  intros x y c r i reg Hc Hx Hy. unfold noteFloors.
  assert (forall q, span_at chf x y q <-> In q (krange (cIndex c) (cCount c))) as HK.
  { intros q. rewrite in_krange. split.
    - intros (_ & _ & c' & Hc' & Hq). rewrite Hc in Hc'. apply Ok_inj in Hc'. subst c'. lia.
    - intros Hq. split; [lia|]. split; [lia|]. exists c. split; [exact Hc|lia]. }
  edestruct (foldM_inv (fun reg j => if i =? j then Ok reg else let* fl := get src j in if (fl =? 0) || (fl >=? nreg) then Ok reg
        else Ok (addUniqueFloorRegion fl (if fl =? r then withOverlap true reg else reg)))
    (fun pre reg' => sameFO reg' reg /\ incl (rFloors reg) (rFloors reg') /\ forall q, In q pre -> q <> i -> 0 < s q < nreg -> In (s q) (rFloors reg'))
    (krange (cIndex c) (cCount c)) reg) as (reg' & E & H1 & H2 & H3).
  - split; [repeat split|]. split; [apply incl_refl|intros q []].
  - intros pre j post reg1 El (S1 & I1 & F1). assert (span_at chf x y j) as Hj by (apply HK; rewrite El; apply in_app_iff; right; now left).
    destruct (Z.eqb_spec i j) as [->|NE].
    { exists reg1. split; [reflexivity|]. split; [exact S1|]. split; [exact I1|]. intros q Hq Nq. apply in_app_iff in Hq. destruct Hq as [Hq|[<-|[]]]; [now apply F1|congruence]. }
    rewrite (s_get _ _ _ Hj). cbn [bind]. destruct ((s j =? 0) || (s j >=? nreg)) eqn:EB.
    { exists reg1. split; [reflexivity|]. split; [exact S1|]. split; [exact I1|]. intros q Hq Nq Rq. apply in_app_iff in Hq. destruct Hq as [Hq|[<-|[]]]; [now apply F1|].
      exfalso. apply orb_true_iff in EB. rewrite Z.geb_leb, Z.eqb_eq, Z.leb_le in EB. lia. }
    eexists. split; [reflexivity|]. set (reg2 := if s j =? r then withOverlap true reg1 else reg1).
    assert (sameFO reg2 reg1 /\ rFloors reg2 = rFloors reg1) as [S2 F2] by (unfold reg2; destruct (s j =? r); repeat split).
    destruct (addFloor_same (s j) reg2) as (A1&A2&A3&A4&A5&A6&A7). split.
    { destruct S1 as (B1&B2&B3&B4&B5), S2 as (C1&C2&C3&C4&C5). unfold sameFO. intuition congruence. }
    split.
    + intros v Hv'. apply addFloor_in. left. rewrite F2. now apply I1.
    + intros q Hq Nq Rq. apply addFloor_in. apply in_app_iff in Hq. destruct Hq as [Hq|[<-|[]]]; [left; rewrite F2; now apply F1|now right].
  - exists reg'. split; [exact E|]. split; [exact H1|]. split; [exact H2|]. intros q Hq. apply H3. now apply HK.
Qed.

Notation O := (order chf (cells w h)).
Definition cnt (k : Z) (pre : list triple) : Z := zlen (filter (fun t => s (snd t) =? k) pre).

Record collected (pre : list triple) (R : list Rgn) : Prop := {
  c_len : zlen R = nreg;
  c_id : forall k, 0 <= k < nreg -> rID (rg R k) = k /\ rVisited (rg R k) = false;
  c_cnt : forall k, 0 < k < nreg -> rCount (rg R k) = cnt k pre;
  c_cnt0 : rCount (rg R 0) = 0;
  c_con : forall k c, 0 <= k < nreg -> In c (rConns (rg R k)) -> across k c /\ 0 < k /\ exists t, In t pre /\ s (snd t) = k;
  c_area : forall t, In t pre -> 0 < s (snd t) < nreg -> rArea (rg R (s (snd t))) = A (snd t);
  c_floor : forall x y p q, In (x, y, p) pre -> span_at chf x y q -> p <> q -> 0 < s p < nreg -> 0 < s q < nreg -> In (s q) (rFloors (rg R (s p))) }.

Lemma in_O : forall x y i, In (x, y, i) O <-> span_at chf x y i.
Proof.
  intros x y i. rewrite in_order_sub by auto. split; [tauto|]. intros H. split; [|exact H]. apply in_cells. destruct H as (? & ? & _). lia.
Qed.
Lemma O_nodup : NoDup (map snd O).
Proof. apply order_snd_NoDup; [exact wf|apply NoDup_cells|auto]. Qed.
Lemma N_nonneg : 0 <= N.
Proof. rewrite <- (ok_spans _ wf). apply zlen_nonneg. Qed.
Lemma O_len : zlen O <= N.
Proof.
  replace (zlen O) with (zlen (map snd O)) by (unfold zlen; now rewrite map_length). apply nodup_zlen; [apply O_nodup| |apply N_nonneg].
  intros i Hi. apply in_map_iff in Hi. destruct Hi as ([[x y] j] & <- & Hi). apply in_O in Hi. eapply ok_at; eauto.
Qed.
Lemma cnt_le : forall k pre, 0 <= cnt k pre <= zlen pre.
Proof. intros k pre. unfold cnt. split; [apply zlen_nonneg|]. apply filter_zlen_le. Qed.

Lemma cnt_snoc : forall k pre t, cnt k (pre ++ [t]) = cnt k pre + if s (snd t) =? k then 1 else 0.
Proof. intros k pre t. unfold cnt. rewrite filter_app, zlen_app. f_equal. cbn [filter]. destruct (s (snd t) =? k); reflexivity. Qed.

Lemma collectSpan_ok : forall pre x y i post R, O = pre ++ (x, y, i) :: post -> collected pre R ->
  exists R', collectSpan chf src nreg x y R i = Ok R' /\ collected (pre ++ [(x, y, i)]) R'.
Proof.
  intros pre x y i post R EO HC. assert (span_at chf x y i) as H by (apply in_O; rewrite EO; apply in_app_iff; right; now left).
  pose proof (ok_at _ wf _ _ _ H) as Ri. unfold collectSpan. destruct H as (Hx & Hy & c & Hc & Hi).
  assert (span_at chf x y i) as H by (split; [exact Hx|]; split; [exact Hy|]; exists c; auto).
  pose proof Hc as Hc'. unfold cell_at in Hc'. unfold cidx. rewrite Hc'. cbn [bind]. rewrite (s_get _ _ _ H). cbn [bind].
  destruct ((s i =? 0) || (s i >=? nreg)) eqn:EB.
  { assert (~ 0 < s i < nreg) as NB. { apply orb_true_iff in EB. rewrite Z.geb_leb, Z.eqb_eq, Z.leb_le in EB. lia. }
    exists R. split; [reflexivity|]. destruct HC as [C1 C2 C3 C4 C5 C6 C7]. split; auto.
    - intros k Hk. rewrite cnt_snoc. cbn [snd]. destruct (Z.eqb_spec (s i) k); [subst; lia|]. rewrite Z.add_0_r. now apply C3.
    - intros k c' Hk Hc''. destruct (C5 k c' Hk Hc'') as (X & K0 & t & Ht & Et). split; [exact X|]. split; [exact K0|]. exists t. split; [apply in_app_iff; now left|exact Et].
    - intros t Ht. apply in_app_iff in Ht. destruct Ht as [Ht|[<-|[]]]; [now apply C6|]. cbn [snd]. contradiction.
    - intros x' y' p q Hp. apply in_app_iff in Hp. destruct Hp as [Hp|[E|[]]]; [now apply C7|]. injection E as <- <- <-. contradiction. }
  assert (0 < s i < nreg) as Rk. { apply orb_false_iff in EB. rewrite Z.geb_leb, Z.eqb_neq, Z.leb_gt in EB. destruct (Hv i Ri); lia. }
  clear EB. pose proof (c_len _ _ HC) as LR. rewrite get_rg by lia. cbn [bind].
  set (k := s i) in *. set (reg0 := rg R k).
  destruct (noteFloors_ok x y c k i (withCount (i32 (rCount reg0 + 1)) reg0) Hc Hx Hy) as (reg & Er & (S1 & S2 & S3 & S4 & S5) & FI & FF).
  rewrite Er. cbn [bind]. cbn [rCount rID rArea rVisited rConns withCount] in S1, S2, S3, S4, S5.
  assert (rCount reg = rCount reg0 + 1) as ECnt.
  { rewrite S1. apply i32_id. unfold reg0. rewrite (c_cnt _ _ HC) by lia. pose proof (cnt_le k pre). pose proof O_len as OL. rewrite EO, zlen_app in OL.
    rewrite zlen_cons in OL. pose proof (zlen_nonneg post). unfold is_i32. change (2 ^ 31) with 2147483648 in small. unfold triple in *. lia. }
  assert (forall reg', rCount reg' = rCount reg -> rID reg' = rID reg -> rVisited reg' = rVisited reg -> rFloors reg' = rFloors reg ->
    (forall c', In c' (rConns reg') -> across k c') -> rArea reg' = A i -> collected (pre ++ [(x, y, i)]) (upd R (Z.to_nat k) reg')) as FIN.
  { intros reg' E1 E2 E3 E4 HCo HAr. destruct HC as [C1 C2 C3 C4 C5 C6 C7]. split.
    - now rewrite zlen_upd.
    - intros k' Hk'. rewrite rg_upd by lia. destruct (Z.eqb_spec k' k) as [->|]; [|now apply C2]. rewrite E2, S2, E3, S4. now apply C2.
    - intros k' Hk'. rewrite rg_upd by lia. rewrite cnt_snoc. cbn [snd]. fold k. rewrite (Z.eqb_sym k k').
      destruct (Z.eqb_spec k' k) as [->|]; [|rewrite C3 by lia; lia]. rewrite E1, ECnt. unfold reg0. rewrite C3 by lia. reflexivity.
    - rewrite rg_upd by lia. destruct (Z.eqb_spec 0 k); [lia|exact C4].
    - intros k' c' Hk'. rewrite rg_upd by lia. destruct (Z.eqb_spec k' k) as [->|].
      + intros Hc''. split; [now apply HCo|]. split; [lia|]. exists (x, y, i). split; [apply in_app_iff; right; now left|reflexivity].
      + intros Hc''. destruct (C5 k' c' Hk' Hc'') as (X & K0 & t & Ht & Et). split; [exact X|]. split; [exact K0|]. exists t. split; [apply in_app_iff; now left|exact Et].
    - intros t Ht Bt. rewrite rg_upd by lia. assert (span_at chf (fst (fst t)) (snd (fst t)) (snd t)) as At.
      { apply in_O. rewrite EO. destruct t as [[a b] e]. cbn [fst snd]. apply in_app_iff in Ht. apply in_app_iff. destruct Ht as [Ht|[Ht|[]]]; [now left|]. right. left. exact Ht. }
      destruct (Z.eqb_spec (s (snd t)) k) as [E|NE].
      + rewrite HAr. apply Ha; [exact Ri|eapply ok_at; eauto|now symmetry|exact Rk].
      + apply in_app_iff in Ht. destruct Ht as [Ht|[<-|[]]]; [now apply C6|]. cbn [snd] in NE. now elim NE.
    - intros x' y' p q Hp Hq NE Bp Bq. rewrite rg_upd by lia. apply in_app_iff in Hp. destruct Hp as [Hp|[E|[]]].
      + destruct (Z.eqb_spec (s p) k) as [E|]; [|now apply (C7 x' y' p q)]. rewrite E4. apply FI. cbn [rFloors withCount]. unfold reg0.
        rewrite <- E. now apply (C7 x' y' p q).
      + injection E as <- <- <-. fold k. rewrite Z.eqb_refl, E4. apply FF; auto. }
  destruct (rConns reg) as [|c0 cs] eqn:ECon.
  - rewrite (area_get chf wf i Ri). cbn [bind].
    destruct (firstSolid_ok x y i [0; 1; 2; 3]%nat H) as (o & Eo & Ho); [fold k; lia|cbn [In]; lia|]. change (map Z.of_nat [0; 1; 2; 3]%nat) with [0; 1; 2; 3] in Eo.
    rewrite Eo. cbn [bind]. destruct o as [z|].
    + destruct (Ho z eq_refl) as (d & Hd & ->). destruct (walkContour_ok x y i d H) as (cont & Ec & HCo); [fold k; lia|exact Hd|]. rewrite Ec. cbn [bind].
      rewrite set_rg by lia. eexists. split; [reflexivity|]. apply FIN; try reflexivity. exact HCo.
    + rewrite set_rg by lia. eexists. split; [reflexivity|]. apply FIN; try reflexivity. cbn [rConns withArea]. rewrite ECon. intros ? [].
  - rewrite set_rg by lia. eexists. split; [reflexivity|]. apply FIN; try reflexivity.
    + intros c' Hc''. apply (c_con _ _ HC k c'); [lia|]. rewrite ECon in Hc''. fold reg0. rewrite <- S5. exact Hc''.
    + rewrite S3. destruct (c_con _ _ HC k c0) as (_ & _ & t & Ht & Et); [lia|fold reg0; rewrite <- S5; now left|].
      pose proof (c_area _ _ HC t Ht) as AR. rewrite Et in AR. fold reg0 in AR. rewrite AR by exact Rk.
      apply Ha; [|exact Ri|exact Et|rewrite Et; exact Rk]. destruct t as [[a b] e]. cbn [snd].
      apply (ok_at _ wf a b). apply in_O. rewrite EO. apply in_app_iff. now left.
Qed.

Lemma newRegions : zlen (map newRegion (zseq (Z.to_nat nreg))) = nreg /\ forall k, 0 <= k < nreg -> rg (map newRegion (zseq (Z.to_nat nreg))) k = newRegion k.
Proof.
  assert (zlen (map newRegion (zseq (Z.to_nat nreg))) = nreg) as L by (unfold zlen; rewrite map_length, zseq_length; lia). split; [exact L|].
  intros k Hk. assert (get (map newRegion (zseq (Z.to_nat nreg))) k = Ok (newRegion k)) as G by (apply get_map_zseq; lia).
  rewrite get_rg in G by lia. now apply Ok_inj in G.
Qed.
Theorem collectRegions_ok : exists R, collectRegions chf src nreg = Ok R /\ collected O R.
Proof.
  unfold collectRegions. rewrite eachSpan_order by (exact wf || auto).
  apply (foldM_inv (fun d (t : triple) => collectSpan chf src nreg (fst (fst t)) (snd (fst t)) d (snd t)) collected).
  - destruct newRegions as [L G]. split.
    + exact L.
    + intros k Hk. rewrite G by exact Hk. cbn [newRegion rID rVisited]. split; [|reflexivity]. apply u16_id. unfold is_u16. lia.
    + intros k Hk. rewrite G by lia. reflexivity.
    + rewrite G by lia. reflexivity.
    + intros k c Hk. rewrite G by exact Hk. intros [].
    + intros t [].
    + intros x y p q [].
  - intros pre [[x y] i] post R EO HC. cbn [fst snd]. eapply collectSpan_ok; eassumption.
Qed.
End Collect.
