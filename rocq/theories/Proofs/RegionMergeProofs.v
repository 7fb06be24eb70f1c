(** Merging and filtering regions: the whole (C49). *)
From Coq Require Import ZArith List Bool Lia Relations.
From Verif.Base Require Import Res GoNum Grid.
From Verif.Model Require Import Heightfield Dirs Compact Erode Region RegionMerge.
From Verif.Spec Require Import HeightfieldSpec CompactSpec ErodeSpec RegionSpec MergeSpec.
From Verif.Proofs Require Import ErodeProofs ErodeDist RegionBase RegionRow MergeBase MergeCollect MergeFilter MergeJoin MergeCompress.
Import ListNotations.
Open Scope Z_scope.

Lemma region_path_area : forall chf src i j, region_path chf src i j -> get (chf_areas chf) i = get (chf_areas chf) j.
Proof. intros chf src i j H. induction H as [a b (H & _)|a|a b H IH|a b c H1 IH1 H2 IH2]; congruence. Qed.

Section Merge.
Variable chf : CompactHeightfield.
Hypothesis wf : chf_wf chf.
Hypothesis small : chf_spanCount chf < 2 ^ 31.
Variable src : list Z.
Variable maxID : Z.
Hypothesis RO : regions_ok chf src maxID.
Variables minArea mergeSize : Z.
Variable G : Z -> bool.
Notation w := (chf_w chf).
Notation h := (chf_h chf).
Notation N := (chf_spanCount chf).
Notation A := (A chf).
Notation s i := (dv src i).
Notation nreg := (maxID + 1).
Notation O := (order chf (cells w h)).
Notation id R k := (rID (rg R k)).

Lemma Lsrc : zlen src = N. Proof. apply RO. Qed.
Lemma Hn : 1 <= nreg <= 32768. Proof. destruct RO as (_ & H & _). lia. Qed.
Lemma s_ok : forall i, 0 <= i < N -> get src i = Ok (s i).
Proof. intros i H. apply get_dv. now rewrite Lsrc. Qed.
Lemma get_s : forall i r, get src i = Ok r -> 0 <= i < N /\ s i = r.
Proof. intros i r H. pose proof (get_range _ _ _ H) as B. rewrite Lsrc in B. split; [exact B|]. rewrite s_ok in H by exact B. now apply Ok_inj in H. Qed.
Lemma Hv : forall i, 0 <= i < N -> 0 <= s i < nreg \/ 32768 <= s i < 65536.
Proof. intros i H. destruct RO as (_ & _ & H1 & _). specialize (H1 i (s i) (s_ok i H)). lia. Qed.
Lemma path_of : forall i j, 0 <= i < N -> 0 <= j < N -> s i = s j -> 0 < s i < nreg -> region_path chf src i j.
Proof.
  intros i j Hi Hj E B. pose proof Hn. destruct RO as (_ & _ & _ & H2). apply (H2 i j (s i)); [now apply s_ok|rewrite E; now apply s_ok|lia|]. unfold border_reg. lia.
Qed.
Lemma Ha : forall i j, 0 <= i < N -> 0 <= j < N -> s i = s j -> 0 < s i < nreg -> A i = A j.
Proof.
  intros i j Hi Hj E B. pose proof (region_path_area _ _ _ _ (path_of i j Hi Hj E B)) as Q. rewrite !area_get in Q by (exact wf || assumption). now apply Ok_inj in Q.
Qed.
Lemma isB : forall i, 0 <= i < N -> isBorder (s i) = (32768 <=? s i).
Proof.
  intros i H. pose proof Hn. destruct (Hv i H) as [B|B].
  - rewrite isBorder_lo by lia. symmetry. apply Z.leb_gt. lia.
  - rewrite isBorder_hi by exact B. symmetry. apply Z.leb_le. lia.
Qed.
Lemma in_O' : forall x y i, In (x, y, i) O <-> span_at chf x y i.
Proof. exact (in_O chf nreg Hn). Qed.

(** The target of a connection is a span of the field. *)
Lemma linked_at : forall x y d i x' y' j, span_at chf x y i -> (d < 4)%nat -> linked chf d x y i x' y' j -> span_at chf x' y' j.
Proof.
  intros x y d i x' y' j S Hd HL. pose proof HL as (_ & sp & c & Hs & Hc & _). destruct (ok_link _ wf x y i d sp S Hd Hs Hc) as (x1 & y1 & j1 & HL1 & S1).
  destruct (linked_fun chf d x y i x' y' j x1 y1 j1 HL HL1) as (-> & -> & ->). exact S1.
Qed.
Lemma connected_step : forall i j, connected_to chf i j <-> step chf i j.
Proof.
  intros i j. split.
  - intros (x & y & d & x' & y' & S & Hd & HL). exists x, y, d, x', y'. split; [exact S|]. split; [exact Hd|]. split; [exact HL|]. eapply linked_at; eauto.
  - intros (x & y & d & x' & y' & S & Hd & HL & _). exists x, y, d, x', y'. auto.
Qed.
Lemma step_range : forall i j, step chf i j -> 0 <= i < N /\ 0 <= j < N.
Proof. intros i j (x & y & d & x' & y' & S & _ & _ & S'). split; eapply ok_at; eauto. Qed.

(** Numbers of spans. *)
Lemma spans_of : forall k p, In p (spansOf chf src k) <-> 0 <= p < N /\ s p = k.
Proof.
  intros k p. rewrite spansOf_in, in_map_iff. split.
  - intros (E & [[x y] q] & <- & Hq). apply in_O' in Hq. cbn [snd] in *. split; [eapply ok_at; eauto|exact E].
  - intros (Hp & E). split; [exact E|]. destruct (ok_cover _ wf p Hp) as (x & y & S). exists (x, y, p). split; [reflexivity|]. now apply in_O'.
Qed.

(** The state after filtering is good for merging. *)
Lemma joined_start : forall R0 R1, collected chf src nreg O R0 -> filt chf src nreg R0 minArea R1 -> joined chf src nreg R1 R1.
Proof.
  intros R0 R1 [C1 C2 C3 C4 C5 C6 C7] [F1 F2 F3]. pose proof Hn as HN.
  assert (forall k, 0 <= k < nreg -> id R1 k <> 0 -> id R1 k = k) as IDK. { intros k Hk Q. destruct (F2 k Hk) as [[X _]|[X _]]; [exact X|contradiction]. }
  assert (forall p, 0 <= p < N -> cls src R1 p <> 0 -> cls src R1 p = s p /\ 0 < s p < nreg) as CLS.
  { intros p Hp. unfold cls. destruct (isBorder (s p)) eqn:E; [congruence|]. assert (0 <= s p < nreg) as B. { destruct (Hv p Hp) as [|B]; [assumption|]. rewrite isBorder_hi in E by exact B. discriminate. }
    intros Q. specialize (IDK _ B Q). split; [exact IDK|]. lia. }
  assert (forall k c, 0 <= k < nreg -> In c (rConns (rg R1 k)) -> across chf src k c) as CO. { intros k c Hk. destruct (F3 k Hk) as (_ & _ & -> & _). intros X. now apply C5. }
  split.
  - exact F1.
  - intros k Hk. destruct (F2 k Hk) as [[X _]|[X _]]; [|now left]. destruct (Z.eq_dec k 0) as [->|]; [now left|]. right. rewrite !X. lia.
  - destruct (F2 0) as [[X _]|[X _]]; [lia|exact X|exact X].
  - intros k Hk Q. destruct (F2 k Hk) as [[X _]|(_ & X & _)]; [contradiction|exact X].
  - intros p Hp Q. destruct (CLS p Hp Q) as [-> B]. destruct (F3 (s p)) as (-> & _); [lia|]. destruct (ok_cover _ wf p Hp) as (x & y & S).
    symmetry. apply (C6 (x, y, p)); [now apply in_O'|exact B].
  - intros k c Hk K0 Hc EB. assert (0 <= c < nreg) as Bc.
    { destruct (CO k c Hk Hc) as [->|(p & q & _ & St & <-)]; [lia|]. destruct (step_range p q St) as [_ Bq]. destruct (Hv q Bq) as [|B]; [assumption|]. rewrite isBorder_hi in EB by exact B. discriminate. }
    split; [exact Bc|]. destruct (F2 c Bc) as [[X _]|[X _]]; auto.
  - intros k c Hk K0 Hc EB Hid. destruct (CO k c Hk Hc) as [->|(p & q & Ep & St & Eq)].
    + exfalso. apply Hid. destruct (F2 0) as [[X _]|[X _]]; [lia|exact X|exact X].
    + exists p, q. split; [exact St|]. unfold cls. rewrite Ep, Eq, EB. rewrite isBorder_lo by lia. auto.
  - intros x y p q Sp Sq Npq P0 Q0 _. destruct (CLS p) as [-> Bp]; [eapply ok_at; eauto|exact P0|]. destruct (CLS q) as [-> Bq]; [eapply ok_at; eauto|exact Q0|].
    destruct (F3 (s p)) as (_ & _ & _ & ->); [lia|]. apply (C7 x y p q); auto. now apply in_O'.
  - intros p q Hp Hq E P0. destruct (CLS p Hp P0) as [Ep Bp]. rewrite E in P0. destruct (CLS q Hq P0) as [Eq Bq]. assert (s p = s q) as Es by congruence.
    pose proof (path_of p q Hp Hq Es Bp) as Path. set (k := s p) in *. assert (id R1 k = k) as EK.
    { rewrite <- E in P0. unfold cls in P0. destruct (isBorder (s p)); [congruence|]. apply IDK; [fold k; lia|exact P0]. }
    assert (forall a, get src a = Ok k -> 0 <= a < N /\ cls src R1 a = k) as CK.
    { intros a Ea. apply get_s in Ea. destruct Ea as [Ba Ea]. split; [exact Ba|]. unfold cls. rewrite Ea. rewrite isBorder_lo by lia. exact EK. }
    assert (get src p = Ok k) as Gp by now apply s_ok. clear -Path Gp CK wf Bp. 
    assert (forall a b, region_path chf src a b -> get src a = get src b /\ (get src a = Ok k -> conn chf (fun i => 0 <= i < N /\ cls src R1 i <> 0) (cls src R1) a b)) as ALL.
    { intros a b H. induction H as [a b (H1 & H2 & H3)|a|a b H [IH1 IH2]|a b c H1 [I1 I2] H2 [I3 I4]].
      - split; [exact H2|]. intros Ga. assert (get src b = Ok k) as Gb by congruence. destruct (CK a Ga) as [Ba Ca], (CK b Gb) as [Bb Cb]. apply rst_step.
        split; [split; [exact Ba|lia]|]. split; [split; [exact Bb|lia]|]. split; [|congruence]. split; [|exact H3].
        rewrite !area_get in H1 by (exact wf || assumption). now apply Ok_inj in H1.
      - split; [reflexivity|]. intros _. apply rst_refl.
      - split; [congruence|]. intros Gb. apply rst_sym, IH2. congruence.
      - split; [congruence|]. intros Ga. apply rst_trans with b; [now apply I2|apply I4; congruence]. }
    now apply ALL.
  - intros HA x y p q Sp Sq E P0. destruct (CLS p) as [Ep Bp]; [eapply ok_at; eauto|exact P0|]. rewrite E in P0. destruct (CLS q) as [Eq Bq]; [eapply ok_at; eauto|exact P0|].
    apply (HA x y p q Sp Sq); [congruence|exact Bp].
  - reflexivity.
Qed.

(** The last loop. *)
Lemma remap_ok : forall R, zlen R = nreg -> exists src', foldM (remapSpan R) (zseq (Z.to_nat N)) src = Ok src' /\ zlen src' = N /\
  forall i, 0 <= i < N -> dv src' i = if isBorder (s i) then s i else id R (s i).
Proof.
  intros R L. pose proof Hn as HN. pose proof (N_nonneg chf wf) as NN.
  destruct (foldM_inv (remapSpan R) (fun pre d => zlen d = N /\ (forall i, 0 <= i < zlen pre -> i < N -> dv d i = if isBorder (s i) then s i else id R (s i)) /\
     (forall i, zlen pre <= i < N -> dv d i = s i)) (zseq (Z.to_nat N)) src) as (d & E & Ld & H & _).
  - split; [apply Lsrc|]. split; [intros i Hi; change (zlen []) with 0 in Hi; lia|]. reflexivity.
  - intros pre i post d El (Ld & H1 & H2). pose proof (zseq_split _ _ _ _ El) as [Ei _]. assert (0 <= i < N) as Bi.
    { assert (In i (zseq (Z.to_nat N))) as Q by (rewrite El; apply in_app_iff; right; now left). apply in_zseq in Q. lia. }
    unfold remapSpan. rewrite get_dv by lia. cbn [bind]. rewrite H2 by lia. rewrite zlen_snoc. destruct (isBorder (s i)) eqn:EB.
    + exists d. split; [reflexivity|]. split; [exact Ld|]. split.
      * intros j Bj Bj'. destruct (Z.eq_dec j i) as [->|]; [rewrite EB; apply H2; lia|]. apply H1; lia.
      * intros j Bj. apply H2. lia.
    + assert (0 <= s i < nreg) as B. { destruct (Hv i Bi) as [|B]; [assumption|]. rewrite isBorder_hi in EB by exact B. discriminate. }
      rewrite get_rg by lia. cbn [bind]. unfold set. rewrite Ld. destruct (Z.leb_spec 0 i), (Z.ltb_spec i N); cbn [andb]; try lia. eexists. split; [reflexivity|].
      split; [now rewrite zlen_upd|]. split.
      * intros j Bj Bj'. rewrite dv_upd by lia. destruct (Z.eqb_spec j i) as [->|]; [now rewrite EB|]. apply H1; lia.
      * intros j Bj. rewrite dv_upd by lia. destruct (Z.eqb_spec j i); [lia|]. apply H2. lia.
  - exists d. split; [exact E|]. split; [exact Ld|]. intros i Hi. apply H; [|lia]. unfold zlen. rewrite zseq_length. lia.
Qed.

(** Everything that is shown about the merging. *)
Definition outcome (src' : list Z) (mx : Z) (f : Z -> Z) : Prop :=
  zlen src' = N /\ 0 <= mx <= maxID /\ f 0 = 0 /\
  (forall i r, get src i = Ok r -> get src' i = Ok (renamed f r)) /\
  (forall r, 0 <= r <= maxID -> 0 <= f r <= mx) /\
  (forall k, 1 <= k <= mx -> exists r, 1 <= r <= maxID /\ f r = k) /\
  (forall i j r, get src' i = Ok r -> get src' j = Ok r -> r <> 0 -> ~ border_reg r -> region_path chf src' i j) /\
  (forall r l, 1 <= r <= maxID -> NoDup l -> (forall i, In i l -> get src i = Ok r) -> minArea <= zlen l -> f r <> 0) /\
  (separate chf src maxID G -> at_most (minArea - 1) (fun i => exists r, get src i = Ok r /\ G r = true) ->
     forall i r, get src i = Ok r -> G r = true -> get src' i = Ok 0) /\
  (no_overlaps chf src -> no_overlaps chf src').

Theorem merge_ok : exists src' mx ov f, mergeAndFilterRegions minArea mergeSize maxID chf src = Ok (src', mx, ov) /\ outcome src' mx f.
Proof.
  pose proof Hn as HN. unfold mergeAndFilterRegions. rewrite u16_id by (unfold is_u16; lia).
  destruct (collectRegions_ok chf wf small src nreg Lsrc Hn Hv Ha) as (R0 & E0 & HC). rewrite E0. cbn [bind].
  destruct (filter_ok chf wf small src nreg Hn R0) with (minArea := minArea) (G := G) as (R1 & E1 & HF & HG).
  { apply (c_len _ _ _ _ _ HC). }
  { apply (c_id _ _ _ _ _ HC). }
  { apply (c_cnt _ _ _ _ _ HC). }
  { intros k c Hk Hc. destruct (c_con _ _ _ _ _ HC k c Hk Hc) as [[->|(p & q & _ & St & <-)] _]; [lia|]. destruct (step_range p q St) as [_ Bq]. exact (Hv q Bq). }
  rewrite E1. cbn [bind]. pose proof (joined_start R0 R1 HC HF) as J1.
  destruct (mergeLoop_ok chf src nreg Hn Hv (ok_at _ wf) R1 (S (Z.to_nat nreg)) mergeSize R1 J1) as (R2 & E2 & J2).
  { pose proof (reps_le nreg Hn R1). lia. }
  rewrite E2. cbn [bind].
  destruct (compress_ok nreg Hn R2 (j_len _ _ _ _ _ J2) (j_id _ _ _ _ _ J2) (j_id0 _ _ _ _ _ J2)) as (Rm & R3 & mx & Em & E3 & L3 & Bm & Z1 & Z2 & Z3).
  rewrite Em. cbn [bind]. rewrite E3. cbn [bind]. destruct (remap_ok R3 L3) as (src' & E4 & L4 & H4). rewrite E4. cbn [bind].
  eexists src', mx, _, (fun r => id R3 r). split; [reflexivity|].
  assert (forall i, 0 <= i < N -> get src' i = Ok (renamed (fun r => id R3 r) (s i))) as NEW.
  { intros i Hi. rewrite get_dv by lia. rewrite H4 by exact Hi. unfold renamed. now rewrite isB. }
  assert (forall i r, get src' i = Ok r -> r <> 0 -> ~ border_reg r -> 0 <= i < N /\ 0 <= s i < nreg /\ isBorder (s i) = false /\ id R3 (s i) = r) as INV.
  { intros i r Hi R0' NB. pose proof (get_range _ _ _ Hi) as B. rewrite L4 in B. rewrite NEW in Hi by exact B. apply Ok_inj in Hi. unfold renamed in Hi. rewrite <- isB in Hi by exact B.
    destruct (isBorder (s i)) eqn:EB.
    - exfalso. apply NB. rewrite isB in EB by exact B. apply Z.leb_le in EB. unfold border_reg. lia.
    - split; [exact B|]. split; [|auto]. destruct (Hv i B) as [|Q]; [assumption|]. rewrite isBorder_hi in EB by exact Q. discriminate. }
  assert (forall i j r, get src' i = Ok r -> get src' j = Ok r -> r <> 0 -> ~ border_reg r -> cls src R2 i = cls src R2 j /\ cls src R2 i <> 0) as CL.
  { intros i j r Hi Hj Q NB. destruct (INV i r Hi Q NB) as (Bi & Si & EBi & Ii), (INV j r Hj Q NB) as (Bj & Sj & EBj & Ij).
    unfold cls. rewrite EBi, EBj. split; [apply (Z2 (s i) (s j) Si Sj); congruence|]. destruct (Z1 (s i) Si) as [_ X]. rewrite <- X. congruence. }
  split; [exact L4|]. split; [lia|]. split; [destruct (Z1 0) as [_ X]; [lia|]; apply X; apply (j_id0 _ _ _ _ _ J2)|]. split; [|split; [|split; [|split; [|split; [|split]]]]].
  - intros i r Hi. apply get_s in Hi. destruct Hi as [Hi <-]. now apply NEW.
  - intros r Hr. destruct (Z1 r) as [X _]; lia.
  - intros k Hk. destruct (Z3 k Hk) as (r & Hr & E). exists r. split; [lia|exact E].
  - intros i j r Hi Hj Q NB. destruct (CL i j r Hi Hj Q NB) as [Ec C0]. destruct (INV i r Hi Q NB) as (Bi & _), (INV j r Hj Q NB) as (Bj & _).
    pose proof (j_conn _ _ _ _ _ J2 i j Bi Bj Ec C0) as P. clear Hi Hj Q NB Ec C0 Bi Bj. induction P as [a b ((Ba & Ca) & (Bb & Cb) & (HA & HL) & E)|a|a b H IH|a b c H1 IH1 H2 IH2].
    + apply rst_step. split; [rewrite !area_get by (exact wf || assumption); now f_equal|]. split; [|exact HL]. rewrite !NEW by assumption. f_equal. unfold renamed. rewrite <- !isB by assumption.
      unfold cls in Ca, Cb, E. destruct (isBorder (s a)) eqn:Ea; [congruence|]. destruct (isBorder (s b)) eqn:Eb; [congruence|].
      assert (forall c, 0 <= c < N -> isBorder (s c) = false -> 0 <= s c < nreg) as SB by (intros c Bc EB; destruct (Hv c Bc) as [|X]; [assumption|]; rewrite isBorder_hi in EB by exact X; discriminate).
      apply Z2; auto.
    + apply rst_refl.
    + apply rst_sym. exact IH.
    + apply rst_trans with b; assumption.
  - intros r l Hr ND Hl LE. destruct (Z1 r) as [_ X]; [lia|]. rewrite X. rewrite (j_zero _ _ _ _ _ J2 r) by lia. destruct (f_id _ _ _ _ _ _ HF r) as [[-> _]|(_ & _ & _ & Y)]; [lia|lia|].
    exfalso. rewrite <- spansOf_len in Y. assert (incl l (spansOf chf src r)) as I. { intros i Hi. apply spans_of. now apply get_s, Hl. }
    pose proof (NoDup_incl_length ND I) as Q. unfold zlen in *. lia.
  - intros [SG1 SG2] AM i r Hi Gr. apply get_s in Hi. destruct Hi as [Bi Ei]. pose proof (SG1 r Gr) as Br. rewrite NEW by exact Bi. f_equal. unfold renamed. rewrite <- isB by exact Bi. rewrite Ei. rewrite isBorder_lo by lia.
    destruct (Z1 r) as [_ X]; [lia|]. apply X. apply (j_zero _ _ _ _ _ J2 r); [lia|].
    assert (forall k c, 0 <= k < nreg -> k <> 0 -> c <> 0 -> In c (rConns (rg R0 k)) -> G k = G c) as GC.
    { intros k c Hk K0 C0 Hc. destruct (c_con _ _ _ _ _ HC k c Hk Hc) as [[|(p & q & Ep & St & Eq)] _]; [contradiction|]. destruct (step_range p q St) as [Bp Bq].
      apply (SG2 p q k c); auto; [now apply connected_step|rewrite s_ok by exact Bp; now f_equal|rewrite s_ok by exact Bq; now f_equal]. }
    apply HG; [|lia|exact Gr|].
    + split; [|split].
      * intros k c Hk Gk Hc. pose proof (SG1 k Gk). destruct (Z.eq_dec c 0) as [->|C0]; [split; [reflexivity|contradiction]|].
        pose proof (GC k c Hk ltac:(lia) C0 Hc) as Q. rewrite Gk in Q. symmetry in Q. pose proof (SG1 c Q). split; [apply isBorder_lo; lia|auto].
      * intros k c Hk Gk Hc _ C0. destruct (Z.eq_dec k 0) as [->|K0].
        -- exfalso. destruct (c_con _ _ _ _ _ HC 0 c Hk Hc) as [_ [? _]]. lia.
        -- rewrite <- Gk. symmetry. now apply GC.
      * intros l ND Hl. enough (zlen (flat_map (spansOf chf src) l) <= minArea - 1) by lia. apply AM; [apply (spans_NoDup chf wf src nreg HN); exact ND|].
        intros p Hp. apply in_flat_map in Hp. destruct Hp as (k & Hk & Hp). apply spans_of in Hp. destruct Hp as [Bp <-]. exists (s p). split; [now apply s_ok|now apply Hl].
    + rewrite <- spansOf_len. assert (In i (spansOf chf src r)) as Q by (apply spans_of; auto). destruct (spansOf chf src r); [destruct Q|]. rewrite zlen_cons. pose proof (zlen_nonneg l). lia.
  - intros NO x y i j r Si Sj Hi Hj Q NB. destruct (CL i j r Hi Hj Q NB) as [Ec C0]. apply (j_over _ _ _ _ _ J2) with (x := x) (y := y); auto.
    intros x1 y1 p q Sp Sq E B. apply (NO x1 y1 p q (s p) Sp Sq); [apply s_ok; eapply ok_at; eauto|rewrite E; apply s_ok; eapply ok_at; eauto|lia|unfold border_reg; lia].
Qed.
End Merge.
