(** The points of a traced contour (C69). *)
From Coq Require Import ZArith List Bool Lia Arith.
From Verif.Base Require Import Res GoNum Bits Grid.
From Verif.Model Require Import Heightfield Dirs Compact Erode Region Contour.
From Verif.Spec Require Import HeightfieldSpec CompactSpec ErodeSpec RegionSpec TraceSpec.
From Verif.Proofs Require Import ErodeProofs ErodeDist RegionBase TraceStep.
Import ListNotations.
Open Scope Z_scope.

Lemma iMax_max : forall a b, iMax a b = Z.max a b.
Proof. intros a b. unfold iMax. destruct (a >? b) eqn:E; rewrite ?Z.gtb_ltb in E; [apply Z.ltb_lt in E|apply Z.ltb_ge in E]; lia. Qed.
Lemma height_fun : forall chf i r r', has_height chf i r -> has_height chf i r' -> r = r'.
Proof. intros chf i r r' (s & E & <-) (s' & E' & <-). rewrite E in E'. apply Ok_inj in E'. now subst. Qed.
Lemma isBorder_iff : forall r, 0 <= r < 65536 -> (isBorder r = true <-> 32768 <= r).
Proof.
  intros r H. destruct (Z_lt_dec r 32768); [rewrite isBorder_lo by lia|rewrite isBorder_hi by lia]; split; intros; lia || discriminate || reflexivity.
Qed.
Lemma borderQuad_spec : forall r0 r1 r2 r3, 0 <= r0 < 65536 -> 0 <= r1 < 65536 -> 0 <= r2 < 65536 -> 0 <= r3 < 65536 ->
  (borderQuad r0 r1 r2 r3 = true <-> two_two r0 r1 r2 r3).
Proof.
  assert (Q : forall a b c d, 0 <= a < 65536 -> 0 <= b < 65536 -> 0 <= c < 65536 -> 0 <= d < 65536 ->
    (negb (Z.land (Z.land a b) borderReg =? 0) && (a =? b) && (Z.land (Z.lor c d) borderReg =? 0) &&
     (Z.shiftr c 16 =? Z.shiftr d 16) && (negb (a =? 0) && negb (b =? 0) && negb (c =? 0) && negb (d =? 0)) = true <->
     32768 <= a /\ a = b /\ 0 < c < 32768 /\ 0 < d < 32768)).
  { intros a b c d A B C D. rewrite !andb_true_iff, !negb_true_iff, !Z.eqb_eq, !Z.eqb_neq.
    assert (LO : forall z, 0 <= z < 65536 -> (Z.land z borderReg = 0 <-> z < 32768)).
    { intros z Hz. pose proof (isBorder_iff z Hz) as I. unfold isBorder in I. rewrite negb_true_iff, Z.eqb_neq in I. lia. }
    rewrite Z.land_lor_distr_l, Z.lor_eq_0_iff, (LO c C), (LO d D).
    assert (SH : forall z, 0 <= z < 65536 -> Z.shiftr z 16 = 0) by (intros z Hz; rewrite Z.shiftr_div_pow2 by lia; apply Z.div_small; exact Hz).
    rewrite (SH c C), (SH d D). split.
    - intros ((((X & ->) & X2) & _) & X3). rewrite Z.land_diag, (LO b B) in X. lia.
    - intros (X & <- & X2 & X3). rewrite Z.land_diag, (LO a A). lia. }
  intros r0 r1 r2 r3 A B C D. unfold borderQuad, two_two. rewrite !orb_true_iff, !Q by assumption. tauto.
Qed.

Section CHF.
Variable chf : CompactHeightfield.
Hypothesis wf : chf_wf chf.
Hypothesis R16 : regions16 chf.
Notation N := (chf_spanCount chf).
Notation linked := (linked chf).
Notation span_at := (span_at chf).

Lemma regCode_ok : forall x y i, span_at x y i -> exists r, regCode chf i = Ok r /\ has_region chf i r /\ 0 <= r < 65536.
Proof.
  intros x y i H. destruct (span_get chf wf x y i H) as [s S]. assert (HR : has_region chf i (csReg s)) by (exists s; auto). pose proof (R16 _ _ HR) as B.
  exists (csReg s). split; [|auto]. unfold regCode. rewrite S. cbn [bind].
  rewrite (area_get chf wf i (span_range chf wf _ _ _ H)). cbn [bind]. f_equal.
  apply Z.bits_inj'. intros n Hn. rewrite testbit_u16, Z.lor_spec, testbit_u32. destruct (Z.ltb_spec n 16).
  - rewrite Z.shiftl_spec_low by lia. rewrite andb_false_r, orb_false_r. reflexivity.
  - symmetry. apply u16_bits; [exact B|lia].
Qed.

Lemma cornerSide_ok : forall x y i s d d', span_at x y i -> get (chf_spans chf) i = Ok s -> (d < 4)%nat -> (d' < 4)%nat ->
  exists o, cornerSide chf x y (csCon s) (Z.of_nat d) (Z.of_nat d') = Ok o /\
  match o with
  | None => forall x' y' j, ~ linked d x y i x' y' j
  | Some (h, r, o2) => 0 <= r < 65536 /\ exists x' y' j, linked d x y i x' y' j /\ has_height chf j h /\ has_region chf j r /\
      match o2 with
      | None => forall x2 y2 k, ~ linked d' x' y' j x2 y2 k
      | Some (h2, r2) => 0 <= r2 < 65536 /\ exists x2 y2 k, linked d' x' y' j x2 y2 k /\ has_height chf k h2 /\ has_region chf k r2
      end
  end.
Proof.
  intros x y i s d d' H S D D'. unfold cornerSide, notConnected. destruct (link_dec chf wf d x y i s H D S) as [[E NL]|(E & x' & y' & j & En & L & A)].
  - rewrite E. exists None. auto.
  - destruct (Z.eqb_spec (GetCon (csCon s) (Z.of_nat d)) 63) as [Q|_]; [contradiction|]. rewrite En. cbn [bind].
    destruct (span_get chf wf _ _ _ A) as [t T]. rewrite T. cbn [bind]. destruct (regCode_ok _ _ _ A) as (r & Er & Hr & Br). rewrite Er. cbn [bind].
    assert (HT : has_height chf j (csY t)) by (exists t; auto).
    destruct (link_dec chf wf d' x' y' j t A D' T) as [[E' NL']|(E' & x2 & y2 & k & En' & L' & A')].
    + rewrite E'. eexists. split; [reflexivity|]. cbn beta iota. split; [exact Br|]. exists x', y', j. auto.
    + destruct (Z.eqb_spec (GetCon (csCon t) (Z.of_nat d')) 63) as [Q|_]; [contradiction|]. rewrite En'. cbn [bind].
      destruct (span_get chf wf _ _ _ A') as [u U]. rewrite U. cbn [bind]. destruct (regCode_ok _ _ _ A') as (r2 & Er2 & Hr2 & Br2). rewrite Er2. cbn [bind].
      eexists. split; [reflexivity|]. cbn beta iota. split; [exact Br|]. exists x', y', j. split; [exact L|]. split; [exact HT|]. split; [exact Hr|]. split; [exact Br2|].
      exists x2, y2, k. split; [exact L'|]. split; [exists u; auto|exact Hr2].
Qed.

Lemma region_or_0_fun : forall (P : Z -> Prop) r r', (forall j k, P j -> P k -> j = k) -> region_or_0 chf P r -> region_or_0 chf P r' -> r = r'.
Proof.
  intros P r r' F [(j & Pj & Hj)|[N ->]] [(k & Pk & Hk)|[N' ->]]; [| | |reflexivity].
  - rewrite (F _ _ Pk Pj) in Hk. eapply region_fun; eauto.
  - destruct N'. eauto.
  - destruct N. eauto.
Qed.
Lemma across_fun : forall e d x y j x' y' k, across chf e d x y j -> across chf e d x' y' k -> j = k.
Proof. intros e d x y j x' y' k A B. now destruct (linked_fun chf _ _ _ _ _ _ _ _ _ _ A B) as (_ & _ & ->). Qed.
Lemma diagonal_fun : forall e d d' j k, diagonal chf e d d' j -> diagonal chf e d d' k -> j = k.
Proof.
  intros e d d' j k (x & y & a & x' & y' & A & B) (x2 & y2 & a2 & x2' & y2' & A2 & B2).
  destruct (linked_fun chf _ _ _ _ _ _ _ _ _ _ A A2) as (-> & -> & ->). now destruct (linked_fun chf _ _ _ _ _ _ _ _ _ _ B B2) as (_ & _ & ->).
Qed.
Lemma regions_around_fun : forall e r0 r1 r2 r3 q0 q1 q2 q3, regions_around chf e r0 r1 r2 r3 -> regions_around chf e q0 q1 q2 q3 ->
  r0 = q0 /\ r1 = q1 /\ r2 = q2 /\ r3 = q3.
Proof.
  intros e r0 r1 r2 r3 q0 q1 q2 q3 (A0 & A1 & A3 & A2) (B0 & B1 & B3 & B2).
  split; [eapply region_fun; eauto|]. split; [|split].
  - eapply region_or_0_fun; [|exact A1|exact B1]. intros j k (x & y & P) (x' & y' & P'). eapply across_fun; eauto.
  - eapply region_or_0_fun; [|exact A2|exact B2]. intros j k [P|[NP P]] [P'|[NP' P']]; try (eapply diagonal_fun; eauto; fail); exfalso; eauto.
  - eapply region_or_0_fun; [|exact A3|exact B3]. intros j k (x & y & P) (x' & y' & P'). eapply across_fun; eauto.
Qed.

Lemma cornerHeight_ok : forall e, span_at (eX e) (eY e) (eI e) -> (eD e < 4)%nat -> exists ch b,
  cornerHeight (eX e) (eY e) (eI e) (Z.of_nat (eD e)) chf = Ok (ch, b) /\
  (exists j, around chf e j /\ has_height chf j ch) /\ (forall j h, around chf e j -> has_height chf j h -> h <= ch) /\
  (b = true <-> exists r0 r1 r2 r3, regions_around chf e r0 r1 r2 r3 /\ two_two r0 r1 r2 r3).
Proof.
  intros e H D. destruct (span_get chf wf _ _ _ H) as [s S]. unfold cornerHeight. rewrite S. cbn [bind].
  replace (Z.of_nat (eD e) + 1) with (Z.of_nat (eD e + 1)) by lia. rewrite land3_mod. fold (right_of e).
  assert (D' : (right_of e < 4)%nat) by apply mod4.
  destruct (regCode_ok _ _ _ H) as (r0 & E0 & H0 & B0). rewrite E0. cbn [bind].
  assert (HS : has_height chf (eI e) (csY s)) by (exists s; auto).
  destruct (cornerSide_ok _ _ _ s (eD e) (right_of e) H S D D') as (oa & Ea & Pa). rewrite Ea. cbn [bind].
  destruct (cornerSide_ok _ _ _ s (right_of e) (eD e) H S D' D) as (ob & Eb & Pb). rewrite Eb. cbn [bind].
  assert (A0 : around chf e (eI e)) by (now left).
  assert (NAD : forall d d' (NL : forall x' y' j, ~ linked d (eX e) (eY e) (eI e) x' y' j) k, ~ diagonal chf e d d' k).
  { intros d d' NL k (x1 & y1 & j1 & x2 & y2 & A & B). exact (NL _ _ _ A). }
  assert (NAD2 : forall d d' x1 y1 j1 (L : linked d (eX e) (eY e) (eI e) x1 y1 j1) (NL : forall x2 y2 k, ~ linked d' x1 y1 j1 x2 y2 k) k, ~ diagonal chf e d d' k).
  { intros d d' x1 y1 j1 L NL k (x1' & y1' & j1' & x2 & y2 & A & B). destruct (linked_fun chf _ _ _ _ _ _ _ _ _ _ L A) as (-> & -> & ->). exact (NL _ _ _ B). }
  assert (R1 : exists r1, region_or_0 chf (fun j => exists x y, across chf e (eD e) x y j) r1 /\ 0 <= r1 < 65536 /\
     r1 = match oa with None => 0 | Some (_, r, _) => r end).
  { destruct oa as [[[h1 r1] o2]|].
    - destruct Pa as (B & x1 & y1 & j1 & L & _ & R & _). exists r1. split; [left; exists j1; split; [exists x1, y1; exact L|exact R]|auto].
    - exists 0. split; [right; split; [|reflexivity]; intros (j & x1 & y1 & L); exact (Pa _ _ _ L)|split; [lia|reflexivity]]. }
  assert (R3 : exists r3, region_or_0 chf (fun j => exists x y, across chf e (right_of e) x y j) r3 /\ 0 <= r3 < 65536 /\
     r3 = match ob with None => 0 | Some (_, r, _) => r end).
  { destruct ob as [[[h1 r1] o2]|].
    - destruct Pb as (B & x1 & y1 & j1 & L & _ & R & _). exists r1. split; [left; exists j1; split; [exists x1, y1; exact L|exact R]|auto].
    - exists 0. split; [right; split; [|reflexivity]; intros (j & x1 & y1 & L); exact (Pb _ _ _ L)|split; [lia|reflexivity]]. }
  assert (R2 : exists r2, region_or_0 chf (fun j => diagonal chf e (right_of e) (eD e) j \/
       ~ (exists k, diagonal chf e (right_of e) (eD e) k) /\ diagonal chf e (eD e) (right_of e) j) r2 /\ 0 <= r2 < 65536 /\
     r2 = match ob with Some (_, _, Some (_, r)) => r | _ => match oa with Some (_, _, Some (_, r)) => r | _ => 0 end end).
  { assert (NB : (forall k, ~ diagonal chf e (right_of e) (eD e) k) -> exists r2, region_or_0 chf (fun j => diagonal chf e (right_of e) (eD e) j \/
       ~ (exists k, diagonal chf e (right_of e) (eD e) k) /\ diagonal chf e (eD e) (right_of e) j) r2 /\ 0 <= r2 < 65536 /\
       r2 = match oa with Some (_, _, Some (_, r)) => r | _ => 0 end).
    { intros NB. destruct oa as [[[h1 r1] [[h2 r2]|]]|].
      - destruct Pa as (_ & x1 & y1 & j1 & L & _ & _ & B & x2 & y2 & k & L2 & _ & R). exists r2. split; [|auto]. left. exists k. split; [|exact R]. right.
        split; [intros (k' & Q); exact (NB _ Q)|]. exists x1, y1, j1, x2, y2. auto.
      - destruct Pa as (_ & x1 & y1 & j1 & L & _ & _ & NL). exists 0. split; [|split; [lia|reflexivity]]. right. split; [|reflexivity].
        intros (j & [Q|[_ Q]]); [exact (NB _ Q)|]. exact (NAD2 _ _ _ _ _ L NL _ Q).
      - exists 0. split; [|split; [lia|reflexivity]]. right. split; [|reflexivity]. intros (j & [Q|[_ Q]]); [exact (NB _ Q)|]. exact (NAD _ _ Pa _ Q). }
    destruct ob as [[[h1 r1] [[h2 r2]|]]|].
    - destruct Pb as (_ & x1 & y1 & j1 & L & _ & _ & B & x2 & y2 & k & L2 & _ & R). exists r2. split; [|auto]. left. exists k. split; [|exact R]. left.
      exists x1, y1, j1, x2, y2. auto.
    - apply NB. destruct Pb as (_ & x1 & y1 & j1 & L & _ & _ & NL). exact (NAD2 _ _ _ _ _ L NL).
    - apply NB. exact (NAD _ _ Pb). }
  destruct R1 as (r1 & R1 & B1 & Q1), R2 as (r2 & R2 & B2 & Q2), R3 as (r3 & R3 & B3 & Q3).
  set (ha := match oa with None => csY s | Some (h, _, None) => Z.max (csY s) h | Some (h, _, Some (h2, _)) => Z.max (Z.max (csY s) h) h2 end).
  set (hb := match ob with None => ha | Some (h, _, None) => Z.max ha h | Some (h, _, Some (h2, _)) => Z.max (Z.max ha h) h2 end).
  exists hb, (borderQuad r0 r1 r2 r3). split.
  { subst hb ha. rewrite Q1, Q2, Q3. destruct oa as [[[h1 q1] [[h2 q2]|]]|], ob as [[[h3 q3] [[h4 q4]|]]|]; rewrite ?iMax_max; reflexivity. }
  assert (XA : (exists j, around chf e j /\ has_height chf j ha) /\ csY s <= ha /\
     (forall j h, (exists x y, across chf e (eD e) x y j) \/ diagonal chf e (eD e) (right_of e) j -> has_height chf j h -> h <= ha)).
  { subst ha. destruct oa as [[[h1 q1] [[h2 q2]|]]|].
    - destruct Pa as (_ & x1 & y1 & j1 & L & HH & _ & _ & x2 & y2 & k & L2 & HH2 & _).
      assert (AJ : around chf e j1) by (right; left; exists x1, y1; exact L).
      assert (AK : around chf e k) by (do 3 right; left; exists x1, y1, j1, x2, y2; auto).
      split. { destruct (Z.max_spec (Z.max (csY s) h1) h2) as [[_ ->]|[_ ->]]; [eauto|]. destruct (Z.max_spec (csY s) h1) as [[_ ->]|[_ ->]]; eauto. }
      split; [lia|]. intros j h [(x3 & y3 & Q)|Q] Hh.
      + rewrite (across_fun _ _ _ _ _ _ _ _ Q L) in Hh. rewrite (height_fun _ _ _ _ Hh HH). lia.
      + assert (diagonal chf e (eD e) (right_of e) k) as Q' by (exists x1, y1, j1, x2, y2; auto). rewrite (diagonal_fun _ _ _ _ _ Q Q') in Hh. rewrite (height_fun _ _ _ _ Hh HH2). lia.
    - destruct Pa as (_ & x1 & y1 & j1 & L & HH & _ & NL). assert (AJ : around chf e j1) by (right; left; exists x1, y1; exact L).
      split. { destruct (Z.max_spec (csY s) h1) as [[_ ->]|[_ ->]]; eauto. }
      split; [lia|]. intros j h [(x3 & y3 & Q)|Q] Hh.
      + rewrite (across_fun _ _ _ _ _ _ _ _ Q L) in Hh. rewrite (height_fun _ _ _ _ Hh HH). lia.
      + destruct (NAD2 _ _ _ _ _ L NL _ Q).
    - split; [eauto|]. split; [lia|]. intros j h [(x3 & y3 & Q)|Q] Hh; [destruct (Pa _ _ _ Q)|destruct (NAD _ _ Pa _ Q)]. }
  assert (XB : (exists j, around chf e j /\ has_height chf j hb) /\ ha <= hb /\
     (forall j h, (exists x y, across chf e (right_of e) x y j) \/ diagonal chf e (right_of e) (eD e) j -> has_height chf j h -> h <= hb)).
  { destruct XA as ((ja & JA & HA) & _). subst hb. destruct ob as [[[h1 q1] [[h2 q2]|]]|].
    - destruct Pb as (_ & x1 & y1 & j1 & L & HH & _ & _ & x2 & y2 & k & L2 & HH2 & _).
      assert (AJ : around chf e j1) by (do 2 right; left; exists x1, y1; exact L).
      assert (AK : around chf e k) by (do 4 right; exists x1, y1, j1, x2, y2; auto).
      split. { destruct (Z.max_spec (Z.max ha h1) h2) as [[_ ->]|[_ ->]]; [eauto|]. destruct (Z.max_spec ha h1) as [[_ ->]|[_ ->]]; eauto. }
      split; [lia|]. intros j h [(x3 & y3 & Q)|Q] Hh.
      + rewrite (across_fun _ _ _ _ _ _ _ _ Q L) in Hh. rewrite (height_fun _ _ _ _ Hh HH). lia.
      + assert (diagonal chf e (right_of e) (eD e) k) as Q' by (exists x1, y1, j1, x2, y2; auto). rewrite (diagonal_fun _ _ _ _ _ Q Q') in Hh. rewrite (height_fun _ _ _ _ Hh HH2). lia.
    - destruct Pb as (_ & x1 & y1 & j1 & L & HH & _ & NL). assert (AJ : around chf e j1) by (do 2 right; left; exists x1, y1; exact L).
      split. { destruct (Z.max_spec ha h1) as [[_ ->]|[_ ->]]; eauto. }
      split; [lia|]. intros j h [(x3 & y3 & Q)|Q] Hh.
      + rewrite (across_fun _ _ _ _ _ _ _ _ Q L) in Hh. rewrite (height_fun _ _ _ _ Hh HH). lia.
      + destruct (NAD2 _ _ _ _ _ L NL _ Q).
    - split; [eauto|]. split; [lia|]. intros j h [(x3 & y3 & Q)|Q] Hh; [destruct (Pb _ _ _ Q)|destruct (NAD _ _ Pb _ Q)]. }
  split; [apply XB|]. destruct XA as (_ & LA & MA), XB as (_ & LB & MB). split.
  { intros j h [->|[Q|[Q|[Q|Q]]]] Hh.
    - rewrite (height_fun _ _ _ _ Hh HS). lia.
    - specialize (MA j h (or_introl Q) Hh). lia.
    - exact (MB j h (or_introl Q) Hh).
    - specialize (MA j h (or_intror Q) Hh). lia.
    - exact (MB j h (or_intror Q) Hh). }
  assert (RA : regions_around chf e r0 r1 r2 r3) by (repeat split; assumption).
  rewrite borderQuad_spec by assumption. split; [intros T; exists r0, r1, r2, r3; auto|].
  intros (q0 & q1 & q2 & q3 & QA & T). destruct (regions_around_fun _ _ _ _ _ _ _ _ _ QA RA) as (-> & -> & -> & ->). exact T.
Qed.

Lemma with_bits : forall r (b c : bool), 0 <= r < 65536 ->
  let v := let q := if b then Z.lor r borderVertex else r in if c then Z.lor q areaBorder else q in
  v mod 2 ^ 16 = r /\ 0 <= v < 2 ^ 18 /\ Z.testbit v 16 = b /\ Z.testbit v 17 = c.
Proof.
  intros r b c R. assert (L1 : forall k, 16 <= k -> Z.testbit r k = false) by (intros; now apply (testbit_high 16)).
  assert (P1 : Z.lor r 65536 = r + 65536).
  { apply lor_disjoint_add. apply land_zero_iff. intros i Hi. destruct (Z.eq_dec i 16) as [->|NE]; [now rewrite L1 by lia|].
    change 65536 with (2 ^ 16). rewrite Z.pow2_bits_false by lia. apply andb_false_r. }
  assert (P2 : forall q, 0 <= q < 2 ^ 17 -> Z.lor q 131072 = q + 131072).
  { intros q Hq. apply lor_disjoint_add. apply land_zero_iff. intros i Hi. destruct (Z.eq_dec i 17) as [->|NE]; [now rewrite (testbit_high 17) by lia|].
    change 131072 with (2 ^ 17). rewrite Z.pow2_bits_false by lia. apply andb_false_r. }
  assert (T : forall q k (m : bool), 0 <= k -> 0 <= q < 2 ^ k -> Z.testbit (q + (if m then 2 ^ k else 0)) k = m).
  { intros q k m Hk Hq. pose proof (Z.pow_pos_nonneg 2 k ltac:(lia) Hk). destruct m.
    - apply Z.testbit_true; [exact Hk|]. replace (q + 2 ^ k) with (q + 1 * 2 ^ k) by lia. rewrite Z.div_add, Z.div_small by lia. reflexivity.
    - rewrite Z.add_0_r. apply (testbit_high k); lia. }
  unfold borderVertex, areaBorder. destruct b, c; cbn zeta; rewrite ?P1; rewrite ?P2 by (change (2 ^ 17) with 131072; lia).
  - split; [symmetry; apply Z.mod_unique with 3; lia|]. split; [cbn; lia|]. split.
    + apply Z.testbit_true; [lia|]. replace (r + 65536 + 131072) with (r + 3 * 2 ^ 16) by lia. rewrite Z.div_add, Z.div_small by lia. reflexivity.
    + exact (T (r + 65536) 17 true ltac:(lia) ltac:(lia)).
  - split; [symmetry; apply Z.mod_unique with 1; lia|]. split; [cbn; lia|]. split.
    + exact (T r 16 true ltac:(lia) ltac:(lia)).
    + apply (testbit_high 17); lia.
  - split; [symmetry; apply Z.mod_unique with 2; lia|]. split; [cbn; lia|]. split.
    + apply Z.testbit_false; [lia|]. replace (r + 131072) with (r + 2 * 2 ^ 16) by lia. rewrite Z.div_add, Z.div_small by lia. reflexivity.
    + exact (T r 17 true ltac:(lia) ltac:(lia)).
  - split; [apply Z.mod_small; lia|]. split; [lia|]. split; apply (testbit_high 16); lia.
Qed.

Lemma edgeVert_ok : forall e area, span_at (eX e) (eY e) (eI e) -> (eD e < 4)%nat -> get (chf_areas chf) (eI e) = Ok area ->
  exists v, edgeVert chf area (eX e) (eY e) (eI e) (Z.of_nat (eD e)) = Ok v /\ point_of chf e v.
Proof.
  intros e area H D A. destruct (cornerHeight_ok e H D) as (ch & b & E & M1 & M2 & W). destruct (span_get chf wf _ _ _ H) as [s S].
  unfold edgeVert. rewrite E. cbn [bind]. rewrite S. cbn [bind]. unfold notConnected.
  assert (X : exists r c, (if GetCon (csCon s) (Z.of_nat (eD e)) =? 63 then Ok (0, false)
     else let* n := neighbour chf (eX e) (eY e) (csCon s) (Z.of_nat (eD e)) in
          let* ns := get (chf_spans chf) (snd n) in let* a := get (chf_areas chf) (snd n) in Ok (csReg ns, negb (area =? a))) = Ok (r, c) /\
     region_or_0 chf (fun j => exists x y, across chf e (eD e) x y j) r /\ 0 <= r < 65536 /\
     (c = true <-> exists x y j, across chf e (eD e) x y j /\ get (chf_areas chf) j <> get (chf_areas chf) (eI e))).
  { destruct (link_dec chf wf _ _ _ _ s H D S) as [[Q NL]|(Q & x' & y' & j & En & L & A')].
    - rewrite Q. exists 0, false. split; [reflexivity|]. split; [right; split; [|reflexivity]; intros (j & x & y & L); exact (NL _ _ _ L)|]. split; [lia|].
      split; [discriminate|]. intros (x & y & j & L & _). destruct (NL _ _ _ L).
    - destruct (Z.eqb_spec (GetCon (csCon s) (Z.of_nat (eD e))) 63) as [Q'|_]; [contradiction|]. rewrite En. cbn [bind snd].
      destruct (span_get chf wf _ _ _ A') as [t T]. rewrite T. cbn [bind]. rewrite (area_get chf wf j (span_range chf wf _ _ _ A')). cbn [bind].
      assert (HR : has_region chf j (csReg t)) by (exists t; auto).
      exists (csReg t), (negb (area =? RegionBase.A chf j)). split; [reflexivity|]. split; [left; exists j; split; [exists x', y'; exact L|exact HR]|]. split; [eapply R16; eauto|].
      rewrite negb_true_iff, Z.eqb_neq. split.
      + intros NE. exists x', y', j. split; [exact L|]. rewrite A, (area_get chf wf j (span_range chf wf _ _ _ A')). intros X. apply Ok_inj in X. congruence.
      + intros (x2 & y2 & j2 & L2 & NE). rewrite (across_fun _ _ _ _ _ _ _ _ L2 L) in NE. rewrite A, (area_get chf wf j (span_range chf wf _ _ _ A')) in NE. congruence. }
  destruct X as (r & c & X & RR & Br & Wc). rewrite X. cbn [bind]. destruct (with_bits r b c Br) as (V1 & V2 & V3 & V4). eexists. split; [reflexivity|].
  unfold point_of. cbn [vX vY vZ vR]. split.
  { rewrite <- surjective_pairing. unfold corner, edge_to. destruct (eD e) as [|[|[|[|n]]]]; try lia; reflexivity. }
  split; [exact M1|]. split; [exact M2|]. cbn zeta in V1, V2, V3, V4 |- *. rewrite V1, V3, V4. auto.
Qed.
End CHF.
