(** Erosion of the walkable area (C45). *)
From Coq Require Import ZArith List Bool Lia.
From Verif.Base Require Import Res GoNum Grid.
From Verif.Model Require Import Heightfield Dirs Compact Erode.
From Verif.Spec Require Import HeightfieldSpec CompactSpec ErodeSpec.
From Verif.Proofs Require Import CompactProofs ErodeProofs ErodeDist ErodeOpen.
From Verif.Properties Require Import RecastHeightfield.
Import ListNotations.
Open Scope Z_scope.

(** The compact heightfields built by BuildCompactHeightfield meet the hypothesis of the
    theorems below. *)
Theorem C45_hypothesis : forall wh climb hf chf n, hf_shape hf -> heights_ok hf ->
  GetHeightFieldSpanCount hf = Ok n -> n < 2147483648 -> (forall x y, walkables (col_at hf x y) <= 255) ->
  BuildCompactHeightfield wh climb hf = Ok chf -> chf_wf chf.
Proof.
  intros wh climb hf chf n Hsh Hok En Hn H255 E. pose proof Hsh as (Hw & Hh & Hs & Hl).
  destruct (C41_layout wh climb hf n Hsh Hok En Hn H255) as (chf' & E' & Ew & Eh & _ & _ & EN & Ls & La & Lc & Lo).
  rewrite E in E'. apply Ok_inj in E'. subst chf'.
  pose proof (spanCount_spec hf Hsh) as Et. rewrite En in Et. apply Ok_inj in Et.
  assert (total (hf_spans hf) < 2147483648) as Hn' by lia. destruct (build_spec wh climb hf Hsh Hok Hn' H255) as (chf0 & chf' & E' & HB). rewrite E in E'. apply Ok_inj in E'. subst chf'.
  assert (chf_ok chf0) as HO.
  { apply (laid_out_ok chf0 (hf_spans hf)); [| |apply HB]; rewrite (b_chf0 _ _ _ _ _ HB); cbn; [rewrite Ew|rewrite Eh]; assumption. }
  assert (chf_cells chf0 = chf_cells chf /\ chf_w chf0 = chf_w chf /\ chf_h chf0 = chf_h chf) as (F1 & F2 & F3) by (rewrite (b_chf0 _ _ _ _ _ HB); auto).
  assert (zlen (chf_spans chf0) = chf_spanCount chf) as F4.
  { rewrite EN, <- Ls. rewrite (b_chf0 _ _ _ _ _ HB). cbn. unfold zlen. rewrite <- (map_length yh (chf_spans chf)), (b_yh _ _ _ _ _ HB), map_length. reflexivity. }
  assert (forall x y i, span_at chf x y i -> 0 <= i < chf_spanCount chf) as AT.
  { intros x y i (Hx & Hy & c & Hc & Hi). unfold cell_at in Hc. rewrite <- F1, <- F2 in Hc. rewrite <- F2 in Hx. rewrite <- F3 in Hy.
    destruct (co_range _ HO x y c Hx Hy Hc) as (R1 & R2 & R3). rewrite F4 in R3. lia. }
  constructor.
  - lia.
  - lia.
  - rewrite <- F1, <- F2, <- F3. apply (co_cells _ HO).
  - congruence.
  - congruence.
  - exact AT.
  - intros i Hi. rewrite EN in Hi. destruct (Lo i Hi) as (x & y & c & [Gx Gy] & Hc & Hr & _). exists x, y. split; [lia|]. split; [lia|]. eauto.
  - intros x y x' y' i A B. pose proof (AT x y i A) as Hi. rewrite EN in Hi. destruct (Lo i Hi) as (x0 & y0 & c & _ & _ & _ & U).
    destruct A as (Ax & Ay & c1 & C1 & I1), B as (Bx & By & c2 & C2 & I2). rewrite Ew in *. rewrite Eh in *.
    destruct (U x y c1 (conj Ax Ay) C1 I1), (U x' y' c2 (conj Bx By) C2 I2). split; congruence.
  - intros x y i d s (Hx & Hy & c & Hc & Hi) Hd Hs' Hcon.
    destruct (C42_connection_exact wh climb hf chf n Hsh Hok En Hn H255 E x y c (i - cIndex c) d) as (s' & S' & [[Q _]|Q]); try assumption; [split; lia|lia| |].
    + replace (cIndex c + (i - cIndex c)) with i in S' by lia. rewrite S' in Hs'. apply Ok_inj in Hs'. subst s'. contradiction.
    + replace (cIndex c + (i - cIndex c)) with i in S' by lia. rewrite S' in Hs'. apply Ok_inj in Hs'. subst s'.
      destruct Q as (nc & ns & Nx & Ny & Cn & L1 & _). exists (x + fst (dir_step d)), (y + snd (dir_step d)), (cIndex nc + GetCon (csCon s) (Z.of_nat d)).
      split; [split; [reflexivity|]; exists s, nc; auto|]. split; [exact Nx|]. split; [exact Ny|]. exists nc. split; [exact Cn|]. lia.
Qed.

(** For every well-formed field and every radius: the function returns, changes nothing but
    the areas, and those only to 0. *)
Theorem C45_only_removes : forall radius chf, chf_wf chf ->
  exists areas', ErodeWalkableArea radius chf = Ok (mkCHF (chf_w chf) (chf_h chf) (chf_spanCount chf) (chf_wh chf) (chf_climb chf) (chf_cells chf) (chf_spans chf) areas') /\
    zlen areas' = zlen (chf_areas chf) /\
    forall i, 0 <= i < zlen (chf_areas chf) -> get areas' i = Ok 0 \/ get areas' i = get (chf_areas chf) i.
Proof.
  intros radius chf wf. destruct (erode_run chf wf radius) as (d0 & d1 & d2 & ar & E & L & _ & _ & _ & VA).
  exists ar. split; [exact E|]. rewrite (ok_areas _ wf). split; [exact L|]. intros i Hi. rewrite (VA i Hi). destruct (_ <? _); auto.
Qed.

(** For radius 1 to 127, border spans are removed. *)
Theorem C45_border_removed : forall radius chf chf' x y i, chf_wf chf -> 1 <= radius <= 127 ->
  ErodeWalkableArea radius chf = Ok chf' -> span_at chf x y i -> border chf x y i -> get (chf_areas chf') i = Ok 0.
Proof.
  intros radius chf chf' x y i wf Hr E HA HB. destruct (erode_run chf wf radius) as (d0 & d1 & d2 & ar & E' & L & V0 & V1 & V2 & VA).
  rewrite E in E'. apply Ok_inj in E'. subst chf'. cbn [chf_areas]. rewrite (VA i) by (eapply ok_at; eauto).
  rewrite i32_id by (unfold is_i32; lia). rewrite u8_id by (unfold is_u8; lia).
  pose proof (V1 x y i HA) as E1. pose proof (V2 x y i HA) as E2. rewrite (proj1 (V0 x y i HA) HB) in E1.
  destruct (best_le (dv d1) (srcs chf des1 (x, y, i)) 0) as [L1 _]. destruct (best_le (dv d2) (srcs chf des2 (x, y, i)) (dv d1 i)) as [L2 _].
  destruct (Z.ltb_spec (dv d2 i) (radius * 2)); [reflexivity|lia].
Qed.

(** On fields of at most 127 cells in one direction, exactly the spans that are reached from
    the border at a cost of less than twice the radius are removed, a straight move costing 2
    and a diagonal one 3, where the moves of the first pass precede those of the second. *)
Theorem C45_exact : forall radius chf chf' x y i, chf_wf chf -> chf_w chf <= 127 \/ chf_h chf <= 127 -> 0 <= radius <= 127 ->
  ErodeWalkableArea radius chf = Ok chf' -> span_at chf x y i ->
  ((exists n, reach_both chf x y i n /\ n < 2 * radius) -> get (chf_areas chf') i = Ok 0) /\
  ((forall n, reach_both chf x y i n -> 2 * radius <= n) -> get (chf_areas chf') i = get (chf_areas chf) i).
Proof.
  intros radius chf chf' x y i wf Hs Hr E HA. destruct (erode_exact chf wf Hs radius Hr) as (ar & E' & L & V).
  rewrite E in E'. apply Ok_inj in E'. subst chf'. apply (V x y i HA).
Qed.

(** The border span from which a span is reached is not far away. *)
Lemma reach_near : forall chf (B : Z -> Z -> Z -> Z -> Prop) D DE (P : Z -> Z -> Prop), chf_wf chf ->
  (forall d, In d D -> (d < 4)%nat) -> (forall d e, In (d, e) DE -> (d, e) = (0, 3)%nat \/ (d, e) = (3, 2)%nat \/ (d, e) = (2, 1)%nat \/ (d, e) = (1, 0)%nat) ->
  (forall x y i n, B x y i n -> exists bx by_ , P bx by_ /\ 2 * Z.max (Z.abs (x - bx)) (Z.abs (y - by_)) <= n) ->
  forall x y i n, reach chf B D DE x y i n -> exists bx by_, P bx by_ /\ 2 * Z.max (Z.abs (x - bx)) (Z.abs (y - by_)) <= n.
Proof.
  intros chf B D DE P wf HD HDE HB x y i n H. induction H as [x y i n Hb|x y i d x' y' j n HA Hd (E & _) HR (bx & by_ & HP & IH)|x y i d e x' y' j x2 y2 k n HA Hd (E & _) (E2 & _) HR (bx & by_ & HP & IH)].
  - apply (HB _ _ _ _ Hb).
  - exists bx, by_. split; [exact HP|]. injection E as -> ->. specialize (HD d Hd). destruct d as [|[|[|[|d]]]]; cbn [dir_step fst snd] in IH; lia.
  - exists bx, by_. split; [exact HP|]. injection E as -> ->. injection E2 as -> ->.
    destruct (HDE d e Hd) as [Q|[Q|[Q|Q]]]; injection Q as -> ->; cbn [dir_step fst snd] in IH; lia.
Qed.

(** Therefore no span is removed whose distance (in cells, the larger of the differences in x
    and y) from every border span is the radius or more. *)
Theorem C45_far_kept : forall radius chf chf' x y i, chf_wf chf -> chf_w chf <= 127 \/ chf_h chf <= 127 -> 0 <= radius <= 127 ->
  ErodeWalkableArea radius chf = Ok chf' -> span_at chf x y i ->
  (forall bx by_ j, span_at chf bx by_ j -> border chf bx by_ j -> radius <= Z.max (Z.abs (x - bx)) (Z.abs (y - by_))) ->
  get (chf_areas chf') i = get (chf_areas chf) i.
Proof.
  intros radius chf chf' x y i wf Hs Hr E HA Hfar. destruct (C45_exact radius chf chf' x y i wf Hs Hr E HA) as [_ K]. apply K.
  intros n Hn.
  assert (exists bx by_, (exists j, span_at chf bx by_ j /\ border chf bx by_ j) /\ 2 * Z.max (Z.abs (x - bx)) (Z.abs (y - by_)) <= n) as (bx & by_ & (j & J1 & J2) & Hle).
  { eapply (reach_near chf (reach_down chf)); [exact wf| | | |exact Hn].
    - intros d [<-|[<-|[]]]; lia.
    - intros d e [H|[H|[]]]; injection H as <- <-; auto.
    - intros x0 y0 i0 n0 H0. eapply (reach_near chf (at_border chf)); [exact wf| | | |exact H0].
      + intros d [<-|[<-|[]]]; lia.
      + intros d e [H|[H|[]]]; injection H as <- <-; auto.
      + intros x1 y1 i1 n1 (A1 & A2 & ->). exists x1, y1. split; [eauto|]. lia. }
  specialize (Hfar bx by_ j J1 J2). lia.
Qed.

(** A 5 x 5 floor: one ring is removed with radius 1. *)
Example C45_example : chf_wf (openField 5 5) /\
  (let* c := ErodeWalkableArea 1 (openField 5 5) in Ok (chf_areas c)) =
  Ok [0; 0; 0; 0; 0; 0; 63; 63; 63; 0; 0; 63; 63; 63; 0; 0; 63; 63; 63; 0; 0; 0; 0; 0; 0].
Proof. split; [apply open_wf; lia|]. vm_compute. reflexivity. Qed.
Example C45_example_hypothesis :
  let hf := mkHF 2 1 [[mkSpan 0 1 63; mkSpan 4 5 0; mkSpan 9 10 7]; [mkSpan 0 2 5]] in
  exists chf, BuildCompactHeightfield 3 2 hf = Ok chf /\ chf_wf chf.
Proof.
  intros hf. assert (exists chf, BuildCompactHeightfield 3 2 hf = Ok chf) as [chf E] by (eexists; vm_compute; reflexivity).
  exists chf. split; [exact E|].
  assert (forall x y, In (col_at hf x y) ([] :: hf_spans hf)) as HC.
  { intros x y. unfold col_at. destruct (_ && _); [|left; reflexivity]. cbn [hf_spans hf]. destruct (Z.to_nat (x + y * hf_w hf)) as [|[|[|k]]]; cbn; tauto. }
  refine (C45_hypothesis 3 2 hf chf 3 _ _ _ _ _ E).
  - split; [|split; [|split]]; cbn; lia.
  - intros x y s Hs. destruct (HC x y) as [Q|[Q|[Q|[]]]]; rewrite <- Q in Hs; cbn in Hs; intuition (subst; cbn; lia).
  - reflexivity.
  - lia.
  - intros x y. destruct (HC x y) as [Q|[Q|[Q|[]]]]; rewrite <- Q; cbn; lia.
Qed.

(** The documented limit of the radius is 254, but from 128 on the threshold wraps: radius
    128 removes nothing, not even border spans. *)
Theorem C45_radius_refuted : exists chf chf' x y i, chf_wf chf /\ ErodeWalkableArea 128 chf = Ok chf' /\
  span_at chf x y i /\ border chf x y i /\ get (chf_areas chf') i = Ok 63.
Proof.
  exists (openField 1 1). eexists. exists 0, 0, 0. split; [apply open_wf; lia|]. split; [vm_compute; reflexivity|].
  split; [apply (open_at 1 1); lia|]. split; [|reflexivity]. apply (open_border 1 1 ltac:(lia) ltac:(lia) 0 0); lia.
Qed.

(** The 8-bit sums overflow on larger fields: on an open floor of 257 x 257 cells with radius
    1 a span 127 cells away from the nearest border span is removed. *)
Theorem C45_overflow_refuted : exists chf chf' x y i, chf_wf chf /\ ErodeWalkableArea 1 chf = Ok chf' /\
  span_at chf x y i /\ get (chf_areas chf) i = Ok 63 /\ get (chf_areas chf') i = Ok 0 /\
  forall bx by_ j, span_at chf bx by_ j -> border chf bx by_ j -> 127 <= Z.max (Z.abs (x - bx)) (Z.abs (y - by_)).
Proof.
  assert (chf_wf (openField 257 257)) as wf by (apply open_wf; lia).
  destruct (erode_run _ wf 1) as (d0 & d1 & d2 & ar & E & L & V0 & V1 & V2 & VA).
  exists (openField 257 257). eexists. exists 128, 127, (128 + 127 * 257). split; [exact wf|]. split; [exact E|].
  assert (span_at (openField 257 257) 128 127 (128 + 127 * 257)) as HA by (apply (open_at 257 257); lia).
  split; [exact HA|]. split; [apply (open_area 257 257); lia|]. split.
  - cbn [chf_areas]. rewrite (VA _ (ok_at _ wf _ _ _ HA)). change (u8 (i32 (1 * 2))) with 2.
    pose proof (open_overflow 257 257 ltac:(lia) ltac:(lia) ltac:(lia) d0 d1 V0 V1) as O1. pose proof (V2 _ _ _ HA) as E2.
    destruct (best_le (dv d2) (srcs (openField 257 257) des2 (128, 127, 128 + 127 * 257)) (dv d1 (128 + 127 * 257))) as [Q _]. rewrite <- E2 in Q.
    destruct (Z.ltb_spec (dv d2 (128 + 127 * 257)) 2); [reflexivity|lia].
  - intros bx by_ j HB HBr. apply (open_at 257 257) in HB; [|lia|lia]. destruct HB as (Hx & Hy & ->). apply (open_border 257 257) in HBr; lia.
Qed.

Print Assumptions C45_hypothesis.
Print Assumptions C45_only_removes.
Print Assumptions C45_border_removed.
Print Assumptions C45_exact.
Print Assumptions C45_far_kept.
Print Assumptions C45_radius_refuted.
Print Assumptions C45_overflow_refuted.
