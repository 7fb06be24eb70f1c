(** A large open field, for the overflow in ErodeWalkableArea (C45). *)
From Coq Require Import ZArith List Bool Lia.
From Verif.Base Require Import Res GoNum Grid.
From Verif.Model Require Import Heightfield Dirs Compact Erode.
From Verif.Spec Require Import HeightfieldSpec CompactSpec ErodeSpec.
From Verif.Proofs Require Import ErodeProofs ErodeDist.
Import ListNotations.
Open Scope Z_scope.

Definition openCon (w h x y : Z) : Z :=
  (if x =? 0 then 63 else 0) + (if y =? h - 1 then 4032 else 0) + (if x =? w - 1 then 258048 else 0) + (if y =? 0 then 16515072 else 0).
(** A flat floor on a grid of w * h cells. *)
Definition openField (w h : Z) : CompactHeightfield :=
  mkCHF w h (w * h) 3 1 (map (fun i => mkCell i 1) (zseq (Z.to_nat (w * h))))
    (map (fun i => mkCSpan 0 0 (openCon w h (i mod w) (i / w)) 255) (zseq (Z.to_nat (w * h))))
    (repeat 63 (Z.to_nat (w * h))).

Lemma get_map_zseq : forall {A} (f : Z -> A) n i, 0 <= i < Z.of_nat n -> get (map f (zseq n)) i = Ok (f i).
Proof.
  intros A f n i H. apply get_ok. split; [lia|]. rewrite nth_error_map. unfold zseq. rewrite nth_error_map.
  rewrite (nth_error_nth' _ 0%nat) by (rewrite seq_length; lia). rewrite seq_nth by lia. cbn [option_map]. f_equal. f_equal. lia.
Qed.
Lemma get_map_zseq_range : forall {A} (f : Z -> A) n i v, get (map f (zseq n)) i = Ok v -> 0 <= i < Z.of_nat n.
Proof. intros A f n i v H. apply get_range in H. unfold zlen in H. rewrite map_length, zseq_length in H. exact H. Qed.

Section Open.
Variables w h : Z.
Hypothesis Hw : 0 < w.
Hypothesis Hh : 0 < h.
Notation F := (openField w h).

Lemma open_cell : forall x y, 0 <= x < w -> 0 <= y < h -> cell_at F x y = Ok (mkCell (x + y * w) 1).
Proof. intros x y Hx Hy. unfold cell_at. cbn [chf_cells chf_w openField]. pose proof (cidx_range w h x y Hx Hy) as R. unfold cidx in R. rewrite get_map_zseq by lia. reflexivity. Qed.
Lemma open_span : forall x y, 0 <= x < w -> 0 <= y < h -> get (chf_spans F) (x + y * w) = Ok (mkCSpan 0 0 (openCon w h x y) 255).
Proof.
  intros x y Hx Hy. cbn [chf_spans openField]. pose proof (cidx_range w h x y Hx Hy) as R. unfold cidx in R.
  rewrite get_map_zseq by lia. rewrite Z_mod_plus_full, Z.mod_small, Z_div_plus_full, Z.div_small by lia. reflexivity.
Qed.
Lemma open_area : forall x y, 0 <= x < w -> 0 <= y < h -> get (chf_areas F) (x + y * w) = Ok 63.
Proof.
  intros x y Hx Hy. cbn [chf_areas openField]. pose proof (cidx_range w h x y Hx Hy) as R. unfold cidx in R.
  destruct (get_in_range (repeat 63 (Z.to_nat (w * h))) (x + y * w)) as [a Ha]; [unfold zlen; rewrite repeat_length; lia|].
  rewrite Ha. apply get_ok in Ha. destruct Ha as [_ Ha]. apply nth_error_In, repeat_spec in Ha. now subst.
Qed.
Lemma open_at : forall x y i, span_at F x y i <-> 0 <= x < w /\ 0 <= y < h /\ i = x + y * w.
Proof.
  intros x y i. unfold span_at. cbn [chf_w chf_h openField]. split.
  - intros (Hx & Hy & c & Hc & Hi). rewrite open_cell in Hc by assumption. apply Ok_inj in Hc. subst c. cbn in Hi. lia.
  - intros (Hx & Hy & ->). split; [exact Hx|]. split; [exact Hy|]. eexists. split; [apply open_cell; assumption|]. cbn. lia.
Qed.

Definition stays (x y : Z) (d : nat) : Prop := 0 <= x + fst (dir_step d) < w /\ 0 <= y + snd (dir_step d) < h.
Lemma open_con : forall x y d, 0 <= x < w -> 0 <= y < h -> (d < 4)%nat ->
  (stays x y d -> GetCon (openCon w h x y) (Z.of_nat d) = 0) /\ (~ stays x y d -> GetCon (openCon w h x y) (Z.of_nat d) = 63).
Proof.
  intros x y d Hx Hy Hd. unfold openCon, stays.
  destruct (Z.eqb_spec x 0), (Z.eqb_spec y (h - 1)), (Z.eqb_spec x (w - 1)), (Z.eqb_spec y 0);
    destruct d as [|[|[|[|d]]]]; try lia; cbn [dir_step fst snd]; split; intros S; try reflexivity; exfalso; lia.
Qed.
Lemma open_linked : forall x y d, 0 <= x < w -> 0 <= y < h -> (d < 4)%nat -> stays x y d ->
  linked F d x y (x + y * w) (x + fst (dir_step d)) (y + snd (dir_step d)) ((x + fst (dir_step d)) + (y + snd (dir_step d)) * w).
Proof.
  intros x y d Hx Hy Hd S. split; [reflexivity|]. exists (mkCSpan 0 0 (openCon w h x y) 255), (mkCell (x + fst (dir_step d) + (y + snd (dir_step d)) * w) 1).
  split; [apply open_span; assumption|]. destruct (open_con x y d Hx Hy Hd) as [C _]. cbn [csCon cIndex]. rewrite (C S). split; [lia|].
  split; [apply open_cell; apply S|]. lia.
Qed.

Lemma open_wf : chf_wf F.
Proof.
  constructor.
  - cbn. lia.
  - cbn. lia.
  - cbn [chf_cells chf_w chf_h openField]. unfold zlen. rewrite map_length, zseq_length. nia.
  - cbn [chf_spans chf_spanCount openField]. unfold zlen. rewrite map_length, zseq_length. nia.
  - cbn [chf_areas chf_spanCount openField]. unfold zlen. rewrite repeat_length. nia.
  - intros x y i H. apply open_at in H. destruct H as (Hx & Hy & ->). cbn. apply (cidx_range w h); assumption.
  - intros i Hi. cbn in Hi. destruct (cidx_surj w h i) as (x & y & Hx & Hy & <-); [lia|lia|]. exists x, y. apply open_at. auto.
  - intros x y x' y' i H H'. apply open_at in H, H'. destruct H as (Hx & Hy & ->), H' as (Hx' & Hy' & E). eapply (cidx_inj w); eauto.
  - intros x y i d s H Hd Hs Hc. apply open_at in H. destruct H as (Hx & Hy & ->). rewrite open_span in Hs by assumption. apply Ok_inj in Hs. subst s. cbn [csCon] in Hc.
    destruct (open_con x y d Hx Hy Hd) as [_ C].
    assert (stays x y d) as S. { unfold stays in *. destruct (Z_le_dec 0 (x + fst (dir_step d))), (Z_lt_dec (x + fst (dir_step d)) w), (Z_le_dec 0 (y + snd (dir_step d))), (Z_lt_dec (y + snd (dir_step d)) h); try lia; exfalso; apply Hc, C; lia. }
    do 3 eexists. split; [apply open_linked; assumption|]. apply open_at. split; [apply S|]. split; [apply S|]. reflexivity.
Qed.

(** Exactly the outermost cells are on the border. *)
Lemma open_border : forall x y, 0 <= x < w -> 0 <= y < h -> (border F x y (x + y * w) <-> x = 0 \/ y = 0 \/ x = w - 1 \/ y = h - 1).
Proof.
  intros x y Hx Hy. split.
  - intros [A|(d & Hd & A)].
    + rewrite open_area in A by assumption. discriminate.
    + destruct (Z.eq_dec x 0); [auto|]. destruct (Z.eq_dec y 0); [auto|]. destruct (Z.eq_dec x (w - 1)); [auto|]. destruct (Z.eq_dec y (h - 1)); [auto|]. exfalso. apply A.
      assert (stays x y d) as S by (unfold stays; destruct d as [|[|[|[|d]]]]; cbn [dir_step fst snd]; lia).
      do 4 eexists. split; [apply open_linked; assumption|]. split; [apply open_area; apply S|]. lia.
  - intros A. assert (exists d, (d < 4)%nat /\ ~ stays x y d) as (d & Hd & NS).
    { unfold stays. destruct A as [A|[A|[A|A]]]; [exists 0%nat|exists 3%nat|exists 2%nat|exists 1%nat]; cbn [dir_step fst snd]; lia. }
    right. exists d. split; [exact Hd|]. intros (x' & y' & j & a & (_ & s & c & Hs & Hc & _) & _). rewrite open_span in Hs by assumption. apply Ok_inj in Hs. subst s.
    apply Hc. apply open_con; assumption.
Qed.

Lemma open_srcs : forall x y, 0 < x < w - 1 -> 0 < y < h - 1 ->
  srcs F des1 (x, y, x + y * w) = [(x - 1 + y * w, 2); (x - 1 + (y - 1) * w, 3); (x + (y - 1) * w, 2); (x + 1 + (y - 1) * w, 3)].
Proof.
  intros x y Hx Hy. unfold srcs. cbn [fst snd]. rewrite open_span by lia. unfold des1, zdirs. cbn [map flat_map fst snd app csCon].
  change (Z.of_nat 0) with 0. change (Z.of_nat 3) with 3. change (Z.of_nat 2) with 2.
  assert (forall a b d, 0 <= a < w -> 0 <= b < h -> (d < 4)%nat -> stays a b d -> GetCon (openCon w h a b) (Z.of_nat d) = 0) as G by (intros; apply open_con; assumption).
  assert (forall a b d, 0 <= a < w -> 0 <= b < h -> (d < 4)%nat -> stays a b d ->
     neighbour F a b (openCon w h a b) (Z.of_nat d) = Ok (a + fst (dir_step d), b + snd (dir_step d), a + fst (dir_step d) + (b + snd (dir_step d)) * w)) as NB.
  { intros a b d Ha Hb Hd S. unfold neighbour. destruct (dirs_ok d Hd) as [-> ->]. cbn [bind]. pose proof (open_cell (a + fst (dir_step d)) (b + snd (dir_step d)) (proj1 S) (proj2 S)) as C.
    unfold cell_at in C. unfold cidx. rewrite C. cbn [bind cIndex]. rewrite G by assumption. f_equal. f_equal. lia. }
  unfold stays in *.
  unfold srcsDir. cbn [fst snd].
  pose proof (G x y 0%nat ltac:(lia) ltac:(lia) ltac:(lia) ltac:(cbn; lia)) as G1. cbn [Z.of_nat] in G1. rewrite G1. change (0 =? notConnected) with false. cbv iota.
  pose proof (NB x y 0%nat ltac:(lia) ltac:(lia) ltac:(lia) ltac:(cbn; lia)) as N1. cbn [Z.of_nat dir_step fst snd] in N1. rewrite N1. cbv iota beta.
  rewrite open_span by lia. cbn [csCon].
  pose proof (G (x + -1) (y + 0) 3%nat ltac:(lia) ltac:(lia) ltac:(lia) ltac:(cbn; lia)) as G2. change (Z.of_nat 3) with 3 in G2. rewrite G2. change (0 =? notConnected) with false. cbv iota.
  pose proof (NB (x + -1) (y + 0) 3%nat ltac:(lia) ltac:(lia) ltac:(lia) ltac:(cbn; lia)) as N2. change (Z.of_nat 3) with 3 in N2. cbn [dir_step fst snd] in N2. rewrite N2. cbv iota beta.
  pose proof (G x y 3%nat ltac:(lia) ltac:(lia) ltac:(lia) ltac:(cbn; lia)) as G3. change (Z.of_nat 3) with 3 in G3. rewrite G3. change (0 =? notConnected) with false. cbv iota.
  pose proof (NB x y 3%nat ltac:(lia) ltac:(lia) ltac:(lia) ltac:(cbn; lia)) as N3. change (Z.of_nat 3) with 3 in N3. cbn [dir_step fst snd] in N3. rewrite N3. cbv iota beta.
  rewrite open_span by lia. cbn [csCon].
  pose proof (G (x + 0) (y + -1) 2%nat ltac:(lia) ltac:(lia) ltac:(lia) ltac:(cbn; lia)) as G4. change (Z.of_nat 2) with 2 in G4. rewrite G4. change (0 =? notConnected) with false. cbv iota.
  pose proof (NB (x + 0) (y + -1) 2%nat ltac:(lia) ltac:(lia) ltac:(lia) ltac:(cbn; lia)) as N4. change (Z.of_nat 2) with 2 in N4. cbn [dir_step fst snd] in N4. rewrite N4. cbv iota beta.
  cbn [snd app]. repeat (f_equal; [f_equal; lia|]). f_equal. f_equal. lia.
Qed.

(** On a field larger than 256 cells in both directions, the span at (128, 127) gets the
    distance 254 + 2 = 0. *)
Hypothesis big : 256 < w /\ 256 < h.
Lemma open_overflow : forall d0 d1,
  (forall x y i, span_at F x y i -> (border F x y i -> dv d0 i = 0) /\ (~ border F x y i -> dv d0 i = 255)) ->
  (forall x y i, span_at F x y i -> dv d1 i = best (dv d1) (dv d0 i) (srcs F des1 (x, y, i))) ->
  dv d1 (128 + 127 * w) <= 0.
Proof.
  intros d0 d1 V0 V1.
  assert (forall x y, 0 <= x < w -> 0 <= y < h -> span_at F x y (x + y * w)) as AT by (intros x y Hx Hy; apply open_at; auto).
  assert (forall x y, 0 <= x < w -> 0 <= y < h -> x = 0 \/ y = 0 -> dv d1 (x + y * w) = 0) as B0.
  { intros x y Hx Hy HB. pose proof (AT x y Hx Hy) as HA. assert (dv d0 (x + y * w) = 0) as E0 by (apply (V0 _ _ _ HA), open_border; auto; lia).
    rewrite (V1 _ _ _ HA), E0. destruct (best_le (dv d1) (srcs F des1 (x, y, x + y * w)) 0) as [Q _].
    assert (0 <= best (dv d1) 0 (srcs F des1 (x, y, x + y * w))) by (apply best_nonneg; lia). lia. }
  assert (forall m n x y, Z.of_nat m = y -> Z.of_nat n = x -> x + y <= 255 -> y <= 126 \/ (y = 127 /\ x <= 127) -> dv d1 (x + y * w) = 2 * Z.min x y) as G.
  { induction m as [|m IHm]; [intros n x y Ey Ex Hs Hr; rewrite B0 by lia; lia|].
    induction n as [|n IHn]; [intros x y Ey Ex Hs Hr; rewrite B0 by lia; lia|]. intros x y Ey Ex Hs Hr.
    rewrite (V1 x y _ (AT x y ltac:(lia) ltac:(lia))).
    assert (dv d0 (x + y * w) = 255) as -> by (apply (V0 _ _ _ (AT x y ltac:(lia) ltac:(lia))); rewrite open_border by lia; lia).
    rewrite open_srcs by lia. unfold best. cbn [fold_left fst snd].
    rewrite (IHn (x - 1) y) by lia. rewrite (IHm n (x - 1) (y - 1)) by lia. rewrite (IHm (S n) x (y - 1)) by lia. rewrite (IHm (S (S n)) (x + 1) (y - 1)) by lia.
    rewrite !u8_id by (unfold is_u8; lia). lia. }
  rewrite (V1 128 127 _ (AT 128 127 ltac:(lia) ltac:(lia))). rewrite open_srcs by lia.
  destruct (best_le (dv d1) [(128 - 1 + 127 * w, 2); (128 - 1 + (127 - 1) * w, 3); (128 + (127 - 1) * w, 2); (128 + 1 + (127 - 1) * w, 3)] (dv d0 (128 + 127 * w))) as [_ Q].
  specialize (Q (128 - 1 + 127 * w, 2) (or_introl eq_refl)). cbn [fst snd] in Q. rewrite (G 127%nat 127%nat (128 - 1) 127) in Q by lia. exact Q.
Qed.
End Open.
