(** Loops over spans, and painting (C48). *)
From Coq Require Import ZArith List Bool Lia Sorted Relations.
From Verif.Base Require Import Res GoNum Bits Grid.
From Verif.Model Require Import Heightfield Dirs Compact Erode Region.
From Verif.Spec Require Import HeightfieldSpec CompactSpec ErodeSpec RegionSpec.
From Verif.Proofs Require Import ErodeProofs ErodeDist.
Import ListNotations.
Open Scope Z_scope.

Lemma isBorder_hi : forall r, 32768 <= r < 65536 -> isBorder r = true.
Proof.
  intros r H. unfold isBorder, borderReg. destruct (Z.eqb_spec (Z.land r 32768) 0) as [E|]; [|reflexivity]. exfalso.
  assert (Z.testbit (Z.land r 32768) 15 = false) as T by (rewrite E; apply Z.bits_0).
  rewrite Z.land_spec in T. change (Z.testbit 32768 15) with true in T. rewrite andb_true_r in T.
  rewrite Z.testbit_false in T by lia. change (2 ^ 15) with 32768 in T.
  assert (r / 32768 = 1) by (symmetry; apply Z.div_unique with (r := r - 32768); lia). rewrite H0 in T. discriminate.
Qed.
Lemma isBorder_lo : forall r, 0 <= r < 32768 -> isBorder r = false.
Proof.
  intros r H. unfold isBorder, borderReg. destruct (Z.eqb_spec (Z.land r 32768) 0) as [E|E]; [reflexivity|]. exfalso. apply E.
  apply Z.bits_inj'. intros n Hn. rewrite Z.bits_0, Z.land_spec. destruct (Z.eq_dec n 15) as [->|N].
  - rewrite (Bits.testbit_high 15); [reflexivity|cbn; lia|lia].
  - change 32768 with (2 ^ 15). rewrite Z.pow2_bits_false by lia. apply andb_false_r.
Qed.

(** Values of lists with a default. *)
Definition vn {A} (d : A) (l : list A) (i : Z) : A := nth (Z.to_nat i) l d.
Lemma get_vn : forall {A} (d : A) l i, 0 <= i < zlen l -> get l i = Ok (vn d l i).
Proof.
  intros A d l i H. destruct (get_in_range l i H) as [v E]. rewrite E. f_equal. apply get_ok in E. destruct E as [_ E].
  symmetry. unfold vn. apply nth_error_nth with (1 := E).
Qed.
Lemma vn_upd : forall {A} (d : A) l i j v, 0 <= i < zlen l -> 0 <= j -> vn d (upd l (Z.to_nat i) v) j = if j =? i then v else vn d l j.
Proof.
  intros A d l i j v Hi Hj. unfold vn. rewrite nth_upd. unfold zlen in Hi.
  destruct (Z.eqb_spec j i) as [->|N].
  - rewrite Nat.eqb_refl. cbn [andb]. destruct (Nat.ltb_spec (Z.to_nat i) (length l)); [reflexivity|lia].
  - destruct (Nat.eqb_spec (Z.to_nat j) (Z.to_nat i)); [lia|]. reflexivity.
Qed.
Lemma upd_same : forall d i, 0 <= i < zlen d -> upd d (Z.to_nat i) (dv d i) = d.
Proof. intros d i H. apply upd_self. pose proof (get_dv d i H) as G. apply get_ok in G. apply G. Qed.

Section CHF.
Variable chf : CompactHeightfield.
Hypothesis wf : chf_wf chf.
Notation w := (chf_w chf).
Notation h := (chf_h chf).
Notation N := (chf_spanCount chf).

Lemma eachSpan_order : forall {S} (f : Z -> Z -> S -> Z -> res S) cs d, (forall xy, In xy cs -> In xy (cells w h)) ->
  eachSpan chf cs f d = foldM (fun d (t : triple) => f (fst (fst t)) (snd (fst t)) d (snd t)) (order chf cs) d.
Proof.
  intros S f cs. induction cs as [|xy cs IH]; intros d H; [reflexivity|].
  unfold eachSpan in *. cbn [foldM order flat_map]. rewrite foldM_app.
  assert (In xy (cells w h)) as HI by (apply H; left; reflexivity). destruct xy as [x y]. apply in_cells in HI.
  destruct (cell_ex chf wf x y) as [c Hc]; [lia|lia|]. cbn [fst snd]. unfold cell_at in Hc. unfold cell_at, cidx. rewrite Hc. cbn [bind].
  rewrite foldM_map. cbn [fst snd].
  change (fun s a => f x y s a) with (f x y). destruct (foldM (f x y) (krange (cIndex c) (cCount c)) d) as [d'| | |]; cbn [bind]; try reflexivity.
  apply IH. intros; apply H; right; assumption.
Qed.
Lemma in_order_sub : forall cs x y i, (forall xy, In xy cs -> In xy (cells w h)) -> (In (x, y, i) (order chf cs) <-> In (x, y) cs /\ span_at chf x y i).
Proof.
  intros cs x y i H. unfold order. rewrite in_flat_map. split.
  - intros ([x' y'] & H1 & H2). pose proof H1 as H0. apply H in H1. apply in_cells in H1. cbn [fst snd] in H2.
    destruct (cell_at chf x' y') as [c| | |] eqn:E; try (destruct H2; fail).
    apply in_map_iff in H2. destruct H2 as (k & E2 & H2). injection E2 as <- <- <-. apply in_krange in H2.
    split; [exact H0|]. split; [lia|]. split; [lia|]. exists c. split; [exact E|lia].
  - intros (HI & Hx & Hy & c & Hc & Hi). exists (x, y). split; [exact HI|]. cbn [fst snd]. rewrite Hc.
    apply in_map_iff. exists i. split; [reflexivity|]. apply in_krange. lia.
Qed.
Lemma order_snd_NoDup : forall cs, NoDup cs -> (forall xy, In xy cs -> In xy (cells w h)) -> NoDup (map snd (order chf cs)).
Proof.
  intros cs Hn Hc. pose proof (order_NoDup chf cs Hn) as ND.
  assert (forall t, In t (order chf cs) -> span_at chf (fst (fst t)) (snd (fst t)) (snd t)) as HS.
  { intros [[x y] i] Ht. apply in_order_sub in Ht; [apply Ht|exact Hc]. }
  revert ND HS. generalize (order chf cs). induction l as [|t l IH]; intros ND HS; [constructor|]. inversion ND; subst. cbn [map]. constructor.
  - intros Q. apply in_map_iff in Q. destruct Q as (t' & E & Q). apply H1. replace t with t'; [exact Q|].
    pose proof (HS t (or_introl eq_refl)) as S1. pose proof (HS t' (or_intror Q)) as S2. rewrite E in S2.
    destruct (ok_unique _ wf _ _ _ _ _ S1 S2) as [X Y]. destruct t as [[a b] c], t' as [[a' b'] c']. cbn [fst snd] in *. congruence.
  - apply IH; [assumption|]. intros. apply HS. now right.
Qed.

(** A loop whose step changes the value of the current span only. *)
Lemma pointwise : forall (step : list Z -> triple -> res (list Z)) (g : triple -> Z -> Z) O,
  NoDup (map snd O) -> (forall t, In t O -> 0 <= snd t < N) ->
  (forall d t, In t O -> zlen d = N -> step d t = Ok (upd d (Z.to_nat (snd t)) (g t (dv d (snd t))))) ->
  forall d0, zlen d0 = N -> exists d, foldM step O d0 = Ok d /\ zlen d = N /\
    (forall t, In t O -> dv d (snd t) = g t (dv d0 (snd t))) /\ (forall j, 0 <= j -> ~ In j (map snd O) -> dv d j = dv d0 j).
Proof.
  intros step g O ND R E d0 L0.
  destruct (foldM_inv step (fun pre d => zlen d = N /\ (forall t, In t pre -> dv d (snd t) = g t (dv d0 (snd t))) /\
     (forall j, 0 <= j -> ~ In j (map snd pre) -> dv d j = dv d0 j)) O d0) as (d & Ed & H).
  - split; [exact L0|]. split; [intros t []|]. reflexivity.
  - intros pre t post d Eo (L & H1 & H2). assert (In t O) as Ht by (rewrite Eo; apply in_app_iff; right; left; reflexivity).
    pose proof (R t Ht) as Rt. eexists. split; [apply E; assumption|]. split; [now rewrite zlen_upd|].
    assert (~ In (snd t) (map snd pre)) as NI.
    { rewrite Eo, map_app in ND. cbn [map] in ND. apply NoDup_remove_2 in ND. intros Q. apply ND. apply in_app_iff. now left. }
    split.
    + intros t' Ht'. apply in_app_iff in Ht'. destruct Ht' as [Ht'|[<-|[]]].
      * rewrite dv_upd; [|lia|apply R; rewrite Eo; apply in_app_iff; now left].
        destruct (Z.eqb_spec (snd t') (snd t)) as [Q|]; [exfalso; apply NI; rewrite <- Q; now apply in_map|]. now apply H1.
      * rewrite dv_upd by lia. rewrite Z.eqb_refl. now rewrite H2 by (lia || exact NI).
    + intros j Hj Nj. rewrite map_app in Nj. rewrite dv_upd by lia. destruct (Z.eqb_spec j (snd t)) as [->|].
      * exfalso. apply Nj. apply in_app_iff. right. now left.
      * apply H2; [exact Hj|]. intros Q. apply Nj. apply in_app_iff. now left.
  - exists d. split; [exact Ed|exact H].
Qed.

Definition A (i : Z) : Z := dv (chf_areas chf) i.
Lemma area_get : forall i, 0 <= i < N -> get (chf_areas chf) i = Ok (A i).
Proof. intros i H. apply get_dv. rewrite (ok_areas _ wf). exact H. Qed.

Lemma in_rect : forall a b c d x y, In (x, y) (rectCells a b c d) <-> a <= x < b /\ c <= y < d.
Proof.
  intros a b c d x y. unfold rectCells. rewrite in_flat_map. split.
  - intros (y' & Hy & H). apply in_map_iff in H. destruct H as (x' & E & Hx). injection E as <- <-. apply in_krange in Hx, Hy. lia.
  - intros [Hx Hy]. exists y. split; [apply in_krange; lia|]. apply in_map_iff. exists x. split; [reflexivity|]. apply in_krange. lia.
Qed.
Lemma NoDup_rect : forall a b c d, NoDup (rectCells a b c d).
Proof.
  intros a b c d. unfold rectCells. generalize (NoDup_krange c (d - c)). generalize (krange c (d - c)).
  induction l as [|y l IH]; intros H; [constructor|]. inversion H; subst. cbn [flat_map]. apply NoDup_app_intro; [| |].
  - apply FinFun.Injective_map_NoDup; [|apply NoDup_krange]. intros p q E. now injection E.
  - now apply IH.
  - intros [x' y'] Q1 Q2. apply in_map_iff in Q1. destruct Q1 as (x1 & E & _). injection E as _ <-.
    apply in_flat_map in Q2. destruct Q2 as (y2 & Q2 & Q3). apply in_map_iff in Q3. destruct Q3 as (x3 & E & _). injection E as _ <-. contradiction.
Qed.

Lemma paint_ok : forall x0 x1 y0 y1 r src, 0 <= x0 -> x1 <= w -> 0 <= y0 -> y1 <= h -> zlen src = N ->
  exists src', paintRectRegion x0 x1 y0 y1 r chf src = Ok src' /\ zlen src' = N /\
    forall x y i, span_at chf x y i -> dv src' i =
      if (A i =? 0) then dv src i else if (x0 <=? x) && (x <? x1) && (y0 <=? y) && (y <? y1) then r else dv src i.
Proof.
  intros x0 x1 y0 y1 r src H1 H2 H3 H4 L. unfold paintRectRegion.
  assert (forall xy, In xy (rectCells x0 x1 y0 y1) -> In xy (cells w h)) as HC.
  { intros [x y] H. apply in_rect in H. apply in_cells. lia. }
  rewrite eachSpan_order by exact HC.
  destruct (pointwise (fun d (t : triple) => let* a := get (chf_areas chf) (snd t) in if a =? nullArea then Ok d else set d (snd t) r)
    (fun t v => if A (snd t) =? 0 then v else r) (order chf (rectCells x0 x1 y0 y1))) with (d0 := src) as (d & E & Ld & V1 & V2).
  - apply order_snd_NoDup; [apply NoDup_rect|exact HC].
  - intros [[x y] i] Ht. apply in_order_sub in Ht; [|exact HC]. eapply ok_at; [exact wf|apply Ht].
  - intros d [[x y] i] Ht Ld. apply in_order_sub in Ht; [|exact HC]. destruct Ht as [_ Ht]. pose proof (ok_at _ wf _ _ _ Ht) as R. cbn [snd].
    rewrite area_get by exact R. cbn [bind]. change nullArea with 0. destruct (A i =? 0); [now rewrite upd_same by lia|]. apply set_in_range. lia.
  - exact L.
  - exists d. split; [exact E|]. split; [exact Ld|]. intros x y i Hs.
    destruct ((x0 <=? x) && (x <? x1) && (y0 <=? y) && (y <? y1)) eqn:B.
    + specialize (V1 (x, y, i)). cbn [snd] in V1. rewrite V1; [reflexivity|]. apply in_order_sub; [exact HC|]. split; [|exact Hs].
      apply in_rect. repeat (apply andb_true_iff in B as [B ?]). lia.
    + rewrite V2; [now destruct (A i =? 0)|apply (ok_at _ wf _ _ _ Hs)|].
      intros Q. apply in_map_iff in Q. destruct Q as ([[x' y'] i'] & Ei & Q). cbn [snd] in Ei. subst i'. apply in_order_sub in Q; [|exact HC]. destruct Q as [Q Q'].
      destruct (ok_unique _ wf _ _ _ _ _ Hs Q') as [<- <-]. apply in_rect in Q. 
      rewrite (proj2 (Z.leb_le x0 x)), (proj2 (Z.ltb_lt x x1)), (proj2 (Z.leb_le y0 y)), (proj2 (Z.ltb_lt y y1)) in B by lia. discriminate.
Qed.

Lemma paintBorders_ok : forall bs, 0 <= bs -> exists src,
  paintBorders chf bs (repeat 0 (Z.to_nat N)) = Ok (src, if 0 <? bs then 5 else 1) /\ zlen src = N /\
  forall x y i, span_at chf x y i -> dv src i =
    if A i =? 0 then 0 else if (bs <=? x) && (x <? w - bs) && (bs <=? y) && (y <? h - bs) then 0 else side_reg chf bs x y.
Proof.
  intros bs Hbs. set (s0 := repeat 0 (Z.to_nat N)).
  assert (L0 : zlen s0 = N) by (unfold s0, zlen; rewrite repeat_length, <- (ok_areas _ wf); unfold zlen; lia).
  assert (V0 : forall i, dv s0 i = 0) by (intros i; unfold dv, s0; destruct (Nat.lt_ge_cases (Z.to_nat i) (Z.to_nat N)); [now rewrite nth_repeat|apply nth_overflow; rewrite repeat_length; lia]).
  pose proof (ok_w _ wf). pose proof (ok_h _ wf).
  unfold paintBorders. destruct (Z.ltb_spec 0 bs).
  - unfold iMin. set (bw := if w <? bs then w else bs). set (bh := if h <? bs then h else bs).
    assert (Hbw : bw = Z.min w bs) by (unfold bw; destruct (Z.ltb_spec w bs); lia).
    assert (Hbh : bh = Z.min h bs) by (unfold bh; destruct (Z.ltb_spec h bs); lia). clearbody bw bh.
    destruct (paint_ok 0 bw 0 h (Z.lor 1 borderReg) s0) as (s1 & -> & L1 & V1); try lia.
    destruct (paint_ok (w - bw) w 0 h (Z.lor 2 borderReg) s1) as (s2 & E2 & L2 & V2); try lia. cbn [bind]. rewrite E2.
    destruct (paint_ok 0 w 0 bh (Z.lor 3 borderReg) s2) as (s3 & E3 & L3 & V3); try lia. cbn [bind]. rewrite E3.
    destruct (paint_ok 0 w (h - bh) h (Z.lor 4 borderReg) s3) as (s4 & E4 & L4 & V4); try lia. cbn [bind]. rewrite E4. cbn [bind].
    exists s4. split; [reflexivity|]. split; [exact L4|]. intros x y i Hs. rewrite (V4 _ _ _ Hs), (V3 _ _ _ Hs), (V2 _ _ _ Hs), (V1 _ _ _ Hs), V0.
    change (Z.lor 1 borderReg) with 32769. change (Z.lor 2 borderReg) with 32770. change (Z.lor 3 borderReg) with 32771. change (Z.lor 4 borderReg) with 32772.
    destruct (A i =? 0); [reflexivity|]. destruct Hs as (Hx & Hy & _). unfold side_reg.
    assert (T : forall p q, p <= q -> (p <=? q) = true) by (intros; now apply Z.leb_le).
    assert (T' : forall p q, p < q -> (p <? q) = true) by (intros; now apply Z.ltb_lt).
    rewrite (T 0 x), (T 0 y), (T' x w), (T' y h) by lia.
    replace (x <? bw) with (x <? bs) by (destruct (Z.ltb_spec x bs), (Z.ltb_spec x bw); lia).
    replace (y <? bh) with (y <? bs) by (destruct (Z.ltb_spec y bs), (Z.ltb_spec y bh); lia).
    replace (w - bw <=? x) with (w - bs <=? x) by (destruct (Z.leb_spec (w - bs) x), (Z.leb_spec (w - bw) x); lia).
    replace (h - bh <=? y) with (h - bs <=? y) by (destruct (Z.leb_spec (h - bs) y), (Z.leb_spec (h - bh) y); lia).
    rewrite (Z.leb_antisym x bs), (Z.leb_antisym y bs), (Z.ltb_antisym (w - bs) x), (Z.ltb_antisym (h - bs) y).
    destruct (x <? bs), (y <? bs), (w - bs <=? x), (h - bs <=? y); reflexivity.
  - assert (bs = 0) as -> by lia. exists s0. split; [reflexivity|]. split; [exact L0|]. intros x y i (Hx & Hy & _). rewrite V0.
    destruct (A i =? 0); [reflexivity|].
    rewrite (proj2 (Z.leb_le 0 x)), (proj2 (Z.ltb_lt x (w - 0))), (proj2 (Z.leb_le 0 y)), (proj2 (Z.ltb_lt y (h - 0))) by lia. reflexivity.
Qed.
End CHF.
