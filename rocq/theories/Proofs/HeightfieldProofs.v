From Coq Require Import ZArith List Bool Sorted Lia Permutation.
From Verif.Base Require Import Res GoNum Grid.
From Verif.Model Require Import Heightfield.
From Verif.Spec Require Import HeightfieldSpec.
Import ListNotations.
Open Scope Z_scope.

Lemma mergeSpan_lo : forall thr s c, smin (mergeSpan thr s c) = Z.min (smin c) (smin s).
Proof. intros. cbn. destruct (Z.ltb_spec (smin c) (smin s)); lia. Qed.
Lemma mergeSpan_hi : forall thr s c, smax (mergeSpan thr s c) = Z.max (smax c) (smax s).
Proof. intros. cbn. rewrite Z.gtb_ltb. destruct (Z.ltb_spec (smax s) (smax c)); lia. Qed.
Lemma mergeSpan_area : forall thr s c, sarea (mergeSpan thr s c) =
  if Z.max (smax c) (smax s) - smax c <=? thr then Z.max (sarea c) (sarea s) else sarea s.
Proof.
  intros. cbn. rewrite !Z.gtb_ltb.
  assert ((if smax s <? smax c then smax c else smax s) = Z.max (smax c) (smax s)) as ->
    by (destruct (Z.ltb_spec (smax s) (smax c)); lia).
  destruct (Z.ltb_spec (Z.max (smax c) (smax s) - smax c) 0); [lia|].
  destruct (Z.leb_spec (Z.max (smax c) (smax s) - smax c) thr); auto.
  destruct (Z.ltb_spec (sarea s) (sarea c)); lia.
Qed.

(** Shape of the result of an insertion. *)
Definition below (mn : Z) (col : column) := filter (fun c => smax c <? mn) col.
Definition above (mx : Z) (col : column) := filter (fun c => mx <? smin c) col.
Definition touched (mn mx : Z) (col : column) := filter (fun c => (mn <=? smax c) && (smin c <=? mx)) col.
Definition donors (mx thr : Z) (col : column) := filter (fun c => Z.max mx (smax c) - smax c <=? thr) col.

Definition lo_of (s : Span) (t : column) := fold_right (fun c a => Z.min (smin c) a) (smin s) t.
Definition hi_of (s : Span) (t : column) := fold_right (fun c a => Z.max (smax c) a) (smax s) t.
Definition area_of (s : Span) (t : column) := fold_right (fun c a => Z.max (sarea c) a) (sarea s) t.

Lemma filter_all_false : forall {A} (f : A -> bool) l, (forall a, In a l -> f a = false) -> filter f l = [].
Proof.
  induction l as [|a l IH]; intros H; auto. cbn. rewrite (H a) by now left.
  apply IH. intros b Hb. apply H. now right.
Qed.
Lemma filter_all_true : forall {A} (f : A -> bool) l, (forall a, In a l -> f a = true) -> filter f l = l.
Proof.
  induction l as [|a l IH]; intros H; auto. cbn. rewrite (H a) by now left.
  f_equal. apply IH. intros b Hb. apply H. now right.
Qed.

Lemma wf_cons : forall c col, wf_column (c :: col) ->
  smin c < smax c /\ wf_column col /\ forall d, In d col -> smax c < smin d.
Proof.
  intros c col [H1 H2]. inversion H1; inversion H2; subst. repeat split; auto.
  intros d Hd. eapply Forall_forall in H8; eauto.
Qed.
Lemma wf_cons_intro : forall c col, smin c < smax c -> wf_column col ->
  (forall d, In d col -> smax c < smin d) -> wf_column (c :: col).
Proof.
  intros c col H [H1 H2] H3. split; constructor; auto. apply Forall_forall. auto.
Qed.

Lemma fold_min_acc : forall t a b,
  fold_right (fun c a => Z.min (smin c) a) (Z.min a b) t = Z.min a (fold_right (fun c a => Z.min (smin c) a) b t).
Proof. induction t; intros; simpl; auto. rewrite IHt. lia. Qed.
Lemma fold_max_acc : forall t a b,
  fold_right (fun c a => Z.max (smax c) a) (Z.max a b) t = Z.max a (fold_right (fun c a => Z.max (smax c) a) b t).
Proof. induction t; intros; simpl; auto. rewrite IHt. lia. Qed.
Lemma fold_area_acc : forall t a b,
  fold_right (fun c a => Z.max (sarea c) a) (Z.max a b) t = Z.max a (fold_right (fun c a => Z.max (sarea c) a) b t).
Proof. induction t; intros; simpl; auto. rewrite IHt. lia. Qed.

(** Insertion when every span of the rest starts above [lo]: the merged span only grows
    upwards, so the classification is relative to the original bounds [mn], [mx]. *)
Lemma addSpanCol_shape : forall thr col s mn mx,
  wf_column col -> smin s <= mn -> mn < mx -> mx <= smax s ->
  (forall c, In c col -> mn <= smax c -> smin s <= smax c) ->
  (smin s < mn -> forall c, In c col -> mn <= smax c) ->
  (forall c, In c col -> smin c <= smax s -> smin c <= mx) ->
  (mx < smax s -> forall c, In c col -> smax s < smin c) ->
  exists m, addSpanCol thr s col = below mn col ++ m :: above mx col /\
    smin m = lo_of s (touched mn mx col) /\ smax m = hi_of s (touched mn mx col) /\
    sarea m = area_of s (donors mx thr (touched mn mx col)).
Proof.
  intros thr. induction col as [|c col IH]; intros s mn mx Hwf Hmn Hm Hmx H1 H2 H3 H4.
  - exists s. cbn. auto.
  - pose proof (wf_cons c col Hwf) as (Hc & Hwf' & Hab).
    cbn [addSpanCol]. rewrite Z.gtb_ltb.
    destruct (Z.ltb_spec (smax s) (smin c)) as [L|L].
    + exists s.
      assert (forall d, In d (c :: col) -> mx < smin d) as Habove.
      { intros d [<-|Hd]; [lia|]. specialize (Hab d Hd). lia. }
      assert (below mn (c :: col) = []) as ->.
      { apply filter_all_false. intros d Hd. specialize (Habove d Hd).
        assert (smin d < smax d) by (destruct Hwf as [F _]; eapply Forall_forall in F; eauto).
        apply Z.ltb_ge. lia. }
      assert (above mx (c :: col) = c :: col) as ->.
      { apply filter_all_true. intros d Hd. specialize (Habove d Hd). apply Z.ltb_lt. lia. }
      assert (touched mn mx (c :: col) = []) as ->.
      { apply filter_all_false. intros d Hd. specialize (Habove d Hd).
        destruct (Z.leb_spec (smin d) mx); [lia|]. apply andb_false_r. }
      cbn. auto.
    + destruct (Z.ltb_spec (smax c) (smin s)) as [L2|L2].
      * destruct (IH s mn mx) as (m & E & Hlo & Hhi & Har); auto.
        -- intros d Hd. apply H1. now right.
        -- intros Hlt d Hd. apply H2; auto. now right.
        -- intros d Hd. apply H3. now right.
        -- intros Hlt d Hd. apply H4; auto. now right.
        -- exists m. rewrite E. unfold below, above, touched. cbn [filter].
           destruct (Z.ltb_spec (smax c) mn); [|lia].
           destruct (Z.leb_spec mn (smax c)); [lia|]. cbn [andb].
           destruct (Z.ltb_spec mx (smin c)); [lia|]. auto.
      * (* merge *)
        assert (mn <= smax c) as Hmc.
        { destruct (Z.lt_ge_cases (smin s) mn) as [Hlt|Hge]; [|lia].
          apply (H2 Hlt). now left. }
        assert (mx = smax s) as Emx.
        { destruct (Z.lt_ge_cases mx (smax s)) as [Hlt|Hge]; [|lia].
          specialize (H4 Hlt c (or_introl eq_refl)). lia. }
        destruct (IH (mergeSpan thr s c) mn mx) as (m & E & Hlo & Hhi & Har); auto.
        -- rewrite mergeSpan_lo. lia.
        -- rewrite mergeSpan_hi. lia.
        -- intros d Hd _. rewrite mergeSpan_lo. specialize (Hab d Hd).
           assert (smin d < smax d) by (destruct Hwf' as [F _]; eapply Forall_forall in F; eauto). lia.
        -- intros _ d Hd. specialize (Hab d Hd).
           assert (smin d < smax d) by (destruct Hwf' as [F _]; eapply Forall_forall in F; eauto). lia.
        -- intros d Hd. rewrite mergeSpan_hi. specialize (Hab d Hd). lia.
        -- rewrite mergeSpan_hi. intros Hlt d Hd. specialize (Hab d Hd). lia.
        -- exists m. rewrite E. unfold below, above, touched. cbn [filter].
           destruct (Z.ltb_spec (smax c) mn); [lia|].
           destruct (Z.leb_spec mn (smax c)); [|lia].
           destruct (Z.ltb_spec mx (smin c)); [lia|].
           destruct (Z.leb_spec (smin c) mx); [|lia]. cbn [andb].
           split; [reflexivity|].
           rewrite Hlo, Hhi, Har. unfold lo_of, hi_of, area_of, donors.
           rewrite mergeSpan_lo, mergeSpan_hi, mergeSpan_area. cbn [filter fold_right].
           rewrite fold_min_acc, fold_max_acc. split; [reflexivity|]. split; [reflexivity|].
           rewrite (Z.max_comm (smax c) (smax s)), <- Emx.
           destruct (Z.max mx (smax c) - smax c <=? thr).
           ++ cbn [fold_right]. now rewrite fold_area_acc.
           ++ reflexivity.
Qed.

Lemma addSpanCol_shape_top : forall thr col s, wf_column col -> smin s < smax s ->
  exists m, addSpanCol thr s col = below (smin s) col ++ m :: above (smax s) col /\
    smin m = lo_of s (touched (smin s) (smax s) col) /\ smax m = hi_of s (touched (smin s) (smax s) col) /\
    sarea m = area_of s (donors (smax s) thr (touched (smin s) (smax s) col)).
Proof.
  intros thr col s Hwf Hs. apply addSpanCol_shape; auto; try lia.
Qed.

Lemma lo_of_le : forall s t, lo_of s t <= smin s /\ forall c, In c t -> lo_of s t <= smin c.
Proof.
  intros s. induction t as [|c t [IH1 IH2]]; cbn; [split; [lia|contradiction]|].
  unfold lo_of in *. split; [lia|]. intros d [<-|Hd]; [lia|]. specialize (IH2 d Hd). lia.
Qed.
Lemma lo_of_in : forall s t, lo_of s t = smin s \/ exists c, In c t /\ lo_of s t = smin c.
Proof.
  intros s. induction t as [|c t IH]; cbn; [auto|]. unfold lo_of in *.
  destruct (Z.min_spec (smin c) (fold_right (fun c a => Z.min (smin c) a) (smin s) t)) as [[_ ->]|[_ ->]].
  - right. exists c. auto.
  - destruct IH as [IH|(d & Hd & IH)]; auto. right. exists d. auto.
Qed.
Lemma hi_of_ge : forall s t, smax s <= hi_of s t /\ forall c, In c t -> smax c <= hi_of s t.
Proof.
  intros s. induction t as [|c t [IH1 IH2]]; cbn; [split; [lia|contradiction]|].
  unfold hi_of in *. split; [lia|]. intros d [<-|Hd]; [lia|]. specialize (IH2 d Hd). lia.
Qed.
Lemma hi_of_in : forall s t, hi_of s t = smax s \/ exists c, In c t /\ hi_of s t = smax c.
Proof.
  intros s. induction t as [|c t IH]; cbn; [auto|]. unfold hi_of in *.
  destruct (Z.max_spec (smax c) (fold_right (fun c a => Z.max (smax c) a) (smax s) t)) as [[_ ->]|[_ ->]].
  - destruct IH as [IH|(d & Hd & IH)]; auto. right. exists d. auto.
  - right. exists c. auto.
Qed.

Lemma sorted_app : forall (R : Span -> Span -> Prop) l k,
  StronglySorted R l -> StronglySorted R k -> (forall a b, In a l -> In b k -> R a b) -> StronglySorted R (l ++ k).
Proof.
  induction l as [|a l IH]; intros k Hl Hk H; auto. inversion Hl; subst. cbn. constructor.
  - apply IH; auto. intros x y Hx Hy. apply H; auto. now right.
  - apply Forall_app. split; auto. apply Forall_forall. intros b Hb. apply H; auto. now left.
Qed.
Lemma sorted_filter : forall (R : Span -> Span -> Prop) f l, StronglySorted R l -> StronglySorted R (filter f l).
Proof.
  induction l as [|a l IH]; intros Hl; auto. inversion Hl; subst. cbn.
  destruct (f a); auto. constructor; auto. apply Forall_forall. intros b Hb. apply filter_In in Hb.
  eapply Forall_forall in H2; [|apply Hb]. assumption.
Qed.
Lemma sorted_in : forall col, wf_column col -> forall a b, In a col -> In b col ->
  a = b \/ smax a < smin b \/ smax b < smin a.
Proof.
  induction col as [|c col IH]; intros Hwf a b Ha Hb; [contradiction|].
  destruct (wf_cons c col Hwf) as (_ & Hwf' & Hab). destruct Ha as [<-|Ha], Hb as [<-|Hb]; auto.
Qed.

Lemma addSpanCol_wf : forall thr col s, wf_column col -> smin s < smax s ->
  wf_column (addSpanCol thr s col).
Proof.
  intros thr col s Hwf Hs. destruct (addSpanCol_shape_top thr col s Hwf Hs) as (m & -> & Hlo & Hhi & _).
  pose proof (lo_of_le s (touched (smin s) (smax s) col)) as [L1 L2].
  pose proof (hi_of_ge s (touched (smin s) (smax s) col)) as [U1 U2].
  rewrite <- Hlo in L1, L2. rewrite <- Hhi in U1, U2.
  pose proof Hwf as [HF HS].
  rewrite Forall_forall in HF.
  assert (forall a, In a (below (smin s) col) -> smax a < smin m) as B.
  { intros a Ha. apply filter_In in Ha. destruct Ha as [Ha Hlt]. apply Z.ltb_lt in Hlt.
    destruct (lo_of_in s (touched (smin s) (smax s) col)) as [E|(c & Hc & E)]; [lia|].
    rewrite Hlo, E. unfold touched in Hc. apply filter_In in Hc. destruct Hc as [Hc Ht].
    apply andb_true_iff in Ht. destruct Ht as [T1 T2]. apply Z.leb_le in T1, T2.
    destruct (sorted_in col Hwf a c Ha Hc) as [->|[?|?]]; try lia. specialize (HF a Ha). lia. }
  assert (forall b, In b (above (smax s) col) -> smax m < smin b) as A.
  { intros a Ha. apply filter_In in Ha. destruct Ha as [Ha Hlt]. apply Z.ltb_lt in Hlt.
    destruct (hi_of_in s (touched (smin s) (smax s) col)) as [E|(c & Hc & E)]; [lia|].
    rewrite Hhi, E. unfold touched in Hc. apply filter_In in Hc. destruct Hc as [Hc Ht].
    apply andb_true_iff in Ht. destruct Ht as [T1 T2]. apply Z.leb_le in T1, T2.
    destruct (sorted_in col Hwf a c Ha Hc) as [->|[?|?]]; try lia. specialize (HF a Ha). lia. }
  split.
  - apply Forall_forall. intros d Hd. apply in_app_or in Hd. destruct Hd as [Hd|[<-|Hd]].
    + apply filter_In in Hd. apply HF. apply Hd.
    + lia.
    + apply filter_In in Hd. apply HF. apply Hd.
  - apply sorted_app.
    + now apply sorted_filter.
    + constructor; [now apply sorted_filter|]. apply Forall_forall. auto.
    + intros a b Ha [<-|Hb]; auto. specialize (B a Ha). specialize (A b Hb). lia.
Qed.

Lemma addSpanCol_solid : forall thr col s, wf_column col -> smin s < smax s ->
  forall v, solid (addSpanCol thr s col) v <-> solid col v \/ smin s <= v < smax s.
Proof.
  intros thr col s. revert s. unfold solid. induction col as [|c col IH]; intros s Hwf Hs v.
  - cbn. split.
    + intros (x & [<-|[]] & H). auto.
    + intros [(x & [] & _)|H]. exists s. auto.
  - destruct (wf_cons c col Hwf) as (Hc & Hwf' & Hab). cbn [addSpanCol]. rewrite Z.gtb_ltb.
    destruct (Z.ltb_spec (smax s) (smin c)) as [L|L].
    + split.
      * intros (x & [<-|Hx] & H); auto. left. eauto.
      * intros [(x & Hx & H)|H]; [exists x; split; auto; now right|exists s; split; auto; now left].
    + destruct (Z.ltb_spec (smax c) (smin s)) as [L2|L2].
      * specialize (IH s Hwf' Hs v). split.
        -- intros (x & [<-|Hx] & H).
           ++ left. exists c. split; auto. now left.
           ++ destruct (proj1 IH) as [(z & Hz & H')|H']; [eauto| |auto].
              left. exists z. split; auto. now right.
        -- intros [(x & [<-|Hx] & H)|H].
           ++ exists c. split; auto. now left.
           ++ destruct (proj2 IH) as (z & Hz & H'); [left; eauto|]. exists z. split; auto. now right.
           ++ destruct (proj2 IH) as (z & Hz & H'); [right; auto|]. exists z. split; auto. now right.
      * specialize (IH (mergeSpan thr s c) Hwf').
        rewrite mergeSpan_lo, mergeSpan_hi in IH. specialize (IH ltac:(lia) v). rewrite IH. split.
        -- intros [(x & Hx & H)|H].
           ++ left. exists x. split; auto. now right.
           ++ destruct (Z.lt_ge_cases v (smin c)); [right; lia|].
              destruct (Z.lt_ge_cases v (smax c)); [left; exists c; split; [now left|lia]|right; lia].
        -- intros [(x & [<-|Hx] & H)|H].
           ++ right. lia.
           ++ left. eauto.
           ++ right. lia.
Qed.

(** The spans of a column are determined by its solid voxels. *)
Lemma wf_canonical : forall c1 c2, wf_column c1 -> wf_column c2 ->
  (forall v, solid c1 v <-> solid c2 v) -> extents c1 = extents c2.
Proof.
  unfold solid. induction c1 as [|a c1 IH]; intros c2 H1 H2 H.
  - destruct c2 as [|b c2]; auto. exfalso.
    destruct (wf_cons b c2 H2) as (Hb & _ & _).
    destruct (proj2 (H (smin b))) as (x & [] & _). exists b. split; [now left|lia].
  - destruct c2 as [|b c2].
    + exfalso. destruct (wf_cons a c1 H1) as (Ha & _ & _).
      destruct (proj1 (H (smin a))) as (x & [] & _). exists a. split; [now left|lia].
    + destruct (wf_cons a c1 H1) as (Ha & W1 & A1). destruct (wf_cons b c2 H2) as (Hb & W2 & A2).
      assert (forall c x, wf_column c -> In x c -> smin x < smax x) as NE.
      { intros c x [F _] Hx. eapply Forall_forall in F; eauto. }
      assert (smin a = smin b) as Emin.
      { destruct (proj1 (H (smin a))) as (x & Hx & Hv); [exists a; split; [now left|lia]|].
        destruct (proj2 (H (smin b))) as (y & Hy & Hw); [exists b; split; [now left|lia]|].
        assert (smin b <= smin x) by (destruct Hx as [<-|Hx]; [lia|specialize (A2 x Hx); lia]).
        assert (smin a <= smin y) by (destruct Hy as [<-|Hy]; [lia|specialize (A1 y Hy); lia]).
        lia. }
      assert (smax a = smax b) as Emax.
      { destruct (Z.lt_trichotomy (smax a) (smax b)) as [L|[E|L]]; auto; exfalso.
        - destruct (proj2 (H (smax a))) as (x & Hx & Hv); [exists b; split; [now left|lia]|].
          destruct Hx as [<-|Hx]; [lia|]. specialize (A1 x Hx). lia.
        - destruct (proj1 (H (smax b))) as (x & Hx & Hv); [exists a; split; [now left|lia]|].
          destruct Hx as [<-|Hx]; [lia|]. specialize (A2 x Hx). lia. }
      cbn. rewrite Emin, Emax. f_equal. apply IH; auto.
      intros v. split.
      * intros (x & Hx & Hv). destruct (proj1 (H v)) as (y & [<-|Hy] & Hw).
        -- exists x. split; auto. now right.
        -- specialize (A1 x Hx). lia.
        -- eauto.
      * intros (x & Hx & Hv). destruct (proj2 (H v)) as (y & [<-|Hy] & Hw).
        -- exists x. split; auto. now right.
        -- specialize (A2 x Hx). lia.
        -- eauto.
Qed.

(** ** Whole field *)
Lemma col_at_in : forall hf x y, hf_shape hf -> in_grid hf x y ->
  get (hf_spans hf) (cidx (hf_w hf) x y) = Ok (col_at hf x y).
Proof.
  intros hf x y (Hw & Hh & Hs & Hl) [Hx Hy]. unfold col_at.
  destruct (Z.leb_spec 0 x); [|lia]. destruct (Z.ltb_spec x (hf_w hf)); [|lia].
  destruct (Z.leb_spec 0 y); [|lia]. destruct (Z.ltb_spec y (hf_h hf)); [|lia]. cbn [andb].
  pose proof (cidx_range _ _ _ _ Hx Hy) as Hc.
  destruct (get_in_range (hf_spans hf) (cidx (hf_w hf) x y)) as [a Ha]; [lia|].
  rewrite Ha. f_equal. apply get_ok in Ha. destruct Ha as [_ Ha].
  symmetry. now apply nth_error_nth.
Qed.

Lemma col_at_out : forall hf x y, ~ in_grid hf x y -> col_at hf x y = [].
Proof.
  intros hf x y H. unfold col_at.
  destruct ((0 <=? x) && (x <? hf_w hf) && (0 <=? y) && (y <? hf_h hf)) eqn:E; auto.
  exfalso. apply H. rewrite !andb_true_iff, !Z.leb_le, !Z.ltb_lt in E. unfold in_grid. lia.
Qed.

Lemma addSpan_spec : forall hf x y mn mx a thr, hf_shape hf -> in_grid hf x y ->
  exists hf', addSpan hf x y mn mx a thr = Ok hf' /\ hf_shape hf' /\
    hf_w hf' = hf_w hf /\ hf_h hf' = hf_h hf /\
    col_at hf' x y = addSpanCol thr (mkSpan mn mx a) (col_at hf x y) /\
    forall x' y', (x', y') <> (x, y) -> col_at hf' x' y' = col_at hf x' y'.
Proof.
  intros hf x y mn mx a thr Hsh Hg. pose proof (col_at_in hf x y Hsh Hg) as Hc.
  destruct Hsh as (Hw & Hh & Hs & Hl). destruct Hg as [Hx Hy].
  pose proof (cidx_range _ _ _ _ Hx Hy) as Hr.
  assert (i32 (x + i32 (y * hf_w hf)) = cidx (hf_w hf) x y) as Ei.
  { unfold cidx in *. rewrite (i32_id (y * hf_w hf)) by (unfold is_i32; nia).
    apply i32_id. unfold is_i32. lia. }
  unfold addSpan. rewrite Ei, Hc. cbn [bind].
  rewrite set_in_range by lia. cbn [bind].
  eexists. split; [reflexivity|]. unfold hf_shape; cbn [hf_w hf_h hf_spans].
  split; [rewrite zlen_upd; auto|]. split; [reflexivity|]. split; [reflexivity|].
  set (nc := addSpanCol thr (mkSpan mn mx a) (col_at hf x y)).
  set (hf2 := mkHF (hf_w hf) (hf_h hf) (upd (hf_spans hf) (Z.to_nat (cidx (hf_w hf) x y)) nc)).
  assert (hf_shape hf2) as Hsh2.
  { unfold hf_shape, hf2; cbn [hf_w hf_h hf_spans]. rewrite zlen_upd; auto. }
  assert (hf_shape hf) as Hsh1 by (unfold hf_shape; auto).
  split.
  - assert (in_grid hf2 x y) as G by (split; cbn; lia).
    pose proof (col_at_in hf2 x y Hsh2 G) as E.
    unfold hf2 in E at 1 2; cbn [hf_w hf_h hf_spans] in E.
    rewrite get_upd, Z.eqb_refl in E by lia.
    destruct (Z.ltb_spec (cidx (hf_w hf) x y) (zlen (hf_spans hf))); [|lia]. cbn [andb] in E. congruence.
  - intros x' y' Hne.
    assert (in_grid hf x' y' \/ ~ in_grid hf x' y') as [G|G] by (unfold in_grid; lia).
    + assert (in_grid hf2 x' y') as G2 by (destruct G; split; cbn; lia).
      pose proof (col_at_in hf2 x' y' Hsh2 G2) as E. pose proof (col_at_in hf x' y' Hsh1 G) as E1.
      destruct G as [Gx Gy]. pose proof (cidx_range _ _ _ _ Gx Gy).
      unfold hf2 in E at 1 2; cbn [hf_w hf_h hf_spans] in E.
      rewrite get_upd in E by lia.
      destruct (Z.eqb_spec (cidx (hf_w hf) x' y') (cidx (hf_w hf) x y)) as [E0|_].
      * apply cidx_inj in E0; auto. destruct E0; subst. congruence.
      * cbn [andb] in E. congruence.
    + rewrite !col_at_out; auto.
Qed.

Lemma NewHeightfield_shape : forall w h, 0 <= w -> 0 <= h -> w * h < 2147483648 ->
  hf_shape (NewHeightfield w h) /\ forall x y, col_at (NewHeightfield w h) x y = [].
Proof.
  intros w h Hw Hh Hs. split.
  - unfold hf_shape, NewHeightfield; cbn [hf_w hf_h hf_spans]. unfold zlen. rewrite repeat_length.
    repeat split; auto; nia.
  - intros x y. unfold col_at, NewHeightfield; cbn [hf_w hf_h hf_spans].
    destruct (_ && _); auto. destruct (nth_in_or_default (Z.to_nat (x + y * w)) (repeat (@nil Span) (Z.to_nat (w * h))) []) as [H|H]; auto.
    apply repeat_spec in H. assumption.
Qed.

Definition at_cell (x y : Z) (o : Ins) : bool := (iX o =? x) && (iY o =? y).

Lemma run_ins_spec : forall ops hf, hf_shape hf ->
  (forall o, In o ops -> valid_ins (hf_w hf) (hf_h hf) o) ->
  (forall x y, wf_column (col_at hf x y)) ->
  exists hf', run_ins hf ops = Ok hf' /\ hf_shape hf' /\ hf_w hf' = hf_w hf /\ hf_h hf' = hf_h hf /\
    (forall x y, wf_column (col_at hf' x y)) /\
    (forall x y v, solid (col_at hf' x y) v <->
       solid (col_at hf x y) v \/ exists o, In o ops /\ iX o = x /\ iY o = y /\ iMn o <= v < iMx o) /\
    (forall x y, (forall o, In o ops -> ~ (iX o = x /\ iY o = y)) -> col_at hf' x y = col_at hf x y).
Proof.
  induction ops as [|o ops IH]; intros hf Hsh Hv Hwf.
  - exists hf. unfold run_ins; cbn [foldM].
    split; [reflexivity|]. split; [assumption|]. split; [reflexivity|]. split; [reflexivity|].
    split; [assumption|]. split; [|reflexivity].
    intros x y v. split; [auto|]. intros [H|(o & [] & _)]. assumption.
  - destruct (Hv o (or_introl eq_refl)) as (Hx & Hy & Hmn & Hmx & Ha).
    destruct (addSpan_spec hf (iX o) (iY o) (iMn o) (iMx o) (iArea o) (iThr o) Hsh (conj Hx Hy))
      as (hf1 & E & Hsh1 & Ew & Eh & Ec & Eo).
    assert (forall x y, wf_column (col_at hf1 x y)) as Hwf1.
    { intros x y. destruct (Z.eq_dec x (iX o)) as [->|N]; [destruct (Z.eq_dec y (iY o)) as [->|N]|].
      - rewrite Ec. apply addSpanCol_wf; auto. cbn. lia.
      - rewrite Eo by congruence. auto.
      - rewrite Eo by congruence. auto. }
    destruct (IH hf1 Hsh1) as (hf' & E' & Hsh' & Ew' & Eh' & Hwf' & Hsol & Hfr); auto.
    { intros o' Ho'. rewrite Ew, Eh. apply Hv. now right. }
    exists hf'. unfold run_ins in *. cbn [foldM]. rewrite E. cbn [bind].
    split; [assumption|]. split; [assumption|]. split; [congruence|]. split; [congruence|].
    split; [assumption|]. split.
    + intros x y v. rewrite Hsol.
      assert (solid (col_at hf1 x y) v <-> solid (col_at hf x y) v \/ (iX o = x /\ iY o = y /\ iMn o <= v < iMx o)) as Es.
      { destruct (Z.eq_dec x (iX o)) as [->|N]; [destruct (Z.eq_dec y (iY o)) as [->|N]|].
        - rewrite Ec. rewrite addSpanCol_solid by (auto; cbn; lia). cbn. intuition lia.
        - rewrite Eo by congruence. intuition lia.
        - rewrite Eo by congruence. intuition lia. }
      rewrite Es. split.
      * intros [[H|H]|(o' & Ho' & H)]; [auto| |].
        -- right. exists o. split; [now left|intuition].
        -- right. exists o'. split; [now right|intuition].
      * intros [H|(o' & [<-|Ho'] & H)]; [auto| |].
        -- left. right. intuition.
        -- right. exists o'. auto.
    + intros x y Hno. rewrite Hfr.
      * apply Eo. intros Eq. inversion Eq; subst. apply (Hno o (or_introl eq_refl)). auto.
      * intros o' Ho'. apply Hno. now right.
Qed.
