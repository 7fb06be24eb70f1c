(** Proofs about ErodeWalkableArea (C45). *)
From Coq Require Import ZArith List Bool Lia Sorted.
From Verif.Base Require Import Res GoNum Grid.
From Verif.Model Require Import Heightfield Dirs Compact Erode.
From Verif.Spec Require Import HeightfieldSpec CompactSpec ErodeSpec.
Import ListNotations.
Open Scope Z_scope.

Lemma in_krange : forall a n k, In k (krange a n) <-> a <= k < a + n.
Proof.
  intros a n k. unfold krange. rewrite in_map_iff. split.
  - intros (i & <- & H). apply in_zseq in H. lia.
  - intros H. exists (k - a). split; [lia|]. apply in_zseq. lia.
Qed.
Lemma NoDup_krange : forall a n, NoDup (krange a n).
Proof. intros a n. unfold krange. apply FinFun.Injective_map_NoDup; [|apply NoDup_zseq]. intros i j E. lia. Qed.

(** ** Values of a list of distances *)
Definition dv (d : list Z) (i : Z) : Z := nth (Z.to_nat i) d 0.
Lemma get_dv : forall d i, 0 <= i < zlen d -> get d i = Ok (dv d i).
Proof.
  intros d i H. destruct (get_in_range d i H) as [v E]. rewrite E. f_equal. apply get_ok in E. destruct E as [_ E].
  symmetry. unfold dv. apply nth_error_nth with (1 := E).
Qed.
Lemma dv_upd : forall d i j v, 0 <= i < zlen d -> 0 <= j -> dv (upd d (Z.to_nat i) v) j = if j =? i then v else dv d j.
Proof.
  intros d i j v Hi Hj. unfold dv. rewrite nth_upd. unfold zlen in Hi.
  destruct (Z.eqb_spec j i) as [->|N].
  - rewrite Nat.eqb_refl. cbn [andb]. destruct (Nat.ltb_spec (Z.to_nat i) (length d)); [reflexivity|lia].
  - destruct (Nat.eqb_spec (Z.to_nat j) (Z.to_nat i)); [lia|]. reflexivity.
Qed.

(** ** The order in which a loop visits the spans *)
Definition triple : Type := Z * Z * Z.
Definition order (chf : CompactHeightfield) (cs : list (Z * Z)) : list triple :=
  flat_map (fun xy => match cell_at chf (fst xy) (snd xy) with
    | Ok c => map (fun i => (fst xy, snd xy, i)) (krange (cIndex c) (cCount c)) | _ => [] end) cs.

Lemma foldM_map : forall {S A B} (g : A -> B) (f : S -> B -> res S) l s, foldM f (map g l) s = foldM (fun s a => f s (g a)) l s.
Proof. induction l as [|a l IH]; intros s; [reflexivity|]. cbn [map foldM]. destruct (f s (g a)); cbn [bind]; [apply IH| | |]; reflexivity. Qed.
Lemma foldM_ext : forall {S A} (f g : S -> A -> res S) l s, (forall a s, In a l -> f s a = g s a) -> foldM f l s = foldM g l s.
Proof.
  induction l as [|a l IH]; intros s H; [reflexivity|]. cbn [foldM]. rewrite (H a s) by (left; reflexivity).
  destruct (g s a); cbn [bind]; [apply IH; intros; apply H; right; assumption| | |]; reflexivity.
Qed.

Section CHF.
Variable chf : CompactHeightfield.
Hypothesis wf : chf_wf chf.
Notation w := (chf_w chf).
Notation h := (chf_h chf).
Notation N := (chf_spanCount chf).

Lemma cell_ex : forall x y, 0 <= x < w -> 0 <= y < h -> exists c, cell_at chf x y = Ok c.
Proof.
  intros x y Hx Hy. apply get_in_range. rewrite (ok_cells _ wf). apply (cidx_range w h); assumption.
Qed.

Lemma overSpans_order : forall f cs d, (forall xy, In xy cs -> In xy (cells w h)) ->
  overSpans chf cs f d = foldM (fun d (t : triple) => f (fst (fst t)) (snd (fst t)) d (snd t)) (order chf cs) d.
Proof.
  intros f cs. induction cs as [|xy cs IH]; intros d H; [reflexivity|].
  unfold overSpans in *. cbn [foldM order flat_map]. rewrite foldM_app.
  assert (In xy (cells w h)) as HI by (apply H; left; reflexivity). destruct xy as [x y]. apply in_cells in HI.
  destruct (cell_ex x y) as [c Hc]; [lia|lia|]. cbn [fst snd]. unfold cell_at in Hc. unfold cell_at, cidx. rewrite Hc. cbn [bind].
  rewrite foldM_map. cbn [fst snd].
  change (fun s a => f x y s a) with (f x y). destruct (foldM (f x y) (krange (cIndex c) (cCount c)) d) as [d'| | |]; cbn [bind]; try reflexivity.
  apply IH. intros; apply H; right; assumption.
Qed.

Lemma in_order : forall cs x y i, (forall xy, In xy cs <-> In xy (cells w h)) -> (In (x, y, i) (order chf cs) <-> span_at chf x y i).
Proof.
  intros cs x y i H. unfold order. rewrite in_flat_map. split.
  - intros ([x' y'] & H1 & H2). apply H in H1. apply in_cells in H1. cbn [fst snd] in H2.
    destruct (cell_at chf x' y') as [c| | |] eqn:E; try (destruct H2; fail).
    apply in_map_iff in H2. destruct H2 as (k & E2 & H2). injection E2 as <- <- <-. apply in_krange in H2.
    split; [lia|]. split; [lia|]. exists c. split; [exact E|lia].
  - intros (Hx & Hy & c & Hc & Hi). exists (x, y). split; [apply H, in_cells; lia|]. cbn [fst snd]. rewrite Hc.
    apply in_map_iff. exists i. split; [reflexivity|]. apply in_krange. lia.
Qed.

Lemma NoDup_app_intro : forall {A} (l k : list A), NoDup l -> NoDup k -> (forall a, In a l -> ~ In a k) -> NoDup (l ++ k).
Proof.
  induction l as [|a l IH]; intros k Hl Hk D; [exact Hk|]. inversion Hl; subst. cbn. constructor.
  - rewrite in_app_iff. intros [H|H]; [contradiction|]. apply (D a); [left; reflexivity|exact H].
  - apply IH; auto. intros b Hb. apply D. right. exact Hb.
Qed.
Lemma order_NoDup : forall cs, NoDup cs -> NoDup (order chf cs).
Proof.
  induction cs as [|[x y] cs IH]; intros Hn; [constructor|]. inversion Hn; subst. cbn [order flat_map fst snd].
  apply NoDup_app_intro; [|apply IH; assumption|].
  - destruct (cell_at chf x y); try constructor. apply FinFun.Injective_map_NoDup; [|apply NoDup_krange]. intros i j E. injection E. auto.
  - intros t Ht Hq. apply in_flat_map in Hq. destruct Hq as ([x' y'] & Hq1 & Hq2). cbn [fst snd] in Hq2.
    destruct (cell_at chf x y) as [c| | |]; try (destruct Ht; fail). destruct (cell_at chf x' y') as [c'| | |]; try (destruct Hq2; fail).
    apply in_map_iff in Ht. destruct Ht as (k & <- & _). apply in_map_iff in Hq2. destruct Hq2 as (k' & E & _). injection E as -> -> _. contradiction.
Qed.

(** What is not in a later cell comes before. *)
Lemma order_sorted : forall (r : Z * Z -> Z) cs, StronglySorted (fun a b => r a < r b) cs ->
  StronglySorted (fun a b : triple => r (fst a) <= r (fst b)) (order chf cs).
Proof.
  intros r. induction cs as [|[x y] cs IH]; intros Hs; [constructor|]. inversion Hs; subst. cbn [order flat_map fst snd].
  set (M := match cell_at chf x y with Ok c => map (fun i => (x, y, i)) (krange (cIndex c) (cCount c)) | _ => [] end).
  assert (forall t, In t M -> fst t = (x, y)) as HM.
  { intros t Ht. unfold M in Ht. destruct (cell_at chf x y); try (destruct Ht; fail). apply in_map_iff in Ht. destruct Ht as (k & <- & _). reflexivity. }
  specialize (IH H1). clearbody M. induction M as [|t M IHM]; [exact IH|]. cbn [app]. constructor.
  - apply IHM. intros t' Ht'. apply HM. right. exact Ht'.
  - apply Forall_forall. intros t' Ht'. rewrite (HM t) by (left; reflexivity). apply in_app_iff in Ht'. destruct Ht' as [Ht'|Ht'].
    + rewrite (HM t') by (right; exact Ht'). lia.
    + apply in_flat_map in Ht'. destruct Ht' as ([x' y'] & G1 & G2). rewrite Forall_forall in H2. specialize (H2 _ G1). cbn [fst snd] in G2.
      destruct (cell_at chf x' y'); try (destruct G2; fail). apply in_map_iff in G2. destruct G2 as (k & <- & _). cbn [fst]. lia.
Qed.
Lemma sorted_before : forall {A} (R : A -> A -> Prop) l pre a post b, StronglySorted R l -> l = pre ++ a :: post -> In b l -> b <> a -> ~ R a b -> In b pre.
Proof.
  intros A R l pre a post b Hs E Hb Hne HR. subst l. apply in_app_iff in Hb. destruct Hb as [Hb|[Hb|Hb]]; [exact Hb|congruence|].
  exfalso. apply HR. clear Hne HR. induction pre as [|c pre IH].
  - cbn in Hs. inversion Hs; subst. rewrite Forall_forall in H2. apply H2, Hb.
  - cbn in Hs. inversion Hs; subst. apply IH. assumption.
Qed.

(** ** A pass of relaxations *)
Definition relaxed (d : list Z) (i : Z) (s : Z * Z) : list Z :=
  if u8 (dv d (fst s) + snd s) <? dv d i then upd d (Z.to_nat i) (u8 (dv d (fst s) + snd s)) else d.
Lemma relax_ok : forall d i j k, 0 <= i < zlen d -> 0 <= j < zlen d -> relax d i j k = Ok (relaxed d i (j, k)).
Proof.
  intros d i j k Hi Hj. unfold relax, relaxed. rewrite (get_dv d j), (get_dv d i) by assumption. cbn [bind fst snd].
  assert (u8 (iMin (u8 (dv d j + k)) 255) = u8 (dv d j + k)) as ->.
  { pose proof (u8_range (dv d j + k)) as R. unfold is_u8 in R. unfold iMin. destruct (Z.ltb_spec (u8 (dv d j + k)) 255).
    - apply u8_id. exact R.
    - assert (u8 (dv d j + k) = 255) as -> by lia. reflexivity. }
  destruct (_ <? _); [|reflexivity]. apply set_in_range. exact Hi.
Qed.

Definition relaxedL (d : list Z) (i : Z) (ss : list (Z * Z)) : list Z := fold_left (fun d s => relaxed d i s) ss d.
Definition best (f : Z -> Z) (v : Z) (ss : list (Z * Z)) : Z := fold_left (fun v s => Z.min v (u8 (f (fst s) + snd s))) ss v.
Lemma relaxed_len : forall d i s, zlen (relaxed d i s) = zlen d.
Proof. intros d i s. unfold relaxed. destruct (_ <? _); [apply zlen_upd|reflexivity]. Qed.
Lemma relaxed_dv : forall d i s j, 0 <= i < zlen d -> 0 <= j ->
  dv (relaxed d i s) j = if j =? i then Z.min (dv d i) (u8 (dv d (fst s) + snd s)) else dv d j.
Proof.
  intros d i s j Hi Hj. unfold relaxed. destruct (Z.ltb_spec (u8 (dv d (fst s) + snd s)) (dv d i)).
  - rewrite dv_upd by assumption. destruct (j =? i); [lia|reflexivity].
  - destruct (Z.eqb_spec j i) as [->|]; [lia|reflexivity].
Qed.
Lemma relaxedL_dv : forall ss d i, 0 <= i < zlen d -> (forall s, In s ss -> 0 <= fst s /\ fst s <> i) ->
  zlen (relaxedL d i ss) = zlen d /\
  forall j, 0 <= j -> dv (relaxedL d i ss) j = if j =? i then best (dv d) (dv d i) ss else dv d j.
Proof.
  induction ss as [|s ss IH]; intros d i Hi Hs.
  - split; [reflexivity|]. intros j Hj. cbn. destruct (Z.eqb_spec j i) as [->|]; reflexivity.
  - unfold relaxedL in *. cbn [fold_left]. destruct (IH (relaxed d i s) i) as [L E].
    + now rewrite relaxed_len.
    + intros s' Hs'. apply Hs. right. exact Hs'.
    + rewrite relaxed_len in L. split; [exact L|]. intros j Hj. rewrite (E j Hj). destruct (Z.eqb_spec j i) as [->|Nj].
      * unfold best. cbn [fold_left]. rewrite relaxed_dv by lia. rewrite Z.eqb_refl.
        assert (forall s', In s' ss -> dv (relaxed d i s) (fst s') = dv d (fst s')) as Q.
        { intros s' Hs'. destruct (Hs s') as [Q1 Q2]; [right; exact Hs'|]. rewrite relaxed_dv by lia. destruct (Z.eqb_spec (fst s') i); [contradiction|reflexivity]. }
        clear - Q. revert Q. generalize (Z.min (dv d i) (u8 (dv d (fst s) + snd s))). induction ss as [|a ss IH]; intros v Q; [reflexivity|].
        cbn [fold_left]. rewrite (Q a) by (left; reflexivity). apply IH. intros s' Hs'. apply Q. right. exact Hs'.
      * rewrite relaxed_dv by lia. destruct (Z.eqb_spec j i); [contradiction|reflexivity].
Qed.

Lemma best_le : forall f ss v, best f v ss <= v /\ forall s, In s ss -> best f v ss <= u8 (f (fst s) + snd s).
Proof.
  induction ss as [|a ss IH]; intros v; [split; [reflexivity|intros s []]|]. unfold best in *. cbn [fold_left].
  destruct (IH (Z.min v (u8 (f (fst a) + snd a)))) as [L1 L2]. split; [lia|]. intros s [<-|Hs]; [lia|apply L2, Hs].
Qed.
Lemma best_in : forall f ss v, best f v ss = v \/ exists s, In s ss /\ best f v ss = u8 (f (fst s) + snd s).
Proof.
  induction ss as [|a ss IH]; intros v; [left; reflexivity|]. unfold best in *. cbn [fold_left].
  destruct (IH (Z.min v (u8 (f (fst a) + snd a)))) as [E|(s & Hs & E)].
  - rewrite E. destruct (Z.min_spec v (u8 (f (fst a) + snd a))) as [[_ ->]|[_ ->]]; [left; reflexivity|]. right. exists a. split; [left; reflexivity|reflexivity].
  - right. exists s. split; [right; exact Hs|exact E].
Qed.
Lemma best_ext : forall f g ss v, (forall s, In s ss -> f (fst s) = g (fst s)) -> best f v ss = best g v ss.
Proof.
  induction ss as [|a ss IH]; intros v H; [reflexivity|]. unfold best in *. cbn [fold_left]. rewrite (H a) by (left; reflexivity). apply IH. intros. apply H. right. assumption.
Qed.

(** A pass over an order in which the sources of a span come before it. *)
Section Pass.
Variables (srcs : triple -> list (Z * Z)) (step : list Z -> triple -> res (list Z)) (O : list triple).
Hypothesis ND : NoDup (map snd O).
Hypothesis range : forall t, In t O -> 0 <= snd t < N.
Hypothesis stepE : forall d t, In t O -> zlen d = N -> step d t = Ok (relaxedL d (snd t) (srcs t)).
Hypothesis before : forall pre t post s, O = pre ++ t :: post -> In s (srcs t) -> In (fst s) (map snd pre).

Lemma pass_ok : forall d0, zlen d0 = N ->
  exists d, foldM step O d0 = Ok d /\ zlen d = N /\
    (forall t, In t O -> dv d (snd t) = best (dv d) (dv d0 (snd t)) (srcs t)) /\
    (forall j, 0 <= j -> ~ In j (map snd O) -> dv d j = dv d0 j).
Proof.
  intros d0 L0.
  destruct (foldM_inv step (fun pre d => zlen d = N /\
     (forall t, In t pre -> dv d (snd t) = best (dv d) (dv d0 (snd t)) (srcs t)) /\
     (forall j, 0 <= j -> ~ In j (map snd pre) -> dv d j = dv d0 j)) O d0) as (d & E & H).
  - split; [exact L0|]. split; [intros t []|]. intros j _ _. reflexivity.
  - intros pre t post d E (L & H1 & H2). assert (In t O) as Ht by (rewrite E; apply in_app_iff; right; left; reflexivity).
    pose proof (range t Ht) as Rt. exists (relaxedL d (snd t) (srcs t)). split; [apply stepE; assumption|].
    assert (~ In (snd t) (map snd pre)) as NI.
    { pose proof ND as ND'. rewrite E, map_app in ND'. cbn [map] in ND'. apply NoDup_remove_2 in ND'. intros Q. apply ND'. apply in_app_iff. left. exact Q. }
    assert (forall s, In s (srcs t) -> 0 <= fst s /\ fst s <> snd t) as Hs.
    { intros s Hs. pose proof (before pre t post s E Hs) as B. split.
      - apply in_map_iff in B. destruct B as (t' & <- & B). destruct (range t'); [|assumption]. rewrite E. apply in_app_iff. left. exact B.
      - intros Q. apply NI. rewrite <- Q. exact B. }
    destruct (relaxedL_dv (srcs t) d (snd t)) as [L' V]; [lia|exact Hs|].
    split; [congruence|]. split.
    + intros t' Ht'. apply in_app_iff in Ht'. destruct Ht' as [Ht'|[<-|[]]].
      * assert (In t' O) as Ht'' by (rewrite E; apply in_app_iff; left; exact Ht').
        assert (snd t' <> snd t) as Q by (intros Q; apply NI; rewrite <- Q; apply in_map, Ht').
        rewrite V by (apply range; exact Ht''). destruct (Z.eqb_spec (snd t') (snd t)); [contradiction|]. rewrite (H1 t' Ht').
        apply best_ext. intros s Hs'. symmetry.
        apply in_split in Ht'. destruct Ht' as (p1 & p2 & Ep).
        assert (In (fst s) (map snd p1)) as B by (apply (before p1 t' (p2 ++ t :: post) s); [rewrite E, Ep, <- app_assoc; reflexivity|exact Hs']).
        assert (In (fst s) (map snd pre)) as B' by (rewrite Ep, map_app; apply in_app_iff; left; exact B).
        rewrite V; [destruct (Z.eqb_spec (fst s) (snd t)) as [e|]; [exfalso; apply NI; rewrite <- e; exact B'|reflexivity]|].
        apply in_map_iff in B'. destruct B' as (t3 & <- & B'). apply range. rewrite E. apply in_app_iff. left. exact B'.
      * rewrite V by lia. rewrite Z.eqb_refl. rewrite (H2 (snd t)) by (try lia; exact NI). apply best_ext.
        intros s Hs'. destruct (Hs s Hs') as [Q1 Q2]. rewrite V by lia. destruct (Z.eqb_spec (fst s) (snd t)); [contradiction|reflexivity].
    + intros j Hj Nj. rewrite map_app in Nj. rewrite V by exact Hj. destruct (Z.eqb_spec j (snd t)) as [->|].
      * exfalso. apply Nj. apply in_app_iff. right. left. reflexivity.
      * apply H2; [exact Hj|]. intros Q. apply Nj. apply in_app_iff. left. exact Q.
  - exists d. split; [exact E|exact H].
Qed.
End Pass.
End CHF.
