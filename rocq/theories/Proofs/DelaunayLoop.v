(** The loop that completes the edges of the Delaunay triangulation. *)
From Coq Require Import ZArith List Bool Lia.
From Verif.Base Require Import Res GoNum F32 Num Grid.
From Verif.Model Require Import Geom Delaunay.
From Verif.Spec Require Import DelaunaySpec.
From Verif.Proofs Require Import DelaunayPick DelaunayTable.
Import ListNotations.
Open Scope Z_scope.

Lemma in_owned : forall E f p, In p (owned E f) <-> In (fst p, snd p, f) (sides E).
Proof.
  intros E f [a b]. unfold owned. rewrite in_map_iff. cbn [fst snd]. split.
  - intros ([[x y] g] & H & Hi). cbn in H. injection H as -> ->. apply filter_In in Hi as [Hi Hg]. cbn in Hg. apply Z.eqb_eq in Hg. now subst.
  - intros H. exists (a, b, f). split; [reflexivity|]. apply filter_In. split; [exact H|]. cbn. apply Z.eqb_refl.
Qed.
Lemma owned_ne : forall E f, owned E f <> [] <-> exists a b, In (a, b, f) (sides E).
Proof.
  intros E f. split.
  - destruct (owned E f) as [|[a b] l] eqn:Eo; [easy|]. intros _. exists a, b. apply (in_owned E f (a, b)). rewrite Eo. now left.
  - intros (a & b & H) Eo. apply (in_owned E f (a, b)) in H. rewrite Eo in H. destruct H.
Qed.

Section Loop.
Variables (pts : list f32) (n mx : Z) (hull : list Z).
Hypothesis Hn : 0 <= n.
Hypothesis Hl : 3 * n <= zlen pts.
Hypothesis Hs : 3 * n < 2 ^ 31.

Record inv (E : list edge) (ts : list (Z * Z * Z)) : Prop := {
  i_distinct : NoDup (dirs E);
  i_size : zlen E <= mx;
  i_points : forall a b, In (a, b) (dirs E) -> 0 <= a < n /\ 0 <= b < n;
  i_hull : forall a b, In (a, b) (ring hull) -> exists r, In (a, b, -2, r) E;
  i_sides : forall a b f, In (a, b, f) (sides E) -> f = -1 \/
    (0 <= f /\ exists t, nth_error ts (Z.to_nat f) = Some t /\ In (a, b) (triSides t)) \/
    (f = -2 /\ (In (a, b) (ring hull) \/ forall u, 0 <= u < n -> onLeft pts a b u = false));
  i_faces : forall a b c, In (a, b, c) ts -> a <> b /\ b <> c /\ c <> a /\
    0 <= a < n /\ 0 <= b < n /\ 0 <= c < n /\ fits (circ pts) pts n hull E a b c;
  i_owned : forall f, 0 <= f < zlen ts -> owned E f <> [];
  i_closed : zlen E < mx -> forall t p, In t ts -> In p (triSides t) -> In p (dirs E)
}.

Lemma fits_grow : forall f A E E' a b c, grow n mx f A E E' -> fits (circ pts) pts n hull E a b c -> fits (circ pts) pts n hull E' a b c.
Proof.
  intros f A E E' a b c G (F1 & F2 & F3 & F4). split; [exact F1|]. split; [exact F2|]. split; [|exact F4].
  intros v Hv Lv. destruct (F3 v Hv Lv) as [F|(F & x & y & l & r & Hi & Hm)]; [left; exact F|right]. split; [exact F|].
  destruct (g_edge _ _ _ _ _ _ G x y l r Hi) as (l' & r' & Hi' & _). exists x, y, l', r'. split; assumption.
Qed.

Lemma inv_hull : forall E E' ts s t, inv E ts -> grow n mx (-2) (fun p => p = (s, t)) E E' ->
  (forall u, 0 <= u < n -> onLeft pts s t u = false) -> inv E' ts.
Proof.
  intros E E' ts s t I G NL. pose proof G as G'. destruct I, G. split; try assumption; try lia.
  - intros a b Hi. destruct (i_hull0 a b Hi) as (r & Hr). destruct (g_edge _ _ _ _ _ _ G' _ _ _ _ Hr) as (l' & r' & Hi' & Hl'). rewrite Hl' in Hi' by lia. eauto.
  - intros a b f Hi. destruct (g_new a b f Hi) as [H|[H|(H & ->)]]; [auto|auto|]. injection H as -> ->. right. right. split; [reflexivity|]. now right.
  - intros a b c Hi. destruct (i_faces0 a b c Hi) as (F1 & F2 & F3 & F4 & F5 & F6 & F7). do 6 (split; [assumption|]).
    exact (fits_grow _ _ _ _ _ _ _ G' F7).
  - intros f Hf. apply owned_ne. specialize (i_owned0 f Hf). apply owned_ne in i_owned0 as (a & b & Hi). exists a, b. apply g_old; [exact Hi|lia].
  - intros Lt t' p Ht Hp. apply g_dirs. eapply i_closed0; eauto. lia.
Qed.

Lemma inv_face : forall E E' ts a b c, inv E ts -> grow n mx (zlen ts) (fun p => In p (triSides (a, b, c))) E E' ->
  (exists p, In (fst p, snd p, zlen ts) (sides E')) ->
  (zlen E' < mx -> forall p, In p (triSides (a, b, c)) -> In p (dirs E')) ->
  a <> b -> b <> c -> c <> a -> 0 <= a < n -> 0 <= b < n -> 0 <= c < n -> fits (circ pts) pts n hull E a b c ->
  inv E' (ts ++ [(a, b, c)]).
Proof.
  intros E E' ts a b c I G (p & Hp) Hc Hab Hbc Hca Ra Rb Rc F. pose proof G as G'. destruct I, G. split; try assumption; try lia.
  - intros x y Hi. destruct (i_hull0 x y Hi) as (r & Hr). destruct (g_edge _ _ _ _ _ _ G' _ _ _ _ Hr) as (l' & r' & Hi' & Hl'). rewrite Hl' in Hi' by lia. eauto.
  - intros x y f Hi. destruct (g_new x y f Hi) as [H|[H|(H & ->)]]; [|auto|].
    + destruct (i_sides0 x y f H) as [K|[(K1 & t' & K2 & K3)|K]]; [auto| |auto]. right. left. split; [exact K1|]. exists t'. split; [|exact K3].
      rewrite nth_error_app1; [exact K2|]. apply nth_error_Some. congruence.
    + right. left. split; [apply zlen_nonneg|]. exists (a, b, c). split; [|exact H].
      unfold zlen. rewrite Nat2Z.id, nth_error_app2, Nat.sub_diag by lia. reflexivity.
  - intros x y z Hi. apply in_app_or in Hi as [Hi|[Hi|[]]].
    + destruct (i_faces0 x y z Hi) as (F1 & F2 & F3 & F4 & F5 & F6 & F7). do 6 (split; [assumption|]). exact (fits_grow _ _ _ _ _ _ _ G' F7).
    + injection Hi as <- <- <-. do 6 (split; [assumption|]). exact (fits_grow _ _ _ _ _ _ _ G' F).
  - intros f Hf. rewrite zlen_snoc in Hf. apply owned_ne. destruct (Z.eq_dec f (zlen ts)) as [->|Hne]; [exists (fst p), (snd p); exact Hp|].
    assert (Hf' : 0 <= f < zlen ts) by lia. specialize (i_owned0 f Hf'). apply owned_ne in i_owned0 as (x & y & Hi). exists x, y. apply g_old; [exact Hi|lia].
  - intros Lt t' q Ht Hq. apply in_app_or in Ht as [Ht|[<-|[]]]; [|now apply Hc]. apply g_dirs. eapply i_closed0; eauto. lia.
Qed.

(** completeFacet on an edge with an open side: the side from s to t gets a face or none. *)
Lemma completeFacet_ok : forall E ts k a b l r, inv E ts -> nth_error E k = Some (a, b, l, r) -> l = -1 \/ r = -1 ->
  zlen ts < 2 ^ 30 ->
  exists E' ts', completeFacet pts n E mx (zlen ts) (Z.of_nat k) = Ok (E', zlen ts') /\ inv E' ts' /\
    zlen ts' <= zlen ts + 1 /\ zlen E <= zlen E' /\
    (forall j, (j <= length E)%nat -> Forall (fun e => ~ open e) (firstn j E) -> Forall (fun e => ~ open e) (firstn j E')) /\
    exists l' r', nth_error E' k = Some (a, b, l', r') /\ (if l =? -1 then l' <> -1 /\ (r <> -1 -> r' <> -1) else l' <> -1 /\ r' <> -1).
Proof.
  intros E ts k a b l r I Ek Op Hts. unfold completeFacet.
  assert (Lk : (k < length E)%nat) by (apply nth_error_Some; congruence).
  assert (Gk : get E (Z.of_nat k) = Ok (a, b, l, r)) by (apply get_ok; split; [lia|now rewrite Nat2Z.id]).
  rewrite Gk. cbn [bind].
  replace (negb (l =? EV_UNDEF) && negb (r =? EV_UNDEF)) with false
    by (symmetry; unfold EV_UNDEF; destruct Op as [-> | ->]; [reflexivity|cbn [negb]; apply andb_false_r]).
  set (st := if l =? EV_UNDEF then (a, b) else (b, a)). destruct st as [s t] eqn:Est. subst st.
  assert (Hst : In (s, t, -1) (sides E) /\ In (s, t) (dirs [(a, b, l, r)]) /\ (s = a /\ t = b /\ l = -1 \/ s = b /\ t = a /\ l <> -1 /\ r = -1)).
  { unfold EV_UNDEF in Est. destruct (Z.eqb_spec l (-1)) as [->|Nl]; injection Est as <- <-.
    - split; [|split; [now left|left; auto]]. apply in_sides. left. exists r. now apply nth_error_In in Ek.
    - destruct Op as [Op|Op]; [contradiction|]. split; [|split; [right; now left|right; auto]]. apply in_sides. right. exists l. apply nth_error_In in Ek. now rewrite Op in Ek. }
  clear Est. destruct Hst as (Hop & Hdir & Hcase).
  pose proof I as I'. destruct I' as [N L R HH SS FF OO CC].
  assert (Hd : In (s, t) (dirs E)) by (apply in_dirs; eauto).
  destruct (R s t Hd) as [Rs Rt].
  destruct (pick_ok pts n hull E s t Hl Hs R) as (pt & c & r0 & Ep & Hp); [|assumption|assumption|assumption|].
  { intros x y Hi. destruct (HH x y Hi) as (r' & Hr). eauto. }
  rewrite Ep. cbn [bind].
  assert (Hab : a <> b).
  { intros ->. clear -N Ek. apply nth_error_In in Ek. apply in_split in Ek as (l1 & l2 & ->). rewrite dirs_app, dirs_cons in N.
    apply NoDup_app_inv in N. apply NoDup_cons_iff in N as [N _]. apply N. now left. }
  assert (Hst : s <> t) by (destruct Hcase as [(-> & -> & _)|(-> & -> & _)]; auto).
  (* the edge itself afterwards, for any later growth *)
  assert (Fin : forall f A E', f <> -1 -> grow n mx f A (map (updateLeftFace s t f) E) E' ->
    exists l' r', nth_error E' k = Some (a, b, l', r') /\ (if l =? -1 then l' <> -1 /\ (r <> -1 -> r' <> -1) else l' <> -1 /\ r' <> -1) ).
  { intros f A E' Hf G. destruct (ulf_set s t f a b l r Hab) as (l1 & r1 & Eu & Hl1 & Hr1 & Kl1 & Kr1).
    destruct (g_nth _ _ _ _ _ _ G k a b l1 r1) as (l2 & r2 & E2 & Kl2 & Kr2).
    { rewrite nth_error_map, Ek. cbn [option_map]. now rewrite Eu. }
    exists l2, r2. split; [exact E2|]. destruct (Z.eqb_spec l (-1)) as [Hl'|Hl'].
    - destruct Hcase as [(-> & -> & _)|(_ & _ & H & _)]; [|congruence]. rewrite (Hl1 eq_refl eq_refl Hl') in Kl2. rewrite (Kl2 Hf).
      split; [exact Hf|]. intros Hr. rewrite (Kr1 Hr) in Kr2. now rewrite (Kr2 Hr).
    - destruct Hcase as [(_ & _ & H)|(-> & -> & _ & Hr)]; [congruence|]. rewrite (Kl1 Hl') in Kl2. rewrite (Kl2 Hl'). split; [exact Hl'|].
      rewrite (Hr1 eq_refl eq_refl Hr) in Kr2. rewrite (Kr2 Hf). exact Hf. }
  assert (Set1 : forall f, set E (Z.of_nat k) (updateLeftFace s t f (a, b, l, r)) = Ok (map (updateLeftFace s t f) E)).
  { intros f. rewrite set_in_range by (unfold zlen; lia). f_equal. rewrite Nat2Z.id. now apply ulf_upd. }
  destruct (Z.ltb_spec pt n) as [Hpt|Hpt].
  - destruct Hp as [(Hp & _)|F]; [lia|]. pose proof F as F'. destruct F' as (Rp & Lp & _).
    assert (Dp : pt <> s /\ pt <> t).
    { unfold onLeft in Lp. apply andb_true_iff in Lp as [Lp _]. apply andb_true_iff in Lp as [L1 L2].
      apply negb_true_iff in L1, L2. apply Z.eqb_neq in L1, L2. auto. }
    destruct Dp as [Dp1 Dp2].
    rewrite Set1. cbn [bind].
    set (A := fun p => In p (triSides (s, t, pt))).
    assert (Hf : zlen ts <> -1) by (pose proof (zlen_nonneg ts); lia).
    assert (G1 : grow n mx (zlen ts) A E (map (updateLeftFace s t (zlen ts)) E)) by (apply grow_fill; try assumption; now left).
    set (E1 := map (updateLeftFace s t (zlen ts)) E) in *.
    destruct (linkSide_ok n mx (zlen ts) A E1 pt s) as (E2 & L2 & G2 & C2); try assumption; try apply G1; [cbn; auto|].
    rewrite L2. cbn [bind].
    destruct (linkSide_ok n mx (zlen ts) A E2 t pt) as (E3 & L3 & G3 & C3); try assumption; try apply G2; [now apply not_eq_sym|cbn; auto|].
    rewrite L3. cbn [bind].
    exists E3, (ts ++ [(s, t, pt)]). rewrite zlen_snoc. pose proof (zlen_nonneg ts).
    rewrite i32_id by (unfold is_i32; lia). split; [reflexivity|].
    assert (G13 : grow n mx (zlen ts) A E1 E3) by (eapply grow_trans; eassumption).
    assert (G03 : grow n mx (zlen ts) A E E3) by (eapply grow_trans; eassumption).
    split; [|split; [lia|split; [apply G03|split; [apply G03|exact (Fin (zlen ts) A E3 Hf G13)]]]].
    apply (inv_face E E3 ts s t pt I G03); try assumption; try (now apply not_eq_sym).
    + exists (s, t). cbn [fst snd]. apply (g_old _ _ _ _ _ _ G13); [|exact Hf]. now apply fill_has.
    + intros Lt p [<-|[<-|[<-|[]]]].
      * apply (g_dirs _ _ _ _ _ _ G03). exact Hd.
      * now apply C3.
      * apply (g_dirs _ _ _ _ _ _ G3). apply C2. pose proof (g_len _ _ _ _ _ _ G3). lia.
  - destruct Hp as [(Hp & NL)|F]; [|destruct F as (F & _); lia].
    rewrite Set1. cbn [bind]. unfold EV_HULL.
    assert (G1 : grow n mx (-2) (fun p => p = (s, t)) E (map (updateLeftFace s t (-2)) E)) by (apply grow_fill; try assumption; [reflexivity|lia]).
    exists (map (updateLeftFace s t (-2)) E), ts. split; [reflexivity|].
    split; [exact (inv_hull _ _ _ _ _ I G1 NL)|]. split; [lia|]. split; [apply G1|]. split; [apply G1|].
    apply (Fin (-2) (fun p => p = (s, t))); [lia|]. apply grow_refl; apply G1.
Qed.

Lemma facetLoop_ok : forall fuel E ts cur, inv E ts -> (cur <= length E)%nat ->
  Forall (fun e => ~ open e) (firstn cur E) -> zlen ts <= 2 * Z.of_nat cur -> 2 * mx < 2 ^ 30 ->
  mx - Z.of_nat cur < Z.of_nat fuel ->
  exists E' ts', facetLoop fuel pts n E mx (zlen ts) (Z.of_nat cur) = Ok (E', zlen ts') /\ inv E' ts' /\
    Forall (fun e => ~ open e) E' /\ zlen ts' <= 2 * mx.
Proof.
  induction fuel as [|fuel IH]; intros E ts cur I Hc Cl Ht Hm Hf.
  { pose proof (i_size E ts I). unfold zlen in *. lia. }
  cbn [facetLoop]. pose proof (i_size E ts I) as Sz.
  destruct (Z.ltb_spec (Z.of_nat cur) (zlen E)) as [Hlt|Hge].
  2: { exists E, ts. split; [reflexivity|]. split; [exact I|]. unfold zlen in *. split; [|lia].
    rewrite firstn_all2 in Cl by lia. exact Cl. }
  assert (Hlt' : (cur < length E)%nat) by (unfold zlen in Hlt; lia).
  destruct (nth_error E cur) as [[[[a b] l] r]|] eqn:Ek; [|apply nth_error_None in Ek; lia].
  assert (Gk : get E (Z.of_nat cur) = Ok (a, b, l, r)) by (apply get_ok; split; [lia|now rewrite Nat2Z.id]).
  rewrite Gk. cbn [bind]. unfold EV_UNDEF.
  assert (S1 : exists E1 ts1 l1 r1,
    (if l =? -1 then completeFacet pts n E mx (zlen ts) (Z.of_nat cur) else Ok (E, zlen ts)) = Ok (E1, zlen ts1) /\
    inv E1 ts1 /\ zlen ts1 <= zlen ts + 1 /\ zlen E <= zlen E1 /\ Forall (fun e => ~ open e) (firstn cur E1) /\
    nth_error E1 cur = Some (a, b, l1, r1) /\ l1 <> -1).
  { destruct (Z.eqb_spec l (-1)) as [Hl1|Hl1].
    - destruct (completeFacet_ok E ts cur a b l r I Ek) as (E1 & ts1 & C1 & I1 & T1 & L1 & K1 & l1 & r1 & N1 & H1); [now left|unfold zlen in *; lia|].
      rewrite Hl1 in H1. cbn [Z.eqb] in H1. exists E1, ts1, l1, r1. split; [exact C1|]. split; [exact I1|]. split; [exact T1|]. split; [exact L1|].
      split; [apply K1; [lia|exact Cl]|]. split; [exact N1|]. apply H1.
    - exists E, ts, l, r. split; [reflexivity|]. split; [exact I|]. split; [lia|]. split; [lia|]. auto. }
  destruct S1 as (E1 & ts1 & l1 & r1 & C1 & I1 & T1 & L1 & Cl1 & N1 & Hl1).
  rewrite C1. cbn [bind].
  assert (G1 : get E1 (Z.of_nat cur) = Ok (a, b, l1, r1)) by (apply get_ok; split; [lia|now rewrite Nat2Z.id]).
  rewrite G1. cbn [bind].
  assert (S2 : exists E2 ts2 l2 r2,
    (if r1 =? -1 then completeFacet pts n E1 mx (zlen ts1) (Z.of_nat cur) else Ok (E1, zlen ts1)) = Ok (E2, zlen ts2) /\
    inv E2 ts2 /\ zlen ts2 <= zlen ts1 + 1 /\ zlen E1 <= zlen E2 /\ Forall (fun e => ~ open e) (firstn cur E2) /\
    nth_error E2 cur = Some (a, b, l2, r2) /\ l2 <> -1 /\ r2 <> -1).
  { destruct (Z.eqb_spec r1 (-1)) as [Hr1|Hr1].
    - destruct (completeFacet_ok E1 ts1 cur a b l1 r1 I1 N1) as (E2 & ts2 & C2 & I2 & T2 & L2 & K2 & l2 & r2 & N2 & H2); [now right|unfold zlen in *; lia|].
      destruct (Z.eqb_spec l1 (-1)) as [|_]; [congruence|]. exists E2, ts2, l2, r2. split; [exact C2|]. split; [exact I2|]. split; [exact T2|]. split; [exact L2|].
      split; [apply K2; [unfold zlen in *; lia|exact Cl1]|]. split; [exact N2|]. apply H2.
    - exists E1, ts1, l1, r1. split; [reflexivity|]. split; [exact I1|]. split; [lia|]. split; [lia|]. auto. }
  destruct S2 as (E2 & ts2 & l2 & r2 & C2 & I2 & T2 & L2 & Cl2 & N2 & Hl2 & Hr2).
  rewrite C2. cbn [bind]. replace (Z.of_nat cur + 1) with (Z.of_nat (S cur)) by lia.
  apply IH; [exact I2| | |lia|exact Hm|lia].
  - apply nth_error_Some. unfold zlen in *. intros H. apply nth_error_None in H. lia.
  - rewrite (firstn_snoc _ _ _ N2). apply Forall_app. split; [exact Cl2|]. repeat constructor. cbn [open]. tauto.
Qed.

Lemma inv_table : forall E ts, inv E ts -> Forall (fun e => ~ open e) E -> table (circ pts) pts n mx hull E ts.
Proof.
  intros E ts I Cl. destruct I. split; try assumption.
  intros a b f Hi. destruct (i_sides0 a b f Hi) as [->|H]; [exfalso|exact H].
  rewrite Forall_forall in Cl. apply in_sides in Hi as [[r Hi]|[l Hi]]; apply (Cl _ Hi); cbn; auto.
Qed.

(** * The edges of the hull *)
Hypothesis Hh : NoDup hull.
Hypothesis Hh3 : 3 <= zlen hull <= mx.
Hypothesis Hr : forall v, In v hull -> 0 <= v < n.

Definition pred_idx (k : nat) : nat := match k with O => length hull - 1 | S j => j end.

Lemma nth_combine : forall {A B} (l : list A) (m : list B) k a b,
  nth_error (combine l m) k = Some (a, b) <-> nth_error l k = Some a /\ nth_error m k = Some b.
Proof.
  intros A B l. induction l as [|x l IH]; intros m k a b.
  - destruct k; split; intros H; try discriminate; destruct H; discriminate.
  - destruct m as [|y m]; [destruct k; split; intros H; try discriminate; destruct H; discriminate|].
    destruct k as [|k]; cbn; [|apply IH]. split; [intros H; injection H as -> ->; auto|intros [H1 H2]; congruence].
Qed.
Lemma ring_nth : forall k a b, nth_error (ring hull) k = Some (a, b) <->
  nth_error hull k = Some b /\ nth_error hull (pred_idx k) = Some a.
Proof.
  intros k a b. unfold ring. rewrite nth_combine.
  assert (Lh : (3 <= length hull)%nat) by (unfold zlen in Hh3; lia).
  destruct k as [|j]; cbn [pred_idx].
  - change (nth_error (last hull 0 :: removelast hull) 0) with (Some (last hull 0)).
    assert (K : nth_error hull (length hull - 1) = Some (last hull 0)).
    { assert (Ne : hull <> []) by (intros H; rewrite H in Lh; cbn in Lh; lia).
      rewrite (app_removelast_last 0 Ne) at 1. rewrite nth_error_app2; rewrite removelast_firstn_len, firstn_length; [|lia].
      replace (length hull - 1 - Nat.min (pred (length hull)) (length hull))%nat with O by lia. reflexivity. }
    rewrite K. intuition congruence.
  - change (nth_error (last hull 0 :: removelast hull) (S j)) with (nth_error (removelast hull) j). split; intros [H1 H2].
    + split; [exact H2|]. rewrite removelast_firstn_len in H1. rewrite <- (firstn_skipn (pred (length hull)) hull). rewrite nth_error_app1; [exact H1|]. apply nth_error_Some. congruence.
    + assert (Lj : (S j < length hull)%nat) by (apply nth_error_Some; congruence).
      split; [|exact H1]. rewrite removelast_firstn_len. rewrite <- (firstn_skipn (pred (length hull)) hull) in H2.
      rewrite nth_error_app1 in H2; [exact H2|]. rewrite firstn_length. lia.
Qed.
Lemma hidx : forall i j v, nth_error hull i = Some v -> nth_error hull j = Some v -> i = j.
Proof. intros i j v H1 H2. rewrite NoDup_nth_error in Hh. apply Hh; [apply nth_error_Some|]; congruence. Qed.
Lemma ring_len : length (ring hull) = length hull.
Proof.
  unfold ring. rewrite combine_length. cbn [length]. rewrite removelast_firstn_len, firstn_length.
  unfold zlen in Hh3. lia.
Qed.
Lemma ring_apart : forall k j a b x y, nth_error (ring hull) k = Some (a, b) -> nth_error (ring hull) j = Some (x, y) ->
  (j < k)%nat -> (x, y) <> (a, b) /\ (x, y) <> (b, a) /\ a <> b.
Proof.
  intros k j a b x y Hk Hj Hlt. apply ring_nth in Hk as [K1 K2]. apply ring_nth in Hj as [J1 J2].
  assert (Lh : (3 <= length hull)%nat) by (unfold zlen in Hh3; lia).
  assert (Lk : (k < length hull)%nat) by (apply nth_error_Some; congruence).
  split; [|split]; intros H.
  - injection H as -> ->. pose proof (hidx _ _ _ K1 J1). lia.
  - injection H as -> ->. pose proof (hidx _ _ _ K1 J2). pose proof (hidx _ _ _ K2 J1). destruct k, j; cbn [pred_idx] in *; lia.
  - subst. pose proof (hidx _ _ _ K1 K2). destruct k; cbn [pred_idx] in *; lia.
Qed.
Notation hedge := (fun '(a, b) => (a, b, -2, -1)).
Lemma dirs_hull : forall (R : list (Z * Z)) a b, In (a, b) (dirs (map hedge R)) <-> In (a, b) R \/ In (b, a) R.
Proof.
  intros R a b. rewrite in_dirs. split.
  - intros [f H]. apply in_sides in H as [[r H]|[l H]]; apply in_map_iff in H as ([x y] & He & Hi); injection He; intros; subst; auto.
  - intros [H|H]; [exists (-2)|exists (-1)]; apply in_sides; [left; exists (-1)|right; exists (-2)]; apply in_map_iff; eexists; (split; [|exact H]); reflexivity.
Qed.
Lemma in_prefix : forall {A} k (l : list A) x, In x (firstn k l) -> exists j, (j < k)%nat /\ nth_error l j = Some x.
Proof.
  intros A k. induction k as [|k IH]; intros l x H; [easy|]. destruct l as [|y l]; [easy|]. destruct H as [->|H].
  - exists O. split; [lia|reflexivity].
  - destruct (IH l x H) as (j & Hj & E). exists (S j). split; [lia|exact E].
Qed.
Lemma ring_fresh : forall k a b, nth_error (ring hull) k = Some (a, b) ->
  a <> b /\ ~ In (a, b) (dirs (map hedge (firstn k (ring hull)))).
Proof.
  intros k a b Hk. split.
  - pose proof Hk as Hk'. apply ring_nth in Hk as [K1 K2]. intros ->. pose proof (hidx _ _ _ K1 K2).
    assert (Lh : (3 <= length hull)%nat) by (unfold zlen in Hh3; lia). destruct k; cbn [pred_idx] in *; lia.
  - rewrite dirs_hull. intros [H|H]; apply in_prefix in H as (j & Hj & Ej); destruct (ring_apart k j a b _ _ Hk Ej Hj) as (H1 & H2 & _); congruence.
Qed.

Lemma hullEdges_ok : forall extra k, (k <= length hull)%nat ->
  foldM (fun st i =>
      let* a := get (hull ++ extra) (snd st) in
      let* b := get (hull ++ extra) i in
      Ok (addEdge (fst st) mx a b EV_HULL EV_UNDEF, i)) (zseq k) ([], zlen hull - 1) =
  Ok (map hedge (firstn k (ring hull)), match k with O => zlen hull - 1 | S j => Z.of_nat j end).
Proof.
  intros extra k. induction k as [|k IH]; intros Hk; [reflexivity|].
  rewrite zseq_S, foldM_app, IH by lia. cbn [bind foldM fst snd].
  destruct (nth_error (ring hull) k) as [[a b]|] eqn:Er; [|apply nth_error_None in Er; rewrite ring_len in Er; lia].
  pose proof Er as Er'. apply ring_nth in Er' as [K1 K2].
  assert (Lh : (3 <= length hull)%nat) by (unfold zlen in Hh3; lia).
  assert (Ga : get (hull ++ extra) (match k with O => zlen hull - 1 | S j => Z.of_nat j end) = Ok a).
  { apply get_ok. replace (Z.to_nat (match k with O => zlen hull - 1 | S j => Z.of_nat j end)) with (pred_idx k) by (unfold zlen; destruct k; cbn [pred_idx]; lia).
    split; [unfold zlen; destruct k; lia|]. rewrite nth_error_app1; [exact K2|]. apply nth_error_Some. congruence. }
  assert (Gb : get (hull ++ extra) (Z.of_nat k) = Ok b).
  { apply get_ok. split; [lia|]. rewrite Nat2Z.id, nth_error_app1; [exact K1|lia]. }
  rewrite Ga, Gb. cbn [bind]. f_equal. f_equal. unfold addEdge, zlen. rewrite map_length, firstn_length, ring_len.
  destruct (Z.leb_spec mx (Z.of_nat (Nat.min k (length hull)))) as [H|_]; [unfold zlen in Hh3; lia|].
  destruct (ring_fresh k a b Er) as [_ Nf].
  destruct (findEdge_cases a b (map hedge (firstn k (ring hull)))) as [(Ef & _)|(j & e & _ & Ej & He)].
  - rewrite Ef. cbn [Z.eqb EV_UNDEF]. change (-1 =? EV_UNDEF) with true. cbv iota.
    rewrite (firstn_snoc _ _ _ Er), map_app. reflexivity.
  - elim Nf. apply nth_error_In in Ej. destruct e as [[[x y] l'] r']. apply in_dirs.
    cbn in He. destruct He as [He|[He|[]]]; injection He as -> ->; [exists l'|exists r']; apply in_sides; eauto.
Qed.

Lemma inv_hull0 : inv (map hedge (ring hull)) [].
Proof.
  assert (Rg : forall a b, In (a, b) (ring hull) -> 0 <= a < n /\ 0 <= b < n).
  { intros a b Hi. apply In_nth_error in Hi as [k Hi]. apply ring_nth in Hi as [K1 K2]. split; apply Hr; eapply nth_error_In; eassumption. }
  split.
  - assert (G : forall k, (k <= length hull)%nat -> NoDup (dirs (map hedge (firstn k (ring hull))))).
    { induction k as [|k IH]; intros Hk; [constructor|].
      destruct (nth_error (ring hull) k) as [[a b]|] eqn:Er; [|apply nth_error_None in Er; rewrite ring_len in Er; lia].
      rewrite (firstn_snoc _ _ _ Er), map_app, dirs_app. destruct (ring_fresh k a b Er) as [Nab Nf].
      apply NoDup_app_intro; [apply IH; lia| |].
      - cbn. repeat constructor; cbn; intuition congruence.
      - intros x Hx [<-|[<-|[]]]; [contradiction|]. apply Nf. now apply dirs_sym. }
    specialize (G (length hull) (le_n _)). rewrite firstn_all2 in G by (rewrite ring_len; lia). exact G.
  - unfold zlen. rewrite map_length, ring_len. apply Hh3.
  - intros a b Hi. apply dirs_hull in Hi as [Hi|Hi]; apply Rg in Hi; tauto.
  - intros a b Hi. exists (-1). apply in_map_iff. exists (a, b). auto.
  - intros a b f Hi. apply in_sides in Hi as [[r Hi]|[l Hi]]; apply in_map_iff in Hi as ([x y] & He & Hi); injection He; intros; subst; auto.
  - easy.
  - intros f Hf. cbn in Hf. lia.
  - easy.
Qed.
End Loop.
