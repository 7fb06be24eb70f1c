(** Simplification of contours: it ends, keeps every change, and leaves nothing too far off. *)
From Coq Require Import ZArith List Bool Lia Sorted Floats.SpecFloat.
From Verif.Base Require Import Res GoNum F32 Num Grid.
From Verif.Model Require Import Heightfield Compact SegDist Contour.
From Verif.Spec Require Import ContourSpec.
Import ListNotations.
Open Scope Z_scope.

(** * The order of floats *)
Definition nonan (a : f32) : Prop := a <> S754_nan.
Ltac cmp := unfold flt, fgt, SFltb, SFcompare in *; repeat match goal with
  | H : context [Pos.compare_cont Eq ?a ?b] |- _ => change (Pos.compare_cont Eq a b) with (Pos.compare a b) in H
  | |- context [Pos.compare_cont Eq ?a ?b] => change (Pos.compare_cont Eq a b) with (Pos.compare a b)
  end.
Lemma flt_nonan : forall a b, flt a b = true -> nonan a /\ nonan b.
Proof. intros [s|s| |s m e] [s'|s'| |s' m' e'] H; split; intro K; try discriminate. Qed.
Ltac cmpcase := repeat match goal with
  | H : context [Z.compare ?a ?b] |- _ => destruct (Z.compare_spec a b)
  | |- context [Z.compare ?a ?b] => destruct (Z.compare_spec a b)
  | H : context [Pos.compare ?a ?b] |- _ => destruct (Pos.compare_spec a b)
  | |- context [Pos.compare ?a ?b] => destruct (Pos.compare_spec a b)
  end; cbn [CompOpp] in *; try discriminate; try reflexivity; try lia; try congruence.
Lemma flt_le_trans : forall a b c, flt a b = true -> flt c b = false -> nonan c -> flt a c = true.
Proof.
  intros a b c H K N.
  destruct a as [sa|sa| |sa ma ea], b as [sb|sb| |sb mb eb], c as [sc|sc| |sc mc ec]; try (exfalso; apply N; reflexivity); cmp;
    try discriminate; try destruct sa; try destruct sb; try destruct sc; try discriminate; try reflexivity;
    subst; cmpcase.
Qed.
Lemma flt_trans : forall a b c, flt a b = true -> flt b c = true -> flt a c = true.
Proof.
  intros a b c H K. apply flt_le_trans with b; auto; [|apply flt_nonan in K; tauto].
  destruct a as [sa|sa| |sa ma ea], b as [sb|sb| |sb mb eb], c as [sc|sc| |sc mc ec]; cmp;
    try discriminate; try destruct sa; try destruct sb; try destruct sc; try discriminate; try reflexivity;
    subst; cmpcase.
Qed.
Lemma flt_irrefl : forall a, flt a a = false.
Proof. intros [s|s| |s m e]; cmp; auto; destruct s; cmpcase. Qed.

Lemma aux_nonneg : forall m e l, let r := binary_round_aux fprec femax false m e l in
  r = S754_nan \/ r = S754_zero false \/ r = S754_infinity false \/ exists m' e', r = S754_finite false m' e'.
Proof.
  intros m e l r. subst r. unfold binary_round_aux. destruct (shr_fexp _ _ _ _ _) as [m1 e1]. destruct (shr_fexp _ _ _ _ _) as [m2 e2].
  destruct (shr_m m2); eauto. destruct (Z.leb _ _); eauto. right. right. right. eauto.
Qed.
Lemma sqr_nonneg : forall a, flt (fmul a a) f0 = false.
Proof.
  intros [s|s| |s m e]; try (destruct s; reflexivity); try reflexivity.
  - unfold fmul, SFmul. assert (xorb s s = false) as -> by (destruct s; auto).
    match goal with |- context [binary_round_aux _ _ _ ?m ?e ?l] => destruct (aux_nonneg m e l) as [-> | [-> | [-> | (m' & e' & ->)]]] end; reflexivity.
Qed.

(** * Lists *)
Fixpoint adj {A} (l : list A) (a b : A) : Prop :=
  match l with
  | x :: (y :: _) as t => (x = a /\ y = b) \/ adj t a b
  | _ => False
  end.
Lemma adj_spec : forall {A} (l : list A) a b, (exists l1 l2, l = l1 ++ a :: b :: l2) <-> adj l a b.
Proof.
  induction l as [|x l IH]; intros a b.
  - split; [intros (l1 & l2 & E); destruct l1; discriminate | intros []].
  - destruct l as [|y l].
    + split; [|intros []]. intros (l1 & l2 & E). destruct l1 as [|z [|z' l1]]; discriminate.
    + split.
      * intros (l1 & l2 & E). destruct l1 as [|z l1]; cbn in E.
        -- left. injection E as -> -> _. auto.
        -- injection E as -> E. right. apply IH. eauto.
      * intros [[-> ->] | H]; [exists [], l; auto|]. apply IH in H as (l1 & l2 & E). exists (x :: l1), l2. rewrite E. auto.
Qed.
Lemma adj_app : forall {A} (l1 l2 : list A) x a b, adj (l1 ++ x :: l2) a b <-> adj (l1 ++ [x]) a b \/ adj (x :: l2) a b.
Proof.
  induction l1 as [|y l1 IH]; intros l2 x a b.
  - cbn. tauto.
  - destruct l1 as [|z l1].
    + cbn. destruct l2; cbn; tauto.
    + specialize (IH l2 x a b). cbn [app] in *. change (adj (y :: z :: l1 ++ x :: l2) a b) with ((y = a /\ z = b) \/ adj (z :: l1 ++ x :: l2) a b).
      change (adj (y :: z :: l1 ++ [x]) a b) with ((y = a /\ z = b) \/ adj (z :: l1 ++ [x]) a b). tauto.
Qed.
Lemma adj_in : forall {A} (l : list A) a b, adj l a b -> In a l /\ In b l.
Proof. intros A l a b H. apply adj_spec in H as (l1 & l2 & ->). split; apply in_or_app; right; cbn; auto. Qed.

(** * Filling edges *)
Section Fill.
Variable ch : Z -> Z -> option Z.
(** The points added between two neighbours. *)
Inductive split : Z -> Z -> list Z -> Prop :=
| split_none : forall a b, ch a b = None -> split a b []
| split_some : forall a b m l1 l2, ch a b = Some m -> split a m l1 -> split m b l2 -> split a b (l1 ++ m :: l2).
(** All edges of a closed polygon filled from some position on; [f] is its first point. *)
Inductive fill (f : Z) : list Z -> list Z -> Prop :=
| fill_nil : fill f [] []
| fill_cons : forall a l mid out, split a (hd f l) mid -> fill f l out -> fill f (a :: l) (a :: mid ++ out).

Lemma split_done : forall a b l, split a b l -> forall k k', adj (a :: l ++ [b]) k k' -> ch k k' = None.
Proof.
  induction 1 as [a b H|a b m l1 l2 H S1 IH1 S2 IH2]; intros k k' K.
  - cbn in K. destruct K as [[<- <-]|[]]. auto.
  - rewrite <- app_assoc in K. cbn [app] in K. change (a :: l1 ++ m :: l2 ++ [b]) with ((a :: l1) ++ m :: l2 ++ [b]) in K.
    apply (proj1 (adj_app _ _ _ _ _)) in K. destruct K; auto.
Qed.
Lemma fill_done : forall f l out, fill f l out -> forall k k', adj (out ++ [f]) k k' -> ch k k' = None.
Proof.
  induction 1 as [|a l mid out S F IH]; intros k k' K; [destruct K|].
  inversion F as [|a' l' mid' out' S' F' E1 E2]; subst.
  - rewrite app_nil_r in K. cbn in S. exact (split_done _ _ _ S _ _ K).
  - cbn [hd] in S. replace ((a :: mid ++ a' :: mid' ++ out') ++ [f]) with ((a :: mid) ++ a' :: (mid' ++ out') ++ [f]) in K
      by (cbn; rewrite <- !app_assoc; cbn; rewrite <- !app_assoc; auto).
    apply (proj1 (adj_app _ _ _ _ _)) in K. destruct K as [K|K]; [exact (split_done _ _ _ S _ _ K)|apply IH; exact K].
Qed.
Lemma fill_in : forall f l out, fill f l out -> forall k, In k l -> In k out.
Proof.
  induction 1 as [|a l mid out S F IH]; intros k K; [destruct K|]. destruct K as [->|K]; [left; auto|].
  right. apply in_or_app. auto.
Qed.
Lemma fill_hd : forall f l out d, fill f l out -> hd d out = hd d l.
Proof. intros f l out d F. destruct F; auto. Qed.
Lemma split_det : forall a b l, split a b l -> forall l', split a b l' -> l = l'.
Proof.
  induction 1 as [a b H|a b m l1 l2 H S1 IH1 S2 IH2]; intros l' K; inversion K; subst; try congruence.
  assert (m0 = m) by congruence. subst. f_equal; [auto|]. f_equal. auto.
Qed.
End Fill.
Arguments split_none {ch}. Arguments split_some {ch}.

(** * Cyclic lists *)
Section Cyc.
Variable n : Z.
Hypothesis Hn : 0 < n.
Definition arc (k k' : Z) : Z := (k' - k) mod n.
Lemma arc_range : forall k k', 0 <= arc k k' < n.
Proof. intros. apply Z.mod_pos_bound. auto. Qed.
Lemma arc_pos : forall k k', 0 <= k < n -> 0 <= k' < n -> k <> k' -> 0 < arc k k'.
Proof.
  intros k k' H H' N. pose proof (arc_range k k'). assert (arc k k' <> 0); [|lia]. unfold arc. intro E.
  apply Z.mod_divide in E; [|lia]. destruct E as [q E]. assert (q = 0) by nia. lia.
Qed.
Lemma arc_add : forall k t, 0 <= t < n -> arc k ((k + t) mod n) = t.
Proof.
  intros k t H. unfold arc. rewrite Zminus_mod_idemp_l. replace (k + t - k) with t by lia. apply Z.mod_small. auto.
Qed.
Lemma add_arc : forall k k', 0 <= k' < n -> (k + arc k k') mod n = k'.
Proof. intros k k' H. unfold arc. rewrite Zplus_mod_idemp_r. replace (k + (k' - k)) with k' by lia. apply Z.mod_small. auto. Qed.
Lemma arc_sub : forall a k k', arc a k <= arc a k' -> arc k k' = arc a k' - arc a k.
Proof.
  intros a k k' H. pose proof (arc_range a k). pose proof (arc_range a k').
  unfold arc at 1. replace (k' - k) with ((k' - a) - (k - a)) by lia. rewrite Zminus_mod. fold (arc a k') (arc a k). apply Z.mod_small. lia.
Qed.
Lemma arc_sub' : forall a k k', arc a k' < arc a k -> arc k k' = n + arc a k' - arc a k.
Proof.
  intros a k k' H. pose proof (arc_range a k). pose proof (arc_range a k').
  unfold arc at 1. replace (k' - k) with ((k' - a) - (k - a)) by lia. rewrite Zminus_mod. fold (arc a k') (arc a k).
  rewrite <- (Z_mod_plus_full _ 1). rewrite Z.mod_small; lia.
Qed.
Lemma arc_self : forall a, arc a a = 0.
Proof. intros. unfold arc. rewrite Z.sub_diag. apply Z.mod_0_l. lia. Qed.
Lemma arc_inj : forall a k k', 0 <= k < n -> 0 <= k' < n -> arc a k = arc a k' -> k = k'.
Proof. intros a k k' H H' E. rewrite <- (add_arc a k), <- (add_arc a k'), E; auto. Qed.
Lemma inside_spec : forall k k' j, inside n k k' j -> 0 <= j < n /\ 0 < arc k j < arc k k'.
Proof.
  intros k k' j (t & H & ->). pose proof (arc_range k k'). split; [apply Z.mod_pos_bound; auto|]. fold (arc k k') in H. rewrite arc_add; lia.
Qed.
Lemma inside_of : forall k k' j, 0 <= j < n -> 0 < arc k j < arc k k' -> inside n k k' j.
Proof. intros k k' j H K. exists (arc k j). split; [exact K|]. symmetry. apply add_arc. auto. Qed.
Lemma inside_arcs : forall k k' j, inside n k k' j -> arc k k' = arc k j + arc j k' /\ 0 < arc j k'.
Proof. intros k k' j H. apply inside_spec in H as [H K]. rewrite (arc_sub k j k'); lia. Qed.

Lemma inside_sub_left : forall k k' m j, inside n k k' m -> inside n k m j -> inside n k k' j.
Proof. intros k k' m j H K. apply inside_spec in H as [H1 H2], K as [K1 K2]. apply inside_of; auto. lia. Qed.
Lemma inside_sub_right : forall k k' m j, inside n k k' m -> inside n m k' j -> inside n k k' j.
Proof.
  intros k k' m j H K. pose proof (inside_arcs _ _ _ H) as [Q1 Q2]. apply inside_spec in H as [H1 H2], K as [K1 K2]. apply inside_of; auto.
  assert (arc k j = arc k m + arc m j); [|lia].
  unfold arc in *. pose proof (Z.mod_pos_bound (j - m) n Hn). pose proof (Z.mod_pos_bound (k' - k) n Hn).
  replace (j - k) with ((m - k) + (j - m)) by lia. rewrite Z.add_mod by lia. apply Z.mod_small. lia.
Qed.
(** Strictly increasing distance from the head. *)
Fixpoint incr (lo : Z) (a : Z) (l : list Z) : Prop :=
  match l with [] => True | k :: l => 0 <= k < n /\ lo < arc a k /\ incr (arc a k) a l end.
Definition cyc (ks : list Z) : Prop := match ks with [] => True | a :: l => 0 <= a < n /\ incr 0 a l end.
Lemma incr_low : forall l lo a k, incr lo a l -> In k l -> 0 <= k < n /\ lo < arc a k.
Proof.
  induction l as [|x l IH]; intros lo a k H K; [destruct K|]. destruct H as (H1 & H2 & H3). destruct K as [->|K]; [auto|].
  destruct (IH _ _ _ H3 K). split; [auto|lia].
Qed.
Lemma incr_length : forall l lo a, 0 <= lo -> lo < n -> incr lo a l -> zlen l < n - lo.
Proof.
  induction l as [|x l IH]; intros lo a L L2 H; [rewrite zlen_nil; lia|]. destruct H as (H1 & H2 & H3). rewrite zlen_cons.
  pose proof (arc_range a x). specialize (IH (arc a x) a ltac:(lia) ltac:(lia) H3). lia.
Qed.
Lemma cyc_length : forall ks, cyc ks -> zlen ks <= n.
Proof.
  intros [|a l] H; [rewrite zlen_nil; lia|]. destruct H as [H K]. rewrite zlen_cons. pose proof (incr_length l 0 a ltac:(lia) ltac:(lia) K). lia.
Qed.
Lemma incr_app : forall l1 lo a k l2, incr lo a (l1 ++ k :: l2) <->
  incr lo a l1 /\ (0 <= k < n /\ (forall j, In j l1 -> arc a j < arc a k) /\ lo < arc a k) /\ incr (arc a k) a l2.
Proof.
  induction l1 as [|x l1 IH]; intros lo a k l2; cbn [app incr].
  - intuition. destruct H1.
  - rewrite IH. cbn [In]. split.
    + intros (A & B & C & (D & E & F) & G). repeat split; auto; try lia. intros j [<-|K]; auto.
    + intros ((A & B & C) & (D & E & F) & G). repeat split; auto; try lia.
Qed.
Lemma cyc_spec : forall ks, cyc ks <-> cyclic n ks.
Proof.
  intros [|a l]; unfold cyc, cyclic; cbn [hd map].
  - split; auto. split; constructor.
  - fold (arc a a). assert (G : forall l lo, incr lo a l <-> Forall (fun k => 0 <= k < n) l /\ Forall (Z.lt lo) (map (fun k => (k - a) mod n) l) /\ StronglySorted Z.lt (map (fun k => (k - a) mod n) l)).
    { clear l. induction l as [|x l IH]; intros lo; cbn [incr map].
      - split; auto. intros _. repeat split; constructor.
      - rewrite IH. split.
        + intros (A & B & C & D & E). split; [constructor; auto|]. split; [constructor; auto; eapply Forall_impl; [|exact D]; cbn; intros; unfold arc in *; lia|].
          constructor; auto.
        + intros (A & B & C). inversion A; inversion B; inversion C; subst. auto. }
    rewrite G, arc_self. split.
    + intros (A & B & C & D). split; constructor; auto.
    + intros (A & B). inversion A; inversion B; subst. auto.
Qed.
Lemma cyc_NoDup : forall ks, cyc ks -> NoDup ks.
Proof.
  intros [|a l] H; [constructor|]. destruct H as [H K].
  assert (G : forall l lo, incr lo a l -> NoDup l).
  { clear K l. induction l as [|x l IH]; intros lo K; constructor; destruct K as (K1 & K2 & K3); eauto. intro I. pose proof (incr_low _ _ _ _ K3 I). lia. }
  constructor; eauto. intro I. pose proof (incr_low _ _ _ _ K I) as [_ L]. rewrite arc_self in L. lia.
Qed.
(** Inserting a point between neighbours. *)
Lemma cyc_insert : forall pre a l m, cyc (pre ++ a :: l) -> (2 <= length (pre ++ a :: l))%nat ->
  inside n a (hd (hd 0 (pre ++ a :: l)) l) m -> cyc (pre ++ a :: m :: l).
Proof.
  intros pre a l m H L I. apply inside_spec in I as [M I].
  destruct pre as [|b pre]; cbn [app hd] in *.
  - destruct H as [H K]. destruct l as [|c l]; [cbn in L; lia|]. cbn [hd] in I. cbn [cyc incr] in *. destruct K as (K1 & K2 & K3). repeat split; auto; lia.
  - destruct H as [H K]. cbn [cyc]. split; auto. apply (proj1 (incr_app _ _ _ _ _)) in K. destruct K as (K1 & K2 & K3). apply incr_app. split; auto. split; auto.
    destruct K2 as (K2 & K4 & K5). destruct l as [|c l]; cbn [hd incr] in *.
    + split; auto. split; auto. assert (arc a b = n - arc b a) as E by (rewrite (arc_sub' b a b); rewrite arc_self; lia).
      destruct (Z.le_gt_cases (arc b a) (arc b m)) as [Q|Q].
      * pose proof (arc_sub b a m Q). lia.
      * pose proof (arc_sub' b a m Q). pose proof (arc_range b m). lia.
    + destruct K3 as (K3 & K6 & K7). rewrite (arc_sub b a c) in I by lia.
      destruct (Z.le_gt_cases (arc b a) (arc b m)) as [Q|Q].
      * pose proof (arc_sub b a m Q). repeat split; auto; try lia.
      * pose proof (arc_sub' b a m Q). pose proof (arc_range b m). pose proof (arc_range b c). lia.
Qed.
(** Neighbours are different and have no other point of the list between them. *)
Lemma cyc_adj : forall ks k k', cyc ks -> (2 <= length ks)%nat -> adj (ks ++ [hd 0 ks]) k k' ->
  0 <= k < n /\ 0 <= k' < n /\ k <> k' /\ In k ks /\ In k' ks /\ forall j, In j ks -> ~ inside n k k' j.
Proof.
  intros [|a l] k k' H L K; [cbn in L; lia|]. cbn [hd] in K. apply adj_spec in K as (l1 & l2 & E).
  destruct H as [H IN]. destruct l2 as [|z l2] using rev_ind.
  - (* last to first *)
    replace (l1 ++ [k; k']) with ((l1 ++ [k]) ++ [k']) in E by (rewrite <- app_assoc; auto). apply app_inj_tail in E as [E <-].
    assert (C : exists l3, l = l3 ++ [k] /\ l1 = a :: l3).
    { destruct l1 as [|x l1]; cbn in E; injection E as -> E; [subst; cbn in L; lia|]. eauto. }
    destruct C as (l3 & -> & ->). apply (proj1 (incr_app _ _ _ _ _)) in IN. destruct IN as (I1 & (I2 & I3 & I4) & _).
    split; [auto|]. split; [auto|]. split; [intros ->; rewrite arc_self in I4; lia|]. split; [right; apply in_or_app; cbn; auto|]. split; [left; auto|].
    intros j J. intro I. apply inside_spec in I as [I5 I6]. rewrite (arc_sub' a k a) in I6 by (rewrite arc_self; lia). rewrite arc_self in I6.
    destruct J as [<-|J]; [rewrite (arc_sub' a k a) in I6 by (rewrite arc_self; lia); rewrite arc_self in I6; lia|].
    apply in_app_or in J. destruct J as [J|[<-|[]]]; [|rewrite arc_self in I6; lia].
    specialize (I3 _ J). rewrite (arc_sub' a k j) in I6 by lia. pose proof (arc_range a j). lia.
  - clear IHl2. replace (l1 ++ k :: k' :: l2 ++ [z]) with ((l1 ++ k :: k' :: l2) ++ [z]) in E by (rewrite <- app_assoc; auto).
    apply app_inj_tail in E as [E <-].
    assert (R : forall j, In j (a :: l) -> 0 <= j < n) by (intros j [<-|J]; auto; apply (incr_low _ _ _ _ IN J)).
    assert (B : arc a k < arc a k' /\ forall j, In j (a :: l) -> arc a j <= arc a k \/ arc a k' <= arc a j).
    { destruct l1 as [|x l1]; cbn in E; injection E as -> E.
      - subst l. destruct IN as (I1 & I2 & I3). rewrite arc_self in *. split; [lia|]. intros j [<-|[<-|J]]; [left; rewrite arc_self; lia|right; lia|].
        right. pose proof (incr_low _ _ _ _ I3 J). lia.
      - subst l. apply (proj1 (incr_app _ _ _ _ _)) in IN. destruct IN as (I1 & (I2 & I3 & I4) & (I5 & I6 & I7)). split; auto.
        intros j [<-|J]; [left; rewrite arc_self; lia|]. apply in_app_or in J. destruct J as [J|[<-|[<-|J]]]; [left; specialize (I3 _ J); lia|left; lia|right; lia|].
        right. pose proof (incr_low _ _ _ _ I7 J). lia. }
    destruct B as [B1 B2].
    assert (Ik : In k (a :: l)) by (rewrite E; apply in_or_app; cbn; auto).
    assert (Ik' : In k' (a :: l)) by (rewrite E; apply in_or_app; cbn; auto).
    split; [auto|]. split; [auto|]. split; [intros ->; lia|]. split; [auto|]. split; [auto|].
    intros j J I. apply inside_spec in I as [I1 I2]. rewrite (arc_sub a k k') in I2 by lia. destruct (B2 _ J) as [Q|Q].
    + destruct (Z.eq_dec (arc a j) (arc a k)) as [W|W]; [rewrite (arc_sub a k j) in I2 by lia; lia|]. rewrite (arc_sub' a k j) in I2 by lia.
      pose proof (arc_range a k'). pose proof (arc_range a j). lia.
    + rewrite (arc_sub a k j) in I2 by lia. lia.
Qed.
End Cyc.
