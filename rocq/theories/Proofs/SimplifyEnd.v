(** Simplification of contours: the statements about the result; both sides of a border. *)
From Coq Require Import ZArith List Bool Lia Sorted.
From Verif.Base Require Import Res GoNum F32 Num Grid.
From Verif.Model Require Import Heightfield Compact SegDist Contour.
From Verif.Spec Require Import ContourSpec.
From Verif.Proofs Require Import SimplifyProofs SimplifyMain.
Import ListNotations.
Open Scope Z_scope.

Lemma follows_adj : forall ks k k', follows ks k k' <-> adj (ks ++ [hd 0 ks]) k k'.
Proof. intros. unfold follows. apply adj_spec. Qed.
Lemma splitting_spec : forall mel bf, splitting mel bf = true <-> splits mel bf.
Proof.
  intros mel bf. unfold splitting, splits. rewrite andb_true_iff, Z.ltb_lt, negb_true_iff, Z.eqb_neq.
  change ContourTessWallEdges with (2 ^ 0). change ContourTessAreaEdges with (2 ^ 1). rewrite Z.land_lor_distr_r, !land_pow2 by lia.
  destruct (Z.testbit bf 0), (Z.testbit bf 1); cbn; intuition discriminate.
Qed.
Lemma cyc_range : forall n ks k, cyc n ks -> In k ks -> 0 <= k < n.
Proof. intros n [|a l] k C K; [destruct K|]. destruct C as [A B]. destruct K as [<-|K]; auto. apply (incr_low n _ _ _ _ B K). Qed.

(** What the proofs know about a simplified contour. *)
Record simpl (points : list Vert) (e : f32) (mel bf : Z) (ks0 ks1 ks : list Z) : Prop := {
  sc0 : cyc (count points) ks0; sl0 : (2 <= length ks0)%nat; sc1 : cyc (count points) ks1; sl1 : (2 <= length ks1)%nat;
  sc : cyc (count points) ks; sl : (2 <= length ks)%nat;
  sk : all_walls points \/ (forall k, 0 <= k < count points -> changes points k -> In k ks0);
  sb : (forall k, In k ks0 -> changes points k) \/ all_walls points \/ (forall k, 0 <= k < count points -> ~ changes points k);
  sf : fill (far points e) (hd 0 ks0) ks0 ks1;
  sh : if splitting mel bf then fill (half points mel bf) (hd 0 ks1) ks1 ks else ks = ks1 }.
Lemma simpl_exists : forall points e mel bf, two_places points ->
  exists ks0 ks1 ks out, simplifyContour points e mel bf = Ok out /\ Forall2 (out_vertex points) ks out /\ simpl points e mel bf ks0 ks1 ks.
Proof.
  intros points e mel bf T. assert (Hn : 0 < count points).
  { destruct T as (p & _ & P & _). unfold count. destruct points; [destruct P|cbn; lia]. }
  destruct (simplify_spec points Hn e mel bf T) as (ks0 & ks1 & ks & out & A & B & C & D & E & F & G & H & I & J & K & L & M).
  exists ks0, ks1, ks, out. split; auto. split; auto. constructor; auto.
Qed.

Section Facts.
Variables (points : list Vert) (e : f32) (mel bf : Z) (ks0 ks1 ks : list Z).
Hypothesis S : simpl points e mel bf ks0 ks1 ks.
Let n := count points.
Lemma s_pos : 0 < n.
Proof. pose proof (sc _ _ _ _ _ _ _ S) as C. pose proof (sl _ _ _ _ _ _ _ S). destruct ks; [cbn in *; lia|]. destruct C. unfold n. lia. Qed.
Lemma s_incl1 : incl ks0 ks1.
Proof. intros k K. apply (fill_in _ _ _ _ (sf _ _ _ _ _ _ _ S) _ K). Qed.
Lemma s_incl2 : incl ks1 ks.
Proof. intros k K. pose proof (sh _ _ _ _ _ _ _ S) as H. destruct (splitting mel bf); [apply (fill_in _ _ _ _ H _ K)|subst; auto]. Qed.
Lemma s_uniform : forall l k k', cyc n l -> (2 <= length l)%nat -> incl ks0 l -> adj (l ++ [hd 0 l]) k k' -> uniform points k k'.
Proof.
  intros l k k' C L I A. destruct (cyc_adj n s_pos _ _ _ C L A) as (R & R' & N & _ & _ & NI).
  destruct (sk _ _ _ _ _ _ _ S) as [W|W].
  - intros j j' _ J' _. left. apply W. apply (inside_spec _ s_pos) in J' as [J' _]. exact J'.
  - apply quiet_uniform. intros j J CH. pose proof (inside_spec _ s_pos _ _ _ J) as [J' _]. apply (NI j); auto.
Qed.
Lemma s_fill_adj : forall l, cyc n l -> (2 <= length l)%nat -> incl ks0 l ->
  forall k k', adj (l ++ [hd 0 l]) k k' -> 0 <= k < n /\ 0 <= k' < n /\ k <> k' /\ uniform points k k'.
Proof.
  intros l C L I k k' A. pose proof (s_uniform l k k' C L I A). destruct (cyc_adj n s_pos _ _ _ C L A) as (R & R' & N & _). auto.
Qed.
Lemma s_close : close points e ks1.
Proof.
  intros k k' j d F I D O. apply follows_adj in F.
  destruct (s_fill_adj ks1 (sc1 _ _ _ _ _ _ _ S) (sl1 _ _ _ _ _ _ _ S) s_incl1 k k' F) as (R & R' & N & U).
  apply (far_close points s_pos e k k' j d); auto. apply (fill_done _ _ _ _ (sf _ _ _ _ _ _ _ S)).
  rewrite (fill_hd _ _ _ _ 0 (sf _ _ _ _ _ _ _ S)) in F. exact F.
Qed.
Lemma s_short : splitting mel bf = true -> short_enough points mel bf ks.
Proof.
  intros SP k k' F K L. apply follows_adj in F. pose proof (sh _ _ _ _ _ _ _ S) as H. rewrite SP in H.
  destruct (s_fill_adj ks (sc _ _ _ _ _ _ _ S) (sl _ _ _ _ _ _ _ S) (incl_tran s_incl1 s_incl2) k k' F) as (R & R' & N & U).
  apply (half_short points s_pos mel bf k k'); auto. apply (fill_done _ _ _ _ H). rewrite (fill_hd _ _ _ _ 0 H) in F. exact F.
Qed.
Lemma s_portals : portals_whole points ks.
Proof.
  intros k K.
  assert (H1 : In k ks1 \/ detailed (raw points k)).
  { pose proof (sh _ _ _ _ _ _ _ S) as H. destruct (splitting mel bf); [|subst; auto].
    apply (fill_detailed points s_pos _ (half_inside points mel bf) (half_detailed points s_pos mel bf) _ _ _ H); auto.
    apply s_fill_adj; [exact (sc1 _ _ _ _ _ _ _ S)|exact (sl1 _ _ _ _ _ _ _ S)|exact s_incl1]. }
  destruct H1 as [H1|]; auto.
  assert (H0 : In k ks0 \/ detailed (raw points k)).
  { apply (fill_detailed points s_pos _ (far_inside points e) (far_detailed points s_pos e) _ _ _ (sf _ _ _ _ _ _ _ S)); auto.
    apply s_fill_adj; [exact (sc0 _ _ _ _ _ _ _ S)|exact (sl0 _ _ _ _ _ _ _ S)|apply incl_refl]. }
  destruct H0 as [H0|]; auto. destruct (sb _ _ _ _ _ _ _ S) as [B|[B|B]]; auto.
  right. left. left. apply B. apply (cyc_range _ _ _ (sc0 _ _ _ _ _ _ _ S) H0).
Qed.
Lemma s_changes : keeps_changes points ks.
Proof.
  intros (j & J & NW) k K C. apply s_incl2, s_incl1. destruct (sk _ _ _ _ _ _ _ S) as [W|W]; auto. destruct (NW (W j J)).
Qed.
End Facts.

(** * Membership in filled polygons *)
Lemma fill_app : forall ch f l1 l2 out, fill ch f (l1 ++ l2) out -> exists o1 o2, out = o1 ++ o2 /\ fill ch (hd f l2) l1 o1 /\ fill ch f l2 o2.
Proof.
  induction l1 as [|a l1 IH]; intros l2 out H; [exists [], out; repeat split; auto; constructor|].
  inversion H as [|? ? mid o S F]; subst. destruct (IH _ _ F) as (o1 & o2 & -> & F1 & F2). exists (a :: mid ++ o1), o2. split; [cbn; rewrite <- app_assoc; auto|].
  split; auto. constructor; auto. destruct l1; auto.
Qed.
Lemma fill_member : forall ch f l out, fill ch f l out -> forall x, In x out <-> In x l \/ exists a b mid, adj (l ++ [f]) a b /\ split ch a b mid /\ In x mid.
Proof.
  intros ch f l out F. induction F as [|a l mid out S F IH]; intro x.
  - cbn. split; [tauto|]. intros [[]|(a & b & mid & [] & _)].
  - cbn [In]. rewrite in_app_iff, IH. split.
    + intros [->|[H|[H|(y & z & m & H)]]]; auto.
      * right. exists a, (hd f l), mid. split; [destruct l; cbn; auto|auto].
      * right. exists y, z, m. destruct H as [H1 H2]. split; auto. cbn [app]. destruct (l ++ [f]) eqn:E; [destruct l; discriminate|]. right. auto.
    + intros [[->|H]|(y & z & m & H1 & H2 & H3)]; auto. cbn [app] in H1. destruct (l ++ [f]) as [|w r] eqn:E; [destruct l; discriminate|].
      destruct H1 as [[-> ->]|H1].
      * assert (hd f l = z) by (destruct l; cbn in E; injection E; auto). subst. rewrite (split_det _ _ _ _ H2 _ S) in H3. auto.
      * right. right. right. exists y, z, m. auto.
Qed.
Definition covers (n : Z) (a : Z) (l : list Z) (b : Z) : Prop :=
  forall j, inside n a b j -> In j l \/ exists x y, adj (a :: l ++ [b]) x y /\ inside n x y j.
Lemma inside_cut : forall n a b m j, 0 < n -> inside n a b m -> inside n a b j -> inside n a m j \/ j = m \/ inside n m b j.
Proof.
  intros n a b m j Hn M J. pose proof (inside_arcs n Hn _ _ _ M) as [A1 A2]. apply (inside_spec n Hn) in M as [M1 M2], J as [J1 J2].
  destruct (Z.lt_trichotomy (arc n a j) (arc n a m)) as [L|[E|L]].
  - left. apply inside_of; auto. lia.
  - right. left. eapply arc_inj; eauto.
  - right. right. apply inside_of; auto. rewrite (arc_sub n Hn a m j) by lia. lia.
Qed.
Lemma split_covers : forall n ch, 0 < n -> (forall k k' m, 0 <= k < n -> 0 <= k' < n -> k <> k' -> ch k k' = Some m -> inside n k k' m) ->
  forall a b l, split ch a b l -> 0 <= a < n -> 0 <= b < n -> a <> b -> covers n a l b /\ forall x, In x l -> inside n a b x.
Proof.
  intros n ch Hn Hi a b l S. induction S as [a b H|a b m l1 l2 H S1 IH1 S2 IH2]; intros A B N.
  - split; [|intros x []]. intros j J. right. exists a, b. split; cbn; auto.
  - pose proof (Hi _ _ _ A B N H) as I. pose proof (inside_spec n Hn _ _ _ I) as [R1 R2]. pose proof (inside_arcs n Hn _ _ _ I) as [Q1 Q2].
    assert (N1 : a <> m) by (intros ->; rewrite arc_self in R2 by auto; lia).
    assert (N2 : m <> b) by (intros ->; rewrite arc_self in Q2 by auto; lia).
    destruct (IH1 A R1 N1) as [C1 D1]. destruct (IH2 R1 B N2) as [C2 D2]. split.
    + intros j J. destruct (inside_cut _ _ _ _ _ Hn I J) as [J1|[->|J1]].
      * destruct (C1 j J1) as [K|(x & y & K1 & K2)]; [left; apply in_or_app; auto|]. right. exists x, y. split; auto.
        rewrite <- app_assoc. cbn [app]. change (a :: l1 ++ m :: l2 ++ [b]) with ((a :: l1) ++ m :: l2 ++ [b]). apply adj_app. left. exact K1.
      * left. apply in_or_app. cbn. auto.
      * destruct (C2 j J1) as [K|(x & y & K1 & K2)]; [left; apply in_or_app; cbn; auto|]. right. exists x, y. split; auto.
        rewrite <- app_assoc. cbn [app]. change (a :: l1 ++ m :: l2 ++ [b]) with ((a :: l1) ++ m :: l2 ++ [b]). apply adj_app. right. exact K1.
    + intros x X. apply in_app_or in X. destruct X as [X|[<-|X]]; auto; [eapply inside_sub_left; eauto|eapply inside_sub_right; eauto].
Qed.
Lemma adj_split : forall {A} (l : list A) f a b, adj (l ++ [f]) a b -> exists l1 l2, l = l1 ++ a :: l2 /\ b = hd f l2.
Proof.
  induction l as [|x l IH]; intros f a b H; [destruct H|]. cbn [app] in H. destruct (l ++ [f]) as [|y r] eqn:E; [destruct l; discriminate|].
  destruct H as [[-> ->]|H].
  - exists [], l. split; auto. destruct l; cbn in E; injection E as -> _; auto.
  - rewrite <- E in H. destruct (IH _ _ _ H) as (l1 & l2 & -> & ->). exists (x :: l1), l2. auto.
Qed.
Lemma split_adj_in : forall ch f l out a b mid, fill ch f l out -> adj (l ++ [f]) a b -> split ch a b mid -> forall x y, adj (a :: mid ++ [b]) x y -> adj (out ++ [f]) x y.
Proof.
  intros ch f l out a b mid F. induction F as [|a' l mid' out S F IH]; intros H T x y X; [destruct H|].
  cbn [app] in H. destruct (l ++ [f]) as [|w r] eqn:E; [destruct l; discriminate|].
  assert (O : exists r', out ++ [f] = hd f l :: r').
  { inversion F; subst; cbn; eauto. }
  destruct O as (r' & O). cbn [app]. rewrite <- app_assoc, O.
  change (a' :: mid' ++ hd f l :: r') with ((a' :: mid') ++ hd f l :: r'). apply adj_app.
  destruct H as [[-> ->]|H].
  - assert (hd f l = b) by (destruct l; cbn in E; injection E; auto). subst b. rewrite (split_det _ _ _ _ T _ S) in X. left. exact X.
  - right. rewrite <- O. apply IH; auto.
Qed.

Lemma fill_split : forall ch f l out a b, fill ch f l out -> adj (l ++ [f]) a b -> exists mid, split ch a b mid.
Proof.
  intros ch f l out a b F. induction F as [|a' l mid' out S F IH]; intros H; [destruct H|].
  cbn [app] in H. destruct (l ++ [f]) as [|w r] eqn:E; [destruct l; discriminate|]. destruct H as [[-> ->]|H]; auto.
  assert (hd f l = b) by (destruct l; cbn in E; injection E; auto). subst b. eauto.
Qed.
Lemma sorted_adj : forall l a b, StronglySorted Z.lt l -> adj l a b -> a < b.
Proof.
  induction l as [|x l IH]; intros a b S H; [destruct H|]. destruct l as [|y l]; [destruct H|]. inversion S; subst. destruct H as [[-> ->]|H]; auto.
  inversion H3; auto.
Qed.

(** * A border from both sides *)
Lemma cyc_next : forall n ks k k', 0 < n -> cyc n ks -> (2 <= length ks)%nat -> In k ks -> In k' ks -> k <> k' -> (forall j, In j ks -> ~ inside n k k' j) ->
  adj (ks ++ [hd 0 ks]) k k'.
Proof.
  intros n ks k k' Hn C L K K' N NI.
  assert (exists y, adj (ks ++ [hd 0 ks]) k y) as (y & Y).
  { apply in_split in K as (l1 & l2 & ->). exists (hd (hd 0 (l1 ++ k :: l2)) l2). apply adj_spec. exists l1. rewrite <- app_assoc. cbn [app].
    destruct l2; cbn [app hd]; eauto. }
  destruct (cyc_adj n Hn _ _ _ C L Y) as (R & Ry & Ny & _ & Iy & NIy). pose proof (cyc_range _ _ _ C K') as R'.
  destruct (Z.eq_dec y k') as [->|NE]; auto. exfalso.
  pose proof (arc_pos n Hn k y R Ry Ny). pose proof (arc_pos n Hn k k' R R' N).
  destruct (Z.lt_trichotomy (arc n k y) (arc n k k')) as [Q|[Q|Q]].
  - apply (NI y Iy). apply inside_of; auto.
  - apply NE. eapply arc_inj; eauto.
  - apply (NIy k' K'). apply inside_of; auto.
Qed.
Lemma adj_rev : forall {A} (l : list A) a b, adj (rev l) a b <-> adj l b a.
Proof.
  intros A l a b. rewrite <- !adj_spec. split; intros (l1 & l2 & E).
  - exists (rev l2), (rev l1). rewrite <- (rev_involutive l), E. rewrite rev_app_distr. cbn [rev]. rewrite <- !app_assoc. auto.
  - exists (rev l2), (rev l1). rewrite E, rev_app_distr. cbn [rev]. rewrite <- !app_assoc. auto.
Qed.
Lemma adj_map : forall {A B} (f : A -> B) l a b, adj (map f l) a b <-> exists x y, adj l x y /\ f x = a /\ f y = b.
Proof.
  intros A B f. induction l as [|x l IH]; intros a b; cbn [map]; [split; [intros []|intros (x & y & [] & _)]|].
  destruct l as [|y l]; [split; [intros []|intros (u & v & [] & _)]|]. cbn [map] in *. split.
  - intros [[<- <-]|H]; [exists x, y; cbn; auto|]. apply IH in H as (u & v & U & V). exists u, v. split; [right|]; auto.
  - intros (u & v & [[-> ->]|U] & <- & <-); [left; auto|]. right. apply IH. eauto.
Qed.
Section Mirror.
Variables (p q : list Vert) (k l len : Z).
Let n := count p. Let m := count q.
Hypothesis AP : area_border p k len.
Hypothesis AQ : area_border q l len.
Hypothesis OP : opposite p q k l len.
Let P (t : Z) : Z := (k + t) mod n.
Let Q (t : Z) : Z := (l + (len - t)) mod m.
Lemma n_pos : 0 < n. Proof. destruct AP. unfold n. lia. Qed.
Lemma m_pos : 0 < m. Proof. destruct AQ. unfold m. lia. Qed.
Lemma P_arc : forall s t, 0 <= s <= t -> t <= len -> arc n (P s) (P t) = t - s.
Proof.
  intros s t H K. destruct AP as (_ & L & _). fold n in L. unfold arc, P. rewrite Zminus_mod_idemp_l, Zminus_mod_idemp_r.
  replace (k + t - (k + s)) with (t - s) by lia. apply Z.mod_small. lia.
Qed.
Lemma Q_arc : forall s t, 0 <= s <= t -> t <= len -> arc m (Q t) (Q s) = t - s.
Proof.
  intros s t H K. destruct AQ as (_ & L & _). fold m in L. unfold arc, Q. rewrite Zminus_mod_idemp_l, Zminus_mod_idemp_r.
  replace (l + (len - s) - (l + (len - t))) with (t - s) by lia. apply Z.mod_small. lia.
Qed.
Lemma P_range : forall t, 0 <= P t < n. Proof. intro. apply Z.mod_pos_bound, n_pos. Qed.
Lemma Q_range : forall t, 0 <= Q t < m. Proof. intro. apply Z.mod_pos_bound, m_pos. Qed.
Lemma P_inj : forall s t, 0 <= s <= len -> 0 <= t <= len -> P s = P t -> s = t.
Proof.
  intros s t S T E. destruct (Z.le_gt_cases s t).
  - pose proof (P_arc s t ltac:(lia) ltac:(lia)) as A. rewrite E, arc_self in A by apply n_pos. lia.
  - pose proof (P_arc t s ltac:(lia) ltac:(lia)) as A. rewrite E, arc_self in A by apply n_pos. lia.
Qed.
Lemma Q_inj : forall s t, 0 <= s <= len -> 0 <= t <= len -> Q s = Q t -> s = t.
Proof.
  intros s t S T E. destruct (Z.le_gt_cases s t).
  - pose proof (Q_arc s t ltac:(lia) ltac:(lia)) as A. rewrite E, arc_self in A by apply m_pos. lia.
  - pose proof (Q_arc t s ltac:(lia) ltac:(lia)) as A. rewrite E, arc_self in A by apply m_pos. lia.
Qed.
Lemma P_add : forall s u, (P s + u) mod n = P (s + u).
Proof. intros. unfold P. rewrite Zplus_mod_idemp_l. f_equal. lia. Qed.
Lemma P_sub : forall s u, (P s - u) mod n = P (s - u).
Proof. intros. unfold P. rewrite Zminus_mod_idemp_l. f_equal. lia. Qed.
Lemma Q_add : forall s u, (Q s + u) mod m = Q (s - u).
Proof. intros. unfold Q. rewrite Zplus_mod_idemp_l. f_equal. lia. Qed.
Lemma Q_sub : forall s u, (Q s - u) mod m = Q (s + u).
Proof. intros. unfold Q. rewrite Zminus_mod_idemp_l. f_equal. lia. Qed.
Lemma place_eq : forall t, 0 <= t <= len -> vX (raw q (Q t)) = vX (raw p (P t)) /\ vZ (raw q (Q t)) = vZ (raw p (P t)).
Proof. intros t T. pose proof (OP t T) as E. unfold place in E. injection E as E1 E2. auto. Qed.
Lemma place_ne : forall s t, 0 <= s < t -> t <= len -> lexk q (Q t) (Q s) = negb (lexk p (P s) (P t)).
Proof.
  intros s t S T. destruct AP as (_ & _ & _ & _ & _ & _ & D). specialize (D s t S T). unfold lexk.
  destruct (place_eq s ltac:(lia)) as [-> ->]. destruct (place_eq t ltac:(lia)) as [-> ->]. fold n in D. fold (P s) (P t) in D. unfold place in D.
  unfold lexico. set (a := raw p (P s)) in *. set (b := raw p (P t)) in *.
  destruct (Z.ltb_spec (vX b) (vX a)), (Z.ltb_spec (vX a) (vX b)), (Z.eqb_spec (vX a) (vX b)), (Z.eqb_spec (vX b) (vX a)), (Z.ltb_spec (vZ b) (vZ a)), (Z.ltb_spec (vZ a) (vZ b)); cbn; try reflexivity; try lia.
  exfalso. apply D. f_equal; lia.
Qed.
Lemma mirror_pos : forall fw s t u, posn p fw (P s) (P t) u = P (if fw then s + u else t - u) /\ posn q (negb fw) (Q t) (Q s) u = Q (if fw then s + u else t - u).
Proof. intros [] s t u; unfold posn; cbn [negb]; fold n m; rewrite ?P_add, ?P_sub, ?Q_add, ?Q_sub; auto. Qed.
Lemma det_P : forall t, 0 < t <= len -> detailedb (raw p (P t)) = true.
Proof. intros t T. apply detailedb_spec. right. destruct AP as (_ & _ & _ & _ & _ & D & _). exact (proj2 (D t T)). Qed.
Lemma det_Q : forall t, 0 <= t < len -> detailedb (raw q (Q t)) = true.
Proof. intros t T. apply detailedb_spec. right. destruct AQ as (_ & _ & _ & _ & _ & D & _). exact (proj2 (D (len - t) ltac:(lia))). Qed.
Lemma mirror_far : forall e s t, 0 <= s < t -> t <= len ->
  (far p e (P s) (P t) = None /\ far q e (Q t) (Q s) = None) \/ exists u, s < u < t /\ far p e (P s) (P t) = Some (P u) /\ far q e (Q t) (Q s) = Some (Q u).
Proof.
  intros e s t H T. set (fw := lexk p (P s) (P t)).
  assert (D : bestT (Z.to_nat (t - s - 1)) (devs q (negb fw) (Q t) (Q s)) 1 f0 None = bestT (Z.to_nat (t - s - 1)) (devs p fw (P s) (P t)) 1 f0 None).
  { apply bestT_ext. intros u U. unfold devs. destruct (mirror_pos fw s t u) as [E1 E2]. rewrite E1, E2.
    destruct (place_eq s ltac:(lia)) as [A1 A2]. destruct (place_eq t ltac:(lia)) as [B1 B2].
    destruct (place_eq (if fw then s + u else t - u)) as [C1 C2]; [destruct fw; lia|]. rewrite C1, C2. destruct fw; cbn [negb]; rewrite A1, A2, B1, B2; auto. }
  destruct (mirror_pos fw s t 1) as [E1 E2].
  remember (bestT (Z.to_nat (t - s - 1)) (devs p fw (P s) (P t)) 1 f0 None) as R eqn:B. symmetry in B.
  assert (FP : far p e (P s) (P t) = if detailedb (raw p (P (if fw then s + 1 else t - 1))) then
    match R with (md, Some u) => if fgt md (fmul e e) then Some (P (if fw then s + u else t - u)) else None | (_, None) => None end else None).
  { unfold far. fold n fw. rewrite (P_arc s t), E1, B by lia. destruct R as [md [u|]]; auto. rewrite (proj1 (mirror_pos fw s t u)). auto. }
  assert (FQ : far q e (Q t) (Q s) = if detailedb (raw q (Q (if fw then s + 1 else t - 1))) then
    match R with (md, Some u) => if fgt md (fmul e e) then Some (Q (if fw then s + u else t - u)) else None | (_, None) => None end else None).
  { unfold far. fold m. rewrite (place_ne s t) by lia. fold fw. rewrite (Q_arc s t), E2, D by lia. destruct R as [md [u|]]; auto. rewrite (proj2 (mirror_pos fw s t u)). auto. }
  rewrite FP, FQ. clear FP FQ D E1 E2.
  destruct (Z.eq_dec t (s + 1)) as [->|NE].
  - replace (Z.to_nat (s + 1 - s - 1)) with 0%nat in B by lia. cbn [bestT] in B. subst R. left. split; [destruct (detailedb _)|destruct (detailedb _)]; auto.
  - rewrite det_P, det_Q by (destruct fw; lia). destruct R as [md [u|]]; auto. destruct (fgt md (fmul e e)); auto. right.
    destruct (bestT_spec _ _ _ _ _ _ _ f0_nonan B) as (_ & _ & _ & [[X _]|(v & U & X & _)]); [discriminate|]. injection X as <-.
    exists (if fw then s + u else t - u). split; [destruct fw; lia|auto].
Qed.
Lemma mirror_half : forall mel bf s t, 0 <= s < t -> t <= len ->
  (half p mel bf (P s) (P t) = None /\ half q mel bf (Q t) (Q s) = None) \/ exists u, s < u < t /\ half p mel bf (P s) (P t) = Some (P u) /\ half q mel bf (Q t) (Q s) = Some (Q u).
Proof.
  intros mel bf s t H T. unfold half. fold n m. rewrite P_add, Q_add, (P_arc s t), (Q_arc s t), (place_ne s t) by lia.
  assert (T1 : forall v, behind v <> 0 -> otherArea v = true -> tess bf v = negb (Z.land bf ContourTessAreaEdges =? 0)).
  { intros v B O. unfold tess. rewrite isArea_spec, O. assert (isWall (vR v) = false) as ->; [|rewrite andb_false_r, andb_true_r; auto].
    destruct (isWall (vR v)) eqn:W; auto. apply isWall_spec in W. contradiction. }
  assert (TP : tess bf (raw p (P (s + 1))) = negb (Z.land bf ContourTessAreaEdges =? 0)).
  { destruct AP as (_ & _ & _ & _ & _ & D & _). destruct (D (s + 1)) as [D1 D2]; [lia|]. apply T1; auto. }
  assert (TQ : tess bf (raw q (Q (t - 1))) = negb (Z.land bf ContourTessAreaEdges =? 0)).
  { destruct AQ as (_ & _ & _ & _ & _ & D & _). destruct (D (len - (t - 1))) as [D1 D2]; [lia|]. apply T1; auto. }
  rewrite TP, TQ.
  assert (LG : longb q mel (Q t) (Q s) = longb p mel (P s) (P t)).
  { apply eq_true_iff_eq. rewrite !longb_spec. unfold long. destruct (place_eq s ltac:(lia)) as [-> ->]. destruct (place_eq t ltac:(lia)) as [-> ->]. cbv zeta.
    match goal with |- _ < wrap32 ?a <-> _ < wrap32 ?b => replace a with b by ring end. reflexivity. }
  rewrite LG. destruct (_ && _); auto. cbv zeta. destruct (Z.ltb_spec 1 (t - s)); auto. right.
  assert (X1 : (t - s) / 2 + (t - s + 1) / 2 = t - s).
  { pose proof (Z.div_mod (t - s) 2 ltac:(lia)). pose proof (Z.div_mod (t - s + 1) 2 ltac:(lia)). pose proof (Z.mod_pos_bound (t - s) 2 ltac:(lia)). pose proof (Z.mod_pos_bound (t - s + 1) 2 ltac:(lia)). lia. }
  assert (X2 : 0 < (t - s) / 2) by (apply Z.div_str_pos; lia). assert (X3 : 0 < (t - s + 1) / 2) by (apply Z.div_str_pos; lia).
  destruct (lexk p (P s) (P t)); cbn [negb]; rewrite P_add, Q_add.
  - exists (s + (t - s) / 2). split; [lia|]. split; auto. do 2 f_equal. lia.
  - exists (s + (t - s + 1) / 2). split; [lia|]. split; auto. do 2 f_equal. lia.
Qed.
(** Points added between two mirrored points are mirrored. *)
Lemma mirror_split : forall chp chq, (forall s t, 0 <= s < t -> t <= len ->
    (chp (P s) (P t) = None /\ chq (Q t) (Q s) = None) \/ exists u, s < u < t /\ chp (P s) (P t) = Some (P u) /\ chq (Q t) (Q s) = Some (Q u)) ->
  forall a b mid, split chp a b mid -> forall s t, a = P s -> b = P t -> 0 <= s < t -> t <= len ->
  exists us, mid = map P us /\ (forall u, In u us -> s < u < t) /\ StronglySorted Z.lt us /\ split chq (Q t) (Q s) (rev (map Q us)).
Proof.
  intros chp chq C a b mid S. induction S as [a b E|a b x l1 l2 E S1 IH1 S2 IH2]; intros s t -> -> H T.
  - exists []. destruct (C s t H T) as [[_ C2]|(u & _ & C1 & _)]; [|congruence]. split; auto. split; [intros u []|]. split; [constructor|]. cbn. apply split_none. auto.
  - destruct (C s t H T) as [[C1 _]|(u & U & C1 & C2)]; [congruence|]. assert (x = P u) by congruence. subst x.
    destruct (IH1 s u eq_refl eq_refl ltac:(lia) ltac:(lia)) as (u1 & E1 & R1 & O1 & X1). destruct (IH2 u t eq_refl eq_refl ltac:(lia) ltac:(lia)) as (u2 & E2 & R2 & O2 & X2).
    exists (u1 ++ u :: u2). split; [rewrite map_app; cbn [map]; congruence|]. split; [|split].
    + intros v V. apply in_app_or in V. destruct V as [V|[<-|V]]; [specialize (R1 v V)| |specialize (R2 v V)]; lia.
    + clear - O1 O2 R1 R2. assert (SS : StronglySorted Z.lt (u :: u2)) by (constructor; auto; apply Forall_forall; intros y Y; specialize (R2 y Y); lia).
      revert O1 R1. induction u1 as [|a u1 IH]; intros O1 R1; [exact SS|]. inversion O1; subst. constructor; [apply IH; auto; intros; apply R1; cbn; auto|].
      apply Forall_forall. intros y Y. apply in_app_or in Y. destruct Y as [Y|[<-|Y]]; [rewrite Forall_forall in H2; auto| |]; pose proof (R1 a (or_introl eq_refl)); [lia|].
      specialize (R2 y Y). lia.
    + rewrite map_app. cbn [map]. rewrite rev_app_distr. cbn [rev]. rewrite <- app_assoc. cbn [app]. apply split_some; auto.
Qed.

Lemma border_next : forall pts a c ks0 ks1 ks e mel bf, area_border pts a c -> simpl pts e mel bf ks0 ks1 ks ->
  adj (ks0 ++ [hd 0 ks0]) a ((a + c) mod count pts).
Proof.
  clear. intros pts a c ks0 ks1 ks e mel bf (R & L & C0 & C1 & NC & D & _) S.
  pose proof (s_pos _ _ _ _ _ _ _ S) as Hn. pose proof (Z.mod_pos_bound (a + c) _ Hn) as R'.
  assert (NW : ~ all_walls pts).
  { intro W. destruct (D c ltac:(lia)) as [D1 _]. apply D1, W. auto. }
  assert (AC : arc (count pts) a ((a + c) mod count pts) = c) by (apply arc_add; auto; lia).
  destruct (sk _ _ _ _ _ _ _ S) as [W|K]; [contradiction|].
  assert (B : forall k, In k ks0 -> changes pts k).
  { destruct (sb _ _ _ _ _ _ _ S) as [B|[B|B]]; [auto|contradiction|]. destruct (B a R C0). }
  apply (cyc_next (count pts)); auto; try apply (sc0 _ _ _ _ _ _ _ S); try apply (sl0 _ _ _ _ _ _ _ S).
  - intro E. rewrite <- E in AC. rewrite arc_self in AC by auto. lia.
  - intros j J I. pose proof (inside_spec _ Hn _ _ _ I) as [I1 I2]. rewrite AC in I2. apply (NC (arc (count pts) a j) I2). rewrite add_arc by auto. auto.
Qed.
Lemma mirror_kept1 : forall e mel bf k0 k1 ks j0 j1 js, simpl p e mel bf k0 k1 ks -> simpl q e mel bf j0 j1 js ->
  forall t, 0 < t < len -> In (P t) ks -> In (Q t) js.
Proof.
  intros e mel bf k0 k1 ks j0 j1 js SP SQ t T IN.
  assert (A0 : adj (k0 ++ [hd 0 k0]) (P 0) (P len)).
  { replace (P 0) with k; [exact (border_next _ _ _ _ _ _ _ _ _ AP SP)|]. destruct AP as [R _]. unfold P. rewrite Z.add_0_r, Z.mod_small; auto. }
  assert (B0 : adj (j0 ++ [hd 0 j0]) (Q len) (Q 0)).
  { replace (Q len) with l; [replace (Q 0) with ((l + len) mod m) by (unfold Q; f_equal; lia); exact (border_next _ _ _ _ _ _ _ _ _ AQ SQ)|].
    destruct AQ as [R _]. unfold Q. rewrite Z.sub_diag, Z.add_0_r, Z.mod_small; auto. }
  destruct (fill_split _ _ _ _ _ _ (sf _ _ _ _ _ _ _ SP) A0) as (mid & SM).
  assert (LN : 0 <= 0 < len) by lia.
  destruct (mirror_split _ _ (mirror_far e) _ _ _ SM 0 len eq_refl eq_refl LN ltac:(lia)) as (us & EM & RU & SU & SQM). subst mid.
  assert (NE : P 0 <> P len) by (intro E; apply P_inj in E; lia).
  destruct (split_covers n _ n_pos (far_inside p e) _ _ _ SM (P_range 0) (P_range len) NE) as [CV _].
  assert (INS : inside n (P 0) (P len) (P t)) by (apply inside_of; [apply P_range|rewrite !P_arc by lia; lia]).
  pose proof (fill_hd _ _ _ _ 0 (sf _ _ _ _ _ _ _ SP)) as HP. pose proof (fill_hd _ _ _ _ 0 (sf _ _ _ _ _ _ _ SQ)) as HQ.
  assert (J1 : forall u, In u us -> In (Q u) j1).
  { intros u U. apply (proj2 (fill_member _ _ _ _ (sf _ _ _ _ _ _ _ SQ) (Q u))). right. exists (Q len), (Q 0), (rev (map Q us)). split; auto. split; auto.
    apply -> in_rev. apply in_map. auto. }
  assert (CH : forall x y, adj (P 0 :: map P us ++ [P len]) x y -> adj (k1 ++ [hd 0 k1]) x y).
  { intros x y X. rewrite HP. exact (split_adj_in _ _ _ _ _ _ _ (sf _ _ _ _ _ _ _ SP) A0 SM x y X). }
  assert (SO : StronglySorted Z.lt (0 :: us ++ [len])).
  { constructor.
    - clear - SU RU T. induction us as [|u us IH]; cbn; [constructor; constructor|]. inversion SU; subst. constructor; [apply IH; auto; intros; apply RU; cbn; auto|].
      apply Forall_forall. intros y Y. apply in_app_or in Y. destruct Y as [Y|[<-|[]]]; [rewrite Forall_forall in H2; auto|]. apply RU. cbn; auto.
    - apply Forall_forall. intros y Y. apply in_app_or in Y. destruct Y as [Y|[<-|[]]]; [apply RU in Y|]; lia. }
  assert (CM : P 0 :: map P us ++ [P len] = map P (0 :: us ++ [len])) by (cbn [map]; rewrite map_app; auto).
  assert (RNG : forall u, In u (0 :: us ++ [len]) -> 0 <= u <= len).
  { intros u [<-|U]; [lia|]. apply in_app_or in U. destruct U as [U|[<-|[]]]; [apply RU in U|]; lia. }
  destruct (CV _ INS) as [K|(x & y & X & XI)].
  { apply (s_incl2 _ _ _ _ _ _ _ SQ). apply in_map_iff in K as (u & E & U). apply P_inj in E; [subst; apply J1; auto| |lia]. apply RU in U. lia. }
  pose proof (CH x y X) as X1.
  pose proof (sh _ _ _ _ _ _ _ SP) as HP2. pose proof (sh _ _ _ _ _ _ _ SQ) as HQ2. destruct (splitting mel bf).
  2: { subst ks. exfalso. destruct (cyc_adj n n_pos _ _ _ (sc1 _ _ _ _ _ _ _ SP) (sl1 _ _ _ _ _ _ _ SP) X1) as (_ & _ & _ & _ & _ & NI). exact (NI _ IN XI). }
  rewrite CM in X. apply adj_map in X as (s & s' & SS & <- & <-).
  pose proof (sorted_adj _ _ _ SO SS) as LT. destruct (adj_in _ _ _ SS) as [Is Is']. pose proof (RNG _ Is). pose proof (RNG _ Is').
  destruct (fill_split _ _ _ _ _ _ HP2 X1) as (mm & SMM).
  destruct (mirror_split _ _ (mirror_half mel bf) _ _ _ SMM s s' eq_refl eq_refl ltac:(lia) ltac:(lia)) as (ws & EW & RW & _ & SQW). subst mm.
  assert (NE2 : P s <> P s') by (intro E; apply P_inj in E; lia).
  destruct (split_covers n _ n_pos (half_inside p mel bf) _ _ _ SMM (P_range s) (P_range s') NE2) as [CV2 _].
  destruct (CV2 _ XI) as [K|(x & y & X & XI2)].
  - apply (proj2 (fill_member _ _ _ _ HQ2 (Q t))). right. exists (Q s'), (Q s), (rev (map Q ws)). split; [|split; auto].
    + rewrite HQ. apply (split_adj_in _ _ _ _ _ _ _ (sf _ _ _ _ _ _ _ SQ) B0 SQM).
      replace (Q len :: rev (map Q us) ++ [Q 0]) with (rev (map Q (0 :: us ++ [len]))).
      * apply adj_rev. apply adj_map. exists s, s'. auto.
      * cbn [map rev]. rewrite map_app, rev_app_distr. cbn. auto.
    + apply -> in_rev. apply in_map_iff in K as (u & E & U). apply in_map_iff. exists u. split; auto. apply P_inj in E; [subst; auto| |lia]. apply RW in U. lia.
  - exfalso. assert (X2 : adj (ks ++ [hd 0 ks]) x y).
    { rewrite (fill_hd _ _ _ _ 0 HP2). exact (split_adj_in _ _ _ _ _ _ _ HP2 X1 SMM x y X). }
    destruct (cyc_adj n n_pos _ _ _ (sc _ _ _ _ _ _ _ SP) (sl _ _ _ _ _ _ _ SP) X2) as (_ & _ & _ & _ & _ & NI). exact (NI _ IN XI2).
Qed.
End Mirror.
Lemma opposite_sym : forall p q k l len, opposite p q k l len -> opposite q p l k len.
Proof. intros p q k l len O t T. rewrite <- (O (len - t)) by lia. f_equal. f_equal. f_equal. lia. Qed.
Lemma mirror_kept : forall p q k l len e mel bf k0 k1 ks j0 j1 js, area_border p k len -> area_border q l len -> opposite p q k l len ->
  simpl p e mel bf k0 k1 ks -> simpl q e mel bf j0 j1 js ->
  forall t, 0 < t < len -> (In ((k + t) mod count p) ks <-> In ((l + (len - t)) mod count q) js).
Proof.
  intros p q k l len e mel bf k0 k1 ks j0 j1 js AP AQ O SP SQ t T. split.
  - exact (mirror_kept1 p q k l len AP AQ O e mel bf k0 k1 ks j0 j1 js SP SQ t T).
  - intro I. pose proof (mirror_kept1 q p l k len AQ AP (opposite_sym _ _ _ _ _ O) e mel bf j0 j1 js k0 k1 ks SQ SP (len - t) ltac:(lia) I) as H.
    cbv beta in H. replace (len - (len - t)) with t in H by lia. exact H.
Qed.
