(** All walks of BuildContours (C69, C70). *)
From Coq Require Import ZArith List Bool Lia Arith.
From Verif.Base Require Import Res GoNum Bits Bytes Grid F32.
From Verif.Model Require Import Heightfield Dirs Compact Erode Region ContourGeom Contour.
From Verif.Spec Require Import HeightfieldSpec CompactSpec ErodeSpec RegionSpec ContourSpec TraceSpec.
From Verif.Proofs Require Import ErodeProofs ErodeDist RegionBase TraceStep TraceVert TraceWalk SimplifyEnd.
Import ListNotations.
Open Scope Z_scope.

(** ** removeDegenerateSegments *)
Definition sameSpot (a b : Vert) : bool := vequal (vX a, vZ a) (vX b, vZ b).
Lemma sameSpot_iff : forall a b, sameSpot a b = true <-> spot a = spot b.
Proof.
  intros a b. unfold sameSpot, vequal, spot. cbn [fst snd]. rewrite andb_true_iff, !Z.eqb_eq. split; [intros [-> ->]; reflexivity|intros E; injection E; auto].
Qed.
Fixpoint scan (first : Vert) (l : list Vert) : list Vert :=
  match l with
  | [] => []
  | a :: t => match t with
              | [] => if sameSpot a first then [] else [a]
              | b :: t' => if sameSpot a b then b :: scan first t' else a :: scan first t
              end
  end.
Lemma scan_ind : forall P : list Vert -> Prop, P [] -> (forall a, P [a]) -> (forall a b t, P t -> P (b :: t) -> P (a :: b :: t)) -> forall l, P l.
Proof.
  intros P H0 H1 H2 l. assert (P l /\ forall a, P (a :: l)) as [H _]; [|exact H]. induction l as [|b l [IH1 IH2]]; split; auto.
Qed.
Lemma removeAt_app : forall {A} (d : list A) a t, removeAt (d ++ a :: t) (length d) = d ++ t.
Proof. intros A d a t. unfold removeAt. rewrite firstn_app, firstn_all, Nat.sub_diag, firstn_O, app_nil_r. f_equal. rewrite skipn_app, skipn_all2 by lia. replace (S (length d) - length d)%nat with 1%nat by lia. reflexivity. Qed.
Lemma dropLoop_scan : forall rest first done fuel, (length rest < fuel)%nat -> (forall v, hd_error (done ++ rest) = Some v -> spot v = spot first) ->
  dropLoop fuel (done ++ rest) (Z.of_nat (length done)) = Ok (done ++ scan first rest).
Proof.
  intros rest first. induction rest as [|a|a b t IH1 IH2] using scan_ind; intros done fuel HF HD; (destruct fuel as [|fuel]; [cbn [length] in HF; lia|]); cbn [dropLoop].
  - rewrite app_nil_r. replace (Z.of_nat (length done) <? zlen done) with false by (symmetry; apply Z.ltb_ge; unfold zlen; lia). cbn [scan]. now rewrite app_nil_r.
  - assert (L : zlen (done ++ [a]) = Z.of_nat (length done) + 1) by (unfold zlen; rewrite app_length; cbn [length]; lia). rewrite L.
    replace (Z.of_nat (length done) <? Z.of_nat (length done) + 1) with true by (symmetry; apply Z.ltb_lt; lia).
    assert (G : get (done ++ [a]) (Z.of_nat (length done)) = Ok a) by (apply (Bytes.get_app_here done a [])). rewrite G. cbn [bind].
    unfold next. rewrite Z.ltb_irrefl. assert (G0 : exists v, get (done ++ [a]) 0 = Ok v /\ spot v = spot first).
    { destruct (done ++ [a]) as [|v l] eqn:Q; [destruct done; discriminate|]. exists v. split; [reflexivity|]. now apply HD. }
    destruct G0 as (v & G0 & SV). rewrite G0. cbn [bind]. fold (sameSpot a v). cbn [scan].
    assert (SS : sameSpot a v = sameSpot a first). { apply eq_true_iff_eq. rewrite !sameSpot_iff, SV. tauto. } rewrite SS.
    destruct fuel as [|fuel]; [cbn [length] in HF; lia|]. destruct (sameSpot a first); cbn [dropLoop].
    + rewrite Nat2Z.id, removeAt_app, !app_nil_r. replace (Z.of_nat (length done) + 1 <? zlen done) with false by (symmetry; apply Z.ltb_ge; unfold zlen; lia). reflexivity.
    + rewrite L, Z.ltb_irrefl. reflexivity.
  - assert (L : zlen (done ++ a :: b :: t) = Z.of_nat (length done) + 2 + Z.of_nat (length t)) by (unfold zlen; rewrite app_length; cbn [length]; lia). rewrite L.
    replace (Z.of_nat (length done) <? _) with true by (symmetry; apply Z.ltb_lt; lia).
    assert (G : get (done ++ a :: b :: t) (Z.of_nat (length done)) = Ok a) by (apply (Bytes.get_app_here done a)). rewrite G. cbn [bind].
    unfold next. replace (Z.of_nat (length done) + 1 <? _) with true by (symmetry; apply Z.ltb_lt; lia).
    assert (G1 : get (done ++ a :: b :: t) (Z.of_nat (length done) + 1) = Ok b).
    { replace (done ++ a :: b :: t) with ((done ++ [a]) ++ b :: t) by (rewrite <- app_assoc; reflexivity).
      replace (Z.of_nat (length done) + 1) with (zlen (done ++ [a])) by (unfold zlen; rewrite app_length; cbn [length]; lia). apply (Bytes.get_app_here (done ++ [a]) b). }
    rewrite G1. cbn [bind]. fold (sameSpot a b). cbn [scan]. destruct (sameSpot a b) eqn:SS.
    + rewrite Nat2Z.id, removeAt_app. replace (done ++ b :: t) with ((done ++ [b]) ++ t) by (rewrite <- app_assoc; reflexivity).
      replace (Z.of_nat (length done) + 1) with (Z.of_nat (length (done ++ [b]))) by (rewrite app_length; cbn [length]; lia).
      rewrite IH1; [now rewrite <- app_assoc|cbn [length] in HF; lia|]. intros v. rewrite <- app_assoc. destruct done as [|d0 done]; cbn [app hd_error]; intros E; injection E as <-.
      * apply sameSpot_iff in SS. rewrite <- SS. now apply HD.
      * now apply HD.
    + replace (done ++ a :: b :: t) with ((done ++ [a]) ++ b :: t) by (rewrite <- app_assoc; reflexivity).
      replace (Z.of_nat (length done) + 1) with (Z.of_nat (length (done ++ [a]))) by (rewrite app_length; cbn [length]; lia).
      rewrite IH2; [now rewrite <- app_assoc|cbn [length] in HF |- *; lia|]. intros v. rewrite <- app_assoc. apply HD.
Qed.
Lemma scan_sublist : forall first l, sublist (scan first l) l.
Proof.
  intros first. induction l as [|a|a b t IH1 IH2] using scan_ind; cbn [scan]; [constructor| |].
  - destruct (sameSpot a first); repeat constructor.
  - destruct (sameSpot a b); [apply sub_drop|]; now apply sub_keep.
Qed.
Lemma scan_spots : forall first l v, In v l -> (exists v', In v' (scan first l) /\ spot v' = spot v) \/ spot v = spot first.
Proof.
  intros first. induction l as [|a|a b t IH1 IH2] using scan_ind; intros v H; [destruct H| |].
  - destruct H as [<-|[]]. cbn [scan]. destruct (sameSpot a first) eqn:SS; [right; now apply sameSpot_iff|left]. exists a. split; [now left|reflexivity].
  - cbn [scan]. destruct (sameSpot a b) eqn:SS.
    + apply sameSpot_iff in SS. destruct H as [<-|[<-|H]]; [left; exists b; split; [now left|auto]..|]. destruct (IH1 v H) as [(v' & I & E)|E]; [left; exists v'; split; [now right|exact E]|now right].
    + destruct H as [<-|H]; [left; exists a; split; [now left|reflexivity]|]. destruct (IH2 v H) as [(v' & I & E)|E]; [left; exists v'; split; [now right|exact E]|now right].
Qed.
(** The first spot is kept unless all are the same. *)
Lemma scan_first : forall first l, (exists v, In v l /\ spot v <> spot first) -> (exists a t, l = a :: t /\ spot a = spot first) -> exists v', In v' (scan first l) /\ spot v' = spot first.
Proof.
  intros first l (v & I & NE) (a & t & -> & E). destruct t as [|b t]; [destruct I as [<-|[]]; contradiction|]. cbn [scan]. destruct (sameSpot a b) eqn:SS.
  - exists b. split; [now left|]. apply sameSpot_iff in SS. congruence.
  - exists a. split; [now left|exact E].
Qed.
Definition linear (n : nat) (l : list Vert) : Prop := match n with
  | 2%nat => forall l1 a b l2, l = l1 ++ a :: b :: l2 -> spot a <> spot b
  | _ => forall l1 a b c l2, l = l1 ++ a :: b :: c :: l2 -> ~ (spot a = spot b /\ spot b = spot c) end.
Lemma linear_tail : forall a l, linear 3 (a :: l) -> linear 3 l.
Proof. intros a l H l1 x y z l2 ->. apply (H (a :: l1) x y z l2). reflexivity. Qed.
Lemma scan_head : forall first a b t v l, scan first (a :: b :: t) = v :: l -> spot v = spot a.
Proof. intros first a b t v l. cbn [scan]. destruct (sameSpot a b) eqn:SS; intros E; injection E as <- _; [|reflexivity]. symmetry. now apply sameSpot_iff. Qed.
Lemma scan_head1 : forall first c t v l, scan first (c :: t) = v :: l -> spot v = spot c.
Proof.
  intros first c [|b t] v l E; [|eapply scan_head; eauto]. cbn [scan] in E. destruct (sameSpot c first); [discriminate|]. now injection E as <- _.
Qed.
Lemma linear_cons : forall a l, (forall v t, l = v :: t -> spot a <> spot v) -> linear 2 l -> linear 2 (a :: l).
Proof.
  intros a l H1 H2 [|x l1] p q l2 E; cbn [app] in E; injection E as <- E; [eapply H1; eauto|eapply H2; eauto].
Qed.
Lemma scan_linear : forall first l, linear 3 l -> linear 2 (scan first l).
Proof.
  intros first. induction l as [|a|a b t IH1 IH2] using scan_ind; intros H; cbn [scan].
  - intros l1 a b l2 E. destruct l1; discriminate.
  - destruct (sameSpot a first); intros l1 p q l2 E; destruct l1 as [|? [|? ?]]; discriminate.
  - pose proof (linear_tail _ _ H) as H'. destruct (sameSpot a b) eqn:SS.
    + apply sameSpot_iff in SS. apply linear_cons; [|apply IH1; now apply linear_tail in H']. intros v t' E. destruct t as [|c t]; [discriminate|]. apply scan_head1 in E. rewrite E.
      intros Q. apply (H [] a b c t eq_refl). auto.
    + apply linear_cons; [|now apply IH2]. intros v t' E. apply scan_head1 in E. rewrite E. intros Q. apply sameSpot_iff in Q. congruence.
Qed.
Lemma scan_last : forall first l, linear 3 (l ++ [first]) -> forall l1 a, scan first l = l1 ++ [a] -> spot a <> spot first.
Proof.
  intros first. induction l as [|a|a b t IH1 IH2] using scan_ind; intros H l1 z E; cbn [scan] in E.
  - destruct l1; discriminate.
  - destruct (sameSpot a first) eqn:SS; [destruct l1; discriminate|]. destruct l1 as [|? [|? ?]]; try discriminate. injection E as <-. intros Q. apply sameSpot_iff in Q. congruence.
  - assert (H' : linear 3 ((b :: t) ++ [first])) by (eapply linear_tail; exact H). destruct (sameSpot a b) eqn:SS.
    + apply sameSpot_iff in SS. destruct l1 as [|y l1]; cbn [app] in E; injection E as -> E.
      * destruct t as [|c [|c' t]]; [| |exfalso; cbn [scan] in E; destruct (sameSpot c c'); discriminate].
        -- intros Q. apply (H [] a z first []); auto.
        -- intros Q. cbn [scan] in E. destruct (sameSpot c first) eqn:S2; [|discriminate]. apply sameSpot_iff in S2. apply (H [] a z c [first]); [reflexivity|]. split; congruence.
      * apply (IH1 (linear_tail _ _ H') l1 z E).
    + destruct l1 as [|y l1]; cbn [app] in E; injection E as -> E; [|exact (IH2 H' l1 z E)].
      destruct t as [|c t]; [|exfalso; cbn [scan] in E; destruct (sameSpot b c); discriminate]. cbn [scan] in E. destruct (sameSpot b first) eqn:S2; [|discriminate].
      apply sameSpot_iff in S2. intros Q. assert (sameSpot z b = true) by (apply sameSpot_iff; congruence). congruence.
Qed.
Lemma degenerate_ok : forall l, exists l', removeDegenerateSegments l = Ok l' /\ thinned l l'.
Proof.
  intros [|a t].
  { exists []. split; [reflexivity|]. split; [constructor|]. split; [intros _ v []|]. cbn [length]. lia. }
  exists (scan a (a :: t)). split.
  { unfold removeDegenerateSegments. apply (dropLoop_scan (a :: t) a []); [lia|]. intros v E. injection E as <-. reflexivity. }
  split; [apply scan_sublist|]. split.
  - intros (v & w & Iv & Iw & NE) u Iu. destruct (scan_spots a _ u Iu) as [H|H]; [exact H|]. rewrite H. apply scan_first; [|exists a, t; auto].
    destruct (sameSpot v a) eqn:SS; [exists w|exists v]; (split; [assumption|]); intros Q; [apply sameSpot_iff in SS; congruence|apply sameSpot_iff in Q; congruence].
  - intros NT LEN. assert (LL : linear 3 ((a :: t) ++ [a])).
    { intros l1 x y z l2 E. destruct t as [|b t]; [apply (f_equal (@length Vert)) in E; rewrite app_length in E; cbn [length] in E; rewrite app_length in E; cbn [length] in E; lia|].
      apply (NT l1 x y z (l2 ++ [b])). cbn [firstn]. change [a; b] with ([a] ++ [b]). rewrite app_assoc, E, <- app_assoc. reflexivity. }
    assert (L3 : linear 3 (a :: t)). { intros l1 x y z l2 E. apply (LL l1 x y z (l2 ++ [a])). rewrite E, <- app_assoc. reflexivity. }
    pose proof (scan_linear a _ L3) as S2. pose proof (scan_last a _ LL) as SL. pose proof (scan_head1 a a t) as SH.
    destruct (scan a (a :: t)) as [|v l] eqn:ES; [cbn [length] in LEN; lia|]. specialize (SH v l eq_refl). cbn [firstn]. intros l1 x y l2 E.
    destruct (exists_last (l := v :: l)) as (m & z & EL); [discriminate|]. destruct l2 as [|u l2].
    + assert (Q : v :: l = l1 ++ [x] /\ [v] = [y]). { change (l1 ++ [x; y]) with (l1 ++ ([x] ++ [y])) in E. rewrite app_assoc in E. apply app_inj_tail in E. destruct E as [-> ->]. split; reflexivity. }
      destruct Q as [Q1 Q2]. injection Q2 as <-. rewrite SH. exact (SL l1 x Q1).
    + destruct (exists_last (l := u :: l2)) as (m' & z' & EL'); [discriminate|]. rewrite EL' in E. change (l1 ++ x :: y :: m' ++ [z']) with (l1 ++ ((x :: y :: m') ++ [z'])) in E.
      rewrite app_assoc in E. apply app_inj_tail in E. destruct E as [E _]. eapply S2. exact E.
Qed.
