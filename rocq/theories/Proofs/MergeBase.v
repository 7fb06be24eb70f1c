(** Tables of regions, and the lists of their connections (C49). *)
From Coq Require Import ZArith List Bool Lia Relations.
From Verif.Base Require Import Res GoNum Grid.
From Verif.Model Require Import Heightfield Dirs Compact Erode Region RegionMerge.
From Verif.Proofs Require Import ErodeProofs RegionBase.
Import ListNotations.
Open Scope Z_scope.

Definition r0 : Rgn := newRegion 0.
Notation rg R k := (vn r0 R k).

Lemma get_rg : forall R k, 0 <= k < zlen R -> get R k = Ok (rg R k).
Proof. intros. now apply get_vn. Qed.
Lemma set_rg : forall (R : list Rgn) k v, 0 <= k < zlen R -> set R k v = Ok (upd R (Z.to_nat k) v).
Proof. intros R k v H. unfold set. destruct (Z.leb_spec 0 k), (Z.ltb_spec k (zlen R)); cbn [andb]; try lia. reflexivity. Qed.
Lemma rg_upd : forall R i j v, 0 <= i < zlen R -> 0 <= j -> rg (upd R (Z.to_nat i) v) j = if j =? i then v else rg R j.
Proof. intros. now apply vn_upd. Qed.

(** A loop over distinct indices that changes each region by itself. *)
Lemma loop_each : forall (step : list Rgn -> Z -> res (list Rgn)) (Q : Z -> Rgn -> Rgn -> Prop) n l R,
  NoDup l -> (forall j, In j l -> 0 <= j < n) -> zlen R = n ->
  (forall R j, In j l -> zlen R = n -> exists r, step R j = Ok (upd R (Z.to_nat j) r) /\ Q j (rg R j) r) ->
  exists R', foldM step l R = Ok R' /\ zlen R' = n /\ (forall j, In j l -> Q j (rg R j) (rg R' j)) /\
    (forall j, 0 <= j -> ~ In j l -> rg R' j = rg R j).
Proof.
  intros step Q n l R ND Rl LR St.
  destruct (foldM_inv step (fun pre R' => zlen R' = n /\ (forall j, In j pre -> Q j (rg R j) (rg R' j)) /\
     (forall j, 0 <= j -> ~ In j pre -> rg R' j = rg R j)) l R) as (R' & E & H).
  - split; [exact LR|]. split; [intros j []|reflexivity].
  - intros pre j post R1 El (L1 & H1 & H2). assert (In j l) as Hj by (rewrite El; apply in_app_iff; right; now left).
    destruct (St R1 j Hj L1) as (r & Es & Hr). pose proof (Rl j Hj) as Bj. exists (upd R1 (Z.to_nat j) r). split; [exact Es|].
    assert (~ In j pre) as NI. { rewrite El in ND. apply NoDup_remove_2 in ND. intros H. apply ND. apply in_app_iff. now left. }
    split; [now rewrite zlen_upd|]. split.
    + intros j' Hj'. apply in_app_iff in Hj'. destruct Hj' as [Hj'|[<-|[]]].
      * rewrite rg_upd; [|lia|apply Rl; rewrite El; apply in_app_iff; now left]. destruct (Z.eqb_spec j' j) as [->|]; [contradiction|]. now apply H1.
      * rewrite rg_upd by lia. rewrite Z.eqb_refl. now rewrite <- (H2 j) by (lia || exact NI).
    + intros j' B' N'. rewrite rg_upd by lia. destruct (Z.eqb_spec j' j) as [->|].
      * exfalso. apply N'. apply in_app_iff. right. now left.
      * apply H2; [exact B'|]. intros H. apply N'. apply in_app_iff. now left.
  - exists R'. tauto.
Qed.
Lemma update_rg : forall R j f, 0 <= j < zlen R -> update R j f = Ok (upd R (Z.to_nat j) (f (rg R j))).
Proof. intros R j f H. unfold update. rewrite get_rg by exact H. cbn [bind]. now apply set_rg. Qed.

(** Removing duplicates. *)
Lemma in_drop : forall (l : list Z) j v, In v (firstn j l ++ skipn (S j) l) -> In v l.
Proof.
  induction l as [|a l IH]; intros [|j] v H; cbn [firstn skipn app] in H; try (destruct H; fail).
  - now right.
  - destruct H as [->|H]; [now left|]. right. apply (IH j). exact H.
Qed.
Lemma zlen_drop : forall (l : list Z) j, 0 <= j < zlen l -> zlen (firstn (Z.to_nat j) l ++ skipn (S (Z.to_nat j)) l) = zlen l - 1.
Proof. intros l j H. unfold zlen in *. rewrite app_length, firstn_length, skipn_length. lia. Qed.
Lemma dropDups_ok : forall fuel least l j, 0 <= least -> 0 <= j -> zlen l - j < Z.of_nat fuel -> 0 < Z.of_nat fuel ->
  exists l', dropDups fuel least l j = Ok l' /\ incl l' l.
Proof.
  induction fuel as [|f IH]; intros least l j Hl Hj Hf H0; [lia|]. cbn [dropDups].
  destruct (Z.ltb_spec j (zlen l)) as [B|]; cbn [andb]; [|exists l; split; [reflexivity|apply incl_refl]].
  destruct (least <? zlen l); [|exists l; split; [reflexivity|apply incl_refl]].
  destruct (get_in_range l j) as [a Ea]; [lia|]. destruct (get_in_range l ((j + 1) mod zlen l)) as [b Eb]; [apply Z.mod_pos_bound; lia|].
  rewrite Ea, Eb. cbn [bind]. destruct (a =? b).
  - destruct (IH least (firstn (Z.to_nat j) l ++ skipn (S (Z.to_nat j)) l) j) as (l' & E & H); try lia; [rewrite zlen_drop; lia|].
    exists l'. split; [exact E|]. intros v Hv. apply H in Hv. now apply in_drop in Hv.
  - apply IH; lia.
Qed.
Lemma removeAdjacent_ok : forall l, exists l', removeAdjacentNeighbours l = Ok l' /\ incl l' l.
Proof. intros l. apply dropDups_ok; unfold zlen; lia. Qed.

Lemma hasZ_in : forall v l, hasZ v l = true <-> In v l.
Proof.
  intros v l. unfold hasZ. rewrite existsb_exists. split.
  - intros (x & Hx & E). apply Z.eqb_eq in E. now subst.
  - intros H. exists v. split; [exact H|apply Z.eqb_refl].
Qed.
Lemma in_replaceZ : forall old new l c, In c (replaceZ old new l) <-> exists c', In c' l /\ c = if c' =? old then new else c'.
Proof. intros. unfold replaceZ. rewrite in_map_iff. split; intros (x & A & B); exists x; auto. Qed.
Lemma replaceNeighbour_ok : forall old new r, exists conns,
  replaceNeighbour old new r = Ok (withFloors (replaceZ old new (rFloors r)) (withConns conns r)) /\ incl conns (replaceZ old new (rConns r)).
Proof.
  intros old new r. unfold replaceNeighbour. destruct (hasZ old (rConns r)).
  - destruct (removeAdjacent_ok (replaceZ old new (rConns r))) as (l & E & H). rewrite E. cbn [bind]. exists l. auto.
  - cbn [bind]. eexists. split; [reflexivity|apply incl_refl].
Qed.

Lemma findZ_bound : forall v l i, 0 <= i -> findZ v l i <> -1 -> In v l /\ i <= findZ v l i < i + zlen l.
Proof.
  induction l as [|a l IH]; intros i Hi H; [contradiction|]. cbn [findZ] in *. rewrite zlen_cons. destruct (Z.eqb_spec a v) as [->|].
  - split; [now left|]. pose proof (zlen_nonneg l). lia.
  - destruct (IH (i + 1)) as [H1 H2]; [lia|exact H|]. split; [now right|lia].
Qed.
Lemma appendRest_ok : forall ins l acc, 0 <= ins < zlen l -> exists l', appendRest ins l acc = Ok l' /\ incl l' (acc ++ l).
Proof.
  intros ins l acc H. unfold appendRest.
  destruct (foldM_inv (fun acc i => let* v := get l ((ins + 1 + i) mod zlen l) in Ok (acc ++ [v])) (fun _ acc' => incl acc' (acc ++ l))
    (zseq (Z.to_nat (zlen l - 1))) acc) as (l' & E & H').
  - apply incl_appl, incl_refl.
  - intros pre i post acc' _ Hi. destruct (get_in_range l ((ins + 1 + i) mod zlen l)) as [v Ev]; [apply Z.mod_pos_bound; lia|].
    rewrite Ev. cbn [bind]. eexists. split; [reflexivity|]. apply incl_app; [exact Hi|]. intros x [<-|[]]. apply in_app_iff. right.
    apply get_ok in Ev. destruct Ev as [_ Ev]. now apply nth_error_In in Ev.
  - exists l'. auto.
Qed.
Lemma addFloor_in : forall n r v, In v (rFloors (addUniqueFloorRegion n r)) <-> In v (rFloors r) \/ v = n.
Proof.
  intros n r v. unfold addUniqueFloorRegion. destruct (hasZ n (rFloors r)) eqn:E.
  - apply hasZ_in in E. split; [now left|]. intros [H| ->]; assumption.
  - cbn [rFloors withFloors]. rewrite in_app_iff. cbn [In]. intuition.
Qed.
(** Regions that differ in Floors only. *)
Definition sameBut (a b : Rgn) : Prop := rCount a = rCount b /\ rID a = rID b /\ rArea a = rArea b /\ rRemap a = rRemap b /\
  rVisited a = rVisited b /\ rOverlap a = rOverlap b /\ rConns a = rConns b.
Lemma sameBut_refl : forall a, sameBut a a.
Proof. repeat split. Qed.
Lemma sameBut_trans : forall a b c, sameBut a b -> sameBut b c -> sameBut a c.
Proof. intros a b c (A1&A2&A3&A4&A5&A6&A7) (B1&B2&B3&B4&B5&B6&B7). unfold sameBut. intuition congruence. Qed.
Lemma addFloor_same : forall n r, sameBut (addUniqueFloorRegion n r) r.
Proof. intros n r. unfold addUniqueFloorRegion. destruct (hasZ n (rFloors r)); repeat split. Qed.
Lemma addFloors : forall l r, sameBut (fold_left (fun a n => addUniqueFloorRegion n a) l r) r /\
  forall v, In v (rFloors (fold_left (fun a n => addUniqueFloorRegion n a) l r)) <-> In v (rFloors r) \/ In v l.
Proof.
  induction l as [|n l IH]; intros r; cbn [fold_left]; [split; [apply sameBut_refl|cbn [In]; tauto]|].
  destruct (IH (addUniqueFloorRegion n r)) as [H1 H2]. split; [eapply sameBut_trans; [exact H1|apply addFloor_same]|].
  intros v. rewrite H2, addFloor_in. cbn [In]. intuition.
Qed.
Lemma mergeRegions_ok : forall a b, mergeRegions a b = Ok None \/
  exists a' conns, mergeRegions a b = Ok (Some (a', withConns [] (withCount 0 b))) /\
    In (rID b) (rConns a) /\ In (rID a) (rConns b) /\
    rID a' = rID a /\ rArea a' = rArea a /\ rConns a' = conns /\ incl conns (rConns a ++ rConns b) /\ rOverlap a' = rOverlap a /\
    rCount a' = i32 (rCount a + rCount b) /\
    (forall v, In v (rFloors a') <-> In v (rFloors a) \/ In v (rFloors b)).
Proof.
  intros a b. unfold mergeRegions. destruct (Z.eqb_spec (findZ (rID b) (rConns a) 0) (-1)) as [|Na]; [now left|].
  destruct (Z.eqb_spec (findZ (rID a) (rConns b) 0) (-1)) as [|Nb]; [now left|]. right.
  apply findZ_bound in Na; [|lia]. apply findZ_bound in Nb; [|lia]. destruct Na as [Ia Ba], Nb as [Ib Bb].
  destruct (appendRest_ok (findZ (rID b) (rConns a) 0) (rConns a) []) as (l1 & E1 & H1); [lia|]. rewrite E1. cbn [bind].
  destruct (appendRest_ok (findZ (rID a) (rConns b) 0) (rConns b) l1) as (l2 & E2 & H2); [lia|]. rewrite E2. cbn [bind].
  destruct (removeAdjacent_ok l2) as (l3 & E3 & H3). rewrite E3. cbn [bind].
  destruct (addFloors (rFloors b) (withConns l3 a)) as ((S1&S2&S3&S4&S5&S6&S7) & SF).
  eexists. exists l3. split; [reflexivity|]. split; [exact Ia|]. split; [exact Ib|].
  cbn [rID rArea rConns rOverlap rCount rFloors withCount].
  split; [exact S2|]. split; [exact S3|]. split; [exact S7|]. split.
  - intros v Hv. apply H3, H2 in Hv. apply in_app_iff in Hv. apply in_app_iff. destruct Hv as [Hv|Hv]; [|now right]. left. apply H1 in Hv. exact Hv.
  - split; [exact S6|]. split; [f_equal; f_equal; exact S1|exact SF].
Qed.
