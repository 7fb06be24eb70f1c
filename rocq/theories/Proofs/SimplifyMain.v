(** Simplification of contours: the loops of simplifyContour. *)
From Coq Require Import ZArith List Bool Lia Sorted.
From Verif.Base Require Import Res GoNum F32 Num Grid.
From Verif.Model Require Import Heightfield Compact SegDist Contour.
From Verif.Spec Require Import ContourSpec.
From Verif.Proofs Require Import SimplifyProofs.
Import ListNotations.
Open Scope Z_scope.

Lemma get_app_at : forall {A} (l1 : list A) x l2, get (l1 ++ x :: l2) (zlen l1) = Ok x.
Proof.
  intros A l1 x l2. apply get_ok. unfold zlen. rewrite Nat2Z.id. split; [lia|]. rewrite nth_error_app2 by lia. rewrite Nat.sub_diag. auto.
Qed.
Lemma zlen_map : forall {A B} (f : A -> B) l, zlen (map f l) = zlen l.
Proof. intros. unfold zlen. rewrite map_length. auto. Qed.
Lemma firstn_app_at : forall {A} (l1 l2 : list A), firstn (Z.to_nat (zlen l1)) (l1 ++ l2) = l1.
Proof. intros. unfold zlen. rewrite Nat2Z.id, firstn_app, Nat.sub_diag, firstn_all, firstn_O, app_nil_r. auto. Qed.
Lemma skipn_app_at : forall {A} (l1 l2 : list A), skipn (Z.to_nat (zlen l1)) (l1 ++ l2) = l2.
Proof. intros. unfold zlen. rewrite Nat2Z.id, skipn_app, Nat.sub_diag, skipn_all. auto. Qed.

Definition detailedb (v : Vert) : bool := isWall (vR v) || isAreaEdge (vR v).
Lemma land_pow2 : forall r k, 0 <= k -> Z.land r (2 ^ k) = if Z.testbit r k then 2 ^ k else 0.
Proof.
  intros r k K. apply Z.bits_inj'. intros i I. rewrite Z.land_spec, Z.pow2_bits_eqb by auto. destruct (Z.eqb_spec k i) as [->|NE].
  - destruct (Z.testbit r i); cbn [andb]; [rewrite Z.pow2_bits_eqb by auto; rewrite Z.eqb_refl; auto|rewrite Z.bits_0; auto].
  - rewrite andb_false_r. destruct (Z.testbit r k); [rewrite Z.pow2_bits_eqb by auto; symmetry; apply Z.eqb_neq; auto|rewrite Z.bits_0; auto].
Qed.
Lemma land_mask : forall r, Z.land r contourRegMask = r mod 2 ^ 16.
Proof. intro r. exact (Z.land_ones r 16 ltac:(lia)). Qed.
Lemma isWall_spec : forall v, isWall (vR v) = true <-> behind v = 0.
Proof. intro v. unfold isWall, behind. rewrite land_mask. apply Z.eqb_eq. Qed.
Lemma isArea_spec : forall v, isAreaEdge (vR v) = otherArea v.
Proof. intro v. unfold isAreaEdge, otherArea. change areaBorder with (2 ^ 17). rewrite land_pow2 by lia. destruct (Z.testbit (vR v) 17); reflexivity. Qed.
Lemma detailedb_spec : forall v, detailedb v = true <-> detailed v.
Proof. intro v. unfold detailedb, detailed. rewrite orb_true_iff, isWall_spec, isArea_spec. tauto. Qed.
Definition tess (bf : Z) (v : Vert) : bool :=
  negb (Z.land bf ContourTessWallEdges =? 0) && isWall (vR v) || negb (Z.land bf ContourTessAreaEdges =? 0) && isAreaEdge (vR v).
Lemma tess_spec : forall bf v, tess bf v = true <-> kind_chosen bf v.
Proof.
  intros bf v. unfold tess, kind_chosen. change ContourTessWallEdges with (2 ^ 0). change ContourTessAreaEdges with (2 ^ 1). rewrite !land_pow2 by lia.
  rewrite orb_true_iff, !andb_true_iff, isWall_spec, isArea_spec. destruct (Z.testbit bf 0), (Z.testbit bf 1); cbn [negb]; intuition discriminate.
Qed.

Fixpoint bestT (cnt : nat) (d : Z -> f32) (t : Z) (maxd : f32) (mt : option Z) : f32 * option Z :=
  match cnt with
  | O => (maxd, mt)
  | S cnt => if fgt (d t) maxd then bestT cnt d (t + 1) (d t) (Some t) else bestT cnt d (t + 1) maxd mt
  end.
Lemma bestT_ext : forall cnt d d' t maxd mt, (forall u, t <= u < t + Z.of_nat cnt -> d u = d' u) -> bestT cnt d t maxd mt = bestT cnt d' t maxd mt.
Proof.
  induction cnt as [|cnt IH]; intros d d' t maxd mt H; [reflexivity|]. cbn [bestT]. rewrite <- (H t) by lia.
  destruct (fgt (d t) maxd); apply IH; intros; apply H; lia.
Qed.
Lemma bestT_spec : forall cnt d t maxd mt md' mt', nonan maxd -> bestT cnt d t maxd mt = (md', mt') ->
  nonan md' /\ (md' = maxd \/ flt maxd md' = true) /\ (forall u, t <= u < t + Z.of_nat cnt -> fgt (d u) md' = false) /\
  ((mt' = mt /\ md' = maxd) \/ exists u, t <= u < t + Z.of_nat cnt /\ mt' = Some u /\ md' = d u /\ flt maxd md' = true).
Proof.
  induction cnt as [|cnt IH]; intros d t maxd mt md' mt' N H; cbn [bestT] in H.
  - injection H as <- <-. repeat split; auto. intros; lia.
  - destruct (fgt (d t) maxd) eqn:E.
    + change (flt maxd (d t) = true) in E. destruct (flt_nonan _ _ E) as [_ N'].
      destruct (IH _ _ _ _ _ _ N' H) as (A & B & C & D).
      assert (LT : flt maxd md' = true) by (destruct B as [->|B]; auto; eapply flt_trans; eauto).
      repeat split; auto.
      * intros u U. destruct (Z.eq_dec u t) as [->|NE]; [|apply C; lia]. destruct B as [->|B]; [apply flt_irrefl|].
        change (flt md' (d t) = false). destruct (flt md' (d t)) eqn:W; auto. pose proof (flt_trans _ _ _ B W) as X. rewrite flt_irrefl in X. discriminate.
      * right. destruct D as [[-> ->]|(u & U & -> & -> & _)]; [exists t; repeat split; auto; lia|exists u; repeat split; auto; lia].
    + change (flt maxd (d t) = false) in E. destruct (IH _ _ _ _ _ _ N H) as (A & B & C & D). repeat split; auto.
      * intros u U. destruct (Z.eq_dec u t) as [->|NE]; [|apply C; lia]. change (flt md' (d t) = false).
        destruct (flt md' (d t)) eqn:W; auto. destruct B as [->|B]; [congruence|]. rewrite (flt_trans _ _ _ B W) in E. discriminate.
      * destruct D as [D|(u & U & D)]; [left; auto|right; exists u; split; [lia|auto]].
Qed.

Lemma f0_nonan : nonan f0.
Proof. discriminate. Qed.

Section Main.
Variable points : list Vert.
Let n := count points.
Hypothesis Hn : 0 < n.
Local Notation raw := (raw points).
Definition vtx (k : Z) : Vert := withIdx (raw k) k.

Lemma get_raw : forall k, 0 <= k < n -> get points k = Ok (raw k).
Proof.
  intros k H. unfold n, count in H. apply get_ok. split; [lia|]. unfold ContourSpec.raw. apply nth_error_nth'. lia.
Qed.
Lemma zlen_count : zlen points = n.
Proof. reflexivity. Qed.

(** * The refining loop *)
Section Refine.
Variable ch : Z -> Z -> option Z.
Variable choose : Vert -> Vert -> res (option Z).
Hypothesis Hc : forall k k', 0 <= k < n -> 0 <= k' < n -> k <> k' -> choose (vtx k) (vtx k') = Ok (ch k k').
Hypothesis Hi : forall k k' m, 0 <= k < n -> 0 <= k' < n -> k <> k' -> ch k k' = Some m -> inside n k k' m.

Lemma insert_vtx : forall pre a l m, 0 <= m < n -> insertAfter points (map vtx (pre ++ a :: l)) (zlen pre) m = Ok (map vtx (pre ++ a :: m :: l)).
Proof.
  intros pre a l m H. unfold insertAfter. rewrite get_raw by auto. cbn [bind].
  replace (pre ++ a :: l) with ((pre ++ [a]) ++ l) by (rewrite <- app_assoc; auto).
  replace (zlen pre + 1) with (zlen (map vtx (pre ++ [a]))) by (rewrite zlen_map, zlen_app; reflexivity).
  rewrite (map_app vtx (pre ++ [a]) l), firstn_app_at, skipn_app_at. f_equal. rewrite !map_app, <- app_assoc. reflexivity.
Qed.
Lemma next_vtx : forall pre a l, get (map vtx (pre ++ a :: l)) ((zlen pre + 1) mod zlen (map vtx (pre ++ a :: l))) = Ok (vtx (hd (hd 0 (pre ++ a :: l)) l)).
Proof.
  intros pre a l. rewrite zlen_map, zlen_app, zlen_cons. pose proof (zlen_nonneg pre). destruct l as [|b l].
  - rewrite zlen_nil. replace (1 + 0) with 1 by lia. rewrite Z.mod_same by lia. cbn [hd]. destruct pre; reflexivity.
  - rewrite zlen_cons. pose proof (zlen_nonneg l). rewrite Z.mod_small by lia. cbn [hd].
    replace (pre ++ a :: b :: l) with ((pre ++ [a]) ++ b :: l) by (rewrite <- app_assoc; auto). rewrite (map_app vtx (pre ++ [a])). cbn [map].
    replace (zlen pre + 1) with (zlen (map vtx (pre ++ [a]))) by (rewrite zlen_map, zlen_app; reflexivity). apply get_app_at.
Qed.
Lemma refine_fill : forall fuel pre l, cyc n (pre ++ l) -> (2 <= length (pre ++ l))%nat ->
  n - zlen (pre ++ l) + (n - zlen pre) <= Z.of_nat fuel ->
  exists out, refine fuel choose points (map vtx (pre ++ l)) (zlen pre) = Ok (map vtx (pre ++ out)) /\
    fill ch (hd 0 (pre ++ l)) l out /\ cyc n (pre ++ out).
Proof.
  induction fuel as [|fuel IH]; intros pre l C L F.
  - destruct l as [|a l].
    + exists []. cbn [refine]. rewrite zlen_map. rewrite app_nil_r in *. rewrite Z.ltb_irrefl. cbn. split; [auto|]. split; [constructor|auto].
    + exfalso. pose proof (cyc_length n Hn _ C) as Q. rewrite zlen_app, zlen_cons in *. pose proof (zlen_nonneg l). lia.
  - destruct l as [|a l].
    { exists []. cbn [refine]. rewrite zlen_map. rewrite app_nil_r in *. rewrite Z.ltb_irrefl. cbn. split; [auto|]. split; [constructor|auto]. }
    pose proof (cyc_length n Hn _ C) as Q.
    cbn [refine]. assert (T : zlen pre <? zlen (map vtx (pre ++ a :: l)) = true).
    { apply Z.ltb_lt. rewrite zlen_map, zlen_app, zlen_cons. pose proof (zlen_nonneg l). lia. }
    rewrite T. cbn [negb]. rewrite next_vtx.
    assert (G : get (map vtx (pre ++ a :: l)) (zlen pre) = Ok (vtx a)).
    { rewrite map_app. cbn [map]. rewrite <- (zlen_map vtx pre). apply get_app_at. }
    rewrite G. cbn [bind].
    set (b := hd (hd 0 (pre ++ a :: l)) l) in *.
    assert (AD : adj ((pre ++ a :: l) ++ [hd 0 (pre ++ a :: l)]) a b).
    { apply adj_spec. exists pre. destruct l as [|c l]; subst b; cbn [hd].
      - exists []. rewrite <- app_assoc. auto.
      - exists (l ++ [hd 0 (pre ++ a :: c :: l)]). rewrite <- app_assoc. auto. }
    destruct (cyc_adj n Hn _ _ _ C L AD) as (Ra & Rb & Nab & _).
    rewrite Hc by auto. cbn [bind]. destruct (ch a b) as [m|] eqn:E.
    + pose proof (Hi _ _ _ Ra Rb Nab E) as I. pose proof (inside_spec n Hn _ _ _ I) as [Rm _].
      rewrite insert_vtx by auto. cbn [bind].
      assert (C' : cyc n (pre ++ a :: m :: l)) by (apply cyc_insert; auto).
      destruct (IH pre (a :: m :: l) C') as (out & O1 & O2 & O3).
      { rewrite app_length in *. cbn [length] in *. lia. }
      { rewrite zlen_app, !zlen_cons in *. lia. }
      exists out. split; [exact O1|]. split; [|exact O3].
      replace (hd 0 (pre ++ a :: m :: l)) with (hd 0 (pre ++ a :: l)) in O2 by (destruct pre; reflexivity).
      inversion O2 as [|? ? mid1 out1 S1 F1]; subst. inversion F1 as [|? ? mid2 out2 S2 F2]; subst. cbn [hd] in S1.
      replace (a :: mid1 ++ m :: mid2 ++ out2) with (a :: (mid1 ++ m :: mid2) ++ out2) by (rewrite <- app_assoc; auto).
      constructor; [|exact F2]. fold b. apply split_some; auto.
    + destruct (IH (pre ++ [a]) l) as (out & O1 & O2 & O3); rewrite <- ?app_assoc; cbn [app]; auto.
      { repeat rewrite ?zlen_app, ?zlen_cons, ?zlen_nil in *. lia. }
      exists (a :: out). rewrite <- !app_assoc in *. cbn [app] in *. rewrite zlen_app in O1. split; [exact O1|]. split; [|exact O3].
      change (a :: out) with (a :: [] ++ out). constructor; [|exact O2]. apply split_none. exact E.
Qed.
End Refine.

(** * Deviations *)
Definition posn (fw : bool) (k k' t : Z) : Z := if fw then (k + t) mod n else (k' - t) mod n.
Definition devs (fw : bool) (k k' t : Z) : f32 :=
  let p := raw (posn fw k k' t) in
  if fw then distancePtSeg numF (vX p) (vZ p) (vX (raw k)) (vZ (raw k)) (vX (raw k')) (vZ (raw k'))
  else distancePtSeg numF (vX p) (vZ p) (vX (raw k')) (vZ (raw k')) (vX (raw k)) (vZ (raw k)).
Definition lexk (k k' : Z) : bool := lexico (vX (raw k)) (vZ (raw k)) (vX (raw k')) (vZ (raw k')).
Definition far (e : f32) (k k' : Z) : option Z :=
  let fw := lexk k k' in
  if detailedb (raw (posn fw k k' 1)) then
    match bestT (Z.to_nat (arc n k k' - 1)) (devs fw k k') 1 f0 None with
    | (md, Some t) => if fgt md (fmul e e) then Some (posn fw k k' t) else None
    | (_, None) => None
    end
  else None.

Lemma posn_range : forall fw k k' t, 0 <= posn fw k k' t < n.
Proof. intros [] k k' t; apply Z.mod_pos_bound; auto. Qed.
Lemma posn_next : forall fw k k' t, (posn fw k k' t + (if fw then 1 else n - 1)) mod n = posn fw k k' (t + 1).
Proof.
  intros [] k k' t; unfold posn; rewrite Zplus_mod_idemp_l; [f_equal; lia|].
  rewrite <- (Z_mod_plus_full (k' - (t + 1)) 1). f_equal. lia.
Qed.
Lemma posn_end : forall fw k k' t, 0 <= k < n -> 0 <= k' < n -> 1 <= t <= arc n k k' ->
  (posn fw k k' t = (if fw then k' else k) <-> t = arc n k k').
Proof.
  intros fw k k' t H H' T. pose proof (arc_range n Hn k k') as R. split.
  - intro E. destruct fw; unfold posn in E.
    + rewrite <- E. symmetry. apply arc_add; auto; lia.
    + assert (X : arc n k k' = (k' - (k' - t) mod n) mod n) by (rewrite E; reflexivity).
      rewrite Zminus_mod_idemp_r in X. replace (k' - (k' - t)) with t in X by lia. rewrite Z.mod_small in X by lia. auto.
  - intros ->. destruct fw; unfold posn; [apply add_arc; auto|]. unfold arc. rewrite Zminus_mod_idemp_r.
    replace (k' - (k' - k)) with k by lia. apply Z.mod_small. auto.
Qed.
Lemma posn_inside : forall fw k k' t, 0 <= k < n -> 0 <= k' < n -> 0 < t < arc n k k' -> inside n k k' (posn fw k k' t).
Proof.
  intros [] k k' t H H' T; unfold posn; [exists t; auto|]. exists (arc n k k' - t). split; [unfold arc in *; lia|].
  unfold arc. rewrite Z.add_sub_assoc. rewrite <- (Zminus_mod_idemp_l (k + (k' - k) mod n)). rewrite Zplus_mod_idemp_r.
  rewrite Zminus_mod_idemp_l. f_equal. lia.
Qed.
Lemma inside_posn : forall fw k k' j, 0 <= k < n -> 0 <= k' < n -> inside n k k' j -> exists t, 0 < t < arc n k k' /\ j = posn fw k k' t.
Proof.
  intros [] k k' j H H' (t & T & ->); [exists t; auto|]. exists (arc n k k' - t). split; [unfold arc; lia|]. unfold posn, arc.
  replace (k' - ((k' - k) mod n - t)) with (k' + t - (k' - k) mod n) by lia. rewrite Zminus_mod_idemp_r. f_equal. lia.
Qed.

Lemma deviation_best : forall k k' fw cnt fuel t maxd mt, 0 <= k < n -> 0 <= k' < n ->
  1 <= t <= arc n k k' -> cnt = Z.to_nat (arc n k k' - t) -> (cnt <= fuel)%nat ->
  let '(A, B) := if fw : bool then (raw k, raw k') else (raw k', raw k) in
  deviation fuel points (vX A) (vZ A) (vX B) (vZ B) (posn fw k k' t) (if fw then 1 else n - 1) (if fw then k' else k)
    maxd (match mt with Some u => posn fw k k' u | None => -1 end) =
  let '(md, m) := bestT cnt (devs fw k k') t maxd mt in Ok (md, match m with Some u => posn fw k k' u | None => -1 end).
Proof.
  intros k k' fw. induction cnt as [|cnt IH]; intros fuel t maxd mt H H' T C F.
  - assert (E : t = arc n k k') by lia. pose proof (proj2 (posn_end fw k k' t H H' T) E) as P.
    destruct fw; cbn [bestT]; destruct fuel; cbn [deviation]; rewrite P, Z.eqb_refl; reflexivity.
  - destruct fuel as [|fuel]; [lia|].
    assert (P : posn fw k k' t <> (if fw then k' else k)) by (intro P; apply posn_end in P; auto; lia).
    apply Z.eqb_neq in P.
    specialize (IH fuel (t + 1)).
    assert (G : get points (posn fw k k' t) = Ok (raw (posn fw k k' t))) by (apply get_raw, posn_range).
    pose proof (posn_next fw k k' t) as PN.
    destruct fw; cbn beta iota in PN; cbn [deviation bestT]; rewrite P, G; cbn [bind]; rewrite zlen_count, PN.
    + fold (devs true k k' t). change (distancePtSeg numF _ _ _ _ _ _) with (devs true k k' t).
      destruct (fgt (devs true k k' t) maxd); [apply (IH _ (Some t))|apply IH]; auto; lia.
    + change (distancePtSeg numF _ _ _ _ _ _) with (devs false k k' t).
      destruct (fgt (devs false k k' t) maxd); [apply (IH _ (Some t))|apply IH]; auto; lia.
Qed.
Lemma farthest_far : forall e k k', 0 <= k < n -> 0 <= k' < n -> k <> k' -> farthest points (vtx k) (vtx k') e = Ok (far e k k').
Proof.
  intros e k k' H H' N. pose proof (arc_pos n Hn k k' H H' N) as AP. pose proof (arc_range n Hn k k') as AR.
  unfold farthest, far, vtx, withIdx. cbn [vX vZ vR]. fold (lexk k k'). rewrite zlen_count.
  pose proof (fun fw => deviation_best k k' fw (Z.to_nat (arc n k k' - 1)) (length points) 1 f0 None H H' ltac:(lia) eq_refl) as D.
  assert (LE : (Z.to_nat (arc n k k' - 1) <= length points)%nat) by (assert (n = Z.of_nat (length points)) by reflexivity; lia).
  destruct (lexk k k') eqn:LX.
  - specialize (D true LE). cbn beta iota in D. change ((k + 1) mod n) with (posn true k k' 1).
    rewrite get_raw by apply posn_range. cbn [bind]. unfold detailedb. destruct (isWall _ || isAreaEdge _); cbn [bind]; [|reflexivity].
    rewrite D. clear D. destruct (bestT _ _ _ _ _) as [md [t|]]; cbn [bind]; [|reflexivity].
    pose proof (posn_range true k k' t) as R. assert (posn true k k' t =? -1 = false) as -> by (apply Z.eqb_neq; lia). reflexivity.
  - specialize (D false LE). cbn beta iota in D.
    replace ((k' + (n - 1)) mod n) with (posn false k k' 1).
    2: { unfold posn. rewrite <- (Z_mod_plus_full (k' - 1) 1). f_equal. lia. }
    rewrite get_raw by apply posn_range. cbn [bind]. unfold detailedb. destruct (isWall _ || isAreaEdge _); cbn [bind]; [|reflexivity].
    rewrite D. clear D. destruct (bestT _ _ _ _ _) as [md [t|]]; cbn [bind]; [|reflexivity].
    pose proof (posn_range false k k' t) as R. assert (posn false k k' t =? -1 = false) as -> by (apply Z.eqb_neq; lia). reflexivity.
Qed.
Lemma far_inside : forall e k k' m, 0 <= k < n -> 0 <= k' < n -> k <> k' -> far e k k' = Some m -> inside n k k' m.
Proof.
  intros e k k' m H H' N E. unfold far in E. destruct (detailedb _); [|discriminate].
  destruct (bestT _ _ _ _ _) as [md [t|]] eqn:B; [|discriminate]. destruct (fgt md _); [|discriminate]. injection E as <-.
  destruct (bestT_spec _ _ _ _ _ _ _ f0_nonan B) as (_ & _ & _ & [[X _]|(u & U & X & _)]); [discriminate|]. injection X as ->.
  apply posn_inside; auto. lia.
Qed.

(** * Edge data *)
Definition changesb (i : Z) : bool :=
  let p := raw i in let q := raw ((i + 1) mod n) in
  negb (Z.land (vR p) contourRegMask =? Z.land (vR q) contourRegMask) || negb (Z.land (vR p) areaBorder =? Z.land (vR q) areaBorder).
Lemma changesb_spec : forall i, changesb i = true <-> changes points i.
Proof.
  intro i. unfold changesb, changes, behind, otherArea, after. fold n. rewrite orb_true_iff, !negb_true_iff, !Z.eqb_neq, !land_mask.
  change areaBorder with (2 ^ 17). rewrite !land_pow2 by lia.
  destruct (Z.testbit (vR (raw i)) 17), (Z.testbit (vR (raw ((i + 1) mod n))) 17);
    (split; (intros [K|K]; [left; auto|right; first [congruence | discriminate | (intro; apply K; auto)]])).
Qed.

(** * Stretches *)
Definition uniform (k k' : Z) : Prop := forall j j', inside n k k' j -> inside n k k' j' -> detailed (raw j) -> detailed (raw j').
Lemma uniform_left : forall k k' m, uniform k k' -> inside n k k' m -> uniform k m.
Proof. intros k k' m H K j j' A B. apply H; eapply inside_sub_left; eauto. Qed.
Lemma uniform_right : forall k k' m, uniform k k' -> inside n k k' m -> uniform m k'.
Proof. intros k k' m H K j j' A B. apply H; eapply inside_sub_right; eauto. Qed.
Lemma quiet_uniform : forall k k', (forall j, inside n k k' j -> ~ changes points j) -> uniform k k'.
Proof.
  intros k k' Q.
  assert (G : forall t, 0 <= t -> 1 + t < arc n k k' ->
    behind (raw ((k + (1 + t)) mod n)) = behind (raw ((k + 1) mod n)) /\ otherArea (raw ((k + (1 + t)) mod n)) = otherArea (raw ((k + 1) mod n))).
  { intros t T. pattern t. apply natlike_ind; auto.
    intros u U IH L. destruct (IH ltac:(lia)) as [I1 I2]. rewrite <- I1, <- I2.
    assert (NC : ~ changes points ((k + (1 + u)) mod n)) by (apply Q; exists (1 + u); split; [unfold arc in L; lia|auto]).
    unfold changes, after in NC. fold n in NC. rewrite Zplus_mod_idemp_l in NC. replace (k + (1 + Z.succ u)) with (k + (1 + u) + 1) by lia.
    split; [destruct (Z.eq_dec (behind (raw ((k + (1 + u)) mod n))) (behind (raw ((k + (1 + u) + 1) mod n)))); [auto|exfalso; apply NC; auto]|].
    destruct (bool_dec (otherArea (raw ((k + (1 + u)) mod n))) (otherArea (raw ((k + (1 + u) + 1) mod n)))); [auto|exfalso; apply NC; auto]. }
  intros j j' (t & T & ->) (t' & T' & ->). fold (arc n k k') in T, T'.
  destruct (G (t - 1)) as [A1 A2]; try lia. destruct (G (t' - 1)) as [B1 B2]; try lia.
  replace (1 + (t - 1)) with t in * by lia. replace (1 + (t' - 1)) with t' in * by lia. unfold detailed. rewrite A1, A2, B1, B2. auto.
Qed.
Lemma split_range : forall ch, (forall k k' m, 0 <= k < n -> 0 <= k' < n -> k <> k' -> ch k k' = Some m -> inside n k k' m) ->
  (forall k k' m, 0 <= k < n -> 0 <= k' < n -> k <> k' -> uniform k k' -> ch k k' = Some m -> detailed (raw m)) ->
  forall a b l, split ch a b l -> 0 <= a < n -> 0 <= b < n -> a <> b -> uniform a b -> forall m, In m l -> detailed (raw m).
Proof.
  intros ch Hi Hd a b l S. induction S as [a b H|a b m l1 l2 H S1 IH1 S2 IH2]; intros A B N U j J; [destruct J|].
  pose proof (Hi _ _ _ A B N H) as I. pose proof (inside_spec n Hn _ _ _ I) as [R1 R2]. pose proof (inside_arcs n Hn _ _ _ I) as [Q1 Q2].
  assert (a <> m) by (intros ->; rewrite arc_self in R2 by auto; lia).
  assert (m <> b) by (intros ->; rewrite arc_self in Q2 by auto; lia).
  apply in_app_or in J. destruct J as [J|[<-|J]].
  - apply IH1; auto. eapply uniform_left; eauto.
  - eapply Hd; [| | |exact U|exact H]; auto.
  - apply IH2; auto. eapply uniform_right; eauto.
Qed.
Lemma fill_detailed : forall ch, (forall k k' m, 0 <= k < n -> 0 <= k' < n -> k <> k' -> ch k k' = Some m -> inside n k k' m) ->
  (forall k k' m, 0 <= k < n -> 0 <= k' < n -> k <> k' -> uniform k k' -> ch k k' = Some m -> detailed (raw m)) ->
  forall f l out, fill ch f l out -> (forall k k', adj (l ++ [f]) k k' -> 0 <= k < n /\ 0 <= k' < n /\ k <> k' /\ uniform k k') ->
  forall m, In m out -> In m l \/ detailed (raw m).
Proof.
  intros ch Hi Hd f l out F. induction F as [|a l mid out S F IH]; intros H m M; [destruct M|].
  destruct M as [->|M]; [left; left; auto|]. apply in_app_or in M. destruct M as [M|M].
  - right. destruct (H a (hd f l)) as (A & B & C & D); [destruct l; cbn; auto|]. eapply (split_range ch Hi Hd); eauto.
  - destruct IH with m as [K|K]; auto; [|left; right; auto]. intros k k' K. apply H. cbn [app]. destruct (l ++ [f]) eqn:E; [destruct l; discriminate|]. right. exact K.
Qed.

Lemma lexk_spec : forall k k', lexk k k' = true <-> before (raw k) (raw k').
Proof. intros k k'. unfold lexk, lexico, before. rewrite orb_true_iff, andb_true_iff, !Z.ltb_lt, Z.eqb_eq. intuition. Qed.
Lemma posn1_inside : forall fw k k', 0 <= k < n -> 0 <= k' < n -> 1 < arc n k k' -> inside n k k' (posn fw k k' 1).
Proof. intros. apply posn_inside; auto. lia. Qed.
Lemma far_detailed : forall e k k' m, 0 <= k < n -> 0 <= k' < n -> k <> k' -> uniform k k' -> far e k k' = Some m -> detailed (raw m).
Proof.
  intros e k k' m H H' N U E. pose proof (far_inside e k k' m H H' N E) as I. unfold far in E. destruct (detailedb _) eqn:D; [|discriminate].
  apply detailedb_spec in D. pose proof (inside_spec n Hn _ _ _ I) as [_ R]. apply (U (posn (lexk k k') k k' 1) m); auto. apply posn1_inside; auto. lia.
Qed.
Lemma far_close : forall e k k' j d, 0 <= k < n -> 0 <= k' < n -> k <> k' -> uniform k k' -> far e k k' = None ->
  inside n k k' j -> detailed (raw j) -> off_edge points k k' j d -> fgt d (fmul e e) = false.
Proof.
  intros e k k' j d H H' N U E I D O. unfold far in E. pose proof (inside_spec n Hn _ _ _ I) as [_ R].
  assert (D1 : detailedb (raw (posn (lexk k k') k k' 1)) = true).
  { apply detailedb_spec. apply (U j); auto. apply posn1_inside; auto. lia. }
  rewrite D1 in E. destruct (inside_posn (lexk k k') k k' j H H' I) as (t & T & ->).
  destruct (bestT _ _ _ _ _) as [md mt] eqn:B. destruct (bestT_spec _ _ _ _ _ _ _ f0_nonan B) as (NN & _ & X & Y).
  assert (ED : d = devs (lexk k k') k k' t).
  { unfold off_edge in O. unfold devs. destruct (lexk k k') eqn:LX.
    - apply lexk_spec in LX. destruct O as [[_ O]|[O _]]; [exact O|contradiction].
    - destruct O as [[O _]|[_ O]]; [apply lexk_spec in O; congruence|exact O]. }
  specialize (X t ltac:(lia)). rewrite <- ED in X. change (flt md d = false) in X. change (flt (fmul e e) d = false).
  destruct (flt (fmul e e) d) eqn:W; auto. pose proof (flt_le_trans _ _ _ W X NN) as Q.
  destruct mt as [u|].
  - change (fgt md (fmul e e) = true) in Q. rewrite Q in E. discriminate.
  - destruct Y as [[_ ->]|(u & _ & Y & _)]; [|discriminate]. rewrite sqr_nonneg in Q. discriminate.
Qed.

(** * Splitting long edges *)
Definition longb (mel k k' : Z) : bool :=
  let dx := i32 (vX (raw k') - vX (raw k)) in let dz := i32 (vZ (raw k') - vZ (raw k)) in i32 (mel * mel) <? i32 (dx * dx + dz * dz).
Lemma i32_cong : forall a b, a mod 2 ^ 32 = b mod 2 ^ 32 -> i32 a = i32 b.
Proof. intros a b H. unfold i32. change 4294967296 with (2 ^ 32). rewrite <- (Zplus_mod_idemp_l a), H, Zplus_mod_idemp_l. auto. Qed.
Lemma i32_mod : forall a, i32 a mod 2 ^ 32 = a mod 2 ^ 32.
Proof. intro a. unfold i32. change 4294967296 with (2 ^ 32). rewrite Zminus_mod_idemp_l. f_equal. lia. Qed.
Lemma longb_spec : forall mel k k', longb mel k k' = true <-> long points mel k k'.
Proof.
  intros mel k k'. unfold longb, long. rewrite Z.ltb_lt. unfold wrap32. fold (i32 (mel * mel)).
  set (dx := vX (raw k') - vX (raw k)). set (dz := vZ (raw k') - vZ (raw k)).
  assert (E : i32 (i32 dx * i32 dx + i32 dz * i32 dz) = i32 (dx * dx + dz * dz)).
  { apply i32_cong. rewrite Z.add_mod, (Z.mul_mod (i32 dx)), (Z.mul_mod (i32 dz)), !i32_mod, <- !Z.mul_mod, <- Z.add_mod by lia. auto. }
  rewrite E. reflexivity.
Qed.
Definition half (mel bf k k' : Z) : option Z :=
  if tess bf (raw ((k + 1) mod n)) && longb mel k k' then
    let L := arc n k k' in
    if 1 <? L then Some ((k + (if lexk k k' then L / 2 else (L + 1) / 2)) mod n) else None
  else None.
Lemma arc_code : forall k k', 0 <= k < n -> 0 <= k' < n -> (if k' <? k then k' + n - k else k' - k) = arc n k k'.
Proof.
  intros k k' H H'. unfold arc. destruct (Z.ltb_spec k' k).
  - rewrite <- (Z_mod_plus_full (k' - k) 1). rewrite Z.mod_small; lia.
  - rewrite Z.mod_small; lia.
Qed.
Lemma splitPoint_half : forall mel bf k k', 0 <= k < n -> 0 <= k' < n -> k <> k' -> splitPoint points mel bf (vtx k) (vtx k') = Ok (half mel bf k k').
Proof.
  intros mel bf k k' H H' N. unfold splitPoint, half, vtx, withIdx. cbn [vX vZ vR]. rewrite zlen_count. rewrite get_raw by (apply Z.mod_pos_bound; auto). cbn [bind].
  fold (tess bf (raw ((k + 1) mod n))). fold (longb mel k k'). fold (lexk k k'). rewrite arc_code by auto.
  destruct (tess _ _ && longb _ _ _); [|reflexivity]. cbv zeta. destruct (1 <? arc n k k'); [|reflexivity]. destruct (lexk k k'); reflexivity.
Qed.
Lemma half_inside : forall mel bf k k' m, 0 <= k < n -> 0 <= k' < n -> k <> k' -> half mel bf k k' = Some m -> inside n k k' m.
Proof.
  intros mel bf k k' m H H' N E. unfold half in E. destruct (_ && _); [|discriminate]. cbv zeta in E. destruct (Z.ltb_spec 1 (arc n k k')) as [L|]; [|discriminate].
  injection E as <-. eexists. split; [|reflexivity]. fold (arc n k k'). destruct (lexk k k'); split;
    [apply Z.div_str_pos|apply Z.div_lt|apply Z.div_str_pos|apply Z.div_lt_upper_bound]; lia.
Qed.
Lemma half_detailed : forall mel bf k k' m, 0 <= k < n -> 0 <= k' < n -> k <> k' -> uniform k k' -> half mel bf k k' = Some m -> detailed (raw m).
Proof.
  intros mel bf k k' m H H' N U E. pose proof (half_inside mel bf k k' m H H' N E) as I. pose proof (inside_spec n Hn _ _ _ I) as [_ R].
  unfold half in E. destruct (tess bf _) eqn:T; [|discriminate]. apply tess_spec in T.
  apply (U ((k + 1) mod n) m); auto; [exists 1; split; [fold (arc n k k'); lia|auto]|]. destruct T as [[_ T]|[_ T]]; [left|right]; auto.
Qed.
Lemma half_short : forall mel bf k k', 0 <= k < n -> 0 <= k' < n -> k <> k' -> half mel bf k k' = None ->
  kind_chosen bf (raw (after points k)) -> long points mel k k' -> k' = after points k.
Proof.
  intros mel bf k k' H H' N E T L. unfold half in E. apply tess_spec in T. apply longb_spec in L. unfold after in *. fold n in T. fold n. rewrite T, L in E.
  cbn [andb] in E. cbv zeta in E. pose proof (arc_pos n Hn k k' H H' N). destruct (Z.ltb_spec 1 (arc n k k')) as [|Q]; [discriminate|].
  rewrite <- (add_arc n k k') by auto. replace (arc n k k') with 1 by lia. auto.
Qed.

(** * The initial points *)
Lemma zseq_in : forall m i, In i (zseq m) <-> 0 <= i < Z.of_nat m.
Proof. intros m i. unfold zseq. rewrite in_map_iff. split; [intros (x & <- & X); apply in_seq in X; lia|]. intro H. exists (Z.to_nat i). rewrite in_seq. lia. Qed.
Lemma krange0 : krange 0 n = zseq (length points).
Proof. unfold krange, n, count. rewrite Nat2Z.id. rewrite map_ext with (g := fun i => i) by auto. apply map_id. Qed.
Lemma changes_fold : forall l simp, (forall i, In i l -> 0 <= i < n) -> foldM (changesAt points) l simp = Ok (simp ++ map vtx (filter changesb l)).
Proof.
  induction l as [|i l IH]; intros simp H; cbn [foldM filter map]; [rewrite app_nil_r; auto|].
  assert (E : changesAt points simp i = Ok (if changesb i then simp ++ [vtx i] else simp)).
  { unfold changesAt. rewrite zlen_count, (get_raw i) by (apply H; cbn; auto). cbn [bind]. rewrite get_raw by (apply Z.mod_pos_bound; auto). reflexivity. }
  rewrite E. cbn [bind].
  destruct (changesb i); rewrite IH by (intros; apply H; cbn; auto); [rewrite <- app_assoc|]; auto.
Qed.
Lemma sorted_cyc : forall l, StronglySorted Z.lt l -> (forall i, In i l -> 0 <= i < n) -> cyc n l.
Proof.
  intros [|a l] S H; [exact Logic.I|]. cbn [cyc]. split; [apply H; cbn; auto|]. inversion S as [|x y S' F]; subst.
  assert (Ha : 0 <= a < n) by (apply H; cbn; auto).
  assert (G : forall l lo, StronglySorted Z.lt l -> Forall (fun k => lo < k - a) l -> 0 <= lo -> (forall i, In i l -> 0 <= i < n) -> incr n lo a l).
  { clear - Hn Ha. induction l as [|k l IH]; intros lo S F L H; [exact Logic.I|]. inversion S as [|x y S' F']; subst. inversion F; subst. cbn [incr].
    assert (Hk : 0 <= k < n) by (apply H; cbn; auto). assert (E : arc n a k = k - a) by (unfold arc; apply Z.mod_small; lia).
    rewrite E. split; auto. split; auto. apply IH; auto; [|lia|intros; apply H; cbn; auto]. eapply Forall_impl; [|exact F']. cbn. intros. lia. }
  apply G; auto; [|lia|intros; apply H; cbn; auto]. eapply Forall_impl; [|exact F]. cbn. intros. lia.
Qed.
Lemma filter_sorted : forall (f : Z -> bool) l, StronglySorted Z.lt l -> StronglySorted Z.lt (filter f l).
Proof.
  induction l as [|a l IH]; intro S; cbn; [constructor|]. inversion S; subst. destruct (f a); auto. constructor; auto.
  apply Forall_forall. intros x X. apply filter_In in X as [X _]. rewrite Forall_forall in H2. auto.
Qed.
Lemma zseq_sorted : forall m, StronglySorted Z.lt (zseq m).
Proof.
  intro m. unfold zseq. generalize 0%nat. induction m as [|m IH]; intro s; cbn; constructor; auto.
  apply Forall_forall. intros x X. apply in_map_iff in X as (y & <- & Y). apply in_seq in Y. lia.
Qed.
(** One change alone is not possible on a closed curve. *)
Lemma two_changes : (forall i, 0 <= i < n -> ~ changes points i) \/ (2 <= length (filter changesb (zseq (length points))))%nat.
Proof.
  destruct (filter changesb (zseq (length points))) as [|a [|b l]] eqn:E; [left| |right; cbn; lia].
  - intros i I C. apply changesb_spec in C. assert (K : In i (filter changesb (zseq (length points)))) by (apply filter_In; split; auto; apply zseq_in; auto).
    rewrite E in K. destruct K.
  - exfalso. assert (A : In a (filter changesb (zseq (length points)))) by (rewrite E; cbn; auto). apply filter_In in A as [A C]. apply zseq_in in A. change (0 <= a < n) in A.
    assert (G : forall t, 0 <= t -> t < n -> behind (raw ((a + (1 + t)) mod n)) = behind (raw ((a + 1) mod n)) /\ otherArea (raw ((a + (1 + t)) mod n)) = otherArea (raw ((a + 1) mod n))).
    { intros t T. pattern t. apply natlike_ind; auto. intros u U IH L. destruct (IH ltac:(lia)) as [I1 I2]. rewrite <- I1, <- I2.
      assert (NC : ~ changes points ((a + (1 + u)) mod n)).
      { intro NC. apply changesb_spec in NC. assert (K : In ((a + (1 + u)) mod n) (filter changesb (zseq (length points)))).
        { apply filter_In. split; auto. apply zseq_in. apply Z.mod_pos_bound. auto. }
        rewrite E in K. destruct K as [K|[]]. assert (X : arc n a ((a + (1 + u)) mod n) = 1 + u) by (apply arc_add; auto; lia).
        rewrite <- K in X. rewrite arc_self in X by auto. lia. }
      unfold changes, after in NC. fold n in NC. rewrite Zplus_mod_idemp_l in NC. replace (a + (1 + Z.succ u)) with (a + (1 + u) + 1) by lia.
      split; [destruct (Z.eq_dec (behind (raw ((a + (1 + u)) mod n))) (behind (raw ((a + (1 + u) + 1) mod n)))); [auto|exfalso; apply NC; auto]|].
      destruct (bool_dec (otherArea (raw ((a + (1 + u)) mod n))) (otherArea (raw ((a + (1 + u) + 1) mod n)))); [auto|exfalso; apply NC; auto]. }
    destruct (G (n - 1)) as [G1 G2]; try lia. replace (a + (1 + (n - 1))) with (a + 1 * n) in * by lia. rewrite Z_mod_plus_full, Z.mod_small in G1, G2 by auto.
    apply changesb_spec in C. unfold changes, after in C. fold n in C. rewrite G1, G2 in C. tauto.
Qed.
(** The extreme points. *)
Definition lle (v w : Vert) : Prop := vX v < vX w \/ vX v = vX w /\ vZ v <= vZ w.
Lemma extremes_spec : exists a b, extremes points = Ok (vtx a, vtx b) /\ 0 <= a < n /\ 0 <= b < n /\
  forall i, 0 <= i < n -> lle (raw a) (raw i) /\ lle (raw i) (raw b).
Proof.
  unfold extremes. rewrite get_raw by lia. cbn [bind]. rewrite zlen_count, krange0. fold (vtx 0).
  assert (G : forall l a b (seen : Z -> Prop), 0 <= a < n -> 0 <= b < n -> (forall i, In i l -> 0 <= i < n) ->
    (forall i, seen i -> lle (raw a) (raw i) /\ lle (raw i) (raw b)) ->
    exists a' b', foldM (fun st i => let '(ll, ur) := st in let* p := get points i in
      let ll := if (vX p <? vX ll) || (vX p =? vX ll) && (vZ p <? vZ ll) then withIdx p i else ll in
      let ur := if (vX ur <? vX p) || (vX p =? vX ur) && (vZ ur <? vZ p) then withIdx p i else ur in Ok (ll, ur)) l (vtx a, vtx b) = Ok (vtx a', vtx b') /\
    0 <= a' < n /\ 0 <= b' < n /\ forall i, seen i \/ In i l -> lle (raw a') (raw i) /\ lle (raw i) (raw b')).
  { induction l as [|i l IH]; intros a b seen A B R S; cbn [foldM].
    - exists a, b. repeat split; auto; try lia; destruct H as [H|[]]; apply S; auto.
    - assert (Ri : 0 <= i < n) by (apply R; cbn; auto). rewrite get_raw by auto. cbn [bind]. cbv zeta. change (withIdx (raw i) i) with (vtx i).
      change (vX (vtx a)) with (vX (raw a)). change (vZ (vtx a)) with (vZ (raw a)). change (vX (vtx b)) with (vX (raw b)). change (vZ (vtx b)) with (vZ (raw b)).
      assert (exists a2, (if (vX (raw i) <? vX (raw a)) || (vX (raw i) =? vX (raw a)) && (vZ (raw i) <? vZ (raw a)) then vtx i else vtx a) = vtx a2 /\ 0 <= a2 < n /\ lle (raw a2) (raw i) /\ lle (raw a2) (raw a)) as (a2 & E1 & A2 & A3 & A4).
      { destruct ((vX (raw i) <? vX (raw a)) || _) eqn:E; [exists i|exists a]; split; auto; split; auto; unfold lle;
          [apply orb_true_iff in E; rewrite andb_true_iff, !Z.ltb_lt, Z.eqb_eq in E; lia|].
        apply orb_false_iff in E as [E1 E2]. apply Z.ltb_ge in E1. apply andb_false_iff in E2. rewrite Z.eqb_neq, Z.ltb_ge in E2. lia. }
      assert (exists b2, (if (vX (raw b) <? vX (raw i)) || (vX (raw i) =? vX (raw b)) && (vZ (raw b) <? vZ (raw i)) then vtx i else vtx b) = vtx b2 /\ 0 <= b2 < n /\ lle (raw i) (raw b2) /\ lle (raw b) (raw b2)) as (b2 & E2 & B2 & B3 & B4).
      { destruct ((vX (raw b) <? vX (raw i)) || _) eqn:E; [exists i|exists b]; split; auto; split; auto; unfold lle;
          [apply orb_true_iff in E; rewrite andb_true_iff, !Z.ltb_lt, Z.eqb_eq in E; lia|].
        apply orb_false_iff in E as [E1' E2']. apply Z.ltb_ge in E1'. apply andb_false_iff in E2'. rewrite Z.eqb_neq, Z.ltb_ge in E2'. lia. }
      rewrite E1, E2. destruct (IH a2 b2 (fun j => seen j \/ j = i) A2 B2) as (a' & b' & F & F1 & F2 & F3).
      + intros; apply R; cbn; auto.
      + intros j [J| ->]; [destruct (S j J); unfold lle in *; split; lia|auto].
      + exists a', b'. split; [exact F|]. split; auto. split; auto. intros j [J|[<-|J]]; apply F3; auto. }
  destruct (G (zseq (length points)) 0 0 (fun _ => False)) as (a & b & F & A & B & S); try lia; try tauto.
  - intros i I. apply zseq_in in I. exact I.
  - exists a, b. split; [exact F|]. split; auto. split; auto. intros i I. apply S. right. apply zseq_in. exact I.
Qed.

Lemma raw_in : forall p, In p points -> exists k, 0 <= k < n /\ raw k = p.
Proof.
  intros p P. apply In_nth with (d := vert0) in P as (i & I & E). exists (Z.of_nat i). unfold n, count, ContourSpec.raw. rewrite Nat2Z.id. split; [lia|auto].
Qed.
Definition all_walls : Prop := forall k, 0 <= k < n -> behind (raw k) = 0.
Lemma initial_spec : (exists p q, In p points /\ In q points /\ place p <> place q) ->
  exists ks, initial points = Ok (map vtx ks) /\ cyc n ks /\ (2 <= length ks)%nat /\
    (all_walls \/ (forall k, 0 <= k < n -> changes points k -> In k ks)) /\
    ((forall k, In k ks -> changes points k) \/ all_walls \/ (forall k, 0 <= k < n -> ~ changes points k)).
Proof.
  intros (p & q & P & Q & NE). unfold initial.
  assert (EX : exists a b, extremes points = Ok (vtx a, vtx b) /\ 0 <= a < n /\ 0 <= b < n /\ a <> b).
  { destruct extremes_spec as (a & b & E & A & B & S). exists a, b. split; auto. split; auto. split; auto. intros <-. apply NE.
    destruct (raw_in p P) as (i & I & <-). destruct (raw_in q Q) as (j & J & <-). destruct (S i I), (S j J). unfold lle, place in *. f_equal; lia. }
  assert (EXC : forall a b, 0 <= a < n -> 0 <= b < n -> a <> b -> cyc n [a; b]).
  { intros a b A B N. cbn. split; auto. split; auto. split; auto. apply arc_pos; auto. }
  destruct EX as (a & b & E & A & B & N).
  destruct (existsb _ points) eqn:X.
  - rewrite zlen_count, krange0, changes_fold by (intros i I; apply zseq_in in I; exact I). cbn [app bind]. rewrite zlen_map.
    destruct two_changes as [C|C].
    + assert (F : filter changesb (zseq (length points)) = []).
      { destruct (filter _ _) as [|x l] eqn:F; auto. exfalso. assert (K : In x (filter changesb (zseq (length points)))) by (rewrite F; cbn; auto).
        apply filter_In in K as [K1 K2]. apply zseq_in in K1. apply changesb_spec in K2. apply (C x); auto. }
      rewrite F. cbn [zlen map length Z.of_nat Z.eqb]. cbn. rewrite E. cbn [bind]. exists [a; b]. split; auto. split; auto. split; [auto|]. split; [right; intros k K K2; destruct (C k K K2)|auto].
    + assert (Z : zlen (filter changesb (zseq (length points))) =? 0 = false) by (apply Z.eqb_neq; unfold zlen; lia). rewrite Z.
      exists (filter changesb (zseq (length points))). split; auto. split; [|split; auto; split; [right|left]].
      * apply sorted_cyc; [apply filter_sorted, zseq_sorted|]. intros i I. apply filter_In in I as [I _]. apply zseq_in in I. exact I.
      * intros k K C2. apply filter_In. split; [apply zseq_in; exact K|]. apply changesb_spec; auto.
      * intros k K. apply filter_In in K as [_ K]. apply changesb_spec. auto.
  - cbn [bind zlen length Z.of_nat Z.eqb]. cbn. rewrite E. cbn [bind].
    assert (W : all_walls).
    { intros k K. apply isWall_spec. destruct (isWall (vR (raw k))) eqn:W; auto. exfalso.
      assert (T : existsb (fun p => negb (isWall (vR p))) points = true); [|congruence]. apply existsb_exists. exists (raw k). rewrite W. split; auto.
      apply nth_In. unfold n, count in K. lia. }
    exists [a; b]. split; [auto|]. split; [apply EXC; auto|]. split; [cbn; lia|]. split; auto.
Qed.

(** * The whole *)
Lemma finish_spec : forall ks, (forall k, In k ks -> 0 <= k < n) -> exists out, mapM (finishVert points) (map vtx ks) = Ok out /\ Forall2 (out_vertex points) ks out.
Proof.
  induction ks as [|k ks IH]; intro H; [exists []; split; [auto|constructor]|]. cbn [map mapM].
  assert (K : 0 <= k < n) by (apply H; cbn; auto). unfold finishVert at 1. cbn [vtx withIdx vR]. rewrite zlen_count.
  rewrite get_raw by (apply Z.mod_pos_bound; auto). cbn [bind]. rewrite get_raw by auto. cbn [bind]. destruct IH as (out & O1 & O2); [intros; apply H; cbn; auto|]. rewrite O1. cbn [bind].
  eexists. split; [reflexivity|]. constructor; auto. unfold out_vertex, place. cbn [vX vY vZ vR]. split; auto. split; auto. unfold after. fold n.
  generalize (raw ((k + 1) mod n)) (raw k). intros p q. unfold behind, otherArea.
  change contourRegMask with (Z.ones 16). change areaBorder with (2 ^ 17). change borderVertex with (2 ^ 16).
  rewrite Z.land_lor_distr_r, !land_pow2, Z.land_ones by lia.
  pose proof (Z.mod_pos_bound (vR p) (2 ^ 16) ltac:(lia)) as R. set (x := vR p mod 2 ^ 16) in *.
  assert (D : forall x k, 0 <= x < 2 ^ k -> 0 <= k -> Z.lor x (2 ^ k) = x + 2 ^ k).
  { clear. intros x k X K. assert (Z.land x (2 ^ k) = 0); [|rewrite Z.add_nocarry_lxor, Z.lxor_lor; auto].
    rewrite land_pow2 by auto. assert (Z.testbit x k = false) as ->; [|auto]. apply Z.testbit_false; auto. rewrite Z.div_small by auto. auto. }
  change (2 ^ 16) with 65536 in *. change (2 ^ 17) with 131072 in *.
  pose proof (D x 16) as D16. pose proof (D x 17) as D17. pose proof (D (x + 65536) 17) as D18. change (2 ^ 16) with 65536 in *. change (2 ^ 17) with 131072 in *.
  destruct (Z.testbit (vR p) 17), (Z.testbit (vR q) 16); unfold withIdx; cbn [vR]; rewrite ?Z.lor_0_r.
  - rewrite <- Z.lor_assoc, (Z.lor_comm 131072), Z.lor_assoc, D16, D18 by lia. lia.
  - rewrite D17 by lia. lia.
  - rewrite D16 by lia. lia.
  - lia.
Qed.
Definition splitting (mel bf : Z) : bool := (0 <? mel) && negb (Z.land bf (Z.lor ContourTessWallEdges ContourTessAreaEdges) =? 0).
Lemma simplify_spec : forall e mel bf, (exists p q, In p points /\ In q points /\ place p <> place q) ->
  exists ks0 ks1 ks out, simplifyContour points e mel bf = Ok out /\ Forall2 (out_vertex points) ks out /\
    initial points = Ok (map vtx ks0) /\ cyc n ks0 /\ (2 <= length ks0)%nat /\ cyc n ks1 /\ (2 <= length ks1)%nat /\ cyc n ks /\ (2 <= length ks)%nat /\
    (all_walls \/ (forall k, 0 <= k < n -> changes points k -> In k ks0)) /\
    ((forall k, In k ks0 -> changes points k) \/ all_walls \/ (forall k, 0 <= k < n -> ~ changes points k)) /\
    fill (far e) (hd 0 ks0) ks0 ks1 /\ (if splitting mel bf then fill (half mel bf) (hd 0 ks1) ks1 ks else ks = ks1).
Proof.
  intros e mel bf H. destruct (initial_spec H) as (ks0 & I & C & L & K1 & K2). unfold simplifyContour. rewrite I. cbn [bind].
  assert (FU : forall ks, cyc n ks -> n - zlen ([] ++ ks) + (n - zlen (@nil Z)) <= Z.of_nat (refineFuel points)).
  { intros ks _. unfold refineFuel. cbn [app]. rewrite zlen_nil. pose proof (zlen_nonneg ks). assert (n = Z.of_nat (length points)) by reflexivity. lia. }
  assert (LL : forall ch f l out, fill ch f l out -> (length l <= length out)%nat).
  { intros ch f l out F. induction F; cbn; [lia|]. rewrite app_length. lia. }
  destruct (refine_fill (far e) (fun a b => farthest points a b e) (farthest_far e) (far_inside e) (refineFuel points) [] ks0 C L (FU _ C)) as (ks1 & R1 & R2 & R3).
  cbn [app] in *. rewrite zlen_nil in R1. rewrite R1. cbn [bind]. fold (splitting mel bf).
  assert (L1 : (2 <= length ks1)%nat) by (pose proof (LL _ _ _ _ R2); lia).
  assert (E : exists ks, (if splitting mel bf then refine (refineFuel points) (splitPoint points mel bf) points (map vtx ks1) 0 else Ok (map vtx ks1)) = Ok (map vtx ks) /\
    cyc n ks /\ (2 <= length ks)%nat /\ (if splitting mel bf then fill (half mel bf) (hd 0 ks1) ks1 ks else ks = ks1)).
  { destruct (splitting mel bf); [|exists ks1; auto].
    destruct (refine_fill (half mel bf) (splitPoint points mel bf) (splitPoint_half mel bf) (half_inside mel bf) (refineFuel points) [] ks1 R3 L1 (FU _ R3)) as (ks & S1 & S2 & S3).
    cbn [app] in *. rewrite zlen_nil in S1. exists ks. split; auto. split; auto. split; auto. pose proof (LL _ _ _ _ S2). lia. }
  destruct E as (ks & E1 & E2 & E3 & E4). unfold splitting in E1, E4 |- *. rewrite E1. cbn [bind].
  destruct (finish_spec ks) as (out & O1 & O2).
  { intros k K. destruct ks as [|a l]; [destruct K|]. destruct E2 as [A B]. destruct K as [<-|K]; auto. apply (incr_low n _ _ _ _ B K). }
  exists ks0, ks1, ks, out. rewrite O1. repeat (split; [assumption || reflexivity|]). auto.
Qed.
End Main.
