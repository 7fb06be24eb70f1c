(** Directed edges of closed polygons, of triangulations and of merged polygons. *)
From Coq Require Import ZArith List Bool Lia Permutation.
From Verif.Base Require Import Res GoNum Grid.
From Verif.Spec Require Import AreaSpec MeshOpsSpec BuildSpec.
From Verif.Proofs Require Import TriangulateProofs MergeProofs.
Import ListNotations.
Open Scope Z_scope.

Lemma steps_cons : forall x y l, steps (x :: y :: l) = (x, y) :: steps (y :: l).
Proof. reflexivity. Qed.
Lemma steps_join : forall a x b, steps (a ++ x :: b) = steps (a ++ [x]) ++ steps (x :: b).
Proof.
  induction a as [|y a IH]; intros x b; [reflexivity|].
  destruct a as [|z a]; [reflexivity|]. cbn [app]. rewrite !steps_cons. cbn [app]. f_equal. apply (IH x b).
Qed.
Lemma steps_nth : forall l i a b, nth_error l i = Some a -> nth_error l (S i) = Some b -> nth_error (steps l) i = Some (a, b).
Proof.
  induction l as [|x l IH]; intros i a b Ha Hb; [destruct i; discriminate|].
  destruct l as [|y l]; [destruct i; [discriminate|destruct i; discriminate]|].
  rewrite steps_cons. destruct i as [|i]; cbn in *; [congruence|]. apply IH; assumption.
Qed.
Lemma steps_length : forall l, length (steps l) = pred (length l).
Proof. intros [|x l]; [reflexivity|]. unfold steps. rewrite combine_length. cbn [tl length]. lia. Qed.

Lemma cyc_nth : forall l i, (i < length l)%nat -> nth_error l i = Some (cyc l (Z.of_nat i)).
Proof.
  intros l i H. rewrite cyc_small by (unfold zlen; lia). rewrite Nat2Z.id. apply nth_error_nth'. exact H.
Qed.
Lemma borders_steps : forall x l, borders (x :: l) = steps ((x :: l) ++ [x]).
Proof.
  intros x l. apply list_eq_nth. intros k.
  destruct (Nat.lt_ge_cases k (length (x :: l))) as [H|H].
  - unfold borders. rewrite nth_error_map. replace (nth_error (seq 0 (length (x :: l))) k) with (Some k).
    2:{ symmetry. rewrite (nth_error_nth' _ 0%nat) by (rewrite seq_length; lia). rewrite seq_nth by lia. reflexivity. }
    cbn [option_map]. symmetry. apply steps_nth.
    + rewrite nth_error_app1 by lia. apply cyc_nth. lia.
    + destruct (Nat.eq_dec k (length l)) as [->|N].
      * rewrite nth_error_app2 by (cbn [length]; lia). cbn [length]. rewrite Nat.sub_diag. cbn [nth_error].
        replace (Z.of_nat (length l) + 1) with (0 + 1 * zlen (x :: l)) by (unfold zlen; cbn [length]; lia).
        rewrite cyc_add by discriminate. rewrite cyc_small by (unfold zlen; cbn [length]; lia). reflexivity.
      * cbn [length] in H. rewrite nth_error_app1 by (cbn [length]; lia). replace (Z.of_nat k + 1) with (Z.of_nat (S k)) by lia. apply cyc_nth. cbn [length]. lia.
  - rewrite !(proj2 (nth_error_None _ _)); [reflexivity| |].
    + rewrite steps_length, app_length. cbn [length] in *. lia.
    + unfold borders. rewrite map_length, seq_length. lia.
Qed.
Lemma borders_rot : forall u v, Permutation (borders (u ++ v)) (borders (v ++ u)).
Proof.
  intros [|x u] [|y v]; try (rewrite ?app_nil_r; apply Permutation_refl).
  cbn [app]. rewrite !borders_steps.
  replace ((x :: u ++ y :: v) ++ [x]) with ((x :: u) ++ y :: (v ++ [x])) by (cbn [app]; rewrite <- app_assoc; reflexivity).
  replace ((y :: v ++ x :: u) ++ [y]) with ((y :: v) ++ x :: (u ++ [y])) by (cbn [app]; rewrite <- app_assoc; reflexivity).
  rewrite (steps_join (x :: u)), (steps_join (y :: v)). apply Permutation_app_comm.
Qed.
Lemma borders_fst : forall l, map fst (borders l) = l.
Proof.
  intros [|x l]; [reflexivity|]. rewrite borders_steps. unfold steps.
  assert (forall (a b : list Z), length b = length a -> forall c, map fst (combine (a ++ c) b) = a) as G.
  { induction a as [|z a IH]; intros [|y b] Hl c; try discriminate; [destruct c; reflexivity|]. cbn. f_equal. apply IH. cbn in Hl. lia. }
  apply (G (x :: l) (tl ((x :: l) ++ [x]))). cbn [app tl length]. rewrite app_length. cbn [length]. lia.
Qed.
Lemma borders_in : forall l a b, In (a, b) (borders l) -> In a l /\ In b l.
Proof.
  intros l a b H. unfold borders in H. apply in_map_iff in H. destruct H as (i & E & Hi). apply in_seq in Hi.
  inversion E; subst. split; apply cyc_in; unfold zlen; lia.
Qed.
Lemma borders_at : forall l i, 0 < zlen l -> In (cyc l i, cyc l (i + 1)) (borders l).
Proof.
  intros l i H. unfold borders. apply in_map_iff. exists (Z.to_nat (i mod zlen l)).
  pose proof (Z.mod_pos_bound i (zlen l) H) as B. split.
  - rewrite Z2Nat.id by lia. rewrite cyc_mod. f_equal. rewrite <- (cyc_mod l (i mod zlen l + 1)), Z.add_mod_idemp_l by lia. apply cyc_mod.
  - apply in_seq. unfold zlen in *. lia.
Qed.
Lemma borders_nodup : forall l, NoDup l -> NoDup (borders l).
Proof. intros l H. apply (NoDup_map_inv fst). rewrite borders_fst. exact H. Qed.
(** With distinct vertices an edge is determined by its start. *)
Lemma borders_fun : forall l a b c, NoDup l -> In (a, b) (borders l) -> In (a, c) (borders l) -> b = c.
Proof.
  intros l a b c H Hb Hc. rewrite <- borders_fst in H. revert H Hb Hc. generalize (borders l) as B.
  induction B as [|[x y] B IH]; intros H Hb Hc; [destruct Hb|]. cbn [map fst] in H. inversion H; subst.
  destruct Hb as [Eb|Hb], Hc as [Ec|Hc]; try congruence.
  - inversion Eb; subst. exfalso. apply H2. apply in_map_iff. exists (a, c). auto.
  - inversion Ec; subst. exfalso. apply H2. apply in_map_iff. exists (a, b). auto.
  - auto.
Qed.

(** * Cutting off a corner *)
Definition tborders (t : Z * Z * Z) : list (Z * Z) := let '(a, b, c) := t in [(a, b); (b, c); (c, a)].
Lemma cut_borders : forall l a b c l', cut l (a, b, c) l' ->
  exists M, Permutation (borders l) ((a, b) :: (b, c) :: M) /\ Permutation (borders l') ((a, c) :: M).
Proof.
  intros l a b c l' (u & b' & v & a' & c' & m & -> & -> & E & T). inversion T; subst a' b' c'. clear T.
  exists (steps (c :: m ++ [a])). split.
  - eapply perm_trans; [apply borders_rot|]. cbn [app]. rewrite E. rewrite borders_steps. cbn [app].
    rewrite steps_cons. eapply perm_trans; [|apply perm_swap]. apply perm_skip.
    replace (c :: (m ++ [a]) ++ [b]) with ((c :: m) ++ a :: [b]) by (cbn [app]; rewrite <- app_assoc; reflexivity).
    rewrite (steps_join (c :: m) a [b]). eapply perm_trans; [apply Permutation_app_comm|]. apply Permutation_refl.
  - eapply perm_trans; [apply borders_rot|]. rewrite E. rewrite borders_steps. cbn [app].
    replace (c :: (m ++ [a]) ++ [c]) with ((c :: m) ++ a :: [c]) by (cbn [app]; rewrite <- app_assoc; reflexivity).
    rewrite (steps_join (c :: m) a [c]). eapply perm_trans; [apply Permutation_app_comm|]. apply Permutation_refl.
Qed.
Lemma cut_nodup : forall (l : list Z) a b c l', cut l (a, b, c) l' -> NoDup l -> NoDup l' /\ ~ In b l' /\ a <> b /\ b <> c /\ In a l' /\ In c l'.
Proof.
  intros l a b c l' (u & b' & v & a' & c' & m & -> & -> & E & T) N. inversion T; subst a' b' c'. clear T.
  apply NoDup_remove in N. destruct N as [N Hb]. split; [exact N|]. split; [exact Hb|].
  assert (In a (u ++ v)) as Ia by (apply (Permutation_in a (Permutation_app_comm v u)); rewrite E; right; apply in_or_app; right; now left).
  assert (In c (u ++ v)) as Ic by (apply (Permutation_in c (Permutation_app_comm v u)); rewrite E; now left).
  repeat split; try assumption; intros ->; contradiction.
Qed.
Lemma borders_no_both : forall l a b, NoDup l -> 3 <= zlen l -> In (a, b) (borders l) -> ~ In (b, a) (borders l).
Proof.
  intros l a b N L H F. unfold borders in H, F. apply in_map_iff in H, F. destruct H as (i & E & Hi), F as (j & F & Hj).
  apply in_seq in Hi, Hj. injection E as E1 E2. injection F as F1 F2. subst a b.
  assert (forall x y : Z, cyc l x = cyc l y -> x mod zlen l = y mod zlen l) as U.
  { intros x y G. unfold cyc in G. pose proof (Z.mod_pos_bound x (zlen l) ltac:(lia)). pose proof (Z.mod_pos_bound y (zlen l) ltac:(lia)).
    change (Z.of_nat (length l)) with (zlen l) in G.
    rewrite NoDup_nth in N. assert (Z.to_nat (x mod zlen l) = Z.to_nat (y mod zlen l)) as Q; [|lia].
    eapply N; [unfold zlen in *; lia|unfold zlen in *; lia|exact G]. }
  apply U in F1, F2.
  assert ((Z.of_nat i + 2) mod zlen l = Z.of_nat i mod zlen l) as Q.
  { rewrite <- F2. replace (Z.of_nat i + 2) with (Z.of_nat i + 1 + 1) by lia.
    rewrite <- Z.add_mod_idemp_l, <- (Z.add_mod_idemp_l (Z.of_nat j)) by lia. now rewrite F1. }
  clear - Q L Hi. rewrite (Z.mod_small (Z.of_nat i)) in Q by (unfold zlen in *; lia).
  assert (Z.of_nat i + 2 = zlen l * ((Z.of_nat i + 2) / zlen l) + Z.of_nat i) as D by (rewrite <- Q at 3; apply Z.div_mod; lia).
  assert (2 = zlen l * ((Z.of_nat i + 2) / zlen l)) as D2 by lia. revert D2. generalize ((Z.of_nat i + 2) / zlen l). intros q Hq.
  assert (q = 0 \/ 1 <= q \/ q <= -1) as [->|[|]] by lia; nia.
Qed.

Lemma cuts_edges : forall (l : list Z) ts left, cuts l ts left -> NoDup l -> 3 <= zlen left ->
  NoDup (flat_map tborders ts ++ borders left) /\
  (forall a b, In (a, b) (borders l) -> ~ In (b, a) (flat_map tborders ts ++ borders left)) /\
  (forall a b, In (a, b) (flat_map tborders ts ++ borders left) -> In a l /\ In b l).
Proof.
  intros l ts left H. induction H as [l|l [[a b] c] l1 ts l2 Hc H IH]; intros N L.
  - cbn [flat_map app]. split; [apply borders_nodup, N|]. split; [|apply borders_in]. intros x y. apply borders_no_both; assumption.
  - destruct (cut_nodup _ _ _ _ _ Hc N) as (N1 & Hb & Nab & Nbc & Ia & Ic). destruct (IH N1 L) as (D & R & I). clear IH.
    destruct (cut_borders _ _ _ _ _ Hc) as (M & P & P1).
    assert (incl l1 l) as J by (apply cut_incl in Hc; tauto).
    assert (In b l) as Ib by (apply cut_incl in Hc; tauto).
    cbn [flat_map tborders]. set (E := flat_map tborders ts ++ borders l2) in *.
    change (NoDup ((a, b) :: (b, c) :: (c, a) :: E) /\
      (forall x y, In (x, y) (borders l) -> ~ In (y, x) ((a, b) :: (b, c) :: (c, a) :: E)) /\
      (forall x y, In (x, y) ((a, b) :: (b, c) :: (c, a) :: E) -> In x l /\ In y l)).
    assert (forall x, ~ In (x, b) E) as Z1 by (intros x F; apply I in F; tauto).
    assert (forall x, ~ In (b, x) E) as Z2 by (intros x F; apply I in F; tauto).
    assert (~ In (c, a) E) as Z3 by (apply R; apply (Permutation_in _ (Permutation_sym P1)); now left).
    assert (a <> c) as Nac.
    { intros <-. assert (3 <= zlen l1) as L1 by (apply cuts_length in H; unfold zlen in *; lia).
      apply (borders_no_both l1 a a N1 L1); apply (Permutation_in _ (Permutation_sym P1)); now left. }
    split; [|split].
    + constructor; [|constructor; [|constructor; [exact Z3|exact D]]].
      * intros [F|[F|F]]; [congruence|congruence|]. exact (Z1 _ F).
      * intros [F|F]; [congruence|]. exact (Z2 _ F).
    + intros x y Hxy F.
      assert (In (a, b) (borders l)) as Bab by (apply (Permutation_in _ (Permutation_sym P)); now left).
      assert (In (b, c) (borders l)) as Bbc by (apply (Permutation_in _ (Permutation_sym P)); right; now left).
      destruct F as [F|[F|[F|F]]].
      * inversion F; subst. pose proof (borders_fun _ _ _ _ N Hxy Bbc). congruence.
      * inversion F; subst. assert (3 <= zlen l) as L3 by (apply cuts_length in H; apply cut_length in Hc; unfold zlen in *; lia).
        exact (borders_no_both _ _ _ N L3 Bbc Hxy).
      * inversion F; subst. pose proof (borders_fun _ _ _ _ N Hxy Bab). congruence.
      * apply (Permutation_in _ P) in Hxy. destruct Hxy as [Q|[Q|Q]].
        -- inversion Q; subst. exact (Z2 _ F).
        -- inversion Q; subst. exact (Z1 _ F).
        -- apply (R x y); [|exact F]. apply (Permutation_in _ (Permutation_sym P1)). now right.
    + intros x y [F|[F|[F|F]]]; [inversion F; subst; auto..|]. apply I in F. split; apply J; tauto.
Qed.
(** In a triangulation of a polygon with distinct vertices no directed edge occurs twice. *)
Lemma triangulation_edges : forall (l : list Z) ts, triangulation l ts -> NoDup l -> NoDup (flat_map tborders ts).
Proof.
  intros l ts (ts' & a & b & c & -> & H) N. destruct (cuts_edges _ _ _ H N) as (D & _); [unfold zlen; cbn; lia|].
  rewrite flat_map_app. cbn [flat_map]. rewrite app_nil_r. exact D.
Qed.

(** * Merging *)
Lemma merged_borders : forall la lb ea eb, 2 <= zlen la -> 2 <= zlen lb -> opposite la lb ea eb ->
  let x := cyc la ea in let y := cyc la (ea + 1) in
  Permutation (borders la ++ borders lb) ((x, y) :: (y, x) :: borders (merged la lb ea eb)).
Proof.
  intros la lb ea eb La Lb [O1 O2]. cbn zeta. set (x := cyc la ea) in *. set (y := cyc la (ea + 1)) in *.
  assert (forall l e, 2 <= zlen l -> exists T, map (fun i => cyc l (e + 1 + i)) (zseq (length l - 1)) = cyc l (e + 1) :: T /\
     Permutation (borders l) (borders ((cyc l (e + 1) :: T) ++ [cyc l e]))) as G.
  { intros l e Hl. destruct (zseq_cons (length l - 2)) as [t Et]. replace (S (length l - 2)) with (length l - 1)%nat in Et by (unfold zlen in *; lia).
    exists (map (fun i => cyc l (e + 1 + i)) t). assert (map (fun i => cyc l (e + 1 + i)) (zseq (length l - 1)) = cyc l (e + 1) :: map (fun i => cyc l (e + 1 + i)) t) as E1.
    { rewrite Et. cbn [map]. now rewrite Z.add_0_r. }
    split; [exact E1|]. rewrite <- E1. destruct (rot_cyc l (e + 1)) as (u & v & El & Er); [lia|].
    rewrite El at 1. eapply perm_trans; [apply borders_rot|]. rewrite <- Er.
    replace (length l) with (S (length l - 1)) at 1 by (unfold zlen in *; lia). rewrite zseq_S, map_app. cbn [map].
    replace (cyc l (e + 1 + Z.of_nat (length l - 1))) with (cyc l e); [apply Permutation_refl|].
    replace (e + 1 + Z.of_nat (length l - 1)) with (e + 1 * zlen l) by (unfold zlen in *; lia).
    symmetry. apply cyc_add. intros ->. unfold zlen in Hl. cbn in Hl. lia. }
  destruct (G la ea La) as (P & EP & PP). destruct (G lb eb Lb) as (Q & EQ & PQ).
  unfold merged. rewrite EP, EQ. fold x y in PP |- *. rewrite <- O1, <- O2 in PQ. rewrite <- O1.
  eapply perm_trans; [apply Permutation_app; [exact PP|exact PQ]|].
  cbn [app]. rewrite !borders_steps.
  replace ((y :: P ++ [x]) ++ [y]) with ((y :: P) ++ x :: [y]) by (cbn [app]; rewrite <- app_assoc; reflexivity).
  replace ((x :: Q ++ [y]) ++ [x]) with ((x :: Q) ++ y :: [x]) by (cbn [app]; rewrite <- app_assoc; reflexivity).
  replace ((y :: P ++ x :: Q) ++ [y]) with ((y :: P) ++ x :: (Q ++ [y])) by (cbn [app]; rewrite <- app_assoc; reflexivity).
  rewrite (steps_join (y :: P) x [y]), (steps_join (x :: Q) y [x]), (steps_join (y :: P) x (Q ++ [y])).
  change (steps [x; y]) with [(x, y)]. change (steps [y; x]) with [(y, x)].
  rewrite <- app_assoc. eapply perm_trans; [apply Permutation_app_comm|]. cbn [app]. apply perm_skip.
  rewrite <- app_assoc. eapply perm_trans; [apply Permutation_app_comm|]. rewrite <- app_assoc. cbn [app].
  apply perm_skip. apply Permutation_refl.
Qed.
