(** The search loop of FindPath: parents are linked, closed nodes are expanded. *)
From Coq Require Import ZArith List Lia Permutation Bool.
From Verif.Base Require Import Res GoNum F32 Num Grid.
From Verif.Model Require Import Status Poly PolyRef MeshTypes Geom MeshLinks MeshTiles Node NodeQueue FindPath.
From Verif.Spec Require Import LinkSpec PathSpec.
From Verif.Proofs Require Import NodePoolProofs NodeQueueProofs OpenList LinkProofs SearchStep.
Import ListNotations.
Open Scope Z_scope.

Lemma foldM_pre : forall {S A} (f : S -> A -> res S) (I : list A -> S -> Prop) l s s',
  foldM f l s = Ok s' -> I [] s ->
  (forall pre x post s s', l = pre ++ x :: post -> I pre s -> f s x = Ok s' -> I (pre ++ [x]) s') -> I l s'.
Proof.
  intros S A f I l s s' E H0 Hstep.
  assert (G : forall post pre s, l = pre ++ post -> I pre s -> foldM f post s = Ok s' -> I l s').
  { induction post as [|x post IH]; intros pre s0 El Hi E0; cbn [foldM] in E0.
    - apply Ok_inj in E0. subst s0. rewrite app_nil_r in El. now subst.
    - apply bind_ok in E0 as (s1 & E1 & E0). apply (IH (pre ++ [x]) s1); [now rewrite <- app_assoc|eapply Hstep; eauto|exact E0]. }
  eapply (G l []); eauto.
Qed.

Lemma polygon_at_det : forall m r t p t' p', polygon_at m r t p -> polygon_at m r t' p' -> t = t' /\ p = p'.
Proof. intros m r t p t' p' [A B] [C D]. assert (t = t') by congruence. subst. split; congruence. Qed.

Section Inv.
Variables (m : NavMesh) (flt : QueryFilter) (startRef endRef : Z) (endPos : fvec).

Definition has_ref (np : NodePool) (r : Z) : Prop := exists k n, node_at np k n /\ nID n = r.
(** All neighbours of [r] have nodes. *)
Definition done (np : NodePool) (r : Z) : Prop := forall r', linked m r r' -> passes m flt r' -> has_ref np r'.

(** Closed nodes other than [x] are expanded, and none is the goal. *)
Record SInv (x : option nat) (s : Search) : Prop := {
  si_ok : SOk (sPool s) (sOpen s);
  si_flag : all_flagged (sPool s);
  si_root : exists n0, node_at (sPool s) 0 n0 /\ nID n0 = startRef;
  si_parent : forall k n, node_at (sPool s) k n -> (k = O /\ nPIdx n = 0) \/
    exists j nj, nPIdx n = Z.of_nat j + 1 /\ node_at (sPool s) j nj /\ linked m (nID nj) (nID n) /\ passes m flt (nID n);
  si_reach : forall k n, node_at (sPool s) k n -> exists l, corridor m flt startRef l /\ last l startRef = nID n;
  si_best : exists kb nb, sBest s = Z.of_nat kb /\ node_at (sPool s) kb nb;
  si_goal : forall k n, node_at (sPool s) k n -> nFlags n = 2 -> Some k <> x -> nID n <> endRef;
  si_done : sOut s = false -> forall k n, node_at (sPool s) k n -> nFlags n = 2 -> Some k <> x -> done (sPool s) (nID n);
  si_out : sOut s = true -> np_nodeCount (sPool s) = np_maxNodes (sPool s) /\
    exists k n r st, node_at (sPool s) k n /\ linked m (nID n) r /\ passes m flt r /\ ~ In (r, st) (keys (sPool s))
}.

Lemma last_cons : forall (l : list Z) y d, last (y :: l) d = last l y.
Proof. induction l as [|z l IH]; intros y d; [reflexivity|]. change (last (y :: z :: l) d) with (last (z :: l) d). rewrite (IH z d), (IH z y). reflexivity. Qed.
Lemma corridor_snoc : forall r l x, corridor m flt r l -> linked m (last l r) x -> passes m flt x -> corridor m flt r (l ++ [x]).
Proof.
  intros r l x. revert r. induction l as [|y l IH]; intros r H L P.
  - cbn. auto.
  - cbn [app corridor] in *. destruct H as (H1 & H2 & H3). split; [exact H1|]. split; [exact H2|]. apply IH; auto.
    now rewrite <- (last_cons l y r).
Qed.

(** Nodes stay and keep their polygon. *)
Definition ext (np np' : NodePool) : Prop := forall k n, node_at np k n -> exists n', node_at np' k n' /\ nID n' = nID n.
Lemma ext_has : forall np np' r, ext np np' -> has_ref np r -> has_ref np' r.
Proof. intros np np' r E (k & n & Hn & <-). destruct (E k n Hn) as (n' & Hn' & Ei). exists k, n'. auto. Qed.
Lemma ext_done : forall np np' r, ext np np' -> done np r -> done np' r.
Proof. intros np np' r E H r' L P. apply (ext_has np); auto. Qed.

Lemma stored_at : forall np np' k x, stored np np' k x -> 0 <= np_nodeCount np -> (k < length (np_nodes np))%nat ->
  (k <= Z.to_nat (np_nodeCount np))%nat ->
  (forall j y, node_at np' j y <-> (j = k /\ y = x) \/ (j <> k /\ node_at np j y)).
Proof.
  intros np np' k x (En & Em & Ec) Hc Hk Hkc j y. unfold node_at. rewrite En, Ec.
  destruct (Nat.eq_dec j k) as [->|N].
  - rewrite nth_error_upd_eq by exact Hk. split.
    + intros [_ H]. left. split; congruence.
    + intros [[_ ->]|[X _]]; [split; [lia|reflexivity]|congruence].
  - rewrite nth_error_upd_neq by congruence. split; [intros [A B]; right; repeat split; auto; lia|].
    intros [[X _]|[_ [A B]]]; [congruence|]. split; [lia|auto].
Qed.

Lemma keys_full : forall np np' more, pool_inv np -> pool_inv np' -> keys np' = keys np ++ more ->
  np_maxNodes np' = np_maxNodes np -> np_nodeCount np = np_maxNodes np -> keys np' = keys np /\ np_nodeCount np' = np_maxNodes np'.
Proof.
  intros np np' more H H' E M F. pose proof (used_length np H) as L. pose proof (used_length np' H') as L'.
  pose proof (f_equal (@length _) E) as EL. rewrite app_length in EL. unfold keys in EL. rewrite !map_length, L, L' in EL.
  pose proof (pi_count np' H'). pose proof (pi_count np H). destruct more as [|y more].
  - rewrite app_nil_r in E. cbn [length] in EL. split; [exact E|lia].
  - cbn [length] in EL. lia.
Qed.

Lemma visit_inv : forall b best bestRef bestTile bestPoly parent s l s',
  nID best = bestRef -> linked m bestRef (lRef l) \/ lRef l = 0 -> (fst parent = 0 \/ has_ref (sPool s) (fst parent)) ->
  SInv (Some b) s -> node_at (sPool s) b best ->
  visit_link m flt endRef endPos (Z.of_nat b) bestRef bestTile bestPoly parent s l = Ok s' ->
  SInv (Some b) s' /\ ext (sPool s) (sPool s') /\ (sOut s' = false -> sOut s = false) /\
  (sOut s' = false -> lRef l <> 0 -> passes m flt (lRef l) -> has_ref (sPool s') (lRef l)).
Proof.
  intros b best bestRef bestTile bestPoly parent s l s' Eb Hl Hpar HI Hb E. subst bestRef.
  pose proof (visit_visited m flt endRef endPos b best bestTile bestPoly parent s l s' (si_ok _ _ HI) (si_flag _ _ HI) Hb E) as V.
  clear E. assert (Erefl : ext (sPool s) (sPool s)) by (intros k n Hn; eauto).
  destruct V as [Sk|N0 Pa Nk Fu|s' k pos cost h t p N0 Hp Hq Hc Hk ST HS HL HK HO HB].
  - split; [exact HI|]. split; [exact Erefl|]. split; [auto|]. intros _ N0 (t & p & Hp & Hq).
    destruct Sk as [Sk|[Sk|[(t' & p' & Hp' & Hq')|(k & n & Hn & Hid)]]].
    + contradiction.
    + destruct Hpar as [Hz|Hh]; [congruence|]. now rewrite Sk.
    + destruct (polygon_at_det _ _ _ _ _ _ Hp Hp') as [-> ->]. congruence.
    + exists k, n. auto.
  - split; [|split; [exact Erefl|split; [discriminate|discriminate]]].
    destruct HI as [I1 I2 I3 I4 IR I5 I6 I7 I8]. constructor; cbn [sPool sOpen sBest sBestCost sOut]; auto; [discriminate|].
    intros _. split; [exact Fu|]. exists b, best, (lRef l), (cross l). destruct Hl as [Hl|Hl]; [auto|contradiction].
  - pose proof (si_ok _ _ HI) as SO. pose proof (so_pool _ _ SO) as HP. pose proof (so_pool _ _ HS) as HP'.
    pose proof (pi_count _ HP) as PC. pose proof (pi_nodes _ HP) as PN. pose proof (pi_max _ HP) as PM.
    assert (Kr : (k < length (np_nodes (sPool s)))%nat /\ (k <= Z.to_nat (np_nodeCount (sPool s)))%nat).
    { destruct Hk as [(n & [A B] & _)|(-> & L & old & st & Ho & _)]; [split; [apply nth_error_Some; congruence|lia]|split; [apply nth_error_Some; congruence|lia]]. }
    pose proof (stored_at _ _ _ _ ST ltac:(lia) (proj1 Kr) (proj2 Kr)) as NA.
    set (x := entry_of pos cost h b (cross l) (lRef l)) in *.
    assert (Ek : forall n, node_at (sPool s) k n -> nID n = lRef l).
    { intros n Hn. destruct Hk as [(n' & Hn' & Kn & _)|(-> & _)]; [|destruct Hn as [Hn _]; lia].
      rewrite (node_at_det _ _ _ _ Hn Hn'). unfold nkey in Kn. congruence. }
    assert (EX : ext (sPool s) (sPool s')).
    { intros j n Hn. destruct (Nat.eq_dec j k) as [->|N]; [exists x; split; [apply NA; auto|symmetry; now apply Ek]|exists n; split; [apply NA; auto|reflexivity]]. }
    assert (HK0 : has_ref (sPool s') (lRef l)) by (exists k, x; split; [apply NA; auto|reflexivity]).
    split; [|split; [exact EX|split; [congruence|auto]]]. constructor.
    + exact HS.
    + intros j y Hy. apply NA in Hy. destruct Hy as [[-> ->]|[_ Hy]]; [discriminate|]. exact (si_flag _ _ HI j y Hy).
    + destruct (si_root _ _ HI) as (n0 & H0 & E0). destruct (EX _ _ H0) as (n0' & H0' & E0'). exists n0'. split; congruence.
    + intros j y Hy. apply NA in Hy. destruct Hy as [[-> ->]|[Nj Hy]].
      * right. destruct (EX _ _ Hb) as (best' & Hb' & Eb'). exists b, best'. cbn [x entry_of nPIdx nID]. split; [reflexivity|]. split; [exact Hb'|].
        rewrite Eb'. destruct Hl as [Hl|Hl]; [|contradiction]. split; [exact Hl|]. exists t, p. auto.
      * destruct (si_parent _ _ HI j y Hy) as [R|(i & ni & Ep & Hi & Li & Pa)]; [now left|right].
        destruct (EX _ _ Hi) as (ni' & Hi' & Ei'). exists i, ni'. rewrite Ei'. auto.
    + intros j y Hy. apply NA in Hy. destruct Hy as [[-> ->]|[Nj Hy]]; [|exact (si_reach _ _ HI j y Hy)].
      destruct (si_reach _ _ HI b best Hb) as (l0 & C0 & E0). exists (l0 ++ [lRef l]). cbn [x entry_of nID]. rewrite last_last. split; [|reflexivity].
      destruct Hl as [Hl|Hl]; [|contradiction]. apply corridor_snoc; [exact C0|now rewrite E0|exists t, p; auto].
    + destruct (si_best _ _ HI) as (kb & nb & Ebst & Hkb). destruct (F32.flt h (sBestCost s)); injection HB as HB _.
      * exists k, x. split; [exact HB|apply NA; auto].
      * destruct (EX _ _ Hkb) as (nb' & Hkb' & _). exists kb, nb'. split; congruence.
    + intros j y Hy Fy Nx. apply NA in Hy. destruct Hy as [[-> ->]|[Nj Hy]]; [discriminate|]. exact (si_goal _ _ HI j y Hy Fy Nx).
    + intros Ho j y Hy Fy Nx. apply NA in Hy. destruct Hy as [[-> ->]|[Nj Hy]]; [discriminate|].
      apply (ext_done _ _ _ EX). apply (si_done _ _ HI) with (k := j); auto. congruence.
    + intros Ho. rewrite HO in Ho. destruct (si_out _ _ HI Ho) as (Fu & j & n & r & st & Hn & Li & Pa & Nk).
      destruct HK as [more HK]. destruct (keys_full _ _ more HP HP' HK (proj1 (proj2 ST)) Fu) as [KE CE].
      split; [exact CE|]. destruct (EX _ _ Hn) as (n' & Hn' & En'). exists j, n', r, st. rewrite En', KE. auto.
Qed.

Lemma parent_has : forall np n side, parent_side m np n = Ok side -> 0 <= nPIdx n < 65536 ->
  (nPIdx n <> 0 -> exists j nj, nPIdx n = Z.of_nat j + 1 /\ node_at np j nj) -> fst side = 0 \/ has_ref np (fst side).
Proof.
  intros np n side E Hr Hp. unfold parent_side in E. apply bind_ok in E as (r & E1 & E).
  destruct (Z.eqb_spec r 0) as [->|N]; [apply Ok_inj in E; subst; now left|]. apply bind_ok in E as (tp & _ & E). apply Ok_inj in E. subst side. cbn [fst].
  destruct (Z.eqb_spec (nPIdx n) 0) as [Z0|Z0]; [apply Ok_inj in E1; congruence|]. right. destruct (Hp Z0) as (j & nj & Ep & Hj).
  rewrite Ep in E1. unfold pool_NodeAtIdx in E1. rewrite i32_id in E1 by (unfold is_i32; lia).
  destruct (Z.eqb_spec (Z.of_nat j + 1) 0); [lia|]. replace (Z.of_nat j + 1 - 1) with (Z.of_nat j) in E1 by lia.
  rewrite (node_at_get _ _ _ Hj) in E1. cbn [bind of_option] in E1. rewrite (node_at_get _ _ _ Hj) in E1. cbn [bind] in E1. apply Ok_inj in E1.
  exists j, nj. auto.
Qed.

Lemma parent_idx : forall x s k n, SInv x s -> node_at (sPool s) k n ->
  0 <= nPIdx n < 65536 /\ (nPIdx n <> 0 -> exists j nj, nPIdx n = Z.of_nat j + 1 /\ node_at (sPool s) j nj).
Proof.
  intros x s k n HI Hn. pose proof (so_pool _ _ (si_ok _ _ HI)) as HP. pose proof (pi_count _ HP). pose proof (pi_max _ HP).
  destruct (si_parent _ _ HI k n Hn) as [[_ ->]|(j & nj & Ep & Hj & _)]; [split; [lia|congruence]|].
  split; [|eauto]. destruct Hj as [Hj _]. lia.
Qed.

Lemma expand_inv : forall s b best s', SInv (Some b) s -> node_at (sPool s) b best -> nID best <> endRef ->
  expand m flt endRef endPos s (Z.of_nat b) = Ok s' -> SInv None s' /\ ext (sPool s) (sPool s').
Proof.
  intros s b best s' HI Hb Ng E. unfold expand in E. rewrite (node_at_get _ _ _ Hb) in E. cbn [bind] in E.
  apply bind_ok in E as ([t p] & Ht & E). apply TileAndPolyByRefUnsafe_ok in Ht. apply bind_ok in E as (par & Ep & E).
  destruct (each_link_ok _ _ _ _ _ _ E) as [c Hc]. rewrite (each_link_chain _ _ _ _ c _ Hc) in E by (unfold link_fuel; pose proof (LChain_short _ _ _ Hc); lia).
  destruct (parent_idx _ _ _ _ HI Hb) as [Pr Pp]. pose proof (parent_has _ _ _ Ep Pr Pp) as Hpar.
  assert (Hlk : forall l, In l (at_slots (tdLinks (tD t)) c) -> linked m (nID best) (lRef l) \/ lRef l = 0).
  { intros l Hl. destruct (Z.eq_dec (lRef l) 0) as [Z0|Z0]; [now right|left]. split; [exact Z0|]. exists t, p, c. split; [exact Ht|]. split; [exact Hc|].
    eapply in_at_slots; eauto. }
  set (I := fun (pre : list Link) (s1 : Search) => SInv (Some b) s1 /\ ext (sPool s) (sPool s1) /\
     (sOut s1 = false -> forall l, In l pre -> lRef l <> 0 -> passes m flt (lRef l) -> has_ref (sPool s1) (lRef l))).
  assert (R : I (at_slots (tdLinks (tD t)) c) s').
  { eapply (foldM_pre _ I); [exact E| |].
    - split; [exact HI|]. split; [intros k n Hn; eauto|]. intros _ l [].
    - intros pre l post s1 s2 Ea (H1 & H2 & H3) V. destruct (H2 _ _ Hb) as (best1 & Hb1 & Eb1).
      destruct (visit_inv b best1 (nID best) t p par s1 l s2 Eb1) as (R1 & R2 & R3 & R4); auto.
      + apply Hlk. rewrite Ea. apply in_or_app. right. now left.
      + destruct Hpar as [Z0|Hh]; [now left|right]. eapply ext_has; eauto.
      + split; [exact R1|]. split.
        * intros k n Hn. destruct (H2 k n Hn) as (n1 & Hn1 & E1). destruct (R2 k n1 Hn1) as (n2 & Hn2 & E2). exists n2. split; congruence.
        * intros Ho l' Hl' N0 Pa. apply in_app_or in Hl'. destruct Hl' as [Hl'|[<-|[]]]; [|auto]. apply (ext_has _ _ _ R2). apply H3; auto. }
  destruct R as (H1 & H2 & H3). split; [|exact H2]. destruct (H2 _ _ Hb) as (best' & Hb' & Eb').
  destruct H1 as [I1 I2 I3 I4 IR I5 I6 I7 I8]. constructor; auto.
  - intros k n Hn Fn _. destruct (Nat.eq_dec k b) as [->|N]; [|apply (I6 k n Hn Fn); congruence].
    rewrite (node_at_det _ _ _ _ Hn Hb'), Eb'. exact Ng.
  - intros Ho k n Hn Fn _. destruct (Nat.eq_dec k b) as [->|N]; [|apply (I7 Ho k n Hn Fn); congruence].
    rewrite (node_at_det _ _ _ _ Hn Hb'), Eb'. intros r' (N0 & t' & p' & c' & Hp' & Hc' & Hin) Pa.
    destruct (polygon_at_det _ _ _ _ _ _ Ht Hp') as [<- <-]. rewrite (LChain_det _ _ _ Hc' _ Hc) in Hin.
    destruct (at_slots_in _ _ _ _ Hc Hin) as (l & Hl & <-). apply H3; auto.
Qed.

(** Taking the best node. *)
Lemma pop_inv : forall x s, SInv x s -> q_empty (sOpen s) = false ->
  exists s' b n, pop_best s = Ok (s', Z.of_nat b) /\ node_at (sPool s) b n /\ nFlags n = 1 /\
    np_nodes (sPool s') = upd (np_nodes (sPool s)) b (with_flags 2 n) /\ np_nodeCount (sPool s') = np_nodeCount (sPool s) /\
    np_maxNodes (sPool s') = np_maxNodes (sPool s) /\ keys (sPool s') = keys (sPool s) /\
    SOk (sPool s') (sOpen s') /\ length (q_heap (sOpen s')) = length (q_heap (sOpen s)) /\
    q_size (sOpen s) = Datatypes.S (q_size (sOpen s')) /\
    sBest s' = sBest s /\ sBestCost s' = sBestCost s /\ sOut s' = sOut s.
Proof.
  intros x s HI He. pose proof (si_ok _ _ HI) as SO. destruct SO as [HP HF (qs & HQ & Hnd & Hq & Hfl) HC].
  unfold pop_best. destruct (pop_any (total_of (sPool s)) (sOpen s) (map Z.of_nat qs) HQ) as (q' & xb & s' & E & HQ' & Hperm & HL).
  - now apply all_readable.
  - unfold q_empty in He. apply Nat.eqb_neq in He. exact He.
  - rewrite E. cbn [bind].
    assert (Hin : In xb (map Z.of_nat qs)) by (eapply Permutation_in; [symmetry; exact Hperm|now left]).
    apply in_map_iff in Hin. destruct Hin as (b & <- & Hb). destruct (node_ex _ b HP (Hq b Hb)) as [n Hn].
    assert (Fn : nFlags n = 1) by (apply (Hfl b n Hn); exact Hb).
    destruct (update_at (sPool s) b n (fun n => with_flags (Z.lor (Z.land (nFlags n) 254) nodeClosed) n) HP Hn) as (np' & Eu & HP' & Ek & En & Em & Ec); [reflexivity|].
    rewrite Eu. cbn [bind]. rewrite Fn in En. change (Z.lor (Z.land 1 254) nodeClosed) with 2 in En.
    eexists _, b, n. split; [reflexivity|]. cbn [sPool sOpen sBest sBestCost sOut].
    assert (exists qs', s' = map Z.of_nat qs' /\ Permutation qs (b :: qs')) as (qs' & -> & Hp').
    { apply Permutation_sym, Permutation_map_inv in Hperm. destruct Hperm as (l & El & Pl). destruct l as [|b' l]; [discriminate|]. cbn [map] in El. injection El as Eb ->.
      apply Nat2Z.inj in Eb. subst b'. exists l. auto. }
    pose proof (Permutation_NoDup Hp' Hnd) as Hnd'. inversion Hnd' as [|? ? Nb Hnd'']; subst.
    pose proof (queued_length _ _ HQ) as L1. pose proof (queued_length _ _ HQ') as L2. rewrite map_length in L1, L2.
    pose proof (Permutation_length Hp') as L3. cbn [length] in L3.
    split; [exact Hn|]. split; [exact Fn|]. split; [exact En|]. split; [exact Ec|]. split; [exact Em|]. split; [exact Ek|].
    split; [|split; [exact HL|split; [lia|auto]]].
    constructor.
    + exact HP'.
    + intros j y Hy. apply (node_at_upd _ _ _ j _ _ Hn En Ec) in Hy. destruct Hy as [[-> ->]|[_ Hy]]; [right; right; reflexivity|eauto].
    + exists qs'. split; [exact HQ'|]. split; [exact Hnd''|].
      assert (Hin' : forall j, In j qs' <-> In j qs /\ j <> b).
      { intros j. split.
        - intros Hj. split; [eapply Permutation_in; [symmetry; exact Hp'|now right]|intros ->; contradiction].
        - intros [Hj Nj]. apply (Permutation_in _ Hp') in Hj. destruct Hj; [congruence|assumption]. }
      split; [intros j Hj; rewrite Ec; apply Hq, Hin', Hj|].
      intros j y Hy. apply (node_at_upd _ _ _ j _ _ Hn En Ec) in Hy. rewrite Hin'. destruct Hy as [[-> ->]|[Nj Hy]].
      * cbn [with_flags nFlags]. split; [intros [_ X]; congruence|discriminate].
      * rewrite (Hfl j y Hy). tauto.
    + rewrite Em, HL. exact HC.
Qed.

Lemma pop_SInv : forall s, SInv None s -> q_empty (sOpen s) = false ->
  exists s' b n, pop_best s = Ok (s', Z.of_nat b) /\ SInv (Some b) s' /\ node_at (sPool s') b n.
Proof.
  intros s HI He. destruct (pop_inv None s HI He) as (s' & b & n & E & Hn & Fn & En & Ec & Em & Ek & HS & HL & Hsz & B1 & B2 & B3).
  exists s', b, (with_flags 2 n). split; [exact E|].
  pose proof (fun j y => node_at_upd _ _ _ j _ _ Hn En Ec y) as NA.
  assert (EX : ext (sPool s) (sPool s')).
  { intros j y Hy. destruct (Nat.eq_dec j b) as [->|N].
    - exists (with_flags 2 n). split; [apply NA; auto|]. now rewrite (node_at_det _ _ _ _ Hy Hn).
    - exists y. split; [apply NA; auto|reflexivity]. }
  split; [|apply NA; auto]. constructor.
  - exact HS.
  - intros j y Hy. apply NA in Hy. destruct Hy as [[-> ->]|[_ Hy]]; [discriminate|exact (si_flag _ _ HI j y Hy)].
  - destruct (si_root _ _ HI) as (n0 & H0 & E0). destruct (EX _ _ H0) as (n0' & H0' & E0'). exists n0'. split; congruence.
  - assert (PI : forall j y, node_at (sPool s') j y -> exists y0, node_at (sPool s) j y0 /\ nPIdx y = nPIdx y0 /\ nID y = nID y0).
    { intros j y Hy. apply NA in Hy. destruct Hy as [[-> ->]|[_ Hy]]; [exists n|exists y]; auto. }
    intros j y Hy. destruct (PI j y Hy) as (y0 & Hy0 & E1 & E2).
    destruct (si_parent _ _ HI j y0 Hy0) as [[-> R]|(i & ni & Ep & Hi & Li & Pa)]; [left; split; congruence|right].
    destruct (EX _ _ Hi) as (ni' & Hi' & Ei'). exists i, ni'. rewrite Ei', E1, E2. auto.
  - intros j y Hy. apply NA in Hy. destruct Hy as [[-> ->]|[_ Hy]]; [exact (si_reach _ _ HI b n Hn)|exact (si_reach _ _ HI j y Hy)].
  - destruct (si_best _ _ HI) as (kb & nb & Ebst & Hkb). destruct (EX _ _ Hkb) as (nb' & Hkb' & _). exists kb, nb'. split; congruence.
  - intros j y Hy Fy Nx. apply NA in Hy. destruct Hy as [[-> ->]|[_ Hy]]; [congruence|]. apply (si_goal _ _ HI j y Hy Fy). discriminate.
  - intros Ho j y Hy Fy Nx. apply NA in Hy. destruct Hy as [[-> ->]|[_ Hy]]; [congruence|]. apply (ext_done _ _ _ EX).
    apply (si_done _ _ HI ltac:(congruence) j y Hy Fy). discriminate.
  - intros Ho. rewrite B3 in Ho. destruct (si_out _ _ HI Ho) as (Fu & j & y & r & st & Hy & Li & Pa & Nk).
    split; [congruence|]. destruct (EX _ _ Hy) as (y' & Hy' & Ey'). exists j, y', r, st. rewrite Ey', Ek. auto.
Qed.

(** The result of the loop: the goal was taken, or everything was expanded. *)
Definition Found (s : Search) : Prop :=
  exists b n, SInv (Some b) s /\ sBest s = Z.of_nat b /\ node_at (sPool s) b n /\ nID n = endRef.
Lemma search_inv : forall fuel s s', SInv None s -> search_loop fuel m flt endRef endPos s = Ok s' ->
  Found s' \/ (SInv None s' /\ q_empty (sOpen s') = true).
Proof.
  induction fuel as [|f IH]; intros s s' HI E; cbn [search_loop] in E.
  - destruct (q_empty (sOpen s)) eqn:Q; [|discriminate]. apply Ok_inj in E. subst s'. right. auto.
  - destruct (q_empty (sOpen s)) eqn:Q; [apply Ok_inj in E; subst s'; right; auto|].
    destruct (pop_SInv s HI Q) as (s1 & b & n & Ep & HI1 & Hn). rewrite Ep in E. cbn [bind] in E. rewrite (node_at_get _ _ _ Hn) in E. cbn [bind] in E.
    destruct (Z.eqb_spec (nID n) endRef) as [Eg|Eg].
    + apply Ok_inj in E. subst s'. left. exists b, n. cbn [sBest sPool]. split; [|auto].
      destruct HI1 as [I1 I2 I3 I4 IR I5 I6 I7 I8]. constructor; cbn [sPool sOpen sBest sOut]; auto. exists b, n. auto.
    + apply bind_ok in E as (s2 & Ee & E). destruct (expand_inv _ _ _ _ HI1 Hn Eg Ee) as [HI2 _]. eapply IH; eauto.
Qed.

(** ** Paths *)
(** The polygons from the root to node [k]. *)
Inductive Anc (np : NodePool) : nat -> list Z -> Prop :=
| Anc_root : forall k n, node_at np k n -> nPIdx n = 0 -> Anc np k [nID n]
| Anc_step : forall k n j l, node_at np k n -> nPIdx n = Z.of_nat j + 1 -> Anc np j l -> Anc np k (l ++ [nID n]).

Lemma Anc_corridor : forall x s k l, SInv x s -> Anc (sPool s) k l ->
  exists l', l = startRef :: l' /\ corridor m flt startRef l' /\ exists n, node_at (sPool s) k n /\ last l' startRef = nID n.
Proof.
  intros x s k l HI H. induction H as [k n Hn Hp|k n j l Hn Hp H IH].
  - destruct (si_parent _ _ HI k n Hn) as [[-> _]|(j & nj & Ep & _)]; [|lia].
    destruct (si_root _ _ HI) as (n0 & H0 & E0). rewrite (node_at_det _ _ _ _ Hn H0) in *. rewrite E0. exists []. split; [reflexivity|]. split; [exact I|]. exists n0. auto.
  - destruct IH as (l' & -> & Hc & nj & Hj & El). exists (l' ++ [nID n]). split; [reflexivity|]. split.
    + destruct (si_parent _ _ HI k n Hn) as [[_ Z0]|(i & ni & Ep & Hi & Li & Pa)]; [lia|]. assert (i = j) by lia. subst i.
      apply corridor_snoc; auto. rewrite El, <- (node_at_det _ _ _ _ Hi Hj). exact Li.
    + exists n. split; [exact Hn|]. rewrite last_last. reflexivity.
Qed.

Lemma parent_of_at : forall x s k n, SInv x s -> node_at (sPool s) k n ->
  (nPIdx n = 0 /\ parent_of (sPool s) (Z.of_nat k) = Ok None) \/
  exists j nj, nPIdx n = Z.of_nat j + 1 /\ node_at (sPool s) j nj /\ parent_of (sPool s) (Z.of_nat k) = Ok (Some (Z.of_nat j)).
Proof.
  intros x s k n HI Hn. destruct (parent_idx _ _ _ _ HI Hn) as [Pr Pp]. unfold parent_of. rewrite (node_at_get _ _ _ Hn). cbn [bind].
  rewrite i32_id by (unfold is_i32; lia). unfold pool_NodeAtIdx. destruct (Z.eqb_spec (nPIdx n) 0) as [Z0|Z0]; [left; auto|right].
  destruct (Pp Z0) as (j & nj & Ep & Hj). exists j, nj. split; [exact Ep|]. split; [exact Hj|]. rewrite Ep.
  replace (Z.of_nat j + 1 - 1) with (Z.of_nat j) by lia. rewrite (node_at_get _ _ _ Hj). reflexivity.
Qed.

Lemma path_length_anc : forall x s fuel k n len, SInv x s -> node_at (sPool s) k n ->
  path_length fuel (sPool s) (Z.of_nat k) = Ok len -> exists l, Anc (sPool s) k l /\ len = zlen l.
Proof.
  intros x s fuel. induction fuel as [|f IH]; intros k n len HI Hn E; cbn [path_length] in E; [discriminate|].
  destruct (parent_of_at _ _ _ _ HI Hn) as [[Z0 P]|(j & nj & Ep & Hj & P)]; rewrite P in E; cbn [bind] in E.
  - apply Ok_inj in E. subst. exists [nID n]. split; [now constructor|reflexivity].
  - apply bind_ok in E as (len' & E' & E). apply Ok_inj in E. subst. destruct (IH j nj len' HI Hj E') as (l & Hl & ->).
    exists (l ++ [nID n]). split; [econstructor; eauto|]. now rewrite zlen_snoc.
Qed.

Lemma Anc_nonempty : forall np k l, Anc np k l -> l <> [].
Proof. intros np k l H. destruct H; [discriminate|]. intros E. apply app_eq_nil in E. destruct E; discriminate. Qed.

Lemma ascend_anc : forall x s over k l, SInv x s -> Anc (sPool s) k l -> (over < length l)%nat ->
  exists k', ascend over (sPool s) (Some (Z.of_nat k)) = Ok (Some (Z.of_nat k')) /\ Anc (sPool s) k' (firstn (length l - over) l).
Proof.
  intros x s over. induction over as [|o IH]; intros k l HI H Ho; cbn [ascend].
  - exists k. split; [reflexivity|]. now rewrite Nat.sub_0_r, firstn_all.
  - cbn [of_option bind]. destruct H as [k n Hn Hp|k n j l Hn Hp H]; [cbn [length] in Ho; lia|].
    destruct (parent_of_at _ _ _ _ HI Hn) as [[Z0 P]|(i & ni & Ep & Hi & P)]; [lia|]. assert (i = j) by lia. subst i. rewrite P. cbn [bind].
    rewrite app_length in Ho. cbn [length] in Ho. destruct (IH j l HI H ltac:(lia)) as (k' & E & A). exists k'. split; [exact E|].
    rewrite app_length. cbn [length]. replace (length l + 1 - Datatypes.S o)%nat with (length l - o)%nat by lia.
    rewrite firstn_app. replace (length l - o - length l)%nat with O by lia. cbn [firstn]. rewrite app_nil_r. exact A.
Qed.

Lemma write_anc : forall x s k l path, SInv x s -> Anc (sPool s) k l -> (length l <= length path)%nat ->
  write_path (length l) (sPool s) (Some (Z.of_nat k)) path = Ok (l ++ skipn (length l) path).
Proof.
  intros x s k l path HI H. revert path. induction H as [k n Hn Hp|k n j l Hn Hp H IH]; intros path Hl.
  - cbn [length write_path of_option bind]. rewrite (node_at_get _ _ _ Hn). cbn [bind]. cbn [length] in Hl. destruct path as [|y path]; [cbn [length] in Hl; lia|].
    rewrite set_in_range by (unfold zlen; cbn [length]; lia). cbn [bind Z.of_nat Z.to_nat upd].
    destruct (parent_of_at _ _ _ _ HI Hn) as [[Z0 P]|(i & ni & Ep & Hi & P)]; [|lia]. rewrite P. reflexivity.
  - rewrite app_length in *. cbn [length] in *. rewrite Nat.add_1_r in *. cbn [write_path of_option bind]. rewrite (node_at_get _ _ _ Hn). cbn [bind].
    rewrite set_in_range by (unfold zlen; lia). cbn [bind]. rewrite Nat2Z.id.
    destruct (parent_of_at _ _ _ _ HI Hn) as [[Z0 P]|(i & ni & Ep & Hi & P)]; [lia|]. assert (i = j) by lia. subst i. rewrite P. cbn [bind].
    rewrite IH by (rewrite upd_length; lia). f_equal. rewrite <- app_assoc. f_equal. cbn [app]. clear -Hl.
    revert path Hl. induction l as [|z l IH]; intros [|y path] Hl; cbn [length] in *; try lia; [reflexivity|].
    cbn [upd skipn]. rewrite IH by lia. destruct path; reflexivity.
Qed.

(** Path reconstruction writes the prefix of the path that fits. *)
Lemma pathToNode_spec : forall x s k l path, SInv x s -> Anc (sPool s) k l -> path <> [] ->
  path_length (pool_fuel (sPool s)) (sPool s) (Z.of_nat k) = Ok (zlen l) ->
  pathToNode (sPool s) (Z.of_nat k) path =
    Ok (firstn (length path) l ++ skipn (length l) path, Z.min (zlen l) (zlen path),
        if zlen l >? zlen path then Z.lor Success BufferTooSmall else Success).
Proof.
  intros x s k l path HI H Hp E. unfold pathToNode. rewrite E. cbn [bind].
  assert (Lp : (0 < length path)%nat) by (destruct path; [congruence|cbn [length]; lia]).
  pose proof (Anc_nonempty _ _ _ H) as Nl. assert (Ll : (0 < length l)%nat) by (destruct l; [congruence|cbn [length]; lia]).
  set (over := Z.to_nat (zlen l - zlen path)). assert (Ho : over = (length l - length path)%nat) by (unfold over, zlen; lia).
  destruct (ascend_anc _ _ over _ _ HI H ltac:(lia)) as (k' & -> & A). cbn [bind].
  replace (Z.to_nat (zlen l) - over)%nat with (length (firstn (length l - over) l)) by (rewrite firstn_length; unfold zlen; lia).
  rewrite (write_anc _ _ _ _ _ HI A) by (rewrite firstn_length; lia). cbn [bind].
  assert (EP : firstn (length l - over) l ++ skipn (length (firstn (length l - over) l)) path = firstn (length path) l ++ skipn (length l) path).
  { rewrite firstn_length. destruct (Nat.le_gt_cases (length l) (length path)) as [L|L].
    - replace (length l - over)%nat with (length l) by lia. rewrite Nat.min_id, firstn_all, (firstn_all2 l) by lia. reflexivity.
    - replace (length l - over)%nat with (length path) by lia. rewrite !skipn_all2 by lia. reflexivity. }
  rewrite EP. destruct (Z.gtb_spec (zlen l) (zlen path)) as [G|G]; do 2 f_equal; f_equal; lia.
Qed.
End Inv.
