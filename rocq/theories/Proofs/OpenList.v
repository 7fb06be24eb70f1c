(** The open list without assumptions about the order of the totals (which may be NaN): the
    operations return and keep the multiset of queued nodes. *)
From Coq Require Import ZArith List Lia Permutation Bool.
From Verif.Base Require Import Res GoNum F32.
From Verif.Model Require Import Node NodeQueue.
From Verif.Proofs Require Import NodeQueueProofs.
Import ListNotations.

Section Open.
Variable tot : Z -> res f32.
Definition readable (x : Z) : Prop := exists t, tot x = Ok t.

Lemma bubble_any : forall fuel heap n i node,
  i <= fuel -> i < n -> n <= length heap ->
  (forall k, k < n -> k <> i -> readable (nth k heap 0%Z)) -> readable node ->
  exists heap', bubbleUp fuel tot heap i node = Ok heap' /\ length heap' = length heap /\
    Permutation (firstn n heap') (upd (firstn n heap) i node).
Proof.
  assert (End : forall (heap : list Z) n i node, i < n -> n <= length heap ->
    exists heap', setn heap i node = Ok heap' /\ length heap' = length heap /\
      Permutation (firstn n heap') (upd (firstn n heap) i node)).
  { intros heap n i node Hi Hn. unfold setn. destruct (Nat.ltb_spec i (length heap)); [|lia].
    eexists. split; [reflexivity|]. rewrite upd_length, firstn_upd by lia. auto. }
  induction fuel as [|fuel IH]; intros heap n i node Hf Hi Hn Hg Hgn.
  - assert (i = 0) by lia. subst. cbn [bubbleUp]. now apply End.
  - destruct i as [|i]; [now apply End|]. cbn [bubbleUp]. set (p := Nat.div (Datatypes.S i - 1) 2).
    assert (Hp : p < Datatypes.S i) by (change p with (par (Datatypes.S i)); apply par_lt; lia).
    rewrite getn_nth by lia. cbn [bind]. destruct (Hg p ltac:(lia) ltac:(lia)) as [tp ->]. destruct Hgn as [tn En]. rewrite En. cbn [bind].
    destruct (fgt tp tn); [|now apply End].
    unfold setn at 1. destruct (Nat.ltb_spec (Datatypes.S i) (length heap)); [|lia]. cbn [bind].
    destruct (IH (upd heap (Datatypes.S i) (nth p heap 0%Z)) n p node) as (h' & E & L & P); try lia.
    + rewrite upd_length. lia.
    + intros k Hk Nk. rewrite nth_upd. destruct (Nat.eqb k (Datatypes.S i) && _) eqn:C; [apply Hg; lia|].
      apply Hg; [lia|]. intros ->. rewrite Nat.eqb_refl in C. destruct (Nat.ltb_spec (Datatypes.S i) (length heap)); [discriminate|lia].
    + now exists tn.
    + rewrite upd_length in L. exists h'. split; [exact E|]. split; [exact L|]. etransitivity; [exact P|].
      rewrite firstn_upd by lia. rewrite <- (nth_firstn heap n) by lia. apply upd_move; rewrite ?firstn_length; lia.
Qed.

Lemma trickle_any : forall fuel heap n i node,
  n <= fuel + i -> i < n -> n <= length heap ->
  (forall k, k < n -> k <> i -> readable (nth k heap 0%Z)) -> readable node ->
  exists heap', trickleDown fuel tot heap n i node = Ok heap' /\ length heap' = length heap /\
    Permutation (firstn n heap') (upd (firstn n heap) i node).
Proof.
  induction fuel as [|fuel IH]; intros heap n i node Hf Hi Hn Hg Hgn; [lia|].
  cbn [trickleDown]. destruct (Nat.ltb_spec (i * 2 + 1) n) as [Hc|Hc]; [|apply bubble_any; auto].
  assert (Sel : exists c, (if Nat.ltb (i * 2 + 1 + 1) n
      then let* a := getn heap (i * 2 + 1) in let* b := getn heap (i * 2 + 1 + 1) in
           let* ta := tot a in let* tb := tot b in Ok (if fgt ta tb then i * 2 + 1 + 1 else i * 2 + 1)
      else Ok (i * 2 + 1)) = Ok c /\ i < c < n).
  { destruct (Nat.ltb_spec (i * 2 + 1 + 1) n) as [H2|H2].
    - rewrite !getn_nth by lia. cbn [bind]. destruct (Hg (i * 2 + 1) ltac:(lia) ltac:(lia)) as [ta ->].
      destruct (Hg (i * 2 + 1 + 1) ltac:(lia) ltac:(lia)) as [tb ->]. cbn [bind]. destruct (fgt ta tb); eexists; (split; [reflexivity|lia]).
    - eexists; split; [reflexivity|lia]. }
  destruct Sel as (c & -> & Hcr). cbn [bind]. rewrite getn_nth by lia. cbn [bind].
  unfold setn. destruct (Nat.ltb_spec i (length heap)); [|lia]. cbn [bind].
  destruct (IH (upd heap i (nth c heap 0%Z)) n c node) as (h' & E & L & P); try lia.
  - rewrite upd_length. lia.
  - intros k Hk Nk. rewrite nth_upd. destruct (Nat.eqb k i && _) eqn:C; [apply Hg; lia|].
    apply Hg; [lia|]. intros ->. rewrite Nat.eqb_refl in C. destruct (Nat.ltb_spec i (length heap)); [discriminate|lia].
  - exact Hgn.
  - rewrite upd_length in L. exists h'. split; [exact E|]. split; [exact L|]. etransitivity; [exact P|].
    rewrite firstn_upd by lia. rewrite <- (nth_firstn heap n) by lia. apply upd_move; rewrite ?firstn_length; lia.
Qed.

(** The queued nodes are [s]. *)
Definition Queued (q : nodeQueue) (s : list Z) : Prop :=
  q_size q <= length (q_heap q) /\ Permutation (firstn (q_size q) (q_heap q)) s.

Lemma queued_nth : forall q s k, Queued q s -> k < q_size q -> In (nth k (q_heap q) 0%Z) s.
Proof.
  intros q s k [L P] Hk. eapply Permutation_in; [exact P|]. apply nth_In_firstn; lia.
Qed.
Lemma queued_length : forall q s, Queued q s -> length s = q_size q.
Proof. intros q s [L P]. apply Permutation_length in P. rewrite firstn_length in P. lia. Qed.

Lemma push_any : forall q s x, Queued q s -> q_size q < length (q_heap q) ->
  (forall y, In y s -> readable y) -> readable x ->
  exists q', q_push tot q x = Ok q' /\ Queued q' (x :: s) /\ length (q_heap q') = length (q_heap q).
Proof.
  intros q s x HQ Hc Hs Hx. unfold q_push.
  destruct (bubble_any (q_size q) (q_heap q) (Datatypes.S (q_size q)) (q_size q) x) as (h' & E & L & P); try lia.
  - intros k Hk Nk. apply Hs. eapply queued_nth; [exact HQ|lia].
  - exact Hx.
  - rewrite E. cbn [bind]. eexists. split; [reflexivity|]. cbn [q_heap q_size]. split; [|exact L].
    unfold Queued. cbn [q_heap q_size]. split; [lia|]. etransitivity; [exact P|].
    etransitivity; [apply upd_del; rewrite firstn_length; lia|]. constructor. destruct HQ as [_ HP].
    etransitivity; [|exact HP]. clear -Hc.
    revert Hc. generalize (q_heap q) as l. generalize (q_size q) as n.
    induction n as [|n IH]; intros [|y l] H; cbn [length] in H; try lia; cbn [firstn del].
    + constructor.
    + constructor. apply IH. lia.
Qed.

Lemma pop_any : forall q s, Queued q s -> (forall y, In y s -> readable y) -> q_size q <> 0 ->
  exists q' x s', q_pop tot q = Ok (q', x) /\ Queued q' s' /\ Permutation s (x :: s') /\
    length (q_heap q') = length (q_heap q).
Proof.
  intros [h n] s [L P] Hs Hn. cbn [q_heap q_size] in *. unfold q_pop. cbn [q_heap q_size].
  rewrite getn_nth by lia. cbn [bind]. destruct n as [|n]; [lia|]. rewrite getn_nth by lia. cbn [bind].
  assert (R : forall k, k < Datatypes.S n -> readable (nth k h 0%Z)).
  { intros k Hk. apply Hs. eapply Permutation_in; [exact P|]. apply nth_In_firstn; lia. }
  assert (Sn : firstn (Datatypes.S n) h = firstn n h ++ [nth n h 0%Z]) by (apply firstn_snoc; now apply nth_error_nth').
  destruct n as [|n].
  - cbn [trickleDown]. change (Nat.ltb (0 * 2 + 1) 0) with false. cbn [bubbleUp]. unfold setn.
    destruct (Nat.ltb_spec 0 (length h)); [|lia]. cbn [bind]. eexists _, _, []. split; [reflexivity|]. cbn [q_heap q_size].
    split; [unfold Queued; cbn [q_heap q_size firstn]; split; [lia|constructor]|]. split; [|apply upd_length].
    symmetry. etransitivity; [|exact P]. now rewrite Sn.
  - destruct (trickle_any (Datatypes.S n) h (Datatypes.S n) 0 (nth (Datatypes.S n) h 0%Z)) as (h' & E & L' & P'); try lia.
    + intros k Hk _. apply R. lia.
    + apply R. lia.
    + rewrite E. cbn [bind]. eexists _, _, (firstn (Datatypes.S n) h'). split; [reflexivity|]. cbn [q_heap q_size].
      split; [unfold Queued; cbn [q_heap q_size]; split; [lia|reflexivity]|]. split; [|exact L'].
      symmetry. etransitivity; [|exact P]. rewrite Sn. etransitivity; [apply perm_skip; exact P'|].
      etransitivity; [apply perm_skip, upd_del; rewrite firstn_length; lia|].
      etransitivity; [apply perm_swap|].
      etransitivity; [apply perm_skip|apply Permutation_cons_append].
      symmetry. rewrite <- (nth_firstn h (Datatypes.S n) 0 0%Z) by lia. apply nth_del. rewrite firstn_length. lia.
Qed.

Lemma modify_any : forall q s x, Queued q s -> (forall y, In y s -> readable y) -> readable x ->
  exists q', q_modify tot q x = Ok q' /\ Queued q' s /\ length (q_heap q') = length (q_heap q).
Proof.
  intros q s x HQ Hs Hx. unfold q_modify. pose proof (proj1 HQ) as L.
  pose proof (find_slot_spec (q_size q) (q_heap q) 0 x ltac:(lia)) as F.
  destruct (find_slot (q_heap q) (q_size q) 0 x) as [i|]; [|eauto].
  destruct F as [Hi Hx']. destruct (bubble_any i (q_heap q) (q_size q) i x) as (h' & E & L' & P); try lia.
  - intros k Hk _. apply Hs. eapply queued_nth; [exact HQ|lia].
  - exact Hx.
  - rewrite E. cbn [bind]. eexists. split; [reflexivity|]. cbn [q_heap]. split; [|exact L'].
    unfold Queued. cbn [q_heap q_size]. split; [lia|]. etransitivity; [exact P|]. rewrite upd_self; [apply HQ|].
    rewrite nth_error_firstn by lia. exact Hx'.
Qed.
End Open.
