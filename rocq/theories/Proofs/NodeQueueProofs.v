(** The open list is a priority queue (C09). *)
From Coq Require Import ZArith Bool List Lia Permutation.
From Verif.Base Require Import Res GoNum F32.
From Verif.Model Require Import NodeQueue.
Import ListNotations.
Open Scope nat_scope.

(** * Permutations and point updates *)
Fixpoint del {A} (i : nat) (l : list A) : list A :=
  match l, i with
  | [], _ => []
  | _ :: t, O => t
  | x :: t, S i' => x :: del i' t
  end.

Lemma upd_del : forall {A} (l : list A) i x, i < length l -> Permutation (upd l i x) (x :: del i l).
Proof.
  induction l as [|y l IH]; intros [|i] x H; simpl in *; try lia.
  - apply Permutation_refl.
  - etransitivity; [apply perm_skip, IH; lia|]. apply perm_swap.
Qed.

Lemma nth_del : forall {A} (l : list A) i d, i < length l -> Permutation l (nth i l d :: del i l).
Proof.
  induction l as [|y l IH]; intros [|i] d H; simpl in *; try lia.
  - apply Permutation_refl.
  - etransitivity; [apply perm_skip, (IH i d); lia|]. apply perm_swap.
Qed.

Lemma upd_move : forall {A} (l : list A) i p x d, i <> p -> i < length l -> p < length l ->
  Permutation (upd (upd l i (nth p l d)) p x) (upd l i x).
Proof.
  intros A l i p x d N Hi Hp.
  etransitivity; [apply upd_del; rewrite upd_length; assumption|].
  etransitivity; [|symmetry; apply upd_del; assumption].
  apply perm_skip.
  apply (Permutation_cons_inv (a := nth p l d)).
  etransitivity; [|apply upd_del; assumption].
  symmetry.
  pose proof (nth_del (upd l i (nth p l d)) p d) as Q. rewrite upd_length in Q.
  specialize (Q Hp). rewrite nth_upd in Q.
  destruct (Nat.eqb_spec p i); [lia|]. exact Q.
Qed.

Definition par (k : nat) : nat := Nat.div (k - 1) 2.

Lemma par_lt : forall k, 0 < k -> par k < k.
Proof. intros. unfold par. apply Nat.div_lt_upper_bound; lia. Qed.

Lemma par_children : forall k i, 0 < k -> par k = i -> k = 2 * i + 1 \/ k = 2 * i + 2.
Proof.
  intros k i Hk H. unfold par in H.
  pose proof (Nat.div_mod (k - 1) 2 ltac:(lia)) as D.
  pose proof (Nat.mod_upper_bound (k - 1) 2 ltac:(lia)). lia.
Qed.

Lemma par_left : forall i, par (2 * i + 1) = i.
Proof. intros. unfold par. symmetry. apply (Nat.div_unique _ _ _ 0); lia. Qed.
Lemma par_right : forall i, par (2 * i + 2) = i.
Proof. intros. unfold par. symmetry. apply (Nat.div_unique _ _ _ 1); lia. Qed.

Section Heap.
Variable t : Z -> f32.
Variable tot : Z -> res f32.

(** Total of the entry at slot [k]. *)
Definition e (a : list Z) (k : nat) : f32 := t (nth k a 0%Z).
Definition good (x : Z) : Prop := tot x = Ok (t x) /\ nonnan (t x).

Definition heap_ordered (a : list Z) : Prop :=
  forall k, 0 < k < length a -> fle (e a (par k)) (e a k) = true.

Definition hole_out (a : list Z) (i : nat) : Prop :=
  forall k, 0 < k < length a -> k <> i -> par k <> i -> fle (e a (par k)) (e a k) = true.
Definition hole_up (a : list Z) (i : nat) : Prop :=
  0 < i -> forall k, 0 < k < length a -> par k = i -> fle (e a (par i)) (e a k) = true.
Definition hole_node (a : list Z) (i : nat) (node : Z) : Prop :=
  forall k, 0 < k < length a -> par k = i -> fle (t node) (e a k) = true.

Lemma e_upd_eq : forall a i x, i < length a -> e (upd a i x) i = t x.
Proof.
  intros a i x H. unfold e. rewrite nth_upd, Nat.eqb_refl.
  destruct (Nat.ltb_spec i (length a)); [reflexivity|lia].
Qed.
Lemma e_upd_neq : forall a i k x, k <> i -> e (upd a i x) k = e a k.
Proof.
  intros a i k x H. unfold e. rewrite nth_upd.
  destruct (Nat.eqb_spec k i); [lia|reflexivity].
Qed.

Lemma bubble_final : forall a i node, i < length a -> hole_out a i -> hole_node a i node ->
  (0 < i -> fle (e a (par i)) (t node) = true) -> heap_ordered (upd a i node).
Proof.
  intros a i node Hi Ho Hn Hp k Hk. rewrite upd_length in Hk.
  destruct (Nat.eq_dec k i) as [->|N].
  - pose proof (par_lt i ltac:(lia)).
    rewrite e_upd_eq, e_upd_neq by lia. apply Hp. lia.
  - destruct (Nat.eq_dec (par k) i) as [E|M].
    + rewrite E, e_upd_eq, e_upd_neq by lia. apply Hn; [lia|assumption].
    + rewrite !e_upd_neq by lia. apply Ho; assumption.
Qed.

Lemma nth_error_firstn : forall (l : list Z) n k, k < n -> nth_error (firstn n l) k = nth_error l k.
Proof.
  induction l as [|x l IH]; intros [|n] [|k] H; simpl; auto; try lia. apply IH. lia.
Qed.

Lemma nth_firstn : forall (l : list Z) n k d, k < n -> nth k (firstn n l) d = nth k l d.
Proof.
  induction l as [|x l IH]; intros [|n] [|k] d H; simpl; auto; try lia. apply IH. lia.
Qed.

Lemma getn_nth : forall (l : list Z) n, n < length l -> getn l n = Ok (nth n l 0%Z).
Proof. intros l n H. apply getn_ok. now apply nth_error_nth'. Qed.

Lemma nth_In_firstn : forall (l : list Z) n k d, k < n -> k < length l -> In (nth k l d) (firstn n l).
Proof.
  intros l n k d H1 H2. rewrite <- (nth_firstn l n k d) by assumption.
  apply nth_In. rewrite firstn_length. lia.
Qed.

Lemma good_perm : forall a b, Permutation a b -> Forall good a -> Forall good b.
Proof. intros a b P. rewrite !Forall_forall. intros H x Hx. apply H. eapply Permutation_in; [symmetry; exact P|assumption]. Qed.

Lemma Forall_upd : forall (P : Z -> Prop) l i x, Forall P l -> P x -> Forall P (upd l i x).
Proof.
  intros P l. induction l as [|y l IH]; intros [|i] x H Hx; simpl; auto;
    inversion H; subst; constructor; auto.
Qed.

Lemma bubble_spec : forall fuel heap n i node,
  i <= fuel -> i < n -> n <= length heap ->
  (forall k, k < n -> k <> i -> good (nth k heap 0%Z)) -> good node ->
  hole_out (firstn n heap) i -> hole_up (firstn n heap) i -> hole_node (firstn n heap) i node ->
  exists heap', bubbleUp fuel tot heap i node = Ok heap' /\ length heap' = length heap /\
    heap_ordered (firstn n heap') /\
    Permutation (firstn n heap') (upd (firstn n heap) i node).
Proof.
  induction fuel as [|fuel IH]; intros heap n i node Hf Hi Hn Hg Hgn Ho Hu Hh.
  - assert (i = 0) by lia; subst i. simpl.
    unfold setn. destruct (Nat.ltb_spec 0 (length heap)); [|lia].
    eexists; split; [reflexivity|]. rewrite upd_length, firstn_upd by lia.
    split; [reflexivity|]. split; [|apply Permutation_refl].
    apply bubble_final; auto; try lia. rewrite firstn_length; lia.
  - destruct i as [|i'].
    + simpl. unfold setn. destruct (Nat.ltb_spec 0 (length heap)); [|lia].
      eexists; split; [reflexivity|]. rewrite upd_length, firstn_upd by lia.
      split; [reflexivity|]. split; [|apply Permutation_refl].
      apply bubble_final; auto; try lia. rewrite firstn_length; lia.
    + set (i := S i') in *.
      assert (0 < i) as Hi0 by lia.
      pose proof (par_lt i Hi0) as Hp.
      assert (length (firstn n heap) = n) as Ln by (rewrite firstn_length; lia).
      assert (good (nth (par i) heap 0%Z)) as Ghp.
      { apply Hg; lia. }
      destruct Ghp as [Gt Gn]. destruct Hgn as [Gnt Gnn].
      assert (e (firstn n heap) (par i) = t (nth (par i) heap 0%Z)) as Ep
        by (unfold e; rewrite nth_firstn by lia; reflexivity).
      change (bubbleUp (S fuel) tot heap i node) with
        (let* hp := getn heap (par i) in let* tp := tot hp in let* tn := tot node in
         if fgt tp tn then let* heap' := setn heap i hp in bubbleUp fuel tot heap' (par i) node
         else setn heap i node).
      rewrite getn_nth by lia. simpl bind. rewrite Gt, Gnt. simpl bind.
      unfold setn. destruct (Nat.ltb_spec i (length heap)); [|lia].
      destruct (fgt (t (nth (par i) heap 0%Z)) (t node)) eqn:C.
      * simpl bind.
        set (hp := nth (par i) heap 0%Z) in *.
        assert (firstn n (upd heap i hp) = upd (firstn n heap) i hp) as Ef by (apply firstn_upd; lia).
        assert (fle (t node) (t hp) = true) as Lnode by (apply flt_fle; exact C).
        edestruct (IH (upd heap i hp) n (par i) node) as (heap' & R & Ll & Hh' & Pp).
        -- lia.
        -- lia.
        -- rewrite upd_length; lia.
        -- intros k Hk Nk. rewrite nth_upd. destruct (Nat.eqb k i && Nat.ltb i (length heap)) eqn:Ck;
             [split; assumption|]. apply Hg; [assumption|]. intros ->.
           rewrite Nat.eqb_refl in Ck. destruct (Nat.ltb_spec i (length heap)); [discriminate|lia].
        -- split; assumption.
        -- rewrite Ef. intros k Hk N1 N2. rewrite upd_length in Hk.
           destruct (Nat.eq_dec k i) as [->|Nk]; [congruence|].
           destruct (Nat.eq_dec (par k) i) as [Epk|Npk].
           ++ rewrite Epk, e_upd_eq, e_upd_neq by lia. rewrite <- Ep. apply Hu; auto.
           ++ rewrite !e_upd_neq by lia. apply Ho; auto.
        -- rewrite Ef. intros Hp0 k Hk Epk. rewrite upd_length in Hk.
           pose proof (par_lt (par i) Hp0).
           assert (fle (e (firstn n heap) (par (par i))) (e (firstn n heap) (par i)) = true) as G1
             by (apply Ho; lia).
           rewrite (e_upd_neq _ i (par (par i))) by lia.
           destruct (Nat.eq_dec k i) as [->|Nk].
           ++ rewrite e_upd_eq by lia. rewrite <- Ep. exact G1.
           ++ rewrite e_upd_neq by lia. eapply fle_trans; [exact G1|].
              rewrite <- Epk. apply Ho; auto; lia.
        -- rewrite Ef. intros k Hk Epk. rewrite upd_length in Hk.
           destruct (Nat.eq_dec k i) as [->|Nk].
           ++ rewrite e_upd_eq by lia. exact Lnode.
           ++ rewrite e_upd_neq by lia. eapply fle_trans; [exact Lnode|].
              rewrite <- Ep, <- Epk. apply Ho; auto; lia.
        -- exists heap'. split; [exact R|]. rewrite upd_length in Ll. split; [assumption|].
           split; [assumption|]. etransitivity; [exact Pp|]. rewrite Ef.
           unfold hp. rewrite <- (nth_firstn heap n) by lia. apply upd_move; lia.
      * eexists; split; [reflexivity|]. rewrite upd_length, firstn_upd by lia.
        split; [reflexivity|]. split; [|apply Permutation_refl].
        apply bubble_final; auto; try lia. intros _. rewrite Ep.
        apply not_flt_fle; auto.
Qed.

Lemma trickle_spec : forall fuel heap n i node,
  n <= fuel + i -> i < n -> n <= length heap ->
  (forall k, k < n -> k <> i -> good (nth k heap 0%Z)) -> good node ->
  hole_out (firstn n heap) i -> hole_up (firstn n heap) i ->
  exists heap', trickleDown fuel tot heap n i node = Ok heap' /\ length heap' = length heap /\
    heap_ordered (firstn n heap') /\
    Permutation (firstn n heap') (upd (firstn n heap) i node).
Proof.
  induction fuel as [|fuel IH]; intros heap n i node Hf Hi Hn Hg Hgn Ho Hu.
  - lia.
  - assert (length (firstn n heap) = n) as Ln by (rewrite firstn_length; lia).
    simpl trickleDown. destruct (Nat.ltb_spec (i * 2 + 1) n) as [Hc|Hc].
    + (* the chosen child *)
      set (sel := if Nat.ltb (i * 2 + 1 + 1) n then _ else _).
      assert (exists c, sel = Ok c /\ 0 < c < n /\ par c = i /\ c <> i /\
                forall k, 0 < k < n -> par k = i -> fle (e (firstn n heap) c) (e (firstn n heap) k) = true)
        as (c & Es & Hcr & Hcp & Hci & Hmin).
      { unfold sel.
        assert (forall k, k < n -> i < k -> good (nth k heap 0%Z)) as G
          by (intros k Hk Hik; apply Hg; lia).
        destruct (Nat.ltb_spec (i * 2 + 1 + 1) n) as [Hc2|Hc2].
        - rewrite !getn_nth by lia. simpl bind.
          destruct (G (i * 2 + 1) ltac:(lia) ltac:(lia)) as [Ga Gan].
          destruct (G (i * 2 + 1 + 1) ltac:(lia) ltac:(lia)) as [Gb Gbn].
          rewrite Ga, Gb. simpl bind.
          destruct (fgt (t (nth (i * 2 + 1) heap 0%Z)) (t (nth (i * 2 + 1 + 1) heap 0%Z))) eqn:C.
          + exists (i * 2 + 1 + 1). split; [reflexivity|]. split; [lia|].
            split; [replace (i * 2 + 1 + 1) with (2 * i + 2) by lia; apply par_right|].
            split; [lia|]. intros k Hk Ek. unfold e.
            destruct (par_children k i ltac:(lia) Ek) as [->| ->];
              rewrite !nth_firstn by lia.
            * replace (2 * i + 1) with (i * 2 + 1) by lia. apply flt_fle. exact C.
            * replace (2 * i + 2) with (i * 2 + 1 + 1) by lia. apply fle_refl; assumption.
          + exists (i * 2 + 1). split; [reflexivity|]. split; [lia|].
            split; [replace (i * 2 + 1) with (2 * i + 1) by lia; apply par_left|].
            split; [lia|]. intros k Hk Ek. unfold e.
            destruct (par_children k i ltac:(lia) Ek) as [->| ->];
              rewrite !nth_firstn by lia.
            * replace (2 * i + 1) with (i * 2 + 1) by lia. apply fle_refl; assumption.
            * replace (2 * i + 2) with (i * 2 + 1 + 1) by lia. apply not_flt_fle; assumption.
        - exists (i * 2 + 1). split; [reflexivity|]. split; [lia|].
          split; [replace (i * 2 + 1) with (2 * i + 1) by lia; apply par_left|].
          split; [lia|]. intros k Hk Ek. unfold e.
          destruct (par_children k i ltac:(lia) Ek) as [->| ->]; [|lia].
          replace (2 * i + 1) with (i * 2 + 1) by lia. rewrite nth_firstn by lia.
          apply fle_refl. apply G; lia. }
      rewrite Es. simpl bind. rewrite getn_nth by lia. simpl bind.
      unfold setn. destruct (Nat.ltb_spec i (length heap)); [|lia]. simpl bind.
      set (hc := nth c heap 0%Z).
      assert (t hc = e (firstn n heap) c) as Ec by (unfold e; rewrite nth_firstn by lia; reflexivity).
      assert (firstn n (upd heap i hc) = upd (firstn n heap) i hc) as Ef by (apply firstn_upd; lia).
      pose proof (par_lt c ltac:(lia)) as Hlt.
      edestruct (IH (upd heap i hc) n c node) as (heap' & R & Ll & Hh' & Pp).
      * lia.
      * lia.
      * rewrite upd_length; lia.
      * intros k Hk Nk. rewrite nth_upd. destruct (Nat.eqb k i && Nat.ltb i (length heap)) eqn:Ck;
          [apply Hg; lia|]. apply Hg; [assumption|]. intros ->.
        rewrite Nat.eqb_refl in Ck. destruct (Nat.ltb_spec i (length heap)); [discriminate|lia].
      * assumption.
      * rewrite Ef. intros k Hk N1 N2. rewrite upd_length in Hk.
        destruct (Nat.eq_dec k i) as [->|Nk].
        -- rewrite e_upd_eq by lia. pose proof (par_lt i ltac:(lia)). rewrite e_upd_neq by lia.
           rewrite Ec. apply Hu; auto; lia.
        -- rewrite (e_upd_neq _ i k) by lia.
           destruct (Nat.eq_dec (par k) i) as [Epk|Npk].
           ++ rewrite Epk, e_upd_eq by lia. rewrite Ec. apply Hmin; auto; lia.
           ++ rewrite e_upd_neq by lia. apply Ho; auto.
      * rewrite Ef. intros _ k Hk Epk. rewrite upd_length in Hk.
        rewrite Hcp, e_upd_eq by lia.
        pose proof (par_lt k ltac:(lia)). rewrite e_upd_neq by lia. rewrite Ec, <- Epk.
        apply Ho; auto; lia.
      * exists heap'. split; [exact R|]. rewrite upd_length in Ll. split; [assumption|].
        split; [assumption|]. etransitivity; [exact Pp|]. rewrite Ef.
        unfold hc. rewrite <- (nth_firstn heap n) by lia. apply upd_move; lia.
    + apply bubble_spec; auto.
      intros k Hk Epk. destruct (par_children k i ltac:(lia) Epk); lia.
Qed.

Lemma heap_root_min : forall a k, heap_ordered a -> Forall good a -> k < length a ->
  fle (e a 0) (e a k) = true.
Proof.
  intros a k Ha Hg. induction k as [k IH] using lt_wf_ind. intros Hk.
  destruct (Nat.eq_dec k 0) as [->|N].
  - apply fle_refl. rewrite Forall_forall in Hg. apply Hg. apply nth_In. assumption.
  - pose proof (par_lt k ltac:(lia)). eapply fle_trans; [apply (IH (par k)); lia|].
    apply Ha. lia.
Qed.

(** ** The queue operations *)

(** [s] lists the queued nodes. *)
Definition QInv (q : nodeQueue) (s : list Z) : Prop :=
  q_size q <= length (q_heap q) /\
  Permutation (firstn (q_size q) (q_heap q)) s /\
  heap_ordered (firstn (q_size q) (q_heap q)) /\
  Forall good s.

Lemma inv_good_nth : forall h n s, Permutation (firstn n h) s -> Forall good s -> n <= length h ->
  forall k, k < n -> good (nth k h 0%Z).
Proof.
  intros h n s P G Hn k Hk. rewrite Forall_forall in G. apply G.
  eapply Permutation_in; [exact P|]. apply nth_In_firstn; lia.
Qed.

Lemma push_spec : forall q s x, QInv q s -> q_size q < length (q_heap q) -> good x ->
  exists q', q_push tot q x = Ok q' /\ QInv q' (x :: s) /\
    length (q_heap q') = length (q_heap q) /\ q_size q' = S (q_size q).
Proof.
  intros [h n] s x (Hn & Hp & Ho & Hg) Hcap Hx. cbn [q_heap q_size] in *.
  unfold q_push; cbn [q_heap q_size].
  destruct (nth_error_in_range h n Hcap) as [old Eold].
  assert (firstn (S n) h = firstn n h ++ [old]) as Esn by now apply firstn_snoc.
  assert (length (firstn n h) = n) as Ln by (rewrite firstn_length; lia).
  assert (length (firstn (S n) h) = S n) as Lsn by (rewrite firstn_length; lia).
  assert (forall k, k < n -> e (firstn (S n) h) k = e (firstn n h) k) as Ee.
  { intros k Hk. unfold e. rewrite !nth_firstn by lia. reflexivity. }
  assert (forall k, 0 < k < S n -> k <> n -> par k < n) as Hpk.
  { intros k Hk Hkn. pose proof (par_lt k ltac:(lia)). lia. }
  destruct (bubble_spec n h (S n) n x) as (h' & R & Ll & Hh & Pp); auto; try lia.
  - intros k Hk Nk. eapply inv_good_nth; eauto; lia.
  - intros k Hk Nk Npk. rewrite Lsn in Hk.
    rewrite !Ee by (try apply Hpk; lia). apply Ho. lia.
  - intros H0 k Hk Epk. rewrite Lsn in Hk. pose proof (par_lt k ltac:(lia)). lia.
  - intros k Hk Epk. rewrite Lsn in Hk. pose proof (par_lt k ltac:(lia)). lia.
  - rewrite R. simpl. eexists; split; [reflexivity|]. unfold QInv; cbn [q_heap q_size].
    repeat split; auto; try lia.
    + etransitivity; [exact Pp|]. rewrite Esn.
      replace n with (length (firstn n h)) at 2 by assumption. rewrite upd_app_length.
      etransitivity; [apply Permutation_app_comm|]. simpl. apply perm_skip. assumption.
Qed.

Lemma pop_spec : forall q s, QInv q s -> s <> [] ->
  exists q' x s', q_pop tot q = Ok (q', x) /\ QInv q' s' /\ Permutation s (x :: s') /\
    (forall y, In y s -> fle (t x) (t y) = true) /\
    length (q_heap q') = length (q_heap q) /\ q_size q = S (q_size q').
Proof.
  intros [h n] s (Hn & Hp & Ho & Hg) Hs. cbn [q_heap q_size] in *.
  unfold q_pop; cbn [q_heap q_size].
  assert (length (firstn n h) = n) as Ln by (rewrite firstn_length; lia).
  destruct n as [|n].
  { exfalso. apply Hs. apply Permutation_nil. rewrite firstn_O in Hp. exact Hp. }
  rewrite (getn_nth h 0) by lia. simpl bind. rewrite (getn_nth h n) by lia. simpl bind.
  assert (Forall good (firstn (S n) h)) as Hg' by (eapply good_perm; [symmetry; exact Hp|assumption]).
  assert (forall y, In y s -> fle (t (nth 0 h 0%Z)) (t y) = true) as Hmin.
  { intros y Hy. apply (Permutation_in _ (Permutation_sym Hp)) in Hy.
    apply (In_nth _ _ 0%Z) in Hy. destruct Hy as (k & Hk & <-).
    pose proof (heap_root_min _ k Ho Hg' Hk) as M. unfold e in M.
    rewrite (nth_firstn h (S n) 0) in M by lia. exact M. }
  assert (firstn (S n) h = firstn n h ++ [nth n h 0%Z]) as Esn
    by (apply firstn_snoc; apply nth_error_nth'; lia).
  destruct n as [|n'].
  - (* last element: the queue becomes empty *)
    simpl. unfold setn. destruct (Nat.ltb_spec 0 (length h)); [|lia]. simpl.
    exists (mkQueue (upd h 0 (nth 0 h 0%Z)) 0), (nth 0 h 0%Z), [].
    split; [reflexivity|]. unfold QInv; cbn [q_heap q_size]. rewrite upd_length.
    repeat split; auto; try lia.
    + intros k Hk. simpl in Hk. lia.
    + rewrite Esn in Hp. symmetry. exact Hp.
  - set (m := S n') in *.
    assert (length (firstn m h) = m) as Lm by (rewrite firstn_length; lia).
    assert (forall k, k < m -> e (firstn m h) k = e (firstn (S m) h) k) as Ee.
    { intros k Hk. unfold e. rewrite !nth_firstn by lia. reflexivity. }
    destruct (trickle_spec m h m 0 (nth m h 0%Z)) as (h' & R & Ll & Hh & Pp); auto; try lia.
    + intros k Hk _. eapply (inv_good_nth h (S m) s); eauto; lia.
    + eapply (inv_good_nth h (S m) s); eauto; lia.
    + intros k Hk Nk Npk. rewrite Lm in Hk. pose proof (par_lt k ltac:(lia)).
      rewrite !Ee by lia. apply Ho. lia.
    + intros H0. lia.
    + rewrite R. simpl bind.
      exists (mkQueue h' m), (nth 0 h 0%Z), (upd (firstn m h) 0 (nth m h 0%Z)).
      split; [reflexivity|]. unfold QInv; cbn [q_heap q_size].
      assert (Permutation s (nth 0 h 0%Z :: upd (firstn m h) 0 (nth m h 0%Z))) as Ps.
      { etransitivity; [symmetry; exact Hp|]. rewrite Esn.
        destruct h as [|x0 h0]; [simpl in Hn; lia|].
        unfold m. simpl firstn. simpl upd. simpl nth at 2.
        change ((x0 :: firstn n' h0) ++ [nth (S n') (x0 :: h0) 0%Z])
          with (x0 :: (firstn n' h0 ++ [nth (S n') (x0 :: h0) 0%Z])).
        apply perm_skip. symmetry. apply Permutation_cons_append. }
      repeat split; auto; try lia.
      eapply Forall_inv_tail with (a := nth 0 h 0%Z).
      eapply good_perm; [exact Ps|assumption].
Qed.
End Heap.

Lemma find_slot_spec : forall n heap i node, i + n <= length heap ->
  match find_slot heap n i node with
  | Some k => i <= k < i + n /\ nth_error heap k = Some node
  | None => forall k, i <= k < i + n -> nth_error heap k <> Some node
  end.
Proof.
  induction n as [|n IH]; intros heap i node H; simpl.
  - intros k Hk. lia.
  - destruct (nth_error_in_range heap i ltac:(lia)) as [x E]. rewrite E.
    destruct (Z.eqb_spec x node) as [->|N].
    + split; [lia|assumption].
    + specialize (IH heap (S i) node ltac:(lia)).
      destruct (find_slot heap n (S i) node) as [k|].
      * destruct IH as [IH1 IH2]. split; [lia|assumption].
      * intros k Hk. destruct (Nat.eq_dec k i) as [->|M]; [congruence|]. apply IH. lia.
Qed.

(** Changing the total of one queued node to a value that is not larger. *)
Definition set_total (t : Z -> f32) (x : Z) (c : f32) : Z -> f32 :=
  fun y => if Z.eqb y x then c else t y.

Lemma modify_spec : forall t tot tot' q s x c,
  QInv t tot q s -> NoDup s -> In x s -> nonnan c -> fle c (t x) = true ->
  (forall y, In y s -> tot' y = Ok (set_total t x c y)) ->
  exists q', q_modify tot' q x = Ok q' /\ QInv (set_total t x c) tot' q' s /\
    length (q_heap q') = length (q_heap q) /\ q_size q' = q_size q.
Proof.
  intros t tot tot' [h n] s x c (Hn & Hp & Ho & Hg) Hnd Hx Hc Hle Ht.
  cbn [q_heap q_size] in *. unfold q_modify; cbn [q_heap q_size].
  set (t' := set_total t x c) in *.
  assert (length (firstn n h) = n) as Ln by (rewrite firstn_length; lia).
  assert (Forall (good t' tot') s) as Hg'.
  { rewrite Forall_forall in *. intros y Hy. split; [now apply Ht|].
    unfold t', set_total. destruct (Z.eqb y x); [assumption|apply Hg; assumption]. }
  pose proof (find_slot_spec n h 0 x ltac:(lia)) as F.
  destruct (find_slot h n 0 x) as [i|].
  - destruct F as [Hi Ei].
    assert (NoDup (firstn n h)) as Hnd' by (eapply Permutation_NoDup; [symmetry; exact Hp|assumption]).
    assert (nth i h 0%Z = x) as Enx by (apply nth_error_nth; assumption).
    assert (forall k, k < n -> k <> i -> nth k h 0%Z <> x) as Huniq.
    { intros k Hk Nk E. apply Nk. rewrite NoDup_nth with (d := 0%Z) in Hnd'.
      apply Hnd'; try lia. rewrite !nth_firstn by lia. congruence. }
    assert (forall k, k < n -> k <> i -> e t' (firstn n h) k = e t (firstn n h) k) as Ee.
    { intros k Hk Nk. unfold e, t', set_total. rewrite nth_firstn by lia.
      destruct (Z.eqb_spec (nth k h 0%Z) x) as [E|E]; [|reflexivity].
      exfalso. eapply Huniq; eauto. }
    assert (t' x = c) as Etx by (unfold t', set_total; now rewrite Z.eqb_refl).
    assert (e t (firstn n h) i = t x) as Eix by (unfold e; rewrite nth_firstn by lia; now rewrite Enx).
    destruct (bubble_spec t' tot' i h n i x) as (h' & R & Ll & Hh & Pp); auto; try lia.
    + intros k Hk Nk. eapply (inv_good_nth t' tot' h n s); eauto.
    + rewrite Forall_forall in Hg'. apply Hg'. assumption.
    + intros k Hk Nk Npk. rewrite Ln in Hk. pose proof (par_lt k ltac:(lia)).
      rewrite !Ee by lia. apply Ho. lia.
    + intros H0 k Hk Epk. rewrite Ln in Hk. pose proof (par_lt k ltac:(lia)). pose proof (par_lt i H0).
      rewrite !Ee by lia. eapply fle_trans; [apply Ho; lia|]. rewrite <- Epk. apply Ho. lia.
    + intros k Hk Epk. rewrite Ln in Hk. pose proof (par_lt k ltac:(lia)).
      rewrite Ee, Etx by lia. eapply fle_trans; [exact Hle|]. rewrite <- Eix, <- Epk. apply Ho. lia.
    + rewrite R. simpl bind. eexists; split; [reflexivity|]. unfold QInv; cbn [q_heap q_size].
      repeat split; auto; try lia.
      etransitivity; [exact Pp|]. rewrite upd_self; [assumption|].
      rewrite nth_error_firstn by lia. assumption.
  - exfalso. apply (Permutation_in _ (Permutation_sym Hp)) in Hx.
    apply (In_nth _ _ 0%Z) in Hx. destruct Hx as (k & Hk & Ex). rewrite Ln in Hk.
    apply (F k); [lia|]. rewrite <- Ex, nth_firstn by lia. apply nth_error_nth'. lia.
Qed.

Lemma QInv_total_ext : forall t tot t' tot' q s, QInv t tot q s ->
  (forall y, In y s -> t' y = t y) -> (forall y, In y s -> tot' y = Ok (t' y)) -> QInv t' tot' q s.
Proof.
  intros t tot t' tot' [h n] s (Hn & Hp & Ho & Hg) He Ht. unfold QInv in *; cbn [q_heap q_size] in *.
  assert (length (firstn n h) = n) as Ln by (rewrite firstn_length; lia).
  repeat split; auto.
  - intros k Hk. specialize (Ho k Hk). rewrite Ln in Hk. pose proof (par_lt k ltac:(lia)).
    assert (forall j, j < n -> e t' (firstn n h) j = e t (firstn n h) j) as Ee.
    { intros j Hj. unfold e. apply He. eapply Permutation_in; [exact Hp|].
      apply nth_In. lia. }
    rewrite !Ee by lia. exact Ho.
  - rewrite Forall_forall in *. intros y Hy. split; [now apply Ht|]. rewrite He by assumption.
    apply Hg; assumption.
Qed.
