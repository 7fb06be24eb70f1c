(** The node pool is a bounded map (C07, C08). *)
From Coq Require Import ZArith Bool List Lia Permutation.
From Verif.Base Require Import Res GoNum Bits F32.
From Verif.Model Require Import Node.
Import ListNotations.
Open Scope Z_scope.

(** * Chains of the [next] table *)
Inductive chain (next : list Z) : Z -> list nat -> Prop :=
| chain_nil : chain next nullIdx []
| chain_cons : forall i j l, (Z.of_nat i <> nullIdx) -> nth_error next i = Some j ->
    chain next j l -> chain next (Z.of_nat i) (i :: l).

Lemma chain_upd : forall next i l k v, chain next i l -> ~ In k l -> chain (upd next k v) i l.
Proof.
  intros next i l k v H. induction H as [|i j l N E H IH]; intros Hk.
  - constructor.
  - econstructor; [assumption| |].
    + rewrite nth_error_upd_neq; [exact E|]. intros ->. apply Hk. now left.
    + apply IH. intros Hin. apply Hk. now right.
Qed.

Lemma walk_chain : forall fuel np p i l, chain (np_next np) i l ->
  (length l < fuel)%nat ->
  (forall k, In k l -> exists n, nth_error (np_nodes np) k = Some n) ->
  walk fuel np p i =
  Ok (option_map Z.of_nat
       (find (fun k => match nth_error (np_nodes np) k with Some n => p n | None => false end) l)).
Proof.
  induction fuel as [|fuel IH]; intros np p i l H Hf Hin; [lia|].
  inversion H as [|i0 j l0 N E H']; subst; simpl.
  - reflexivity.
  - destruct (Z.eqb_spec (Z.of_nat i0) nullIdx) as [?|Nn]; [congruence|].
    destruct (Hin i0 (or_introl eq_refl)) as [n En].
    rewrite !get_getn by lia. rewrite Nat2Z.id.
    unfold getn at 1. rewrite En. simpl.
    destruct (p n); [reflexivity|].
    unfold getn. rewrite E. simpl. apply IH; auto.
    + simpl in Hf. lia.
    + intros k Hk. apply Hin. now right.
Qed.

(** * Invariant *)
Definition nkey (n : Node) : Z * Z := (nID n, nState n).
Definition used (np : NodePool) : list Node := firstn (Z.to_nat (np_nodeCount np)) (np_nodes np).
Definition keys (np : NodePool) : list (Z * Z) := map nkey (used np).

(** Positions of the used nodes of a bucket, latest first. *)
Definition bucket_chain (np : NodePool) (b : Z) : list nat :=
  filter (fun k => match nth_error (np_nodes np) k with
                   | Some n => bucket_of np (nID n) =? b
                   | None => false
                   end)
         (rev (seq 0 (Z.to_nat (np_nodeCount np)))).

Record pool_inv (np : NodePool) : Prop := {
  pi_hash : exists k, 0 <= k <= 31 /\ np_hashSize np = 2 ^ k;
  pi_first : length (np_first np) = Z.to_nat (np_hashSize np);
  pi_nodes : length (np_nodes np) = Z.to_nat (np_maxNodes np);
  pi_next : length (np_next np) = Z.to_nat (np_maxNodes np);
  pi_max : 0 <= np_maxNodes np <= 65535;
  pi_count : 0 <= np_nodeCount np <= np_maxNodes np;
  pi_chain : forall b f, nth_error (np_first np) (Z.to_nat b) = Some f -> 0 <= b ->
    chain (np_next np) f (bucket_chain np b);
  pi_nodup : NoDup (keys np)
}.

Lemma land_mask_range : forall a n, 0 <= n -> 0 <= Z.land a (2 ^ n - 1) < 2 ^ n.
Proof.
  intros a n Hn. rewrite land_mask by assumption.
  apply Z.mod_pos_bound, Z.pow_pos_nonneg; lia.
Qed.

Lemma bucket_range : forall np id, pool_inv np ->
  0 <= bucket_of np id < np_hashSize np.
Proof.
  intros np id H. destruct (pi_hash np H) as (k & Hk & E).
  unfold bucket_of. rewrite E.
  assert (2 ^ k <= 2 ^ 31) by (apply Z.pow_le_mono_r; lia).
  assert (0 < 2 ^ k) by (apply Z.pow_pos_nonneg; lia).
  rewrite u32_id by (unfold is_u32; change 4294967296 with (2 * 2 ^ 31); lia).
  apply land_mask_range. lia.
Qed.

Lemma used_length : forall np, pool_inv np -> length (used np) = Z.to_nat (np_nodeCount np).
Proof.
  intros np H. unfold used. rewrite firstn_length, (pi_nodes np H).
  pose proof (pi_count np H). pose proof (pi_max np H). lia.
Qed.

Lemma nth_error_used : forall np k, (k < Z.to_nat (np_nodeCount np))%nat ->
  nth_error (used np) k = nth_error (np_nodes np) k.
Proof.
  intros np k H. unfold used. revert H. generalize (Z.to_nat (np_nodeCount np)).
  generalize (np_nodes np). revert k. 
  induction k as [|k IH]; intros [|x l] [|n] H; simpl; auto; try lia. apply IH. lia.
Qed.

Lemma in_bucket_chain : forall np b k, In k (bucket_chain np b) <->
  (k < Z.to_nat (np_nodeCount np))%nat /\
  exists n, nth_error (np_nodes np) k = Some n /\ bucket_of np (nID n) = b.
Proof.
  intros np b k. unfold bucket_chain. rewrite filter_In, <- in_rev, in_seq.
  split.
  - intros [H1 H2]. split; [lia|].
    destruct (nth_error (np_nodes np) k) as [n|]; [|discriminate].
    exists n. split; [reflexivity|]. now apply Z.eqb_eq.
  - intros [H1 (n & E & Hb)]. split; [lia|]. rewrite E. now apply Z.eqb_eq.
Qed.

Lemma bucket_chain_short : forall np b, pool_inv np ->
  (length (bucket_chain np b) < pool_fuel np)%nat.
Proof.
  intros np b H. unfold bucket_chain, pool_fuel.
  pose proof (used_length np H) as L. unfold used in L. rewrite firstn_length in L.
  assert (forall (f : nat -> bool) l, (length (filter f l) <= length l)%nat) as FL.
  { intros f l. induction l as [|x l IHl]; simpl; [lia|]. destruct (f x); simpl; lia. }
  eapply Nat.le_lt_trans; [apply FL|]. rewrite rev_length, seq_length. lia.
Qed.

(** Position of a key among the used nodes. *)
Fixpoint index_of (k : Z * Z) (l : list (Z * Z)) : option nat :=
  match l with
  | [] => None
  | x :: t => if (fst x =? fst k) && (snd x =? snd k) then Some O
              else option_map S (index_of k t)
  end.

Lemma index_of_spec : forall k l,
  match index_of k l with
  | Some i => nth_error l i = Some k
  | None => ~ In k l
  end.
Proof.
  intros [a b] l. induction l as [|[x y] l IH]; simpl; [tauto|].
  destruct (Z.eqb_spec x a); destruct (Z.eqb_spec y b); simpl; subst; try reflexivity;
    (destruct (index_of (a, b) l) as [i|]; simpl; [assumption|]; intros [E|E]; [congruence|contradiction]).
Qed.

Lemma find_bucket : forall np id st, pool_inv np ->
  find (fun k => match nth_error (np_nodes np) k with Some n => has_key id st n | None => false end)
       (bucket_chain np (bucket_of np id))
  = index_of (id, st) (keys np).
Proof.
  intros np id st H.
  set (p := fun k => match nth_error (np_nodes np) k with Some n => has_key id st n | None => false end).
  pose proof (index_of_spec (id, st) (keys np)) as S.
  assert (forall k, p k = true -> (k < Z.to_nat (np_nodeCount np))%nat ->
            nth_error (keys np) k = Some (id, st)) as K1.
  { intros k Hp Hk. unfold p in Hp. unfold keys. rewrite nth_error_map, nth_error_used by assumption.
    destruct (nth_error (np_nodes np) k) as [n|]; [|discriminate]. simpl.
    unfold has_key in Hp. apply andb_true_iff in Hp. destruct Hp as [P1 P2].
    apply Z.eqb_eq in P1, P2. unfold nkey. congruence. }
  destruct (index_of (id, st) (keys np)) as [i|].
  - assert (i < Z.to_nat (np_nodeCount np))%nat as Hi.
    { rewrite <- (used_length np H). rewrite <- (map_length nkey). apply nth_error_Some. fold (keys np). congruence. }
    assert (p i = true /\ In i (bucket_chain np (bucket_of np id))) as [Pi Ii].
    { unfold keys in S. rewrite nth_error_map, nth_error_used in S by assumption.
      destruct (nth_error (np_nodes np) i) as [n|] eqn:E; [|discriminate]. simpl in S.
      inversion S as [[S1 S2]]. split.
      - unfold p. rewrite E. unfold has_key. apply andb_true_iff. split; apply Z.eqb_eq; assumption.
      - apply in_bucket_chain. split; [assumption|]. exists n. split; [assumption|congruence]. }
    destruct (find p (bucket_chain np (bucket_of np id))) as [k|] eqn:F.
    + apply find_some in F. destruct F as [Fi Fp].
      apply in_bucket_chain in Fi. destruct Fi as [Fk _].
      specialize (K1 k Fp Fk). f_equal.
      pose proof (pi_nodup np H) as ND. rewrite NoDup_nth_error in ND.
      apply ND; [|congruence]. apply nth_error_Some. congruence.
    + exfalso. pose proof (find_none _ _ F i Ii). congruence.
  - destruct (find p (bucket_chain np (bucket_of np id))) as [k|] eqn:F; [|reflexivity].
    apply find_some in F. destruct F as [Fi Fp]. apply in_bucket_chain in Fi. destruct Fi as [Fk _].
    exfalso. apply S. eapply nth_error_In. apply (K1 k Fp Fk).
Qed.

Lemma first_in_range : forall np id, pool_inv np ->
  exists f, get (np_first np) (bucket_of np id) = Ok f /\
    nth_error (np_first np) (Z.to_nat (bucket_of np id)) = Some f.
Proof.
  intros np id H. pose proof (bucket_range np id H) as R.
  destruct (get_in_range (np_first np) (bucket_of np id)) as [f E].
  { unfold zlen. rewrite (pi_first np H). lia. }
  exists f. split; [assumption|]. apply get_ok in E. tauto.
Qed.

Lemma walk_bucket : forall np id st f, pool_inv np ->
  nth_error (np_first np) (Z.to_nat (bucket_of np id)) = Some f ->
  walk (pool_fuel np) np (has_key id st) f = Ok (option_map Z.of_nat (index_of (id, st) (keys np))).
Proof.
  intros np id st f H E.
  rewrite (walk_chain _ np (has_key id st) f (bucket_chain np (bucket_of np id))).
  - now rewrite find_bucket.
  - apply (pi_chain np H); [assumption|]. apply bucket_range. assumption.
  - now apply bucket_chain_short.
  - intros k Hk. apply in_bucket_chain in Hk. destruct Hk as [_ (n & En & _)]. eauto.
Qed.

(** ** FindNode *)
Lemma FindNode_spec : forall np id st, pool_inv np ->
  pool_FindNode np id st = Ok (option_map Z.of_nat (index_of (id, st) (keys np))).
Proof.
  intros np id st H. unfold pool_FindNode.
  destruct (first_in_range np id H) as (f & -> & E). simpl. now apply walk_bucket.
Qed.

(** ** FindNodes *)
Lemma findNodes_chain : forall fuel np id i l maxn, chain (np_next np) i l ->
  (length l < fuel)%nat ->
  (forall k, In k l -> exists n, nth_error (np_nodes np) k = Some n) ->
  findNodes_loop fuel np id maxn i =
  Ok (map Z.of_nat (firstn maxn
       (filter (fun k => match nth_error (np_nodes np) k with Some n => nID n =? id | None => false end) l))).
Proof.
  induction fuel as [|fuel IH]; intros np id i l maxn H Hf Hin; [lia|].
  inversion H as [|i0 j l0 N E H']; subst; simpl.
  - destruct maxn; reflexivity.
  - destruct (Z.eqb_spec (Z.of_nat i0) nullIdx) as [?|Nn]; [congruence|].
    destruct (Hin i0 (or_introl eq_refl)) as [n En].
    rewrite !get_getn by lia. rewrite Nat2Z.id.
    unfold getn. rewrite En, E. simpl.
    assert (forall m, findNodes_loop fuel np id m j =
      Ok (map Z.of_nat (firstn m (filter (fun k => match nth_error (np_nodes np) k with
         Some n => nID n =? id | None => false end) l0)))) as R.
    { intros m. apply IH; auto. simpl in Hf; lia. intros k Hk. apply Hin. now right. }
    destruct (nID n =? id).
    + destruct maxn as [|m]; [reflexivity|]. simpl. rewrite R. reflexivity.
    + apply R.
Qed.

(** Positions of the used nodes with a given polygon, latest first. *)
Definition with_id (np : NodePool) (id : Z) : list nat :=
  filter (fun k => match nth_error (np_nodes np) k with Some n => nID n =? id | None => false end)
         (rev (seq 0 (Z.to_nat (np_nodeCount np)))).

Lemma filter_filter_sub : forall {A} (p q : A -> bool) l,
  (forall x, p x = true -> q x = true) -> filter p (filter q l) = filter p l.
Proof.
  intros A p q l H. induction l as [|x l IH]; simpl; [reflexivity|].
  destruct (q x) eqn:Q; simpl.
  - now rewrite IH.
  - destruct (p x) eqn:P; [apply H in P; congruence|assumption].
Qed.

Lemma FindNodes_spec : forall np id maxn, pool_inv np ->
  pool_FindNodes np id maxn = Ok (map Z.of_nat (firstn maxn (with_id np id))).
Proof.
  intros np id maxn H. unfold pool_FindNodes.
  destruct (first_in_range np id H) as (f & -> & E). cbn [bind of_option].
  rewrite (findNodes_chain _ np id f (bucket_chain np (bucket_of np id))).
  - unfold bucket_chain, with_id. rewrite filter_filter_sub; [reflexivity|].
    intros k Hk. destruct (nth_error (np_nodes np) k); [|discriminate].
    apply Z.eqb_eq in Hk. rewrite Hk. apply Z.eqb_refl.
  - apply (pi_chain np H); [assumption|]. apply bucket_range. assumption.
  - now apply bucket_chain_short.
  - intros k Hk. apply in_bucket_chain in Hk. destruct Hk as [_ (n & En & _)]. eauto.
Qed.

Lemma with_id_spec : forall np id k, pool_inv np ->
  (In k (with_id np id) <-> exists st, nth_error (keys np) k = Some (id, st)).
Proof.
  intros np id k H. unfold with_id. rewrite filter_In, <- in_rev, in_seq.
  unfold keys. rewrite nth_error_map. split.
  - intros [H1 H2]. rewrite nth_error_used by lia.
    destruct (nth_error (np_nodes np) k) as [n|]; [|discriminate]. simpl.
    apply Z.eqb_eq in H2. exists (nState n). unfold nkey. congruence.
  - intros [st E].
    assert (k < Z.to_nat (np_nodeCount np))%nat as Hk.
    { rewrite <- (used_length np H). apply nth_error_Some. destruct (nth_error (used np) k); [congruence|discriminate]. }
    split; [lia|]. rewrite nth_error_used in E by assumption.
    destruct (nth_error (np_nodes np) k) as [n|]; [|discriminate]. simpl in E.
    apply Z.eqb_eq. unfold nkey in E. congruence.
Qed.

Lemma with_id_nodup : forall np id, NoDup (with_id np id).
Proof. intros. unfold with_id. apply NoDup_filter. apply NoDup_rev, seq_NoDup. Qed.

(** ** Node *)
Lemma bucket_of_ext : forall np np' id, np_hashSize np = np_hashSize np' ->
  bucket_of np id = bucket_of np' id.
Proof. intros np np' id E. unfold bucket_of. now rewrite E. Qed.

Definition reset_node (n : Node) (id st : Z) : Node := mkNode (nPos n) f0 f0 0 st 0 id.

(** The pool after a new key was stored at position [k]. *)
Definition add_node (np : NodePool) (id st : Z) : NodePool :=
  let k := Z.to_nat (np_nodeCount np) in
  mkPool (match nth_error (np_nodes np) k with
          | Some n => upd (np_nodes np) k (reset_node n id st)
          | None => np_nodes np end)
         (upd (np_first np) (Z.to_nat (bucket_of np id)) (np_nodeCount np))
         (match nth_error (np_first np) (Z.to_nat (bucket_of np id)) with
          | Some f => upd (np_next np) k f
          | None => np_next np end)
         (np_maxNodes np) (np_hashSize np) (np_nodeCount np + 1).

Lemma add_node_inv : forall np id st, pool_inv np -> np_nodeCount np < np_maxNodes np ->
  index_of (id, st) (keys np) = None -> pool_inv (add_node np id st) /\
  keys (add_node np id st) = keys np ++ [(id, st)].
Proof.
  intros np id st H Hc Hi.
  pose proof (pi_count np H) as C. pose proof (pi_max np H) as M.
  set (k := Z.to_nat (np_nodeCount np)).
  assert (k < length (np_nodes np))%nat as Kn by (rewrite (pi_nodes np H); lia).
  assert (k < length (np_next np))%nat as Kx by (rewrite (pi_next np H); lia).
  destruct (nth_error_in_range _ _ Kn) as [n En].
  destruct (first_in_range np id H) as (f & _ & Ef).
  pose proof (bucket_range np id H) as B.
  assert (keys (add_node np id st) = keys np ++ [(id, st)]) as EK.
  { unfold keys, used, add_node; cbn [np_nodes np_nodeCount]. fold k. rewrite En.
    replace (Z.to_nat (np_nodeCount np + 1)) with (S k) by lia.
    rewrite (firstn_snoc _ k (reset_node n id st)) by (now apply nth_error_upd_eq).
    rewrite firstn_upd_ge by lia. rewrite map_app. reflexivity. }
  split; [|exact EK].
  unfold add_node in *. fold k in EK |- *. rewrite En, Ef in *.
  set (np' := mkPool _ _ _ _ _ _) in *.
  assert (forall x, bucket_of np' x = bucket_of np x) as Bx by (intros; reflexivity).
  constructor; cbn [np' np_hashSize np_first np_nodes np_next np_maxNodes np_nodeCount].
  - exact (pi_hash np H).
  - rewrite upd_length. exact (pi_first np H).
  - rewrite upd_length. exact (pi_nodes np H).
  - rewrite upd_length. exact (pi_next np H).
  - exact M.
  - lia.
  - intros b f' E Hb.
    (* bucket chains of the new pool *)
    assert (bucket_chain np' b = (if bucket_of np id =? b then [k] else []) ++ bucket_chain np b) as BC.
    { unfold bucket_chain; cbn [np' np_nodes np_nodeCount].
      replace (Z.to_nat (np_nodeCount np + 1)) with (S k) by lia.
      rewrite seq_S, rev_app_distr. simpl. rewrite nth_error_upd_eq by assumption.
      rewrite Bx. unfold reset_node at 1; cbn [nID].
      assert (forall l, (forall x, In x l -> (x < k)%nat) ->
        filter (fun x => match nth_error (upd (np_nodes np) k (reset_node n id st)) x with
                         | Some n0 => bucket_of np' (nID n0) =? b | None => false end) l =
        filter (fun x => match nth_error (np_nodes np) x with
                         | Some n0 => bucket_of np (nID n0) =? b | None => false end) l) as FE.
      { intros l Hl. apply filter_ext_in. intros x Hx. rewrite nth_error_upd_neq by (specialize (Hl x Hx); lia).
        destruct (nth_error (np_nodes np) x); [now rewrite Bx|reflexivity]. }
      rewrite FE by (intros x Hx; apply in_rev, in_seq in Hx; lia).
      fold k. destruct (bucket_of np id =? b); reflexivity. }
    rewrite BC. rewrite nth_error_upd in E.
    assert (forall b', ~ In k (bucket_chain np b')) as Nk.
    { intros b' Hin. apply in_bucket_chain in Hin. lia. }
    destruct (Z.eqb_spec (bucket_of np id) b) as [Eb|Nb].
    + subst b. rewrite Nat.eqb_refl, Ef in E. inversion E; subst f'. simpl.
      replace (np_nodeCount np) with (Z.of_nat k) by lia.
      apply chain_cons with (j := f).
      * unfold nullIdx. lia.
      * now apply nth_error_upd_eq.
      * apply chain_upd; [|apply Nk]. apply (pi_chain np H); assumption.
    + destruct (Nat.eqb_spec (Z.to_nat b) (Z.to_nat (bucket_of np id))); [lia|].
      simpl. apply chain_upd; [|apply Nk]. apply (pi_chain np H); assumption.
  - rewrite EK. pose proof (index_of_spec (id, st) (keys np)) as S. rewrite Hi in S.
    apply (Permutation_NoDup (Permutation_cons_append _ _)). constructor.
    + exact S.
    + exact (pi_nodup np H).
Qed.

Lemma Node_spec : forall np id st, pool_inv np ->
  pool_Node np id st =
  match index_of (id, st) (keys np) with
  | Some i => Ok (np, Some (Z.of_nat i))
  | None => if np_nodeCount np <? np_maxNodes np
            then Ok (add_node np id st, Some (np_nodeCount np))
            else Ok (np, None)
  end.
Proof.
  intros np id st H. unfold pool_Node.
  destruct (first_in_range np id H) as (f & Eg & Ef). rewrite Eg. cbn [bind of_option].
  rewrite (walk_bucket np id st f H Ef). cbn [bind of_option].
  destruct (index_of (id, st) (keys np)) as [i|]; simpl; [reflexivity|].
  pose proof (pi_count np H) as C. pose proof (pi_max np H) as M.
  rewrite Z.geb_leb. destruct (Z.ltb_spec (np_nodeCount np) (np_maxNodes np)) as [L|L].
  - destruct (Z.leb_spec (np_maxNodes np) (np_nodeCount np)); [lia|].
    rewrite u16_id by (unfold is_u16; lia).
    set (k := Z.to_nat (np_nodeCount np)).
    assert (k < length (np_nodes np))%nat as Kn by (rewrite (pi_nodes np H); lia).
    destruct (nth_error_in_range _ _ Kn) as [n En].
    rewrite get_getn by lia. fold k. unfold getn. rewrite En. cbn [bind of_option].
    rewrite (set_in_range (np_nodes np)) by (unfold zlen; rewrite (pi_nodes np H); lia). cbn [bind of_option].
    rewrite (set_in_range (np_next np)) by (unfold zlen; rewrite (pi_next np H); lia). cbn [bind of_option].
    pose proof (bucket_range np id H) as B.
    rewrite (set_in_range (np_first np)) by (unfold zlen; rewrite (pi_first np H); lia). cbn [bind of_option].
    unfold add_node. fold k. rewrite En, Ef. reflexivity.
  - destruct (Z.leb_spec (np_maxNodes np) (np_nodeCount np)); [|lia]. reflexivity.
Qed.

(** ** Clear and creation *)
Lemma Clear_inv : forall np, pool_inv np -> pool_inv (pool_Clear np) /\ keys (pool_Clear np) = [].
Proof.
  intros np H. unfold pool_Clear. split.
  - constructor; cbn [np_hashSize np_first np_nodes np_next np_maxNodes np_nodeCount].
    + exact (pi_hash np H).
    + rewrite repeat_length. exact (pi_first np H).
    + exact (pi_nodes np H).
    + exact (pi_next np H).
    + exact (pi_max np H).
    + pose proof (pi_max np H). lia.
    + intros b f E Hb. apply nth_error_In in E. apply repeat_spec in E. subst f.
      unfold bucket_chain; simpl. constructor.
    + constructor.
  - reflexivity.
Qed.

Lemma newNodePool_inv : forall maxNodes k, 0 <= k <= 31 -> 0 <= maxNodes <= 65535 ->
  exists np, newNodePool maxNodes (2 ^ k) = Ok np /\ pool_inv np /\ keys np = [] /\
    np_maxNodes np = maxNodes.
Proof.
  intros mx k Hk Hm. unfold newNodePool.
  assert (0 < 2 ^ k) by (apply Z.pow_pos_nonneg; lia).
  destruct (Z.ltb_spec mx 0); [lia|]. destruct (Z.ltb_spec (2 ^ k) 0); [lia|]. simpl.
  eexists; split; [reflexivity|]. split; [|split; reflexivity].
  constructor; cbn [np_hashSize np_first np_nodes np_next np_maxNodes np_nodeCount];
    rewrite ?repeat_length; try reflexivity; try lia.
  - exists k. auto.
  - intros b f E Hb. apply nth_error_In in E. apply repeat_spec in E. subst f.
    unfold bucket_chain; simpl. constructor.
  - constructor.
Qed.

(** ** Client updates that keep the key *)
Lemma update_inv : forall np k f, pool_inv np -> (k < Z.to_nat (np_nodeCount np))%nat ->
  (forall n, nkey (f n) = nkey n) ->
  exists n np', nth_error (np_nodes np) k = Some n /\
    pool_update np (Z.of_nat k) f = Ok np' /\ pool_inv np' /\ keys np' = keys np /\
    np_nodes np' = upd (np_nodes np) k (f n) /\
    np_maxNodes np' = np_maxNodes np /\ np_nodeCount np' = np_nodeCount np.
Proof.
  intros np k f H Hk Hf.
  pose proof (pi_count np H) as C. pose proof (pi_max np H) as M.
  assert (k < length (np_nodes np))%nat as Kn by (rewrite (pi_nodes np H); lia).
  destruct (nth_error_in_range _ _ Kn) as [n En].
  unfold pool_update. rewrite get_getn by lia. rewrite Nat2Z.id. unfold getn. rewrite En. cbn [bind of_option].
  rewrite set_in_range by (unfold zlen; lia). cbn [bind of_option]. rewrite Nat2Z.id.
  exists n. eexists. split; [reflexivity|]. split; [reflexivity|].
  set (np' := mkPool _ _ _ _ _ _).
  assert (forall x, option_map nkey (nth_error (np_nodes np') x) = option_map nkey (nth_error (np_nodes np) x)) as EN.
  { intros x. cbn [np' np_nodes]. rewrite nth_error_upd. destruct (Nat.eqb_spec x k) as [->|]; [|reflexivity].
    rewrite En. simpl. now rewrite Hf. }
  assert (keys np' = keys np) as EK.
  { unfold keys, used. cbn [np' np_nodes np_nodeCount].
    rewrite firstn_upd by assumption.
    assert (nth_error (firstn (Z.to_nat (np_nodeCount np)) (np_nodes np)) k = Some n) as E1
      by (fold (used np); rewrite nth_error_used; assumption).
    revert E1. generalize (firstn (Z.to_nat (np_nodeCount np)) (np_nodes np)) as l. intros l.
    generalize k. clear - Hf.
    induction l as [|x l IH]; intros [|j] E; simpl in *; try discriminate.
    - inversion E; subst. now rewrite Hf.
    - f_equal. now apply IH. }
  split; [|repeat split; auto].
  constructor; cbn [np' np_hashSize np_first np_nodes np_next np_maxNodes np_nodeCount].
  - exact (pi_hash np H).
  - exact (pi_first np H).
  - rewrite upd_length. exact (pi_nodes np H).
  - exact (pi_next np H).
  - exact M.
  - exact C.
  - intros b f' E Hb.
    assert (bucket_chain np' b = bucket_chain np b) as ->.
    { unfold bucket_chain. cbn [np' np_nodeCount]. apply filter_ext. intros x.
      specialize (EN x).
      destruct (nth_error (np_nodes np') x) as [n1|], (nth_error (np_nodes np) x) as [n2|];
        simpl in EN; try discriminate; [|reflexivity].
      inversion EN as [[E1 E2]]. unfold bucket_of; cbn [np' np_hashSize]. now rewrite E1. }
    apply (pi_chain np H); assumption.
  - rewrite EK. exact (pi_nodup np H).
Qed.
