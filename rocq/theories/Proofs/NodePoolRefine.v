(** Refinement of [Spec.NodePoolSpec] by the node pool model. *)
From Coq Require Import ZArith Bool List Lia.
From Verif.Base Require Import Res GoNum F32.
From Verif.Model Require Import Node.
From Verif.Spec Require Import NodePoolSpec.
From Verif.Proofs Require Import NodePoolProofs.
Import ListNotations.
Open Scope Z_scope.

Definition payload_of (n : Node) : payload := (nCost n, nTotal n, nPIdx n, nFlags n).
Definition entry_of (n : Node) : entry := (nkey n, payload_of n).
Definition write_payload (v : payload) (n : Node) : Node :=
  let '(c, t, p, f) := v in mkNode (nPos n) c t p (nState n) f (nID n).

(** The same operations on the model. *)
Definition pool_step (np : NodePool) (o : pool_op) : res (NodePool * pool_out) :=
  match o with
  | ONode id st => let* r := pool_Node np id st in Ok (fst r, RNode (snd r))
  | OFind id st => let* r := pool_FindNode np id st in Ok (np, RNode r)
  | OFindAll id m => let* r := pool_FindNodes np id m in Ok (np, RNodes r)
  | OWrite k v => let* np' := pool_update np (Z.of_nat k) (write_payload v) in Ok (np', RUnit)
  | ORead k => let* n := get (np_nodes np) (Z.of_nat k) in Ok (np, RVal (Some (payload_of n)))
  | OClear => Ok (pool_Clear np, RUnit)
  end.

Fixpoint pool_run (np : NodePool) (ops : list pool_op) : res (list pool_out) :=
  match ops with
  | [] => Ok []
  | o :: r => let* x := pool_step np o in
              let* outs := pool_run (fst x) r in Ok (snd x :: outs)
  end.

Definition abs (np : NodePool) : list entry := map entry_of (used np).

Lemma abs_length : forall np, pool_inv np -> length (abs np) = Z.to_nat (np_nodeCount np).
Proof. intros. unfold abs. rewrite map_length. now apply used_length. Qed.

Lemma position_index : forall k np, position k (abs np) = index_of k (keys np).
Proof.
  intros k np. unfold abs, keys. induction (used np) as [|n l IH]; simpl; [reflexivity|].
  unfold key_eqb. simpl. now rewrite IH.
Qed.

Lemma positions_with_id : forall np id, pool_inv np -> positions_of id (abs np) = with_id np id.
Proof.
  intros np id H. unfold positions_of, with_id. rewrite abs_length by assumption.
  apply filter_ext_in. intros k Hk. apply in_rev, in_seq in Hk.
  unfold abs. rewrite nth_error_map, nth_error_used by lia.
  destruct (nth_error (np_nodes np) k); reflexivity.
Qed.

Lemma replace_abs : forall l k n v, nth_error l k = Some n ->
  replace (map entry_of l) k v = map entry_of (upd l k (write_payload v n)).
Proof.
  induction l as [|x l IH]; intros [|k] n v H; simpl in *; try discriminate.
  - inversion H; subst. f_equal. destruct v as [[[c t] p] f]. reflexivity.
  - f_equal. now apply IH.
Qed.

Lemma step_refines : forall np o cap l' out,
  pool_inv np -> np_maxNodes np = Z.of_nat cap ->
  spec_step cap (abs np) o = Some (l', out) ->
  exists np', pool_step np o = Ok (np', out) /\ pool_inv np' /\ np_maxNodes np' = Z.of_nat cap /\ abs np' = l'.
Proof.
  intros np o cap l' out H Hm HS.
  pose proof (abs_length np H) as L. pose proof (pi_count np H) as C.
  destruct o as [id st|id st|id m|k v|k|]; simpl in HS; unfold pool_step.
  - rewrite (Node_spec np id st H). rewrite position_index in HS.
    destruct (index_of (id, st) (keys np)) as [i|] eqn:Ei.
    + inversion HS; subst. simpl. exists np. auto.
    + destruct (Nat.ltb_spec (length (abs np)) cap) as [Hl|Hl].
      * destruct (Z.ltb_spec (np_nodeCount np) (np_maxNodes np)) as [Hz|Hz]; [|lia].
        inversion HS; subst. simpl. exists (add_node np id st).
        destruct (add_node_inv np id st H Hz Ei) as [Hi _].
        split; [|split; [assumption|split; [assumption|]]].
        -- do 4 f_equal. rewrite L. lia.
        -- unfold abs, used, add_node; cbn [np_nodes np_nodeCount].
           assert (Z.to_nat (np_nodeCount np) < length (np_nodes np))%nat as Kn
             by (rewrite (pi_nodes np H); lia).
           destruct (nth_error_in_range _ _ Kn) as [n En]. rewrite En.
           replace (Z.to_nat (np_nodeCount np + 1)) with (S (Z.to_nat (np_nodeCount np))) by lia.
           rewrite (firstn_snoc _ _ (reset_node n id st)) by (now apply nth_error_upd_eq).
           rewrite firstn_upd_ge by lia. rewrite map_app. reflexivity.
      * destruct (Z.ltb_spec (np_nodeCount np) (np_maxNodes np)) as [Hz|Hz]; [lia|].
        inversion HS; subst. simpl. exists np. auto.
  - rewrite (FindNode_spec np id st H). rewrite position_index in HS.
    inversion HS; subst. simpl. exists np. auto.
  - rewrite (FindNodes_spec np id m H). rewrite positions_with_id in HS by assumption.
    inversion HS; subst. simpl. exists np. auto.
  - destruct (Nat.ltb_spec k (length (abs np))) as [Hk|Hk]; [|discriminate].
    inversion HS; subst.
    destruct (update_inv np k (write_payload v) H) as (n & np' & En & Eu & Hi & Ek & Enn & Em & Ec).
    + lia.
    + intros x. destruct v as [[[c t] p] f]. reflexivity.
    + rewrite Eu. simpl. exists np'. split; [reflexivity|]. split; [assumption|]. split; [lia|].
      unfold abs, used. rewrite Enn, Ec, firstn_upd by lia.
      symmetry. apply replace_abs. fold (used np). rewrite nth_error_used by lia. assumption.
  - destruct (nth_error (abs np) k) as [e|] eqn:E; [|discriminate]. inversion HS; subst.
    assert (k < Z.to_nat (np_nodeCount np))%nat as Hk by (rewrite <- L; apply nth_error_Some; congruence).
    unfold abs in E. rewrite nth_error_map, nth_error_used in E by assumption.
    rewrite get_getn by lia. rewrite Nat2Z.id. unfold getn.
    destruct (nth_error (np_nodes np) k) as [n|]; [|discriminate]. simpl in *. inversion E; subst.
    exists np. auto.
  - inversion HS; subst. destruct (Clear_inv np H) as [Hi Ek]. exists (pool_Clear np).
    split; [reflexivity|]. split; [assumption|]. split; [assumption|reflexivity].
Qed.

Lemma run_refines : forall ops np cap outs,
  pool_inv np -> np_maxNodes np = Z.of_nat cap ->
  spec_run cap (abs np) ops = Some outs -> pool_run np ops = Ok outs.
Proof.
  induction ops as [|o ops IH]; intros np cap outs H Hm HS; simpl in *.
  - congruence.
  - destruct (spec_step cap (abs np) o) as [[l' out]|] eqn:E; [|discriminate].
    destruct (step_refines np o cap l' out H Hm E) as (np' & Es & Hi & Hm' & Ea).
    rewrite Es. simpl. destruct (spec_run cap l' ops) as [outs'|] eqn:R; [|discriminate].
    simpl in HS. inversion HS; subst.
    rewrite (IH np' cap outs' Hi Hm' R). reflexivity.
Qed.
