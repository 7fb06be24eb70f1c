(** FindPath: soundness of the path and meaning of the status flags. *)
From Coq Require Import ZArith List Lia Permutation Bool.
From Verif.Base Require Import Res GoNum F32 Num Grid Bits.
From Verif.Model Require Import Status Poly PolyRef MeshTypes Geom MeshLinks MeshTiles Node NodeQueue FindPath.
From Verif.Spec Require Import LinkSpec PathSpec.
From Verif.Proofs Require Import NodePoolProofs NodeQueueProofs OpenList LinkProofs SearchStep SearchInv.
Import ListNotations.
Open Scope Z_scope.

Definition QOk (np : NodePool) (q : nodeQueue) : Prop :=
  pool_inv np /\ (Z.to_nat (np_maxNodes np) <= length (q_heap q))%nat.

Definition start_node (startRef : Z) (startPos endPos : fvec) : Node :=
  mkNode startPos f0 (fmul (vdist startPos endPos) HScale) 0 0 1 startRef.

Lemma start_spec : forall m flt np q startRef endRef startPos endPos, QOk np q ->
  if np_maxNodes np =? 0 then start_search np q startRef startPos endPos = Panic
  else exists s, start_search np q startRef startPos endPos = Ok s /\ SInv m flt startRef endRef None s /\
    np_nodeCount (sPool s) = 1 /\ node_at (sPool s) 0 (start_node startRef startPos endPos) /\
    (forall j, j <> O -> nth_error (np_nodes (sPool s)) j = nth_error (np_nodes np) j) /\
    np_maxNodes (sPool s) = np_maxNodes np /\ length (q_heap (sOpen s)) = length (q_heap q) /\
    sBest s = 0 /\ sBestCost s = fmul (vdist startPos endPos) HScale /\ sOut s = false.
Proof.
  intros m flt np q startRef endRef startPos endPos [HP HC]. unfold start_search.
  destruct (Clear_inv np HP) as [HPc Kc].
  assert (SO : SOk (pool_Clear np) (q_clear q)).
  { constructor.
    - exact HPc.
    - intros k n [Hk _]. cbn in Hk. lia.
    - exists []. split; [split; [cbn; lia|constructor]|]. split; [constructor|]. split; [intros k []|]. intros k n [Hk _]. cbn in Hk. lia.
    - exact HC. }
  destruct (pool_node_cases _ _ startRef 0 SO) as [(k & n & [Hk _] & _)|[(_ & Hc & E)|(_ & Hc & np' & old & E & HS & Ho & ST & HK)]].
  - cbn in Hk. lia.
  - cbn [pool_Clear np_nodeCount np_maxNodes] in Hc. rewrite <- Hc. rewrite E. reflexivity.
  - cbn [pool_Clear np_nodeCount np_maxNodes] in Hc. destruct (Z.eqb_spec (np_maxNodes np) 0); [lia|].
    change (np_nodeCount (pool_Clear np)) with 0 in *. rewrite E. cbn [bind of_option]. cbn [Z.to_nat] in *.
    destruct ST as (En & Em & Ec). cbn [pool_Clear np_nodes np_maxNodes np_nodeCount Z.of_nat] in En, Em, Ec, Ho.
    change (Z.max 0 (0 + 1)) with 1 in Ec.
    assert (Hn : node_at np' 0 (fresh (nPos old) 0 startRef)).
    { split; [lia|]. rewrite En. apply nth_error_upd_eq. apply nth_error_Some. congruence. }
    destruct (update_at np' 0 _ (fun n => mkNode startPos f0 (fmul (vdist startPos endPos) HScale) 0 (nState n) nodeOpen startRef) (so_pool _ _ HS) Hn)
      as (np2 & Eu & HP2 & K2 & N2 & M2 & C2); [reflexivity|].
    cbn [Z.of_nat] in Eu. rewrite Eu. cbn [bind]. cbn [fresh nState] in N2. change nodeOpen with 1 in N2. fold (start_node startRef startPos endPos) in N2.
    pose proof (fun j y => node_at_upd _ _ _ j _ _ Hn N2 C2 y) as NA.
    assert (NA0 : forall j y, node_at np2 j y -> j = O /\ y = start_node startRef startPos endPos).
    { intros j y Hy. apply NA in Hy. destruct Hy as [|[N [Hj _]]]; [assumption|]. lia. }
    destruct (push_any (total_of np2) (q_clear q) [] 0) as (q' & Eq & HQ & HL).
    + split; [cbn; lia|constructor].
    + cbn. lia.
    + intros y [].
    + apply (total_readable np2 0 HP2). lia.
    + rewrite Eq. cbn [bind]. eexists. split; [reflexivity|]. cbn [sPool sOpen sBest sBestCost sOut].
      assert (H0 : node_at np2 0 (start_node startRef startPos endPos)) by (apply NA; auto).
      split; [|split; [congruence|split; [exact H0|split]]].
      2:{ intros j Nj. rewrite N2, En, upd_upd. apply nth_error_upd_neq. congruence. }
      2:{ split; [congruence|]. split; [exact HL|]. auto. }
      constructor; cbn [sPool sOpen sBest sBestCost sOut].
      * constructor.
        -- exact HP2.
        -- intros j y Hy. destruct (NA0 j y Hy) as [_ ->]. right; left; reflexivity.
        -- exists [O]. split; [exact HQ|]. split; [constructor; [intros []|constructor]|]. split.
           ++ intros k [<-|[]]. lia.
           ++ intros j y Hy. destruct (NA0 j y Hy) as [-> ->]. cbn. tauto.
        -- rewrite M2, Em, HL. exact HC.
      * intros j y Hy. destruct (NA0 j y Hy) as [_ ->]. discriminate.
      * exists (start_node startRef startPos endPos). auto.
      * intros j y Hy. destruct (NA0 j y Hy) as [-> ->]. left. auto.
      * intros j y Hy. destruct (NA0 j y Hy) as [-> ->]. exists []. split; [exact I|reflexivity].
      * exists O, (start_node startRef startPos endPos). auto.
      * intros j y Hy Fy. destruct (NA0 j y Hy) as [_ ->]. discriminate.
      * intros _ j y Hy Fy. destruct (NA0 j y Hy) as [_ ->]. discriminate.
      * discriminate.
Qed.

Definition flags_of (short partial out : bool) : Z :=
  let st := if short then Z.lor Success BufferTooSmall else Success in
  let st := if partial then Z.lor st PartialResult else st in
  if out then Z.lor st OutOfNodes else st.

(** Summary of a call that passed the validation. *)
Lemma FindPath_spec : forall fuel m np q flt a b pa pb path np' q' path' n st, QOk np q ->
  FindPath fuel m np q flt a b pa pb path = Ok (np', q', path', n, st) ->
  (st = Z.lor Failure InvalidParam /\ n = 0 /\ path' = path /\ np' = np /\ q' = q /\
     (path = [] \/ IsValidPolyRef m a = Ok false \/ IsValidPolyRef m b = Ok false)) \/
  IsValidPolyRef m a = Ok true /\ IsValidPolyRef m b = Ok true /\ path <> [] /\ QOk np' q' /\
  exists l out, corridor m flt a l /\ n = Z.min (zlen (a :: l)) (zlen path) /\
    path' = firstn (length path) (a :: l) ++ skipn (length (a :: l)) path /\
    st = flags_of (zlen (a :: l) >? zlen path) (negb (last l a =? b)) out /\
    (out = true -> np_nodeCount np' = np_maxNodes np' /\
       exists l0 r side, corridor m flt a (l0 ++ [r]) /\ ~ In (r, side) (keys np')) /\
    (out = false -> last l a <> b -> forall l0, corridor m flt a l0 -> last l0 a <> b).
Proof.
  intros fuel m np q flt a b pa pb path np' q' path' n st HQ E. unfold FindPath in E.
  apply bind_ok in E as (vs & Es & E). apply bind_ok in E as (ve & Ee & E).
  destruct (negb vs || negb ve || (zlen path =? 0)) eqn:G.
  { apply Ok_inj in E. injection E as <- <- <- <- <-. left. repeat (split; [reflexivity|]).
    destruct vs; [|now right; left]. destruct ve; [|now right; right]. cbn in G. apply Z.eqb_eq in G. left.
    destruct path; [reflexivity|]. rewrite zlen_cons in G. pose proof (zlen_nonneg path). lia. }
  right. destruct vs; [|discriminate]. destruct ve; [|discriminate]. cbn in G. apply Z.eqb_neq in G.
  assert (Np : path <> []) by (intros ->; apply G; reflexivity). split; [exact Es|]. split; [exact Ee|]. split; [exact Np|].
  destruct (Z.eqb_spec a b) as [Eab|Nab].
  { apply bind_ok in E as (p1 & E1 & E). apply Ok_inj in E. injection E as <- <- <- <- <-. split; [exact HQ|]. exists [], false.
    destruct path as [|y path]; [congruence|]. rewrite set_in_range in E1 by (rewrite zlen_cons; pose proof (zlen_nonneg path); lia).
    apply Ok_inj in E1. cbn [Z.to_nat upd] in E1. subst p1. split; [exact I|].
    pose proof (zlen_nonneg path). rewrite !zlen_cons, zlen_nil. cbn [last]. rewrite Eab, Z.eqb_refl. split; [lia|]. split; [cbn [length firstn skipn app]; rewrite firstn_nil; reflexivity|].
    destruct (Z.gtb_spec (1 + 0) (1 + zlen path)); [lia|]. split; [reflexivity|]. split; [discriminate|]. intros _ X. congruence. }
  apply bind_ok in E as (s0 & E0 & E). pose proof (start_spec m flt np q a b pa pb HQ) as SS.
  destruct (np_maxNodes np =? 0); [rewrite SS in E0; discriminate|]. destruct SS as (s0' & Es0 & HI0 & _). rewrite E0 in Es0. apply Ok_inj in Es0. subst s0'. clear E0.
  apply bind_ok in E as (s & El & E). apply bind_ok in E as ([[p1 c1] st1] & Ep & E). apply bind_ok in E as (lastn & Eln & E). apply Ok_inj in E.
  injection E as <- <- <- <- <-.
  assert (HI : exists x, SInv m flt a b x s /\ exists kb nb, sBest s = Z.of_nat kb /\ node_at (sPool s) kb nb).
  { destruct (search_inv _ _ _ _ _ _ _ _ HI0 El) as [(kb & nb & HI & Eb & Hb & _)|[HI _]].
    - exists (Some kb). split; [exact HI|]. eauto.
    - exists None. split; [exact HI|]. apply (si_best _ _ _ _ _ _ HI). }
  destruct HI as (x & HI & kb & nb & Eb & Hb).
  pose proof (si_ok _ _ _ _ _ _ HI) as SO. split; [split; [apply (so_pool _ _ SO)|apply (so_cap _ _ SO)]|].
  rewrite Eb in Ep, Eln. rewrite (node_at_get _ _ _ Hb) in Eln. apply Ok_inj in Eln. subst lastn.
  assert (exists len, path_length (pool_fuel (sPool s)) (sPool s) (Z.of_nat kb) = Ok len) as [len Elen].
  { unfold pathToNode in Ep. apply bind_ok in Ep as (len & Elen & _). eauto. }
  destruct (path_length_anc _ _ _ _ _ _ _ _ _ _ HI Hb Elen) as (L & HA & ->).
  rewrite (pathToNode_spec _ _ _ _ _ _ _ _ path HI HA Np Elen) in Ep. apply Ok_inj in Ep. injection Ep as <- <- <-.
  destruct (Anc_corridor _ _ _ _ _ _ _ _ HI HA) as (l & -> & Hc & nb' & Hb' & Hl). rewrite (node_at_det _ _ _ _ Hb' Hb) in Hl.
  exists l, (sOut s). split; [exact Hc|]. split; [reflexivity|]. split; [reflexivity|]. split; [|split].
  - unfold flags_of. rewrite Hl. destruct (nID nb =? b), (zlen (a :: l) >? zlen path), (sOut s); reflexivity.
  - intros Ho. destruct (si_out _ _ _ _ _ _ HI Ho) as (Fu & k & y & r & side & Hy & Li & Pa & Nk). split; [exact Fu|].
    destruct (si_reach _ _ _ _ _ _ HI k y Hy) as (l0 & Hc0 & Hl0). exists l0, r, side. split; [|exact Nk]. apply corridor_snoc; auto. now rewrite Hl0.
  - intros Ho Nl. destruct (search_inv _ _ _ _ _ _ _ _ HI0 El) as [(kb' & nb0 & _ & Eb0 & Hb0 & Hg)|[HIn Hem]].
    { rewrite Eb in Eb0. apply Nat2Z.inj in Eb0. subst kb'. rewrite (node_at_det _ _ _ _ Hb0 Hb) in Hg. congruence. }
    assert (Cl : forall k y, node_at (sPool s) k y -> nFlags y = 2).
    { intros k y Hy. destruct (so_flags _ _ SO k y Hy) as [F|[F|F]]; [|exfalso|exact F].
      - exfalso. exact (si_flag _ _ _ _ _ _ HI k y Hy F).
      - destruct (so_queue _ _ SO) as (qs & HQs & _ & _ & Hfl). apply (Hfl k y Hy) in F. pose proof (queued_length _ _ HQs) as Lq.
        unfold q_empty in Hem. apply Nat.eqb_eq in Hem. rewrite Hem, map_length in Lq. destruct qs; [destruct F|discriminate]. }
    assert (Re : forall l0 r, corridor m flt r l0 -> has_ref (sPool s) r -> has_ref (sPool s) (last l0 r)).
    { induction l0 as [|r' l0 IH]; intros r Hc0 (k & y & Hy & Er); [exists k, y; auto|]. destruct Hc0 as (Li & Pa & Hc0).
      rewrite last_cons. apply IH; [exact Hc0|]. rewrite <- Er in Li.
      apply (si_done _ _ _ _ _ _ HIn Ho k y Hy (Cl k y Hy)); [discriminate|exact Li|exact Pa]. }
    intros l0 Hc0 Eq. destruct (si_root _ _ _ _ _ _ HI) as (n0 & H0 & E0).
    destruct (Re l0 a Hc0) as (k & y & Hy & Er); [exists O, n0; auto|]. rewrite Eq in Er.
    apply (si_goal _ _ _ _ _ _ HIn k y Hy (Cl k y Hy)); [discriminate|exact Er].
Qed.

(** ** Query objects *)
Lemma new_query_ok : forall mx np q, 4 <= mx -> NewNavMeshQuery mx = Ok (Some (np, q)) ->
  QOk np q /\ np_maxNodes np = mx /\ np_nodes np = repeat newNode (Z.to_nat mx).
Proof.
  intros mx np q Hm E. unfold NewNavMeshQuery in E. destruct (Z.ltb_spec 65535 mx); [cbn in E; discriminate|].
  destruct (Z.ltb_spec (2 ^ 24 - 1) mx); [cbn in E; discriminate|]. cbn [orb] in E.
  rewrite Z.quot_div_nonneg in E by lia. set (d := mx / 4) in *.
  assert (Hd : 1 <= d <= 16384).
  { split; [apply Z.div_le_lower_bound; lia|]. apply Z.div_le_upper_bound; lia. }
  assert (L : 0 <= Z.log2_up d <= 14).
  { split; [apply Z.log2_up_nonneg|]. change 14 with (Z.log2_up (2 ^ 14)). apply Z.log2_up_le_mono. lia. }
  assert (P : 2 ^ Z.log2_up d <= 2 ^ 14) by (apply Z.pow_le_mono_r; lia). change (2 ^ 14) with 16384 in P.
  assert (P0 : 0 < 2 ^ Z.log2_up d) by (apply Z.pow_pos_nonneg; lia).
  assert (N : i32 (NextPow2 (u32 d)) = 2 ^ Z.log2_up d).
  { assert (U : u32 d = d) by (apply Z.mod_small; lia). rewrite U. unfold NextPow2. destruct (Z.eqb_spec d 0); [lia|].
    assert (U' : u32 (2 ^ Z.log2_up d) = 2 ^ Z.log2_up d) by (apply Z.mod_small; lia). rewrite U'. apply i32_id. unfold is_i32. lia. }
  rewrite N in E. destruct (newNodePool_inv mx (Z.log2_up d)) as (np0 & E0 & HI & _ & Em); [lia|lia|].
  rewrite E0 in E. cbn [bind] in E. apply Ok_inj in E. injection E as <- <-.
  split; [split; [exact HI|rewrite Em; cbn [newnodeQueue q_heap]; rewrite repeat_length; lia]|]. split; [exact Em|].
  unfold newNodePool in E0. destruct (_ || _); [discriminate|]. apply Ok_inj in E0. subst np0. reflexivity.
Qed.

Lemma QueryState_ok : forall np q, QueryState np q -> QOk np q.
Proof.
  intros np q H. induction H as [mx np q Hm E|fuel m np q flt a b pa pb path np' q' path' n st HQ IH E].
  - apply (new_query_ok mx np q Hm E).
  - destruct (FindPath_spec _ _ _ _ _ _ _ _ _ _ _ _ _ _ _ IH E) as [(_ & _ & _ & -> & -> & _)|(_ & _ & _ & Q & _)]; assumption.
Qed.
