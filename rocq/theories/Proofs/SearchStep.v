(** One step of the search loops: the effect on node pool and open list. *)
From Coq Require Import ZArith List Lia Permutation Bool.
From Verif.Base Require Import Res GoNum F32 Num Grid.
From Verif.Model Require Import Status Poly PolyRef MeshTypes Geom MeshLinks MeshTiles Node NodeQueue FindPath.
From Verif.Spec Require Import LinkSpec PathSpec.
From Verif.Proofs Require Import NodePoolProofs NodeQueueProofs OpenList LinkProofs.
Import ListNotations.
Open Scope Z_scope.

Lemma TileAndPolyByRefUnsafe_ok : forall m r t p, TileAndPolyByRefUnsafe m r = Ok (t, p) <-> polygon_at m r t p.
Proof.
  intros m r t p. unfold TileAndPolyByRefUnsafe, polygon_at, DecodePolyID. split.
  - intros E. apply bind_ok in E as (t0 & E1 & E). apply bind_ok in E as (p0 & E2 & E). apply Ok_inj in E. injection E as -> ->. auto.
  - intros [-> H]. cbn [bind]. rewrite H. reflexivity.
Qed.

(** ** Link lists *)
Lemma LChain_NoDup : forall L s c, LChain L s c -> NoDup (slots c).
Proof.
  intros L s c H. unfold LChain in H. remember nullLink as e eqn:E. induction H as [|s l c e Hs Hg H IH]; [constructor|].
  cbn [slots map fst]. constructor; [|now apply IH]. intros Hin. apply in_map_iff in Hin. destruct Hin as ([s' x] & Es & Hin). cbn [fst] in Es. subst s' e.
  apply in_split in Hin. destruct Hin as (pre & post & ->). pose proof H as H'. apply LSeg_app in H'. destruct H' as (mid & _ & H').
  assert (mid = s) by (inversion H'; congruence). subst mid.
  assert (E : (s, pay l) :: pre ++ (s, x) :: post = (s, x) :: post).
  { apply (LChain_det L s); [now constructor|exact H']. }
  apply (f_equal (@length _)) in E. cbn [length] in E. rewrite app_length in E. cbn [length] in E. lia.
Qed.
Lemma LChain_short : forall L s c, LChain L s c -> (length c <= length L)%nat.
Proof. intros L s c H. eapply LSeg_length; [exact H|]. eapply LChain_NoDup; exact H. Qed.

Definition at_slots (L : list Link) (c : list (Z * payload)) : list Link :=
  flat_map (fun x => match get L (fst x) with Ok l => [l] | _ => [] end) c.
Lemma LSeg_at : forall L s c e x, LSeg L s c e -> In x c -> exists l, get L (fst x) = Ok l /\ snd x = pay l.
Proof.
  intros L s c e x H. induction H as [|s l c e Hs Hg H IH]; intros Hin; [destruct Hin|].
  destruct Hin as [<-|Hin]; [exists l; auto|auto].
Qed.
(** Over a list ending in nullLink, the loop is a fold over the links. *)
Lemma each_link_chain : forall {S} fuel L (body : S -> Link -> res S) i c s, LChain L i c -> (length c < fuel)%nat ->
  each_link fuel L body i s = foldM body (at_slots L c) s.
Proof.
  intros S fuel L body i c s H. revert fuel s. unfold LChain in H. remember nullLink as e eqn:E.
  induction H as [i|i l c e Hs Hg H IH]; intros fuel s Hf; subst.
  - destruct fuel; [cbn in Hf; lia|]. cbn [each_link]. now rewrite Z.eqb_refl.
  - destruct fuel as [|f]; [cbn in Hf; lia|]. cbn [each_link]. rewrite (proj2 (Z.eqb_neq _ _) Hs), Hg. cbn [bind].
    unfold at_slots. cbn [flat_map fst]. rewrite Hg. cbn [app foldM].
    destruct (body s l) as [s'| | |]; cbn [bind]; auto. apply IH; auto. cbn [length] in Hf. lia.
Qed.
(** If the loop returns, the links form a list ending in nullLink. *)
Lemma each_link_ok : forall {S} fuel L (body : S -> Link -> res S) i s s', each_link fuel L body i s = Ok s' -> exists c, LChain L i c.
Proof.
  intros S fuel. induction fuel as [|f IH]; intros L body i s s' E; cbn [each_link] in E.
  - destruct (Z.eqb_spec i nullLink) as [->|N]; [exists []; constructor|discriminate].
  - destruct (Z.eqb_spec i nullLink) as [->|N]; [exists []; constructor|].
    apply bind_ok in E as (l & Hg & E). apply bind_ok in E as (s1 & _ & E). apply IH in E. destruct E as [c Hc].
    exists ((i, pay l) :: c). now constructor.
Qed.
Lemma in_at_slots : forall L s c l, LChain L s c -> In l (at_slots L c) -> In (lRef l) (map (fun x => pay_ref (snd x)) c).
Proof.
  intros L s c l H Hin. unfold at_slots in Hin. apply in_flat_map in Hin. destruct Hin as (x & Hx & Hin).
  destruct (LSeg_at _ _ _ _ _ H Hx) as (l' & Hg & Hp). rewrite Hg in Hin. destruct Hin as [<-|[]].
  apply in_map_iff. exists x. split; [|exact Hx]. rewrite Hp. reflexivity.
Qed.
Lemma at_slots_in : forall L s c r, LChain L s c -> In r (map (fun x => pay_ref (snd x)) c) -> exists l, In l (at_slots L c) /\ lRef l = r.
Proof.
  intros L s c r H Hin. apply in_map_iff in Hin. destruct Hin as (x & <- & Hx).
  destruct (LSeg_at _ _ _ _ _ H Hx) as (l' & Hg & Hp). exists l'. split; [|now rewrite Hp].
  unfold at_slots. apply in_flat_map. exists x. split; [exact Hx|]. rewrite Hg. now left.
Qed.

(** ** Nodes *)
Definition node_at (np : NodePool) (k : nat) (n : Node) : Prop :=
  (k < Z.to_nat (np_nodeCount np))%nat /\ nth_error (np_nodes np) k = Some n.

Lemma node_at_det : forall np k n n', node_at np k n -> node_at np k n' -> n = n'.
Proof. intros np k n n' [_ A] [_ B]. congruence. Qed.
Lemma node_at_get : forall np k n, node_at np k n -> get (np_nodes np) (Z.of_nat k) = Ok n.
Proof. intros np k n [_ H]. rewrite get_getn by lia. rewrite Nat2Z.id. now apply getn_ok. Qed.
Lemma node_ex : forall np k, pool_inv np -> (k < Z.to_nat (np_nodeCount np))%nat -> exists n, node_at np k n.
Proof.
  intros np k H Hk. destruct (nth_error_in_range (np_nodes np) k) as [n E].
  - rewrite (pi_nodes np H). pose proof (pi_count np H). lia.
  - exists n. split; auto.
Qed.
Lemma node_at_key : forall np k n, node_at np k n -> nth_error (keys np) k = Some (nkey n).
Proof. intros np k n [Hk H]. unfold keys. rewrite nth_error_map, nth_error_used by exact Hk. now rewrite H. Qed.
Lemma key_node : forall np k id st, pool_inv np -> nth_error (keys np) k = Some (id, st) -> exists n, node_at np k n /\ nkey n = (id, st).
Proof.
  intros np k id st H E. unfold keys in E. rewrite nth_error_map in E. destruct (nth_error (used np) k) as [n|] eqn:U; [|discriminate].
  assert (Hk : (k < Z.to_nat (np_nodeCount np))%nat) by (rewrite <- used_length by exact H; apply nth_error_Some; congruence).
  rewrite nth_error_used in U by exact Hk. exists n. split; [split; auto|]. cbn [option_map] in E. congruence.
Qed.

(** Writing to node [k] without changing its key. *)
Lemma update_at : forall np k n f, pool_inv np -> node_at np k n -> nkey (f n) = nkey n ->
  exists np', pool_update np (Z.of_nat k) f = Ok np' /\ pool_inv np' /\ keys np' = keys np /\
    np_nodes np' = upd (np_nodes np) k (f n) /\ np_maxNodes np' = np_maxNodes np /\ np_nodeCount np' = np_nodeCount np.
Proof.
  intros np k n f H Hn Hk.
  set (g := fun x => let y := f x in mkNode (nPos y) (nCost y) (nTotal y) (nPIdx y) (nState x) (nFlags y) (nID x)).
  assert (Eg : g n = f n) by (unfold g; unfold nkey in Hk; destruct (f n); cbn in *; congruence).
  destruct (update_inv np k g H (proj1 Hn)) as (n' & np' & E & Eu & R); [reflexivity|].
  assert (n' = n) by (destruct Hn; congruence). subst n'. rewrite Eg in R. exists np'. split; [|exact R].
  rewrite <- Eu. unfold pool_update. rewrite (node_at_get _ _ _ Hn). cbn [bind]. now rewrite Eg.
Qed.
Lemma node_at_upd : forall np np' k j n x, node_at np k n -> np_nodes np' = upd (np_nodes np) k x -> np_nodeCount np' = np_nodeCount np ->
  forall y, node_at np' j y <-> (j = k /\ y = x) \/ (j <> k /\ node_at np j y).
Proof.
  intros np np' k j n x Hn E C y. unfold node_at. rewrite E, C. destruct Hn as [Hk Hn].
  destruct (Nat.eq_dec j k) as [->|N].
  - rewrite nth_error_upd_eq by (apply nth_error_Some; congruence). split; [intros [_ H]; left; split; congruence|].
    intros [[_ ->]|[X _]]; [auto|congruence].
  - rewrite nth_error_upd_neq by congruence. tauto.
Qed.

(** ** Pool and open list together *)
Record SOk (np : NodePool) (q : nodeQueue) : Prop := {
  so_pool : pool_inv np;
  so_flags : forall k n, node_at np k n -> nFlags n = 0 \/ nFlags n = 1 \/ nFlags n = 2;
  so_queue : exists qs, Queued q (map Z.of_nat qs) /\ NoDup qs /\
    (forall k, In k qs -> (k < Z.to_nat (np_nodeCount np))%nat) /\
    (forall k n, node_at np k n -> (In k qs <-> nFlags n = 1));
  so_cap : (Z.to_nat (np_maxNodes np) <= length (q_heap q))%nat
}.

Lemma total_readable : forall np k, pool_inv np -> (k < Z.to_nat (np_nodeCount np))%nat -> readable (total_of np) (Z.of_nat k).
Proof.
  intros np k H Hk. destruct (node_ex np k H Hk) as [n Hn]. exists (nTotal n). unfold total_of. now rewrite (node_at_get _ _ _ Hn).
Qed.
Lemma all_readable : forall np qs, pool_inv np -> (forall k, In k qs -> (k < Z.to_nat (np_nodeCount np))%nat) ->
  forall y, In y (map Z.of_nat qs) -> readable (total_of np) y.
Proof. intros np qs H Hq y Hy. apply in_map_iff in Hy. destruct Hy as (k & <- & Hk). apply total_readable; auto. Qed.

Lemma bounded_nodup : forall qs n, NoDup qs -> (forall k, In k qs -> (k < n)%nat) -> (length qs <= n)%nat.
Proof.
  intros qs n Hn Hb. rewrite <- (seq_length n 0). apply NoDup_incl_length; [exact Hn|].
  intros k Hk. apply in_seq. specialize (Hb k Hk). lia.
Qed.

(** The new entry of node [k], reached from [b]. *)
Definition entry_of (pos : fvec) (cost h : f32) (b : nat) (st ref : Z) : Node :=
  mkNode pos cost (fadd cost h) (Z.of_nat b + 1) st 1 ref.

(** [np'] is [np] with node [k] replaced. *)
Definition stored (np np' : NodePool) (k : nat) (x : Node) : Prop :=
  np_nodes np' = upd (np_nodes np) k x /\ np_maxNodes np' = np_maxNodes np /\
  np_nodeCount np' = Z.max (np_nodeCount np) (Z.of_nat k + 1).

Lemma relax_spec : forall s b k n ref cost h, SOk (sPool s) (sOpen s) -> node_at (sPool s) k n -> nID n = ref ->
  (b < Z.to_nat (np_nodeCount (sPool s)))%nat ->
  if negb (nFlags n =? 0) && fge (fadd cost h) (nTotal n) then relax s (Z.of_nat b) (Z.of_nat k) ref cost h = Ok s
  else exists s', relax s (Z.of_nat b) (Z.of_nat k) ref cost h = Ok s' /\ SOk (sPool s') (sOpen s') /\
    stored (sPool s) (sPool s') k (entry_of (nPos n) cost h b (nState n) ref) /\ keys (sPool s') = keys (sPool s) /\
    length (q_heap (sOpen s')) = length (q_heap (sOpen s)) /\
    sOut s' = sOut s /\ (sBest s', sBestCost s') = (if F32.flt h (sBestCost s) then (Z.of_nat k, h) else (sBest s, sBestCost s)).
Proof.
  intros s b k n ref cost h H Hn Hid Hb. destruct H as [HP HF (qs & HQ & Hnd & Hq & Hfl) HC].
  unfold relax. rewrite (node_at_get _ _ _ Hn). cbn [bind].
  assert (Ho : isOpen n = (nFlags n =? 1)) by (unfold isOpen; destruct (HF k n Hn) as [->|[->| ->]]; reflexivity).
  assert (Hc : isClosed n = (nFlags n =? 2)) by (unfold isClosed; destruct (HF k n Hn) as [->|[->| ->]]; reflexivity).
  replace (isOpen n || isClosed n) with (negb (nFlags n =? 0)) by (rewrite Ho, Hc; destruct (HF k n Hn) as [->|[->| ->]]; reflexivity).
  destruct (negb (nFlags n =? 0) && fge (fadd cost h) (nTotal n)) eqn:Sk; [reflexivity|].
  assert (Fl : Z.lor (Z.land (nFlags n) 253) nodeOpen = 1) by (destruct (HF k n Hn) as [->|[->| ->]]; reflexivity).
  rewrite Fl. pose proof (pi_count _ HP) as PC. pose proof (pi_max _ HP) as PM.
  assert (Ix : pool_NodeIdx (Some (Z.of_nat b)) = Z.of_nat b + 1) by (unfold pool_NodeIdx; apply u32_id; unfold is_u32; lia).
  rewrite Ix.
  destruct (update_at (sPool s) k n (fun n => mkNode (nPos n) cost (fadd cost h) (Z.of_nat b + 1) (nState n) 1 ref) HP Hn) as (np' & Eu & HP' & Ek & En & Em & Ec).
  { unfold nkey. cbn [nID nState]. now rewrite Hid. }
  rewrite Eu. cbn [bind].
  change (mkNode (nPos n) cost (fadd cost h) (Z.of_nat b + 1) (nState n) 1 ref) with (entry_of (nPos n) cost h b (nState n) ref) in En.
  assert (Hq' : forall k, In k qs -> (k < Z.to_nat (np_nodeCount np'))%nat) by (rewrite Ec; exact Hq).
  pose proof (node_at_upd _ _ _ k _ _ Hn En Ec) as NAk.
  assert (Q : exists q' qs', (if isOpen n then q_modify (total_of np') (sOpen s) (Z.of_nat k) else q_push (total_of np') (sOpen s) (Z.of_nat k)) = Ok q' /\
      Queued q' (map Z.of_nat qs') /\ NoDup qs' /\ length (q_heap q') = length (q_heap (sOpen s)) /\ (forall j, In j qs' <-> j = k \/ In j qs)).
  { rewrite Ho. destruct (Z.eqb_spec (nFlags n) 1) as [F1|F1].
    - destruct (modify_any (total_of np') (sOpen s) (map Z.of_nat qs) (Z.of_nat k) HQ) as (q' & E & Q' & L).
      + now apply all_readable.
      + apply total_readable; auto. rewrite Ec. apply Hn.
      + exists q', qs. repeat (split; [assumption|]). intros j. split; [tauto|]. intros [->|]; [|assumption]. now apply (Hfl k n Hn).
    - assert (Nk : ~ In k qs) by (intros X; apply (Hfl k n Hn) in X; congruence).
      destruct (push_any (total_of np') (sOpen s) (map Z.of_nat qs) (Z.of_nat k) HQ) as (q' & E & Q' & L).
      + rewrite <- (queued_length _ _ HQ), map_length.
        assert (length (k :: qs) <= Z.to_nat (np_nodeCount (sPool s)))%nat; [|cbn [length] in *; lia].
        apply bounded_nodup; [now constructor|]. intros j [<-|Hj]; [apply Hn|auto].
      + now apply all_readable.
      + apply total_readable; auto. rewrite Ec. apply Hn.
      + exists q', (k :: qs). split; [exact E|]. split; [exact Q'|]. split; [now constructor|]. split; [exact L|].
        intros j. cbn [In]. intuition congruence. }
  destruct Q as (q' & qs' & -> & HQ' & Hnd' & Lq & Hin'). cbn [bind].
  assert (SO : SOk np' q').
  { constructor.
    - exact HP'.
    - intros j x Hx. apply (node_at_upd _ _ _ j _ _ Hn En Ec) in Hx. destruct Hx as [[-> ->]|[N Hx]]; [right; left; reflexivity|eauto].
    - exists qs'. split; [exact HQ'|]. split; [exact Hnd'|]. split.
      + intros j Hj. rewrite Ec. apply Hin' in Hj. destruct Hj as [->|Hj]; [apply Hn|auto].
      + intros j x Hx. apply (node_at_upd _ _ _ j _ _ Hn En Ec) in Hx. rewrite Hin'. destruct Hx as [[-> ->]|[N Hx]].
        * cbn [entry_of nFlags]. tauto.
        * rewrite <- (Hfl j x Hx). tauto.
    - rewrite Em, Lq. exact HC. }
  assert (ST : stored (sPool s) np' k (entry_of (nPos n) cost h b (nState n) ref)).
  { split; [exact En|]. split; [exact Em|]. rewrite Ec. destruct Hn as [Hk _]. lia. }
  destruct (F32.flt h (sBestCost s)); eexists; (split; [reflexivity|]); cbn [sPool sOpen sOut sBest sBestCost]; auto 10.
Qed.

(** ** A link of the best node *)
Definition cross (l : Link) : Z := if lSide l =? 255 then 0 else Z.shiftr (lSide l) 1.
Definition fresh (pos : fvec) (st ref : Z) : Node := mkNode pos f0 f0 0 st 0 ref.
Definition all_flagged (np : NodePool) : Prop := forall k n, node_at np k n -> nFlags n <> 0.

Lemma pool_node_cases : forall np q id st, SOk np q ->
  (exists k n, node_at np k n /\ nkey n = (id, st) /\ pool_Node np id st = Ok (np, Some (Z.of_nat k))) \/
  (~ In (id, st) (keys np) /\ np_nodeCount np = np_maxNodes np /\ pool_Node np id st = Ok (np, None)) \/
  (~ In (id, st) (keys np) /\ np_nodeCount np < np_maxNodes np /\
   exists np' old, pool_Node np id st = Ok (np', Some (np_nodeCount np)) /\ SOk np' q /\
     nth_error (np_nodes np) (Z.to_nat (np_nodeCount np)) = Some old /\
     stored np np' (Z.to_nat (np_nodeCount np)) (fresh (nPos old) st id) /\ keys np' = keys np ++ [(id, st)]).
Proof.
  intros np q id st H. pose proof (so_pool _ _ H) as HP. rewrite (Node_spec np id st HP).
  pose proof (index_of_spec (id, st) (keys np)) as IX. pose proof (pi_count _ HP) as PC. pose proof (pi_max _ HP) as PM.
  destruct (index_of (id, st) (keys np)) as [i|] eqn:Ei.
  - left. destruct (key_node np i id st HP IX) as (n & Hn & Hk). exists i, n. auto.
  - right. destruct (Z.ltb_spec (np_nodeCount np) (np_maxNodes np)) as [L|L]; [right|left; split; [exact IX|split; [lia|reflexivity]]].
    split; [exact IX|]. split; [exact L|]. destruct (add_node_inv np id st HP L Ei) as [HP' HK].
    destruct (nth_error_in_range (np_nodes np) (Z.to_nat (np_nodeCount np))) as [old Eo]; [rewrite (pi_nodes np HP); lia|].
    exists (add_node np id st), old. split; [reflexivity|].
    assert (En : np_nodes (add_node np id st) = upd (np_nodes np) (Z.to_nat (np_nodeCount np)) (fresh (nPos old) st id)).
    { unfold add_node. cbn [np_nodes]. now rewrite Eo. }
    assert (NA : forall j x, node_at (add_node np id st) j x -> (j = Z.to_nat (np_nodeCount np) /\ x = fresh (nPos old) st id) \/ node_at np j x).
    { intros j x [Hj Hx]. rewrite En in Hx. unfold add_node in Hj. cbn [np_nodeCount] in Hj.
      destruct (Nat.eq_dec j (Z.to_nat (np_nodeCount np))) as [->|N].
      - rewrite nth_error_upd_eq in Hx by (apply nth_error_Some; congruence). left. split; congruence.
      - rewrite nth_error_upd_neq in Hx by congruence. right. split; [lia|exact Hx]. }
    split; [|split; [exact Eo|]].
    + destruct H as [_ HF (qs & HQ & Hnd & Hq & Hfl) HC]. constructor.
      * exact HP'.
      * intros j x Hx. destruct (NA j x Hx) as [[_ ->]|Hx']; [now left|eauto].
      * exists qs. split; [exact HQ|]. split; [exact Hnd|]. split.
        -- intros k Hk. unfold add_node. cbn [np_nodeCount]. specialize (Hq k Hk). lia.
        -- intros j x Hx. destruct (NA j x Hx) as [[-> ->]|Hx']; [|auto]. cbn [fresh nFlags]. split; [|discriminate]. intros X. specialize (Hq _ X). lia.
      * exact HC.
    + split; [|exact HK]. split; [exact En|]. split; [reflexivity|]. unfold add_node. cbn [np_nodeCount]. rewrite Z2Nat.id by lia. lia.
Qed.

Section Visit.
Variables (m : NavMesh) (flt : QueryFilter) (endRef : Z) (endPos : fvec) (b : nat) (best : Node) (bestTile : MeshTile) (bestPoly : Poly) (parent : Side).
Let bestRef := nID best.
Let visit (s : Search) (l : Link) := visit_link m flt endRef endPos (Z.of_nat b) bestRef bestTile bestPoly parent s l.
Let cost_to (nb : Node) (ref : Z) (t : MeshTile) (p : Poly) :=
  step_cost flt endRef endPos best nb parent (bestRef, Some (bestTile, bestPoly)) (ref, Some (t, p)).

Lemma visit_spec : forall s l, SOk (sPool s) (sOpen s) -> all_flagged (sPool s) -> node_at (sPool s) b best ->
  if (lRef l =? 0) || (lRef l =? fst parent) then visit s l = Ok s
  else forall t p, polygon_at m (lRef l) t p ->
    if negb (qPass flt (lRef l) t p) then visit s l = Ok s
    else
      (exists k n, node_at (sPool s) k n /\ nkey n = (lRef l, cross l) /\
         visit s l = let* (c, h) := cost_to n (lRef l) t p in relax s (Z.of_nat b) (Z.of_nat k) (lRef l) c h) \/
      (~ In (lRef l, cross l) (keys (sPool s)) /\ np_nodeCount (sPool s) = np_maxNodes (sPool s) /\
         visit s l = Ok (mkSearch (sPool s) (sOpen s) (sBest s) (sBestCost s) true)) \/
      (~ In (lRef l, cross l) (keys (sPool s)) /\ np_nodeCount (sPool s) < np_maxNodes (sPool s) /\
         let k := Z.to_nat (np_nodeCount (sPool s)) in
         exists old, nth_error (np_nodes (sPool s)) k = Some old /\
         match edgeMidPoint bestRef bestPoly bestTile (lRef l) p t (nPos old) with
         | Ok (_, mid) => exists np', SOk np' (sOpen s) /\ stored (sPool s) np' k (fresh mid (cross l) (lRef l)) /\
             keys np' = keys (sPool s) ++ [(lRef l, cross l)] /\
             visit s l = let* (c, h) := cost_to (fresh mid (cross l) (lRef l)) (lRef l) t p in relax (set_pool s np') (Z.of_nat b) (Z.of_nat k) (lRef l) c h
         | x => visit s l = bind x (fun _ => Panic)
         end).
Proof.
  intros s l H HA Hb. unfold visit, visit_link. destruct ((lRef l =? 0) || (lRef l =? fst parent)) eqn:Ez; [reflexivity|].
  intros t p Hp. rewrite (proj2 (TileAndPolyByRefUnsafe_ok _ _ _ _) Hp). cbn [bind].
  destruct (negb (qPass flt (lRef l) t p)) eqn:Ef; [reflexivity|]. fold (cross l).
  destruct (pool_node_cases (sPool s) (sOpen s) (lRef l) (cross l) H) as [(k & n & Hn & Hk & E)|[(Nk & Hc & E)|(Nk & Hc & np' & old & E & HS & Ho & ST & HK)]].
  - left. exists k, n. split; [exact Hn|]. split; [exact Hk|]. rewrite E. cbn [bind]. rewrite (node_at_get _ _ _ Hn). cbn [bind].
    rewrite (proj2 (Z.eqb_neq _ _) (HA k n Hn)). cbn [bind]. rewrite (node_at_get _ _ _ Hb), (node_at_get _ _ _ Hn). cbn [bind].
    destruct s; reflexivity.
  - right; left. split; [exact Nk|]. split; [exact Hc|]. rewrite E. reflexivity.
  - right; right. split; [exact Nk|]. split; [exact Hc|]. cbv zeta. exists old. split; [exact Ho|]. rewrite E. cbn [bind].
    pose proof (pi_count _ (so_pool _ _ H)) as PC. set (k := Z.to_nat (np_nodeCount (sPool s))) in *.
    replace (np_nodeCount (sPool s)) with (Z.of_nat k) by (unfold k; lia).
    destruct ST as (En & Em & Ec).
    assert (Hn : node_at np' k (fresh (nPos old) (cross l) (lRef l))).
    { split; [lia|]. rewrite En. apply nth_error_upd_eq. apply nth_error_Some. congruence. }
    rewrite (node_at_get _ _ _ Hn). cbn [bind fresh nFlags nPos]. rewrite Z.eqb_refl.
    destruct (edgeMidPoint bestRef bestPoly bestTile (lRef l) p t (nPos old)) as [[st mid]| | |]; cbn [bind]; auto.
    destruct (update_at np' k _ (with_pos mid) (so_pool _ _ HS) Hn) as (np2 & Eu & HP2 & K2 & N2 & M2 & C2); [reflexivity|].
    rewrite Eu. cbn [bind].
    change (with_pos mid (fresh (nPos old) (cross l) (lRef l))) with (fresh mid (cross l) (lRef l)) in N2.
    exists np2.
    assert (NA : forall j x, node_at np2 j x -> (j = k /\ x = fresh mid (cross l) (lRef l)) \/ (j <> k /\ node_at np' j x)) by (intros j x; apply (node_at_upd _ _ _ j _ _ Hn N2 C2)).
    split; [|split; [|split]].
    + destruct HS as [_ HF (qs & HQ & Hnd & Hq & Hfl) HC]. constructor.
      * exact HP2.
      * intros j x Hx. destruct (NA j x Hx) as [[_ ->]|[_ Hx']]; [now left|eauto].
      * exists qs. split; [exact HQ|]. split; [exact Hnd|]. split; [rewrite C2; exact Hq|].
        intros j x Hx. destruct (NA j x Hx) as [[-> ->]|[_ Hx']]; [|auto]. rewrite (Hfl k _ Hn). reflexivity.
      * rewrite M2. exact HC.
    + split; [rewrite N2, En; apply upd_upd|]. split; [congruence|]. rewrite C2, Ec. reflexivity.
    + rewrite K2. exact HK.
    + assert (Hb2 : node_at np2 b best).
      { destruct Hb as [B1 B2]. split; [lia|]. rewrite N2, En, upd_upd. rewrite nth_error_upd_neq; [exact B2|]. unfold k. lia. }
      assert (Hk2 : node_at np2 k (fresh mid (cross l) (lRef l))).
      { split; [rewrite C2; apply Hn|]. rewrite N2. apply nth_error_upd_eq. apply nth_error_Some. destruct Hn; congruence. }
      rewrite (node_at_get _ _ _ Hb2), (node_at_get _ _ _ Hk2). cbn [bind]. reflexivity.
Qed.

(** What a visited link did to the search. *)
Inductive Visited (s : Search) (l : Link) : Search -> Prop :=
| V_skip : lRef l = 0 \/ lRef l = fst parent \/ (exists t p, polygon_at m (lRef l) t p /\ qPass flt (lRef l) t p = false) \/
      (exists k n, node_at (sPool s) k n /\ nID n = lRef l) -> Visited s l s
| V_full : lRef l <> 0 -> passes m flt (lRef l) -> ~ In (lRef l, cross l) (keys (sPool s)) ->
    np_nodeCount (sPool s) = np_maxNodes (sPool s) ->
    Visited s l (mkSearch (sPool s) (sOpen s) (sBest s) (sBestCost s) true)
| V_store : forall s' k pos cost h t p, lRef l <> 0 -> polygon_at m (lRef l) t p -> qPass flt (lRef l) t p = true ->
    (exists nb, nPos nb = pos /\ cost_to nb (lRef l) t p = Ok (cost, h)) ->
    ((exists n, node_at (sPool s) k n /\ nkey n = (lRef l, cross l) /\ pos = nPos n /\ fge (fadd cost h) (nTotal n) = false) \/
     (k = Z.to_nat (np_nodeCount (sPool s)) /\ np_nodeCount (sPool s) < np_maxNodes (sPool s) /\
      exists old st, nth_error (np_nodes (sPool s)) k = Some old /\
        edgeMidPoint bestRef bestPoly bestTile (lRef l) p t (nPos old) = Ok (st, pos))) ->
    stored (sPool s) (sPool s') k (entry_of pos cost h b (cross l) (lRef l)) ->
    SOk (sPool s') (sOpen s') -> length (q_heap (sOpen s')) = length (q_heap (sOpen s)) ->
    (exists more, keys (sPool s') = keys (sPool s) ++ more) ->
    sOut s' = sOut s -> (sBest s', sBestCost s') = (if F32.flt h (sBestCost s) then (Z.of_nat k, h) else (sBest s, sBestCost s)) ->
    Visited s l s'.

Lemma visit_visited : forall s l s', SOk (sPool s) (sOpen s) -> all_flagged (sPool s) -> node_at (sPool s) b best ->
  visit s l = Ok s' -> Visited s l s'.
Proof.
  intros s l s' H HA Hb E. pose proof (visit_spec s l H HA Hb) as VS.
  destruct ((lRef l =? 0) || (lRef l =? fst parent)) eqn:Ez.
  { rewrite VS in E. apply Ok_inj in E. subst s'. apply V_skip. apply orb_true_iff in Ez. destruct Ez as [Ez|Ez]; apply Z.eqb_eq in Ez; auto. }
  apply orb_false_iff in Ez. destruct Ez as [Z1 Z2]. apply Z.eqb_neq in Z1, Z2.
  assert (exists t p, polygon_at m (lRef l) t p) as (t & p & Hp).
  { unfold visit, visit_link in E. rewrite (proj2 (Z.eqb_neq _ _) Z1), (proj2 (Z.eqb_neq _ _) Z2) in E. cbn [orb] in E.
    apply bind_ok in E as ([t p] & E & _). apply TileAndPolyByRefUnsafe_ok in E. eauto. }
  specialize (VS t p Hp). destruct (qPass flt (lRef l) t p) eqn:Ef; cbn [negb] in VS.
  2:{ rewrite VS in E. apply Ok_inj in E. subst s'. apply V_skip. right; right; left. eauto. }
  destruct VS as [(k & n & Hn & Hk & V)|[(Nk & Hc & V)|(Nk & Hc & old & Ho & V)]].
  - rewrite V in E. apply bind_ok in E as ([c h] & Ec & E). assert (Hid : nID n = lRef l) by (unfold nkey in Hk; congruence).
    pose proof (relax_spec s b k n (lRef l) c h H Hn Hid (proj1 Hb)) as R.
    rewrite (proj2 (Z.eqb_neq _ _) (HA k n Hn)) in R. cbn [negb andb] in R. destruct (fge (fadd c h) (nTotal n)) eqn:Eg.
    + rewrite R in E. apply Ok_inj in E. subst s'. apply V_skip. right; right; right. eauto.
    + destruct R as (s1 & R & S1 & ST & K1 & L1 & O1 & B1). rewrite R in E. apply Ok_inj in E. subst s1.
      replace (nState n) with (cross l) in ST by (unfold nkey in Hk; congruence).
      apply (V_store s l s' k (nPos n) c h t p); auto.
      * exists n. auto.
      * left. exists n. auto.
      * exists []. now rewrite app_nil_r.
  - rewrite V in E. apply Ok_inj in E. subst s'. apply V_full; auto. exists t, p. auto.
  - cbv zeta in V. set (k := Z.to_nat (np_nodeCount (sPool s))) in *.
    destruct (edgeMidPoint bestRef bestPoly bestTile (lRef l) p t (nPos old)) as [[st mid]| | |] eqn:Em; try (rewrite V in E; discriminate).
    destruct V as (np' & HS & ST & HK & V). rewrite V in E. apply bind_ok in E as ([c h] & Ec & E).
    pose proof (pi_count _ (so_pool _ _ H)) as PC. pose proof ST as (En & Emx & Ecn).
    assert (Hn : node_at np' k (fresh mid (cross l) (lRef l))).
    { split; [lia|]. rewrite En. apply nth_error_upd_eq. apply nth_error_Some. congruence. }
    pose proof (relax_spec (set_pool s np') b k _ (lRef l) c h HS Hn eq_refl) as R. cbn [set_pool sPool sOpen] in R.
    destruct Hb as [Hb1 Hb2]. specialize (R ltac:(lia)). cbn [fresh nFlags Z.eqb negb andb nPos nState] in R.
    destruct R as (s1 & R & S1 & (Sn & Sm & Sc) & K1 & L1 & O1 & B1). rewrite R in E. apply Ok_inj in E. subst s1.
    apply (V_store s l s' k mid c h t p); auto.
    + exists (fresh mid (cross l) (lRef l)). auto.
    + right. split; [reflexivity|]. split; [exact Hc|]. exists old, st. auto.
    + split; [rewrite Sn, En; apply upd_upd|]. split; [congruence|]. rewrite Sc, Ecn. lia.
    + rewrite K1, HK. eauto.
Qed.
End Visit.
