(** The sliced search without any-angle steps compared with the search of FindPath. *)
From Coq Require Import ZArith List Lia Bool.
From Verif.Base Require Import Res GoNum F32 Num Grid.
From Verif.Model Require Import Status Poly PolyRef MeshTypes Geom MeshLinks MeshTiles Node NodeQueue FindPath Raycast StraightPath Sliced.
From Verif.Spec Require Import LinkSpec PathSpec.
From Verif.Proofs Require Import NodePoolProofs NodeQueueProofs OpenList LinkProofs SearchStep SearchInv FindPathProofs SearchEnd SlicedProofs.
Import ListNotations.
Open Scope Z_scope.

(** ** References *)
Lemma lookup_unsafe : forall m r tp, lookup m r = Ok (Some tp) -> TileAndPolyByRefUnsafe m r = Ok tp.
Proof.
  intros m r tp E. unfold lookup in E. apply bind_ok in E as ([st o] & E1 & E). destruct (StatusFailed st) eqn:F; [discriminate|].
  destruct o as [[it p]|]; [|discriminate]. apply bind_ok in E as (t & Et & E). apply Ok_inj in E. injection E as <-.
  unfold TileAndPolyByRef in E1. destruct (r =? 0); [apply Ok_inj in E1; injection E1 as <- X; discriminate|].
  unfold TileAndPolyByRefUnsafe. destruct (DecodePolyID (mBits m) r) as [[salt i] ip] eqn:D. destruct (_ <=? i); [apply Ok_inj in E1; injection E1 as <- X; discriminate|].
  apply bind_ok in E1 as (t' & Et' & E1). destruct (tHeader t') as [h|]; [|apply Ok_inj in E1; injection E1 as <- X; discriminate].
  destruct (negb _); [apply Ok_inj in E1; injection E1 as <- X; discriminate|]. destruct (_ <=? ip); [apply Ok_inj in E1; injection E1 as <- X; discriminate|].
  apply bind_ok in E1 as (p' & Ep' & E1). apply Ok_inj in E1. injection E1 as <- <- <-.
  assert (0 <= i) by (unfold get in Et'; destruct (Z.ltb_spec i 0); [discriminate|lia]). rewrite Z2Nat.id in Et by assumption.
  rewrite Et' in Et. apply Ok_inj in Et. subst t'. rewrite Et'. cbn [bind]. rewrite Ep'. reflexivity.
Qed.
Lemma valid_lookup : forall m r t p, IsValidPolyRef m r = Ok true -> polygon_at m r t p -> lookup m r = Ok (Some (t, p)).
Proof.
  intros m r t p E H. apply TileAndPolyByRefUnsafe_ok in H. unfold TileAndPolyByRefUnsafe in H. unfold IsValidPolyRef in E. unfold lookup, TileAndPolyByRef.
  destruct (r =? 0); [discriminate|]. destruct (DecodePolyID (mBits m) r) as [[salt i] ip]. destruct (_ <=? i); [discriminate|].
  apply bind_ok in E as (t' & Et' & E). rewrite Et' in H |- *. cbn [bind] in H |- *. destruct (tHeader t') as [h|]; [|discriminate]. destruct (negb _); [discriminate|].
  destruct (_ <=? ip); [discriminate|]. apply bind_ok in H as (p' & Ep' & H). apply Ok_inj in H. injection H as -> ->. rewrite Ep'. cbn [bind].
  change (StatusFailed Success) with false. cbv iota. assert (0 <= i) by (unfold get in Et'; destruct (Z.ltb_spec i 0); [discriminate|lia]).
  rewrite Z2Nat.id by assumption. rewrite Et'. reflexivity.
Qed.

(** ** One link *)
(** The link without its side. *)
Definition flat (l : Link) : Link := mkLink (lRef l) (lNext l) (lEdge l) 255 (lBMin l) (lBMax l).

Lemma relax_plain : forall s b k n bn ref cost h, get (np_nodes (sPool s)) k = Ok n -> get (np_nodes (sPool s)) b = Ok bn ->
  nFlags n = 0 \/ nFlags n = 1 \/ nFlags n = 2 -> relax_sliced s b k ref false cost h = relax s b k ref cost h.
Proof.
  intros s b k n bn ref cost h Hk Hb HF. unfold relax_sliced, relax. rewrite Hk. cbn [bind]. destruct ((isOpen n || isClosed n) && fge (fadd cost h) (nTotal n)); [reflexivity|].
  rewrite Hb. cbn [bind]. replace (Z.lor (Z.land (nFlags n) 249) nodeOpen) with (Z.lor (Z.land (nFlags n) 253) nodeOpen) by (destruct HF as [->|[->| ->]]; reflexivity). reflexivity.
Qed.

Lemma bind_assoc : forall {A B C} (r : res A) (f : A -> res B) (g : B -> res C), bind (bind r f) g = bind r (fun a => bind (f a) g).
Proof. intros A B C [a| | |] f g; reflexivity. Qed.
Lemma bind_ext_ok : forall {A B} (r : res A) (f g : A -> res B), (forall a, r = Ok a -> f a = g a) -> bind r f = bind r g.
Proof. intros A B [a| | |] f g H; cbn [bind]; auto. Qed.

Lemma visit_sliced_cases : forall rf m flt er ep b best bt bp par pk g s l,
  SOk (sPool s) (sOpen s) -> all_flagged (sPool s) -> node_at (sPool s) b best ->
  visit_sliced rf m flt er ep (Z.of_nat b) (nID best) bt bp par pk g false s l = visit_link m flt er ep (Z.of_nat b) (nID best) bt bp par s (flat l) \/
  (visit_sliced rf m flt er ep (Z.of_nat b) (nID best) bt bp par pk g false s l = Ok s /\ lRef l <> 0 /\
   exists k n, node_at (sPool s) k n /\ nID n = lRef l /\ nPIdx n <> 0 /\ nPIdx n = nPIdx best).
Proof.
  intros rf m flt er ep b best bt bp par pk g s l SO SF Hb. unfold visit_sliced, visit_link. cbv zeta. cbn [flat lRef lSide]. rewrite Z.eqb_refl.
  destruct ((lRef l =? 0) || (lRef l =? fst par)) eqn:G; [left; reflexivity|].
  destruct (TileAndPolyByRefUnsafe m (lRef l)) as [[nt npoly]| | |]; cbn [bind]; try (left; reflexivity).
  destruct (negb (qPass flt (lRef l) nt npoly)); [left; reflexivity|].
  assert (TAIL : forall np k n best', get (np_nodes np) k = Ok n -> get (np_nodes np) (Z.of_nat b) = Ok best' -> (nFlags n = 0 \/ nFlags n = 1 \/ nFlags n = 2) ->
     (let* np0 := (if nFlags n =? 0 then let* (_, mid) := edgeMidPoint (nID best) bp bt (lRef l) npoly nt (nPos n) in pool_update np k (with_pos mid) else Ok np) in
      let* best0 := get (np_nodes np0) (Z.of_nat b) in
      let* n0 := get (np_nodes np0) k in
      let* (short, shortCost) := Ok (false, f0) in
      let* cost := (if short : bool then Ok shortCost else let* c := qCost flt (nPos best0) (nPos n0) par (nID best, Some (bt, bp)) (lRef l, Some (nt, npoly)) in Ok (fadd (nCost best0) c)) in
      let* (cost, heuristic) := (if lRef l =? er then let* e := qCost flt (nPos n0) ep (nID best, Some (bt, bp)) (lRef l, Some (nt, npoly)) (0, None) in Ok (fadd cost e, f0)
               else Ok (cost, fmul (vdist (nPos n0) ep) HScale)) in
      relax_sliced (set_pool s np0) (Z.of_nat b) k (lRef l) short cost heuristic) =
     (let* np0 := (if nFlags n =? 0 then let* (_, mid) := edgeMidPoint (nID best) bp bt (lRef l) npoly nt (nPos n) in pool_update np k (with_pos mid) else Ok np) in
      let* best0 := get (np_nodes np0) (Z.of_nat b) in
      let* n0 := get (np_nodes np0) k in
      let* (cost, heuristic) := step_cost flt er ep best0 n0 par (nID best, Some (bt, bp)) (lRef l, Some (nt, npoly)) in
      relax (set_pool s np0) (Z.of_nat b) k (lRef l) cost heuristic)).
  { intros np k n best' Hn Hb' HF. apply bind_ext_ok. intros np0 E0. apply bind_ext_ok. intros best0 Eb0. apply bind_ext_ok. intros n0 En0. cbn [bind].
    assert (HF0 : nFlags n0 = nFlags n).
    { destruct (nFlags n =? 0); [|apply Ok_inj in E0; subst np0; congruence]. apply bind_ok in E0 as ([st mid] & _ & E0). unfold pool_update in E0. rewrite Hn in E0. cbn [bind] in E0.
      apply bind_ok in E0 as (ns & Es & E0). apply Ok_inj in E0. subst np0. cbn [np_nodes] in *. apply set_ok in Es as [Es ->].
      rewrite get_getn in En0 by (unfold zlen in *; lia). apply getn_ok in En0. rewrite nth_error_upd_eq in En0 by (unfold zlen in *; lia). injection En0 as <-. reflexivity. }
    unfold step_cost. rewrite !bind_assoc. apply bind_ext_ok. intros c _. cbn [bind fst]. destruct (lRef l =? er).
    - rewrite !bind_assoc. apply bind_ext_ok. intros e _. cbn [bind]. apply (relax_plain _ _ _ n0 best0); cbn [set_pool sPool]; auto. now rewrite HF0.
    - cbn [bind]. apply (relax_plain _ _ _ n0 best0); cbn [set_pool sPool]; auto. now rewrite HF0. }
  destruct (pool_node_cases (sPool s) (sOpen s) (lRef l) 0 SO) as [(k & n & Hn & Hk & E)|[(Nk & Hc & E)|(Nk & Hc & np' & old & E & HS & Ho & ST & HK)]]; rewrite E; cbn [bind].
  - rewrite (node_at_get _ _ _ Hn), (node_at_get _ _ _ Hb). cbn [bind]. destruct (negb (nPIdx n =? 0) && (nPIdx n =? nPIdx best)) eqn:SK.
    + right. apply andb_true_iff in SK as [S1 S2]. apply negb_true_iff, Z.eqb_neq in S1. apply Z.eqb_eq in S2. apply orb_false_iff in G as [G _]. apply Z.eqb_neq in G.
      split; [destruct s; reflexivity|]. split; [exact G|]. exists k, n. split; [exact Hn|]. split; [unfold nkey in Hk; congruence|]. auto.
    + left. apply (TAIL _ _ n best); [now apply node_at_get|now apply node_at_get|]. exact (so_flags _ _ SO k n Hn).
  - left. reflexivity.
  - left. pose proof (pi_count _ (so_pool _ _ SO)) as PC. destruct ST as (En & Em & Ec).
    assert (Hn : node_at np' (Z.to_nat (np_nodeCount (sPool s))) (fresh (nPos old) 0 (lRef l))).
    { split; [lia|]. rewrite En. apply nth_error_upd_eq. apply nth_error_Some. congruence. }
    assert (Hn' : get (np_nodes np') (np_nodeCount (sPool s)) = Ok (fresh (nPos old) 0 (lRef l))).
    { apply node_at_get in Hn. rewrite Z2Nat.id in Hn by lia. exact Hn. }
    assert (Hb' : get (np_nodes np') (Z.of_nat b) = Ok best).
    { apply node_at_get. destruct Hb as [B1 B2]. split; [lia|]. rewrite En, nth_error_upd_neq; [exact B2|lia]. }
    rewrite Hn', Hb'. cbn [bind]. cbn [fresh nPIdx]. rewrite Z.eqb_refl. cbn [negb andb].
    apply (TAIL _ _ (fresh (nPos old) 0 (lRef l)) best); auto.
Qed.

(** ** Parents *)
Lemma parents_side : forall m np n side pk g, parents m np n = Ok (Some (side, pk, g)) -> parent_side m np n = Ok side.
Proof.
  intros m np n side pk g E. unfold parents in E. unfold parent_side. destruct (nPIdx n =? 0).
  { apply Ok_inj in E. injection E as <- _ _. reflexivity. }
  apply bind_ok in E as (k & Ek & E). rewrite Ek. cbn [bind]. apply bind_ok in E as (k' & Ek' & E). rewrite Ek'. cbn [bind].
  apply bind_ok in E as (p & Ep & E). rewrite Ep. cbn [bind]. apply bind_ok in E as (g' & _ & E).
  destruct (nID p =? 0); [apply Ok_inj in E; injection E as <- _ _; reflexivity|]. apply bind_ok in E as (o & Eo & E). destruct o as [tp|]; [|discriminate].
  apply bind_ok in E as (vg & _ & E). destruct vg; [|discriminate]. apply Ok_inj in E. injection E as <- _ _. rewrite (lookup_unsafe _ _ _ Eo). reflexivity.
Qed.

Lemma foldM_same : forall {S A} (f g : S -> A -> res S) (I : S -> Prop) l s, I s ->
  (forall x s, In x l -> I s -> f s x = g s x /\ forall s', f s x = Ok s' -> I s') -> foldM f l s = foldM g l s.
Proof.
  intros S A f g I l. induction l as [|x l IH]; intros s Hs H; cbn [foldM]; [reflexivity|].
  destruct (H x s (or_introl eq_refl) Hs) as [E K]. rewrite <- E. apply bind_ext_ok. intros s' E'. apply IH; [now apply K|]. intros y s0 Hy. apply H. now right.
Qed.
Lemma visit_flat : forall m flt er ep b br bt bp par s l, cross l = 0 ->
  visit_link m flt er ep b br bt bp par s (flat l) = visit_link m flt er ep b br bt bp par s l.
Proof. intros m flt er ep b br bt bp par s l H. unfold visit_link. cbn [flat lRef lSide]. fold (cross l). rewrite H, Z.eqb_refl. reflexivity. Qed.

Section Sim.
Variables (m : NavMesh) (flt : QueryFilter) (startRef endRef : Z) (startPos endPos : fvec) (options : Z) (limit : f32) (rf : nat).
Let valid (r : Z) : Prop := IsValidPolyRef m r = Ok true.
Let req : Request := mkRequest startRef endRef startPos endPos flt options limit.
Hypothesis H_poly : forall r, valid r -> exists t p, polygon_at m r t p.
Hypothesis H_links : forall r t p, valid r -> polygon_at m r t p ->
  exists c, LChain (tdLinks (tD t)) (pFirstLink p) c /\ forall l, In l (at_slots (tdLinks (tD t)) c) -> lRef l <> 0 -> valid (lRef l).
Hypothesis H_plain : any_angle options = false.
Hypothesis H_start : valid startRef.

Lemma corridor_valid : forall l r, valid r -> corridor m flt r l -> valid (last l r).
Proof.
  induction l as [|x l IH]; intros r Hr H; [exact Hr|]. rewrite last_cons. destruct H as ((N0 & t & p & c & Hp & Hc & Hin) & _ & H). apply IH; [|exact H].
  destruct (H_links r t p Hr Hp) as (c' & Hc' & Hv). rewrite (LChain_det _ _ _ Hc _ Hc') in Hin. destruct (at_slots_in _ _ _ _ Hc' Hin) as (lk & Hl & <-). now apply Hv.
Qed.
Lemma nodes_valid : forall x s k n, SInv m flt startRef endRef x s -> node_at (sPool s) k n -> valid (nID n).
Proof. intros x s k n HI Hn. destruct (si_reach _ _ _ _ _ _ HI k n Hn) as (l & Hc & <-). now apply corridor_valid. Qed.

Lemma parents_ok : forall x s k n, SInv m flt startRef endRef x s -> node_at (sPool s) k n -> exists par pk g, parents m (sPool s) n = Ok (Some (par, pk, g)).
Proof.
  intros x s k n HI Hn. unfold parents. destruct (parent_idx _ _ _ _ _ _ _ _ HI Hn) as [Pr Pp]. destruct (Z.eqb_spec (nPIdx n) 0) as [Z0|Z0]; [eauto|].
  destruct (Pp Z0) as (j & nj & Ep & Hj). rewrite i32_id by (unfold is_i32; lia). unfold pool_NodeAtIdx at 1. rewrite (proj2 (Z.eqb_neq _ _) Z0), Ep.
  replace (Z.of_nat j + 1 - 1) with (Z.of_nat j) by lia. rewrite (node_at_get _ _ _ Hj). cbn [bind of_option]. rewrite (node_at_get _ _ _ Hj). cbn [bind].
  destruct (parent_idx _ _ _ _ _ _ _ _ HI Hj) as [Pr' Pp'].
  assert (Gr : exists g, (if nPIdx nj =? 0 then Ok 0 else let* j0 := pool_NodeAtIdx (sPool s) (i32 (nPIdx nj)) in let* j0 := of_option j0 in let* gn := get (np_nodes (sPool s)) j0 in Ok (nID gn)) = Ok g /\ (g = 0 \/ valid g)).
  { destruct (Z.eqb_spec (nPIdx nj) 0) as [Z1|Z1]; [exists 0; auto|]. destruct (Pp' Z1) as (i & ni & Ei & Hi). rewrite i32_id by (unfold is_i32; lia). unfold pool_NodeAtIdx.
    rewrite (proj2 (Z.eqb_neq _ _) Z1), Ei. replace (Z.of_nat i + 1 - 1) with (Z.of_nat i) by lia. rewrite (node_at_get _ _ _ Hi). cbn [bind of_option]. rewrite (node_at_get _ _ _ Hi). cbn [bind].
    exists (nID ni). split; [reflexivity|right]. exact (nodes_valid _ _ _ _ HI Hi). }
  destruct Gr as (g & Eg & Hg). rewrite Eg. cbn [bind]. destruct (nID nj =? 0); [eauto|].
  pose proof (nodes_valid _ _ _ _ HI Hj) as Vj. destruct (H_poly _ Vj) as (t & p & Hp). rewrite (valid_lookup _ _ _ _ Vj Hp). cbn [bind].
  destruct (Z.eqb_spec g 0) as [Zg|Zg]; cbn [bind]; [eauto|]. destruct Hg as [Hg|Hg]; [contradiction|]. rewrite Hg. cbn [bind]. eauto.
Qed.

(** An iteration of either search. *)
Lemma step_form : forall s, SInv m flt startRef endRef None s -> q_empty (sOpen s) = false ->
  exists s1 b n, pop_best s = Ok (s1, Z.of_nat b) /\ SInv m flt startRef endRef (Some b) s1 /\ node_at (sPool s1) b n /\
  if nID n =? endRef then slice_step rf m req s = Ok (mkSearch (sPool s1) (sOpen s1) (Z.of_nat b) (sBestCost s1) (sOut s1), Reached)
  else exists t p par pk g c, polygon_at m (nID n) t p /\ LChain (tdLinks (tD t)) (pFirstLink p) c /\
    (fst par = 0 \/ has_ref (sPool s1) (fst par)) /\
    (forall l, In l (at_slots (tdLinks (tD t)) c) -> lRef l <> 0 -> linked m (nID n) (lRef l)) /\
    slice_step rf m req s = rmap (fun s2 => (s2, GoOn))
      (foldM (visit_sliced rf m flt endRef endPos (Z.of_nat b) (nID n) t p par pk g false) (at_slots (tdLinks (tD t)) c) s1) /\
    expand m flt endRef endPos s1 (Z.of_nat b) =
      foldM (visit_link m flt endRef endPos (Z.of_nat b) (nID n) t p par) (at_slots (tdLinks (tD t)) c) s1.
Proof.
  intros s HI Q. destruct (pop_SInv _ _ _ _ s HI Q) as (s1 & b & n & Ep & HI1 & Hn). exists s1, b, n. split; [exact Ep|]. split; [exact HI1|]. split; [exact Hn|].
  assert (SL : slice_step rf m req s = let* best := get (np_nodes (sPool s1)) (Z.of_nat b) in
    if nID best =? endRef then Ok (mkSearch (sPool s1) (sOpen s1) (Z.of_nat b) (sBestCost s1) (sOut s1), Reached)
    else let* o := lookup m (nID best) in
    match o with
    | None => Ok (s1, Vanished)
    | Some (bestTile, bestPoly) =>
        let* ps := parents m (sPool s1) best in
        match ps with
        | None => Ok (s1, Vanished)
        | Some (parent, pk, g) =>
            let* s2 := each_link (link_fuel (tdLinks (tD bestTile))) (tdLinks (tD bestTile))
                        (visit_sliced rf m flt endRef endPos (Z.of_nat b) (nID best) bestTile bestPoly parent pk g false) (pFirstLink bestPoly) s1 in
            Ok (s2, GoOn)
        end
    end).
  { unfold slice_step. rewrite Ep. cbn [bind]. apply bind_ext. intros best. cbn [req qEndRef qOptions qFilter qEndPos]. destruct (nID best =? endRef); [reflexivity|].
    apply bind_ext. intros [[t p]|]; [|reflexivity]. apply bind_ext. intros [[[par pk] g]|]; [|reflexivity]. rewrite H_plain. cbn [andb bind]. reflexivity. }
  rewrite SL. clear SL. rewrite (node_at_get _ _ _ Hn). cbn [bind]. destruct (nID n =? endRef) eqn:Eg; [reflexivity|].
  pose proof (nodes_valid _ _ _ _ HI1 Hn) as Vn. destruct (H_poly _ Vn) as (t & p & Hp). destruct (H_links _ _ _ Vn Hp) as (c & Hc & Hv).
  destruct (parents_ok _ _ _ _ HI1 Hn) as (par & pk & g & Epar). pose proof (parents_side _ _ _ _ _ _ Epar) as Eps.
  exists t, p, par, pk, g, c. split; [exact Hp|]. split; [exact Hc|]. destruct (parent_idx _ _ _ _ _ _ _ _ HI1 Hn) as [Pr Pp]. split; [exact (parent_has _ _ _ _ Eps Pr Pp)|].
  split; [|split].
  - intros l Hl N0. split; [exact N0|]. exists t, p, c. split; [exact Hp|]. split; [exact Hc|]. eapply in_at_slots; eauto.
  - rewrite (valid_lookup _ _ _ _ Vn Hp). cbn [bind]. rewrite Epar. cbn [bind]. rewrite (each_link_chain _ _ _ _ c _ Hc) by (unfold link_fuel; pose proof (LChain_short _ _ _ Hc); lia). reflexivity.
  - unfold expand. rewrite (node_at_get _ _ _ Hn). cbn [bind]. rewrite (proj2 (TileAndPolyByRefUnsafe_ok _ _ _ _) Hp). cbn [bind]. rewrite Eps. cbn [bind].
    rewrite (each_link_chain _ _ _ _ c _ Hc) by (unfold link_fuel; pose proof (LChain_short _ _ _ Hc); lia). reflexivity.
Qed.

(** *** Agreement with FindPath *)
Definition triangle_free : Prop := forall x y z, linked m x y -> passes m flt y -> linked m y z -> passes m flt z -> linked m x z -> False.
Definition flat_links : Prop := forall r t p c l, valid r -> polygon_at m r t p -> LChain (tdLinks (tD t)) (pFirstLink p) c ->
  In l (at_slots (tdLinks (tD t)) c) -> lRef l <> 0 -> cross l = 0.

Lemma step_same : triangle_free -> flat_links -> forall s s1 b n, SInv m flt startRef endRef None s -> q_empty (sOpen s) = false ->
  pop_best s = Ok (s1, Z.of_nat b) -> node_at (sPool s1) b n -> nID n <> endRef ->
  slice_step rf m req s = rmap (fun s2 => (s2, GoOn)) (expand m flt endRef endPos s1 (Z.of_nat b)).
Proof.
  intros HT HF s s1 b n HI Q Ep Hn Ng. destruct (step_form s HI Q) as (s1' & b' & n' & Ep' & HI1 & Hn' & F). rewrite Ep in Ep'. apply Ok_inj in Ep'. injection Ep' as <- Eb. apply Nat2Z.inj in Eb. subst b'.
  rewrite (node_at_det _ _ _ _ Hn' Hn) in *. rewrite (proj2 (Z.eqb_neq _ _) Ng) in F. destruct F as (t & p & par & pk & g & c & Hp & Hc & Hpar & Hlk & -> & ->). f_equal.
  pose proof (nodes_valid _ _ _ _ HI1 Hn) as Vn.
  apply (foldM_same _ _ (fun s2 => SInv m flt startRef endRef (Some b) s2 /\ ext (sPool s1) (sPool s2))).
  { split; [exact HI1|]. intros k y Hy. eauto. }
  intros l s2 Hl (I1 & I2). destruct (I2 _ _ Hn) as (n2 & Hn2 & En2).
  assert (E : visit_sliced rf m flt endRef endPos (Z.of_nat b) (nID n) t p par pk g false s2 l = visit_link m flt endRef endPos (Z.of_nat b) (nID n) t p par s2 l).
  { rewrite <- En2. destruct (Z.eq_dec (lRef l) 0) as [Z0|N0]; [unfold visit_sliced, visit_link; rewrite Z0; reflexivity|].
    destruct (visit_sliced_cases rf m flt endRef endPos b n2 t p par pk g s2 l (si_ok _ _ _ _ _ _ I1) (si_flag _ _ _ _ _ _ I1) Hn2) as [->|(_ & _ & k & y & Hy & Ey & P0 & P1)].
    - apply visit_flat. exact (HF (nID n) t p c l Vn Hp Hc Hl N0).
    - exfalso. destruct (si_parent _ _ _ _ _ _ I1 k y Hy) as [[_ X]|(j & nj & Pj & Hj & Lj & Py)]; [congruence|].
      destruct (si_parent _ _ _ _ _ _ I1 b n2 Hn2) as [[_ X]|(j' & nj' & Pj' & Hj' & Lj' & Py')]; [congruence|]. assert (j' = j) by lia. subst j'. rewrite (node_at_det _ _ _ _ Hj' Hj) in *.
      rewrite Ey in Lj, Py. apply (HT _ _ (lRef l) Lj' Py'). { rewrite En2. now apply Hlk. } { exact Py. } { exact Lj. } }
  split; [exact E|]. rewrite E. intros s3 V.
  destruct (visit_inv m flt startRef endRef endPos b n2 (nID n) t p par s2 l s3 En2) as (R1 & R2 & _); auto.
  - destruct (Z.eq_dec (lRef l) 0) as [Z0|N0]; [now right|left]. now apply Hlk.
  - destruct Hpar as [Z0|Hh]; [now left|right]. eapply ext_has; eauto.
  - split; [exact R1|]. intros k y Hy. destruct (I2 k y Hy) as (y1 & Hy1 & E1). destruct (R2 k y1 Hy1) as (y2 & Hy2 & E2). exists y2. split; congruence.
Qed.

Lemma loop_same : triangle_free -> flat_links -> forall f s s', SInv m flt startRef endRef None s -> search_loop f m flt endRef endPos s = Ok s' ->
  forall n, (f <= n)%nat -> exists i o, slice_loop n rf m req s = Ok (s', i, o) /\ (o = Reached \/ (o = GoOn /\ q_empty (sOpen s') = true)).
Proof.
  intros HT HF. induction f as [|f IH]; intros s s' HI E n L; cbn [search_loop] in E.
  - destruct (q_empty (sOpen s)) eqn:Q; [|discriminate]. apply Ok_inj in E. subst s'. exists 0, GoOn. split; [|auto]. destruct n; cbn [slice_loop]; [reflexivity|]. now rewrite Q.
  - destruct n as [|n]; [lia|]. cbn [slice_loop]. destruct (q_empty (sOpen s)) eqn:Q; [apply Ok_inj in E; subst s'; exists 0, GoOn; auto|].
    destruct (step_form s HI Q) as (s1 & b & y & Ep & HI1 & Hy & F). rewrite Ep in E. cbn [bind] in E. rewrite (node_at_get _ _ _ Hy) in E. cbn [bind] in E.
    destruct (nID y =? endRef) eqn:Eg.
    + apply Ok_inj in E. subst s'. rewrite F. cbn [bind]. exists 1, Reached. auto.
    + clear F. apply Z.eqb_neq in Eg. rewrite (step_same HT HF s s1 b y HI Q Ep Hy Eg). apply bind_ok in E as (s2 & Ee & E). rewrite Ee. cbn [rmap bind].
      destruct (expand_inv _ _ _ _ _ _ _ _ _ HI1 Hy Eg Ee) as [HI2 _]. destruct (IH s2 s' HI2 E n ltac:(lia)) as (i & o & -> & Ho). cbn [bind]. exists (i + 1), o. auto.
Qed.
End Sim.

(** ** Turning the path around *)
(** Following PIdx one meets the nodes [js] up to the root; none is detached from its parent. *)
Fixpoint line (ns : list Node) (js : list nat) : Prop :=
  match js with
  | [] => True
  | j :: rest => (exists n, nth_error ns j = Some n /\ Z.land (nFlags n) nodeParentDetached = 0 /\
      nPIdx n = match rest with [] => 0 | i :: _ => Z.of_nat i + 1 end) /\ line ns rest
  end.
Definition id_at (ns : list Node) (j : nat) : Z := match nth_error ns j with Some n => nID n | None => 0 end.

Lemma line_upd : forall ns k x js, ~ In k js -> line ns js -> line (upd ns k x) js.
Proof.
  intros ns k x js. induction js as [|j rest IH]; intros N H; [exact Logic.I|]. cbn [line In] in *. destruct H as [(n & Hn & H) Hr]. split; [|apply IH; tauto].
  exists n. split; [|exact H]. rewrite nth_error_upd_neq; [exact Hn|]. intros ->. apply N. now left.
Qed.
Lemma line_range : forall ns js j, line ns js -> In j js -> (j < length ns)%nat.
Proof. intros ns js. induction js as [|i rest IH]; intros j H Hj; [destruct Hj|]. destruct Hj as [<-|Hj]; [|apply IH; [apply H|exact Hj]]. destruct H as [(n & Hn & _) _]. apply nth_error_Some. congruence. Qed.
Lemma get_nth : forall {A} (l : list A) (k : nat) x, nth_error l k = Some x -> get l (Z.of_nat k) = Ok x.
Proof. intros A l k x H. rewrite get_getn by lia. rewrite Nat2Z.id. now apply getn_ok. Qed.

Lemma next_of : forall np j rest, zlen (np_nodes np) <= 65535 -> line (np_nodes np) (j :: rest) ->
  exists n, nth_error (np_nodes np) j = Some n /\ Z.land (nFlags n) nodeParentDetached = 0 /\
  pool_NodeAtIdx np (i32 (nPIdx n)) = Ok (option_map Z.of_nat (hd_error rest)).
Proof.
  intros np j rest Hl [(n & Hn & Hf & Hp) Hr]. exists n. split; [exact Hn|]. split; [exact Hf|]. rewrite Hp. destruct rest as [|i rest]; cbn [hd_error option_map].
  - reflexivity.
  - destruct Hr as [(ni & Hi & _) _]. assert (i < length (np_nodes np))%nat by (apply nth_error_Some; congruence). unfold zlen in Hl.
    rewrite i32_id by (unfold is_i32; lia). unfold pool_NodeAtIdx. destruct (Z.eqb_spec (Z.of_nat i + 1) 0); [lia|]. replace (Z.of_nat i + 1 - 1) with (Z.of_nat i) by lia.
    rewrite (get_nth _ _ _ Hi). reflexivity.
Qed.

Lemma last_cons_nat : forall (l : list nat) y d, last (y :: l) d = last l y.
Proof. induction l as [|z l IH]; intros y d; [reflexivity|]. change (last (y :: z :: l) d) with (last (z :: l) d). rewrite (IH z d), (IH z y). reflexivity. Qed.
Lemma upd_split : forall {A} (l : list A) k v, (k < length l)%nat -> upd l k v = firstn k l ++ v :: skipn (S k) l.
Proof. intros A l. induction l as [|x l IH]; intros [|k] v H; cbn [length] in H; try lia; [reflexivity|]. cbn [upd firstn app skipn]. f_equal. apply IH. lia. Qed.

Lemma reverse_line : forall ks fuel np js k0, zlen (np_nodes np) <= 65535 -> line (np_nodes np) (k0 :: ks) -> line (np_nodes np) js -> NoDup (k0 :: ks ++ js) ->
  (length ks < fuel)%nat ->
  exists np', reverse_path fuel np (option_map Z.of_nat (hd_error js)) (Z.of_nat k0) 0 = Ok (np', Z.of_nat (last ks k0)) /\
    line (np_nodes np') (rev (k0 :: ks) ++ js) /\ length (np_nodes np') = length (np_nodes np) /\
    forall j, id_at (np_nodes np') j = id_at (np_nodes np) j.
Proof.
  induction ks as [|k ks IH]; intros fuel np js k0 Hlen H0 Hjs ND Hf; (destruct fuel as [|f]; [cbn [length] in Hf; lia|]); cbn [reverse_path].
  all: destruct (next_of _ _ _ Hlen H0) as (n & Hn & Hfl & En); rewrite (get_nth _ _ _ Hn); cbn [bind]; rewrite En; cbn [bind hd_error option_map].
  all: assert (Rk : (k0 < length (np_nodes np))%nat) by (apply nth_error_Some; congruence).
  all: set (x := mkNode (nPos n) (nCost n) (nTotal n) (pool_NodeIdx (option_map Z.of_nat (hd_error js))) (nState n) (Z.lor (Z.land (nFlags n) 251) 0) (nID n)).
  all: assert (Eu : pool_update np (Z.of_nat k0) (fun n => mkNode (nPos n) (nCost n) (nTotal n) (pool_NodeIdx (option_map Z.of_nat (hd_error js))) (nState n) (Z.lor (Z.land (nFlags n) 251) 0) (nID n))
      = Ok (mkPool (upd (np_nodes np) k0 x) (np_first np) (np_next np) (np_maxNodes np) (np_hashSize np) (np_nodeCount np))) by
    (unfold pool_update; rewrite (get_nth _ _ _ Hn); cbn [bind]; rewrite set_in_range by (unfold zlen; lia); cbn [bind]; rewrite Nat2Z.id; reflexivity).
  all: assert (Nj : ~ In k0 js) by (inversion ND as [|? ? X _]; subst; intros Y; apply X; cbn [app]; try (right); try (apply in_or_app; right); assumption).
  all: assert (Hx : line (upd (np_nodes np) k0 x) (k0 :: js)).
  1,3: split; [|now apply line_upd]; exists x; split; [now apply nth_error_upd_eq|]; split;
     [cbn [x nFlags]; rewrite Z.lor_0_r, <- Z.land_assoc; change (Z.land 251 nodeParentDetached) with 0; apply Z.land_0_r|];
     cbn [x nPIdx]; destruct js as [|i js]; [reflexivity|]; cbn [hd_error option_map pool_NodeIdx]; pose proof (line_range _ _ i Hjs (or_introl eq_refl)); unfold zlen in Hlen; apply u32_id; unfold is_u32; lia.
  all: assert (Hid : forall j, id_at (upd (np_nodes np) k0 x) j = id_at (np_nodes np) j) by
    (intros j; unfold id_at; destruct (Nat.eq_dec j k0) as [->|N]; [rewrite nth_error_upd_eq, Hn by exact Rk; reflexivity|rewrite nth_error_upd_neq by congruence; reflexivity]).
  all: rewrite Eu; cbn [bind].
  - eexists. split; [reflexivity|]. cbn [np_nodes rev app]. split; [exact Hx|]. split; [apply upd_length|exact Hid].
  - rewrite Hfl. set (np1 := mkPool (upd (np_nodes np) k0 x) (np_first np) (np_next np) (np_maxNodes np) (np_hashSize np) (np_nodeCount np)).
    destruct (IH f np1 (k0 :: js) k) as (np' & E & L & Len & Ids).
    + cbn [np1 np_nodes]. unfold zlen. rewrite upd_length. exact Hlen.
    + cbn [np1 np_nodes]. apply line_upd; [|apply H0]. inversion ND as [|? ? X _]; subst. intros [->|Y]; apply X; [now left|right]. apply in_or_app. now left.
    + exact Hx.
    + inversion ND as [|? ? X ND']; subst. inversion ND' as [|? ? X' ND'']; subst. constructor.
      * intros Y. apply in_app_or in Y. destruct Y as [Y|[->|Y]]; [apply X'; apply in_or_app; now left|apply X; now left|apply X'; apply in_or_app; now right].
      * apply (NoDup_Add (a := k0) (l := ks ++ js)); [apply Add_app|]. split; [exact ND''|]. intros Y. apply X. now right.
    + cbn [length] in Hf. lia.
    + cbn [hd_error option_map] in E. exists np'. split.
      * rewrite E, last_cons_nat. reflexivity.
      * split; [|split].
        -- cbn [rev] in *. rewrite <- !app_assoc in *. cbn [app] in *. exact L.
        -- rewrite Len. apply upd_length.
        -- intros j. rewrite Ids. apply Hid.
Qed.

Lemma skipn_add : forall {A} a b (l : list A), skipn a (skipn b l) = skipn (b + a) l.
Proof. intros A a b. revert a. induction b as [|b IH]; intros a l; [reflexivity|]. destruct l as [|x l]; [now destruct a|]. cbn [skipn Nat.add]. apply IH. Qed.

Lemma store_line : forall js fuel rf m flt np j path n maxPath, zlen (np_nodes np) <= 65535 -> line (np_nodes np) (j :: js) -> (length js < fuel)%nat ->
  0 <= n -> n < maxPath -> maxPath <= zlen path ->
  let ids := map (id_at (np_nodes np)) (j :: js) in
  let c := Z.min (zlen ids) (maxPath - n) in
  store_path fuel rf m flt np (Z.of_nat j) path n maxPath =
    Ok (firstn (Z.to_nat n) path ++ firstn (Z.to_nat c) ids ++ skipn (Z.to_nat (n + c)) path, n + c, if maxPath <=? n + zlen ids then BufferTooSmall else 0).
Proof.
  induction js as [|i js IH]; intros fuel rf m flt np j path n maxPath Hlen HL Hf H0 H1 H2 ids c; (destruct fuel as [|f]; [cbn [length] in Hf; lia|]); cbn [store_path].
  all: destruct (next_of _ _ _ Hlen HL) as (nd & Hn & Hfl & En); rewrite (get_nth _ _ _ Hn); cbn [bind]; rewrite En; cbn [bind hd_error option_map]; rewrite Hfl, Z.eqb_refl; cbn [negb].
  all: rewrite set_in_range by (unfold zlen in *; lia); cbn [bind].
  all: assert (Ei : id_at (np_nodes np) j = nID nd) by (unfold id_at; now rewrite Hn).
  all: assert (U : upd path (Z.to_nat n) (nID nd) = firstn (Z.to_nat n) path ++ [nID nd] ++ skipn (Z.to_nat (n + 1)) path) by
    (rewrite upd_split by (unfold zlen in *; lia); cbn [app]; do 3 f_equal; lia).
  - assert (Ec : c = 1) by (unfold c, ids; cbn [map]; rewrite zlen_cons, zlen_nil; lia). clearbody c. subst c. unfold ids. cbn [map]. rewrite Ei. rewrite U. rewrite zlen_cons. change (zlen (@nil Z)) with 0.
    change (1 + 0) with 1. destruct (maxPath <=? n + 1); reflexivity.
  - unfold ids in *. clear ids. cbn [map] in *. rewrite Ei in *. destruct (Z.leb_spec maxPath (n + 1)) as [L|L].
    + change (negb (Z.land BufferTooSmall StatusDetailMask =? 0)) with true. cbv iota. assert (n + 1 = maxPath) by lia.
      assert (Ec : c = 1) by (unfold c; rewrite zlen_cons; pose proof (zlen_nonneg (id_at (np_nodes np) i :: map (id_at (np_nodes np)) js)); lia).
      rewrite Ec, U. rewrite zlen_cons. pose proof (zlen_nonneg (id_at (np_nodes np) i :: map (id_at (np_nodes np)) js)). destruct (Z.leb_spec maxPath (n + (1 + zlen (id_at (np_nodes np) i :: map (id_at (np_nodes np)) js)))); [reflexivity|lia].
    + change (negb (Z.land 0 StatusDetailMask =? 0)) with false. cbv iota. rewrite (IH f rf m flt np i); cbn [length] in *; [|exact Hlen|exact (proj2 HL)|lia|lia|lia|unfold zlen in *; rewrite upd_length; lia].
      cbn [map]. set (rest := id_at (np_nodes np) i :: map (id_at (np_nodes np)) js) in *. rewrite zlen_cons in *. set (c' := Z.min (zlen rest) (maxPath - (n + 1))).
      pose proof (zlen_nonneg rest). assert (Ec : c = c' + 1) by (unfold c, c'; rewrite zlen_cons; lia). rewrite Ec. assert (C0 : 0 <= c') by (unfold c'; lia). clear Ec. clearbody c'. clear c IH.
      replace (n + (c' + 1)) with (n + 1 + c') by lia. replace (n + (1 + zlen rest)) with (n + 1 + zlen rest) by lia. do 2 f_equal. f_equal.
      rewrite U. replace (Z.to_nat (c' + 1)) with (S (Z.to_nat c')) by lia. cbn [firstn].
      replace (Z.to_nat (n + 1)) with (S (Z.to_nat n)) by lia. rewrite firstn_app, firstn_firstn, skipn_app.
      assert (Lf : length (firstn (Z.to_nat n) path) = Z.to_nat n) by (rewrite firstn_length; unfold zlen in *; lia). rewrite Lf.
      replace (Nat.min (S (Z.to_nat n)) (Z.to_nat n)) with (Z.to_nat n) by lia. replace (S (Z.to_nat n) - Z.to_nat n)%nat with 1%nat by lia. cbn [app firstn].
      rewrite skipn_all2 by (rewrite Lf; lia). cbn [app]. rewrite <- app_assoc. cbn [app]. f_equal. f_equal. f_equal.
      replace (Z.to_nat (n + 1 + c') - Z.to_nat n)%nat with (S (Z.to_nat c')) by lia. rewrite skipn_cons, skipn_add. f_equal. lia.
Qed.
