(** Termination of FindPath for costs that are not negative. *)
From Coq Require Import ZArith List Lia Permutation Bool.
From Verif.Base Require Import Res GoNum F32 Num Grid.
From Verif.Model Require Import Status Poly PolyRef MeshTypes Geom MeshLinks MeshTiles Node NodeQueue FindPath.
From Verif.Spec Require Import LinkSpec PathSpec.
From Verif.Proofs Require Import NodePoolProofs NodeQueueProofs OpenList LinkProofs FloatAdd FloatMag SearchStep SearchInv FindPathProofs.
Import ListNotations.
Open Scope Z_scope.

Definition fpos (v : fvec) : Prop := fin (fst (fst v)) /\ fin (snd (fst v)) /\ fin (snd v).

Lemma vdist_nn : forall a b, fpos a -> fpos b -> nn (vdist a b).
Proof.
  intros [[ax ay] az] [[bx by_] bz] (A1 & A2 & A3) (B1 & B2 & B3). cbn [fst snd] in *. unfold vdist. apply fsqrt_nn.
  assert (S : forall x y, fin x -> fin y -> nn (fmul (fsub y x) (fsub y x))).
  { intros x y Hx Hy. apply fsqr_nn. apply fsub_fin; assumption. }
  apply fadd_V; [apply fadd_V|]; auto.
Qed.
Lemma HScale_nn : nn HScale /\ V HScale <> 0 /\ V HScale <> INF.
Proof.
  assert (E : HScale = S754_finite false 16760439 (-24)) by (vm_compute; reflexivity). rewrite E.
  assert (B : bounded fprec femax 16760439 (-24) = true) by (vm_compute; reflexivity). split; [exact B|].
  pose proof (V_finite _ _ B). pose proof OVER_INF. split; cbn [V]; [pose proof (pow149 (-24) ltac:(lia)); lia|lia].
Qed.
Lemma fmul_HScale : forall a, nn a -> nn (fmul a HScale).
Proof. intros a H. destruct HScale_nn as (N & Z0 & I0). apply fmul_nn; auto. Qed.

Section End.
Variables (m : NavMesh) (flt : QueryFilter) (startRef endRef : Z) (endPos : fvec).
(** Panics are tolerated if [Bad]. *)
Variable Bad : Prop.
Variable G : Z -> Prop.
Definition fine {A} (r : res A) (Q : A -> Prop) : Prop := match r with Ok a => Q a | NoFuel => False | _ => Bad end.
Lemma fine_bind : forall {A B} (r : res A) (f : A -> res B) (Q : A -> Prop) (R : B -> Prop),
  fine r Q -> (forall a, r = Ok a -> Q a -> fine (f a) R) -> fine (bind r f) R.
Proof. intros A B [a| | |] f Q R H K; cbn in *; auto. Qed.
Lemma fine_and : forall {A} (r : res A) (Q : A -> Prop) (R : A -> Prop), fine r Q -> (forall a, r = Ok a -> Q a -> R a) -> fine r R.
Proof. intros A [a| | |] Q R H K; cbn in *; auto. Qed.

Hypothesis HG_poly : forall r, G r -> Bad \/ exists t p, polygon_at m r t p.
Hypothesis HG_links : forall r t p, G r -> polygon_at m r t p ->
  exists c, LChain (tdLinks (tD t)) (pFirstLink p) c /\
    forall l, In l (at_slots (tdLinks (tD t)) c) -> lRef l <> 0 -> G (lRef l) /\
      forall t' p' old, polygon_at m (lRef l) t' p' -> fpos old ->
        fine (edgeMidPoint r p t (lRef l) p' t' old) (fun x => fpos (snd x)).
Hypothesis H_cost : forall pa pb prev r t p next, fpos pa -> fpos pb -> G r -> polygon_at m r t p ->
  fine (qCost flt pa pb prev (r, Some (t, p)) next) nn.
Hypothesis H_end : fpos endPos.

Lemma tile_fine : forall r, G r -> fine (TileAndPolyByRefUnsafe m r) (fun x => polygon_at m r (fst x) (snd x)).
Proof.
  intros r Hr. destruct (TileAndPolyByRefUnsafe m r) as [[t p]| | |] eqn:E; cbn [fine fst snd].
  - now apply TileAndPolyByRefUnsafe_ok.
  - destruct (HG_poly r Hr) as [B|(t & p & Hp)]; [exact B|]. apply TileAndPolyByRefUnsafe_ok in Hp. congruence.
  - destruct (HG_poly r Hr) as [B|(t & p & Hp)]; [exact B|]. apply TileAndPolyByRefUnsafe_ok in Hp. congruence.
  - unfold TileAndPolyByRefUnsafe, DecodePolyID in E. assert (GN : forall {T} (l : list T) i, get l i <> NoFuel).
    { intros T l i. unfold get. destruct (i <? 0); [discriminate|]. destruct (nth_error l (Z.to_nat i)); discriminate. }
    destruct (get (mTiles m) _) as [t| | |] eqn:E1; cbn [bind] in E; try discriminate; [|exfalso; exact (GN _ _ _ E1)].
    destruct (get (tdPolys (tD t)) _) as [p| | |] eqn:E2; cbn [bind] in E; try discriminate. exact (GN _ _ _ E2).
Qed.

(** Estimated rest of the way of a node. *)
Definition hh (n : Node) : f32 := if nID n =? endRef then f0 else fmul (vdist (nPos n) endPos) HScale.
Definition good (n : Node) : Prop :=
  nn (nCost n) /\ nn (nTotal n) /\ fpos (nPos n) /\ V (nTotal n) = V (fadd (nCost n) (hh n)) /\ G (nID n).
Lemma hh_nn : forall n, fpos (nPos n) -> nn (hh n).
Proof. intros n H. unfold hh. destruct (nID n =? endRef); [exact I|]. apply fmul_HScale, vdist_nn; auto. Qed.

Inductive AncI (np : NodePool) : nat -> list nat -> Prop :=
| AncI_root : forall k n, node_at np k n -> nPIdx n = 0 -> AncI np k [k]
| AncI_step : forall k n j l, node_at np k n -> nPIdx n = Z.of_nat j + 1 -> AncI np j l -> AncI np k (k :: l).

Record TInv (s : Search) : Prop := {
  t_good : forall k n, node_at (sPool s) k n -> good n;
  t_par : forall k n j nj, node_at (sPool s) k n -> nPIdx n = Z.of_nat j + 1 -> node_at (sPool s) j nj -> V (nCost nj) <= V (nCost n);
  t_anc : forall k n, node_at (sPool s) k n -> exists l, AncI (sPool s) k l;
  t_pos : forall k n, nth_error (np_nodes (sPool s)) k = Some n -> fpos (nPos n)
}.

(** ** Measure *)
Fixpoint sum (l : list Z) : Z := match l with [] => 0 | x :: l => x + sum l end.
Lemma sum_app : forall a b, sum (a ++ b) = sum a + sum b.
Proof. induction a as [|x a IH]; intros b; cbn [app sum]; [reflexivity|]. rewrite IH. lia. Qed.
Definition W (np : NodePool) : Z :=
  sum (map (fun n => V (nTotal n)) (firstn (Z.to_nat (np_nodeCount np)) (np_nodes np))) + (INF + 1) * (np_maxNodes np - np_nodeCount np).
Definition mu (s : Search) : Z := 2 * W (sPool s) + Z.of_nat (q_size (sOpen s)).

Lemma sum_upd : forall l (c k : nat) (x n : Node), (k < c)%nat -> nth_error l k = Some n ->
  sum (map (fun n => V (nTotal n)) (firstn c (upd l k x))) = sum (map (fun n => V (nTotal n)) (firstn c l)) - V (nTotal n) + V (nTotal x).
Proof.
  induction l as [|y l IH]; intros c k x n Hk E; [destruct k; discriminate|]. destruct c as [|c]; [lia|]. destruct k as [|k]; cbn [upd firstn map sum nth_error] in *.
  - injection E as ->. lia.
  - rewrite (IH c k x n) by (auto; lia). lia.
Qed.
Lemma sum_new : forall l (c : nat) (x n : Node), nth_error l c = Some n ->
  sum (map (fun n => V (nTotal n)) (firstn (S c) (upd l c x))) = sum (map (fun n => V (nTotal n)) (firstn c l)) + V (nTotal x).
Proof.
  induction l as [|y l IH]; intros c x n E; [destruct c; discriminate|]. destruct c as [|c]; cbn [nth_error] in E.
  - cbn [upd firstn map sum]. lia.
  - change (upd (y :: l) (S c) x) with (y :: upd l c x). rewrite !firstn_cons. cbn [map sum]. specialize (IH c x n E). rewrite IH. lia.
Qed.
Lemma W_nonneg : forall s, TInv s -> pool_inv (sPool s) -> 0 <= W (sPool s).
Proof.
  intros s HT HP. unfold W. pose proof (pi_count _ HP). pose proof OVER_INF.
  assert (0 <= sum (map (fun n => V (nTotal n)) (firstn (Z.to_nat (np_nodeCount (sPool s))) (np_nodes (sPool s))))); [|nia].
  assert (K : forall l, (forall n, In n l -> nn (nTotal n)) -> 0 <= sum (map (fun n => V (nTotal n)) l)).
  { induction l as [|y l IH]; intros Hl; cbn [map sum]; [lia|]. pose proof (V_nonneg _ (Hl y (or_introl eq_refl))). specialize (IH (fun n Hn => Hl n (or_intror Hn))). lia. }
  apply K. intros n Hn. apply In_nth_error in Hn. destruct Hn as [k Hk].
  assert (Hc : (k < Z.to_nat (np_nodeCount (sPool s)))%nat) by (rewrite <- (used_length _ HP); apply nth_error_Some; unfold used; congruence).
  apply (t_good s HT k n). split; [exact Hc|]. rewrite <- (nth_error_used _ _ Hc). exact Hk.
Qed.

(** The open list grows by at most the stored node. *)
Lemma open_grows : forall np q np' q' k x, SOk np q -> SOk np' q' ->
  (forall j y, node_at np' j y <-> (j = k /\ y = x) \/ (j <> k /\ node_at np j y)) -> (q_size q' <= S (q_size q))%nat.
Proof.
  intros np q np' q' k x H H' NA. destruct H as [HP _ (qs & HQ & Hnd & Hq & Hfl) _]. destruct H' as [HP' _ (qs' & HQ' & Hnd' & Hq' & Hfl') _].
  pose proof (queued_length _ _ HQ) as L. pose proof (queued_length _ _ HQ') as L'. rewrite map_length in L, L'. rewrite <- L, <- L'.
  change (S (length qs)) with (length (k :: qs)). apply NoDup_incl_length; [exact Hnd'|]. intros j Hj.
  destruct (node_ex np' j HP' (Hq' j Hj)) as [y Hy]. pose proof (proj1 (Hfl' j y Hy) Hj) as Fy. apply NA in Hy. destruct Hy as [[-> _]|[_ Hy]]; [now left|right].
  apply (Hfl j y Hy). exact Fy.
Qed.

(** ** Parents *)
Lemma AncI_nodes : forall np k l, AncI np k l -> forall i, In i l -> exists n, node_at np i n.
Proof. intros np k l H. induction H as [k n Hn Hp|k n j l Hn Hp H IH]; intros i [<-|Hi]; eauto. destruct Hi. Qed.
Lemma AncI_head : forall np k l, AncI np k l -> exists n, node_at np k n.
Proof. intros np k l H. destruct H; eauto. Qed.
Lemma AncI_cost : forall s k l, TInv s -> AncI (sPool s) k l -> forall i ni nk, In i l -> node_at (sPool s) i ni -> node_at (sPool s) k nk -> V (nCost ni) <= V (nCost nk).
Proof.
  intros s k l HT H. induction H as [k n Hn Hp|k n j l Hn Hp H IH]; intros i ni nk Hi Hni Hnk.
  - destruct Hi as [<-|[]]. rewrite (node_at_det _ _ _ _ Hni Hnk). lia.
  - destruct Hi as [<-|Hi]; [rewrite (node_at_det _ _ _ _ Hni Hnk); lia|]. destruct (AncI_head _ _ _ H) as [nj Hj].
    pose proof (IH i ni nj Hi Hni Hj). pose proof (t_par s HT k nk j nj Hnk). rewrite (node_at_det _ _ _ _ Hnk Hn) in *. specialize (H1 Hp Hj). lia.
Qed.
Lemma AncI_keep : forall np np' k x, (forall j y, node_at np' j y <-> (j = k /\ y = x) \/ (j <> k /\ node_at np j y)) ->
  forall i l, AncI np i l -> ~ In k l -> AncI np' i l.
Proof.
  intros np np' k x NA i l H. induction H as [i n Hn Hp|i n j l Hn Hp H IH]; intros Hk.
  - econstructor; [|exact Hp]. apply NA. right. split; [|exact Hn]. intros ->. apply Hk. now left.
  - econstructor; [|exact Hp|apply IH; intros X; apply Hk; now right]. apply NA. right. split; [|exact Hn]. intros ->. apply Hk. now left.
Qed.
Lemma AncI_store : forall np np' k x b lb, (forall j y, node_at np' j y <-> (j = k /\ y = x) \/ (j <> k /\ node_at np j y)) ->
  nPIdx x = Z.of_nat b + 1 -> AncI np' b lb -> forall i l, AncI np i l -> exists l', AncI np' i l'.
Proof.
  intros np np' k x b lb NA Hx Hb i l H.
  assert (Kk : AncI np' k (k :: lb)) by (econstructor; [apply NA; left; auto|exact Hx|exact Hb]).
  induction H as [i n Hn Hp|i n j l Hn Hp H IH]; (destruct (Nat.eq_dec i k) as [->|N]; [eauto|]).
  - exists [i]. econstructor; [apply NA; right; eauto|exact Hp].
  - destruct IH as [l' Hl']. exists (i :: l'). econstructor; [apply NA; right; eauto|exact Hp|exact Hl'].
Qed.

(** ** One link *)
Lemma step_cost_fine : forall best nb parent bestRef bestTile bestPoly ref t p,
  good best -> fpos (nPos nb) -> G bestRef -> polygon_at m bestRef bestTile bestPoly -> G ref -> polygon_at m ref t p ->
  fine (step_cost flt endRef endPos best nb parent (bestRef, Some (bestTile, bestPoly)) (ref, Some (t, p)))
    (fun ch => nn (fst ch) /\ V (nCost best) <= V (fst ch) /\ snd ch = (if ref =? endRef then f0 else fmul (vdist (nPos nb) endPos) HScale)).
Proof.
  intros best nb parent bestRef bestTile bestPoly ref t p (Gc & _ & Gp & _) Hp Hb Hbp Hr Hrp. unfold step_cost. cbn [fst].
  eapply fine_bind; [apply H_cost; auto|]. intros c _ Hc. destruct (fadd_V (nCost best) c Gc Hc) as [N1 _]. pose proof (fadd_ge (nCost best) c Gc Hc) as L1.
  destruct (ref =? endRef).
  - eapply fine_bind; [apply H_cost; auto|]. intros e _ He. cbn [fine fst snd]. split; [now apply fadd_V|]. split; [|reflexivity].
    etransitivity; [exact L1|]. now apply fadd_ge.
  - cbn [fine fst snd]. auto.
Qed.

Lemma visit_end : forall b best bestTile bestPoly parent s l,
  SInv m flt startRef endRef (Some b) s -> TInv s -> node_at (sPool s) b best -> polygon_at m (nID best) bestTile bestPoly ->
  (fst parent = 0 \/ has_ref (sPool s) (fst parent)) -> (lRef l <> 0 -> linked m (nID best) (lRef l)) ->
  (lRef l <> 0 -> G (lRef l) /\ forall t' p' old, polygon_at m (lRef l) t' p' -> fpos old ->
        fine (edgeMidPoint (nID best) bestPoly bestTile (lRef l) p' t' old) (fun x => fpos (snd x))) ->
  fine (visit_link m flt endRef endPos (Z.of_nat b) (nID best) bestTile bestPoly parent s l)
    (fun s' => SInv m flt startRef endRef (Some b) s' /\ TInv s' /\ mu s' <= mu s /\ ext (sPool s) (sPool s')).
Proof.
  intros b best bestTile bestPoly parent s l HI HT Hb Hbp Hpar Hlk HG.
  pose proof (t_good s HT b best Hb) as Gb. pose proof (si_ok _ _ _ _ _ _ HI) as SO. pose proof (si_flag _ _ _ _ _ _ HI) as SF.
  assert (GR : G (nID best)) by apply Gb.
  assert (A : fine (visit_link m flt endRef endPos (Z.of_nat b) (nID best) bestTile bestPoly parent s l) (fun _ => True)).
  { pose proof (visit_spec m flt endRef endPos b best bestTile bestPoly parent s l SO SF Hb) as VS.
    destruct ((lRef l =? 0) || (lRef l =? fst parent)) eqn:Ez; [rewrite VS; exact I|].
    apply orb_false_iff in Ez. destruct Ez as [Z1 Z2]. apply Z.eqb_neq in Z1. apply Z.eqb_neq in Z2. destruct (HG Z1) as [GL HM].
    pose proof (tile_fine (lRef l) GL) as TF.
    destruct (TileAndPolyByRefUnsafe m (lRef l)) as [[t p]| | |] eqn:ET;
      try (unfold visit_link; rewrite (proj2 (Z.eqb_neq _ _) Z1), (proj2 (Z.eqb_neq _ _) Z2), ET; exact TF).
    cbn [fine fst snd] in TF. specialize (VS t p TF). destruct (negb (qPass flt (lRef l) t p)); [rewrite VS; exact I|].
    destruct VS as [(k & n & Hn & Hk & E)|[(Nk & Hc & E)|(Nk & Hc & old & Ho & E)]].
    - rewrite E. eapply fine_bind; [apply step_cost_fine; auto; apply (t_good s HT k n Hn)|]. intros [c h] _ _.
      pose proof (relax_spec s b k n (lRef l) c h SO Hn ltac:(unfold nkey in Hk; congruence) (proj1 Hb)) as R.
      destruct (_ && _); [rewrite R; exact I|]. destruct R as (s1 & -> & _). exact I.
    - rewrite E. exact I.
    - cbv zeta in E. pose proof (HM t p (nPos old) TF (t_pos s HT _ _ Ho)) as EM.
      destruct (edgeMidPoint (nID best) bestPoly bestTile (lRef l) p t (nPos old)) as [[st mid]| | |]; try (rewrite E; exact EM).
      destruct E as (np' & HS & ST & HK & E). rewrite E. eapply fine_bind; [apply step_cost_fine; auto|]. intros [c h] _ _.
      pose proof (pi_count _ (so_pool _ _ SO)) as PC. destruct ST as (En & Emx & Ecn).
      assert (Hn : node_at np' (Z.to_nat (np_nodeCount (sPool s))) (fresh mid (cross l) (lRef l))).
      { split; [lia|]. rewrite En. apply nth_error_upd_eq. apply nth_error_Some. congruence. }
      pose proof (relax_spec (set_pool s np') b _ _ (lRef l) c h HS Hn eq_refl) as R. cbn [set_pool sPool sOpen] in R.
      destruct Hb as [Hb1 Hb2]. specialize (R ltac:(lia)). cbn [fresh nFlags Z.eqb negb andb] in R. destruct R as (s1 & -> & _). exact I. }
  apply (fine_and _ _ _ A). intros s' E _. clear A.
  destruct (visit_inv m flt startRef endRef endPos b best (nID best) bestTile bestPoly parent s l s' eq_refl) as (R1 & R2 & _); auto.
  { destruct (Z.eq_dec (lRef l) 0); auto. }
  split; [exact R1|]. pose proof (visit_visited m flt endRef endPos b best bestTile bestPoly parent s l s' SO SF Hb E) as VV.
  cut (TInv s' /\ mu s' <= mu s); [tauto|]. clear E R1 R2.
  destruct VV as [_|N0 Pa Nk Fu|s' k pos cost h t p N0 Hp Hq Hc Hk ST HS HL HK HO HB].
  - split; [exact HT|lia].
  - split; [|unfold mu; cbn [sPool sOpen]; lia]. destruct HT as [T1 T2 T3 T4]. constructor; cbn [sPool]; auto.
  - destruct (HG N0) as [GL HM]. destruct Hc as (nb & Enb & Ec).
    assert (Fp : fpos pos).
    { destruct Hk as [(n & Hn & _ & -> & _)|(-> & _ & old & st & Ho & Em)]; [apply (t_good s HT k n Hn)|].
      pose proof (HM t p (nPos old) Hp (t_pos s HT _ _ Ho)) as X. rewrite Em in X. exact X. }
    assert (SC := step_cost_fine best nb parent (nID best) bestTile bestPoly (lRef l) t p Gb). rewrite Enb in SC. specialize (SC Fp GR Hbp GL Hp).
    rewrite Ec in SC. cbn [fine fst snd] in SC. destruct SC as (Nc & Lc & Eh).
    pose proof (so_pool _ _ SO) as HP. pose proof (pi_count _ HP) as PC. pose proof (pi_nodes _ HP) as PN. pose proof (pi_max _ HP) as PM.
    assert (Kr : (k < length (np_nodes (sPool s)))%nat /\ (k <= Z.to_nat (np_nodeCount (sPool s)))%nat).
    { destruct Hk as [(n & [X1 X2] & _)|(-> & L & old & st & Ho & _)]; [split; [apply nth_error_Some; congruence|lia]|split; [apply nth_error_Some; congruence|lia]]. }
    pose proof (stored_at _ _ _ _ ST ltac:(lia) (proj1 Kr) (proj2 Kr)) as NA.
    set (x := entry_of pos cost h b (cross l) (lRef l)) in *.
    assert (Ehh : hh x = h) by (unfold hh, x; cbn [entry_of nID nPos]; symmetry; exact Eh).
    assert (Nh : nn h) by (rewrite <- Ehh; apply hh_nn; exact Fp).
    assert (Gx : good x).
    { unfold good. rewrite Ehh. unfold x. cbn [entry_of nCost nTotal nPos nID]. split; [exact Nc|]. split; [now apply fadd_V|]. auto. }
    (* an old entry was more expensive *)
    assert (Old : forall n, node_at (sPool s) k n -> V (nCost x) < V (nCost n) /\ V (nTotal x) < V (nTotal n)).
    { intros n Hn. destruct Hk as [(n' & Hn' & Kn & Epos & Fg)|(-> & _)]; [|destruct Hn as [Hn _]; lia].
      rewrite <- (node_at_det _ _ _ _ Hn Hn') in *. destruct (t_good s HT k n Hn) as (N1 & N2 & N3 & N4 & _).
      assert (Hx : hh n = h) by (rewrite <- Ehh; unfold hh, x; cbn [entry_of nID nPos]; unfold nkey in Kn; injection Kn as -> _; now rewrite Epos).
      unfold x. cbn [entry_of nCost nTotal]. destruct Gx as (_ & Nt & _). unfold x in Nt. cbn [entry_of nTotal] in Nt.
      change (fle (nTotal n) (fadd cost h) = false) in Fg. rewrite fle_V in Fg by assumption. apply Z.leb_gt in Fg.
      split; [|exact Fg]. destruct (Z.le_gt_cases (V (nCost n)) (V cost)) as [L|L]; [|lia]. exfalso.
      pose proof (fadd_mono (nCost n) cost h N1 Nc Nh L) as M. rewrite Hx in N4. lia. }
    assert (Nkb : k <> b).
    { intros ->. destruct (Old best Hb) as [L _]. unfold x in L. cbn [entry_of nCost] in L. lia. }
    assert (Hb' : node_at (sPool s') b best) by (apply NA; right; split; [congruence|exact Hb]).
    split.
    + constructor.
      * intros j y Hy. apply NA in Hy. destruct Hy as [[-> ->]|[_ Hy]]; [exact Gx|exact (t_good s HT j y Hy)].
      * intros j y i ni Hy Ep Hi. apply NA in Hy. destruct Hy as [[-> ->]|[Nj Hy]].
        -- unfold x in Ep. cbn [entry_of nPIdx] in Ep. assert (i = b) by lia. subst i. rewrite (node_at_det _ _ _ _ Hi Hb'). exact Lc.
        -- destruct (si_parent _ _ _ _ _ _ HI j y Hy) as [[_ Z0]|(i' & ni' & Ep' & Hi' & _)]; [lia|]. assert (i' = i) by lia. subst i'.
           pose proof (t_par s HT j y i ni' Hy Ep Hi') as L. apply NA in Hi. destruct Hi as [[-> ->]|[_ Hi]].
           ++ destruct (Old ni' Hi'). lia.
           ++ rewrite (node_at_det _ _ _ _ Hi Hi'). exact L.
      * destruct (t_anc s HT b best Hb) as [lb Hlb].
        assert (Kb : ~ In k lb).
        { intros Hin. destruct (AncI_nodes _ _ _ Hlb k Hin) as [nk Hnk]. destruct (Old nk Hnk) as [L _].
          pose proof (AncI_cost s b lb HT Hlb k nk best Hin Hnk Hb). unfold x in L. cbn [entry_of nCost] in L. lia. }
        pose proof (AncI_keep _ _ _ _ NA _ _ Hlb Kb) as Hlb'. intros j y Hy. apply NA in Hy. destruct Hy as [[-> ->]|[Nj Hy]].
        -- exists (k :: lb). econstructor; [apply NA; left; auto| |exact Hlb']. reflexivity.
        -- destruct (t_anc s HT j y Hy) as [lj Hlj]. eapply (AncI_store _ _ k x b lb NA eq_refl Hlb'); exact Hlj.
      * intros j y Hy. destruct ST as (En & _ & _). rewrite En in Hy. destruct (Nat.eq_dec j k) as [->|N].
        -- rewrite nth_error_upd_eq in Hy by apply Kr. injection Hy as <-. exact Fp.
        -- rewrite nth_error_upd_neq in Hy by congruence. exact (t_pos s HT j y Hy).
    + assert (WL : W (sPool s') <= W (sPool s) - 1).
      { unfold W. destruct ST as (En & Em & Ec'). rewrite En, Em, Ec'. destruct Hk as [(n & Hn & _)|(Ek & L & old & st & Ho & _)].
        - destruct (Old n Hn) as [_ L2]. destruct Hn as [Hk1 Hk2]. replace (Z.max (np_nodeCount (sPool s)) (Z.of_nat k + 1)) with (np_nodeCount (sPool s)) by lia.
          rewrite (sum_upd _ _ _ _ n Hk1 Hk2). lia.
        - replace (Z.max (np_nodeCount (sPool s)) (Z.of_nat k + 1)) with (np_nodeCount (sPool s) + 1) by lia.
          replace (Z.to_nat (np_nodeCount (sPool s) + 1)) with (Datatypes.S k) by lia. rewrite (sum_new _ _ _ old Ho).
          replace (Z.to_nat (np_nodeCount (sPool s))) with k by lia. pose proof (V_nonneg _ (proj1 (proj2 Gx))). lia. }
      pose proof (open_grows _ _ _ _ _ _ SO HS NA). unfold mu. lia.
Qed.

(** ** Expanding a node *)
Lemma foldM_fine : forall {S A} (f : S -> A -> res S) (I : S -> Prop) l s,
  I s -> (forall x s, In x l -> I s -> fine (f s x) I) -> fine (foldM f l s) I.
Proof.
  intros S A f I l. induction l as [|x l IH]; intros s Hs Hf; cbn [foldM]; [exact Hs|].
  eapply fine_bind; [apply Hf; [now left|exact Hs]|]. intros s' _ Hs'. apply IH; [exact Hs'|]. intros y s0 Hy. apply Hf. now right.
Qed.

Lemma expand_end : forall s b best, SInv m flt startRef endRef (Some b) s -> TInv s -> node_at (sPool s) b best -> nID best <> endRef ->
  fine (expand m flt endRef endPos s (Z.of_nat b)) (fun s' => SInv m flt startRef endRef None s' /\ TInv s' /\ mu s' <= mu s).
Proof.
  intros s b best HI HT Hb Ng.
  assert (A : fine (expand m flt endRef endPos s (Z.of_nat b)) (fun s' => TInv s' /\ mu s' <= mu s)).
  { unfold expand. rewrite (node_at_get _ _ _ Hb). cbn [bind]. pose proof (t_good s HT b best Hb) as Gb. assert (GR : G (nID best)) by apply Gb.
    eapply fine_bind; [apply tile_fine; exact GR|]. intros [t p] _ Hp. cbn [fst snd] in Hp.
    destruct (parent_idx m flt startRef endRef (Some b) s b best HI Hb) as [Pr Pp].
    assert (PF : fine (parent_side m (sPool s) best) (fun side => fst side = 0 \/ has_ref (sPool s) (fst side))).
    { assert (X : fine (parent_side m (sPool s) best) (fun _ => True)).
      { unfold parent_side. destruct (Z.eqb_spec (nPIdx best) 0) as [Z0|Z0]; [exact I|]. destruct (Pp Z0) as (j & nj & Ep & Hj). cbn [bind].
        rewrite Ep, i32_id by (unfold is_i32; lia). unfold pool_NodeAtIdx. destruct (Z.eqb_spec (Z.of_nat j + 1) 0); [lia|].
        replace (Z.of_nat j + 1 - 1) with (Z.of_nat j) by lia. rewrite (node_at_get _ _ _ Hj). cbn [bind of_option]. rewrite (node_at_get _ _ _ Hj). cbn [bind].
        destruct (nID nj =? 0); [exact I|]. eapply fine_bind; [apply tile_fine; apply (t_good s HT j nj Hj)|]. intros tp _ _. exact I. }
      apply (fine_and _ _ _ X). intros side E _. eapply parent_has; eauto. }
    eapply fine_bind; [exact PF|]. intros par _ Hpar. destruct (HG_links _ _ _ GR Hp) as (c & Hc & HL).
    rewrite (each_link_chain _ _ _ _ c _ Hc) by (unfold link_fuel; pose proof (LChain_short _ _ _ Hc); lia).
    assert (F : fine (foldM (visit_link m flt endRef endPos (Z.of_nat b) (nID best) t p par) (at_slots (tdLinks (tD t)) c) s)
       (fun s1 => SInv m flt startRef endRef (Some b) s1 /\ TInv s1 /\ mu s1 <= mu s /\ ext (sPool s) (sPool s1))).
    { apply foldM_fine.
      - split; [exact HI|]. split; [exact HT|]. split; [lia|]. intros k n Hn. eauto.
      - intros l s1 Hl (I1 & I2 & I3 & I4). destruct (I4 _ _ Hb) as (best1 & Hb1 & Eb1). rewrite <- Eb1.
        eapply fine_and; [apply visit_end; auto|].
        + now rewrite Eb1.
        + destruct Hpar as [Z0|Hh]; [now left|right]. eapply ext_has; eauto.
        + intros N0. rewrite Eb1. split; [exact N0|]. exists t, p, c. split; [exact Hp|]. split; [exact Hc|]. eapply in_at_slots; eauto.
        + intros N0. rewrite Eb1. exact (HL l Hl N0).
        + intros s2 _ (J1 & J2 & J3 & J4). split; [exact J1|]. split; [exact J2|]. split; [lia|].
          intros k n Hn. destruct (I4 k n Hn) as (n1 & Hn1 & E1). destruct (J4 k n1 Hn1) as (n2 & Hn2 & E2). exists n2. split; congruence. }
    apply (fine_and _ _ _ F). intros s' _ (_ & X & Y & _). auto. }
  apply (fine_and _ _ _ A). intros s' E [X Y]. destruct (expand_inv m flt startRef endRef endPos s b best s' HI Hb Ng E). auto.
Qed.

(** ** The loop *)
Lemma pop_end : forall s, SInv m flt startRef endRef None s -> TInv s -> q_empty (sOpen s) = false ->
  exists s' b n, pop_best s = Ok (s', Z.of_nat b) /\ SInv m flt startRef endRef (Some b) s' /\ node_at (sPool s') b n /\ TInv s' /\ mu s' = mu s - 1.
Proof.
  intros s HI HT He. destruct (pop_inv m flt startRef endRef None s HI He) as (s' & b & n & E & Hn & Fn & En & Ec & Em & Ek & HS & HL & Hsz & _).
  destruct (pop_SInv m flt startRef endRef s HI He) as (s1 & b1 & n1 & E1 & HI1 & Hn1). rewrite E in E1. apply Ok_inj in E1. injection E1 as -> Eb. apply Nat2Z.inj in Eb. subst b1.
  exists s1, b, n1. split; [exact E|]. split; [exact HI1|]. split; [exact Hn1|].
  pose proof (fun j y => node_at_upd _ _ _ j _ _ Hn En Ec y) as NA.
  assert (PI : forall j y, node_at (sPool s1) j y -> exists y0, node_at (sPool s) j y0 /\ nPIdx y = nPIdx y0 /\ nID y = nID y0 /\ nCost y = nCost y0 /\ nTotal y = nTotal y0 /\ nPos y = nPos y0).
  { intros j y Hy. apply NA in Hy. destruct Hy as [[-> ->]|[_ Hy]]; [exists n|exists y]; auto 10. }
  assert (IP : forall j y, node_at (sPool s) j y -> exists y', node_at (sPool s1) j y' /\ nPIdx y' = nPIdx y).
  { intros j y Hy. destruct (Nat.eq_dec j b) as [->|N]; [exists (with_flags 2 n)|exists y]; (split; [apply NA; auto|]); [now rewrite (node_at_det _ _ _ _ Hy Hn)|reflexivity]. }
  split.
  - constructor.
    + intros j y Hy. destruct (PI j y Hy) as (y0 & Hy0 & E1 & E2 & E3 & E4 & E5). pose proof (t_good s HT j y0 Hy0) as Gy.
      unfold good, hh in *. rewrite E2, E3, E4, E5. exact Gy.
    + intros j y i yi Hy Ep Hi. destruct (PI j y Hy) as (y0 & Hy0 & E1 & E2 & E3 & _). destruct (PI i yi Hi) as (yi0 & Hyi0 & _ & _ & F3 & _).
      rewrite E3, F3. apply (t_par s HT j y0 i yi0); auto. congruence.
    + intros j y Hy. destruct (PI j y Hy) as (y0 & Hy0 & _). destruct (t_anc s HT j y0 Hy0) as [l Hl]. exists l. clear -Hl IP.
      induction Hl as [k n0 Hn0 Hp|k n0 i l Hn0 Hp H IH]; destruct (IP k n0 Hn0) as (n1 & Hn1 & E); econstructor; eauto; congruence.
    + intros j y Hy. rewrite En in Hy. destruct (Nat.eq_dec j b) as [->|N].
      * rewrite nth_error_upd_eq in Hy by (apply nth_error_Some; destruct Hn; congruence). injection Hy as <-. exact (t_pos s HT b n (proj2 Hn)).
      * rewrite nth_error_upd_neq in Hy by congruence. exact (t_pos s HT j y Hy).
  - unfold mu, W. rewrite Hsz, En, Em, Ec, (sum_upd _ _ _ _ n (proj1 Hn) (proj2 Hn)). cbn [with_flags nTotal]. lia.
Qed.

Lemma loop_end : forall fuel s, SInv m flt startRef endRef None s -> TInv s -> mu s < Z.of_nat fuel ->
  fine (search_loop fuel m flt endRef endPos s) (fun s' => TInv s').
Proof.
  induction fuel as [|f IH]; intros s HI HT Hm; cbn [search_loop].
  - exfalso. pose proof (W_nonneg s HT (so_pool _ _ (si_ok _ _ _ _ _ _ HI))). unfold mu in Hm. lia.
  - destruct (q_empty (sOpen s)) eqn:Q; [exact HT|]. destruct (pop_end s HI HT Q) as (s1 & b & n & E & HI1 & Hn & HT1 & Mu). rewrite E. cbn [bind].
    rewrite (node_at_get _ _ _ Hn). cbn [bind]. destruct (Z.eqb_spec (nID n) endRef) as [Eg|Eg].
    + cbn [fine]. destruct HT1 as [T1 T2 T3 T4]. constructor; cbn [sPool]; auto.
    + eapply fine_bind; [apply (expand_end s1 b n); auto|]. intros s2 _ (HI2 & HT2 & M2). apply IH; auto. lia.
Qed.

(** ** Path reconstruction *)
Lemma AncI_det : forall np k l, AncI np k l -> forall l', AncI np k l' -> l = l'.
Proof.
  intros np k l H. induction H as [k n Hn Hp|k n j l Hn Hp H IH]; intros l' H'.
  - inversion H' as [k' n' Hn' Hp'|k' n' j' l0 Hn' Hp' H0]; subst; [reflexivity|]. rewrite (node_at_det _ _ _ _ Hn Hn') in Hp. lia.
  - inversion H' as [k' n' Hn' Hp'|k' n' j' l0 Hn' Hp' H0]; subst; rewrite (node_at_det _ _ _ _ Hn Hn') in Hp; [lia|].
    assert (j = j') by lia. subst. f_equal. now apply IH.
Qed.
Lemma AncI_suffix : forall np k l, AncI np k l -> forall i, In i l -> exists l1 l2, l = l1 ++ l2 /\ AncI np i l2.
Proof.
  intros np k l H. induction H as [k n Hn Hp|k n j l Hn Hp H IH]; intros i Hi.
  - destruct Hi as [<-|[]]. exists [], [k]. split; [reflexivity|]. econstructor; eauto.
  - destruct Hi as [<-|Hi]; [exists [], (k :: l); split; [reflexivity|]; econstructor; eauto|].
    destruct (IH i Hi) as (l1 & l2 & -> & H2). exists (k :: l1), l2. auto.
Qed.
Lemma AncI_NoDup : forall np k l, AncI np k l -> NoDup l.
Proof.
  intros np k l H. induction H as [k n Hn Hp|k n j l Hn Hp H IH]; [constructor; [intros []|constructor]|].
  constructor; [|exact IH]. intros Hin. destruct (AncI_suffix _ _ _ H k Hin) as (l1 & l2 & E & H2).
  assert (X : k :: l = l2) by (apply (AncI_det np k); [econstructor; eauto|exact H2]). subst l2.
  apply (f_equal (@length _)) in E. rewrite app_length in E. cbn [length] in E. lia.
Qed.
Lemma AncI_length : forall np k l, pool_inv np -> AncI np k l -> (length l <= length (np_nodes np))%nat.
Proof.
  intros np k l HP H. apply bounded_nodup; [now apply AncI_NoDup in H|]. intros i Hi. destruct (AncI_nodes _ _ _ H i Hi) as (n & [_ Hn]). apply nth_error_Some. congruence.
Qed.
Lemma AncI_path : forall x s k l fuel, SInv m flt startRef endRef x s -> AncI (sPool s) k l -> (length l <= fuel)%nat ->
  path_length fuel (sPool s) (Z.of_nat k) = Ok (zlen l).
Proof.
  intros x s k l fuel HI H. revert fuel. induction H as [k n Hn Hp|k n j l Hn Hp H IH]; intros fuel Hf; (destruct fuel as [|f]; [cbn [length] in Hf; lia|]); cbn [path_length];
    destruct (parent_of_at m flt startRef endRef x s k n HI Hn) as [[Z0 P]|(i & ni & Ep & Hi & P)]; try lia; rewrite P; cbn [bind].
  - reflexivity.
  - assert (i = j) by lia. subst i. rewrite IH by (cbn [length] in Hf; lia). cbn [bind]. rewrite zlen_cons. f_equal. lia.
Qed.

Lemma path_end : forall x s k n path, SInv m flt startRef endRef x s -> TInv s -> node_at (sPool s) k n -> path <> [] ->
  exists r, pathToNode (sPool s) (Z.of_nat k) path = Ok r.
Proof.
  intros x s k n path HI HT Hn Np. destruct (t_anc s HT k n Hn) as [l Hl].
  pose proof (AncI_path x s k l (pool_fuel (sPool s)) HI Hl) as P. specialize (P ltac:(unfold pool_fuel; pose proof (AncI_length _ _ _ (so_pool _ _ (si_ok _ _ _ _ _ _ HI)) Hl); lia)).
  destruct (path_length_anc m flt startRef endRef x s _ k n _ HI Hn P) as (l' & Ha & El). rewrite El in P.
  eexists. eapply pathToNode_spec; eauto.
Qed.
End End.
