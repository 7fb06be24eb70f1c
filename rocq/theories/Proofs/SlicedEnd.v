(** The sliced search without any-angle steps: result, end of the search, comparison with FindPath. *)
From Coq Require Import ZArith List Lia Bool.
From Verif.Base Require Import Res GoNum F32 Num Grid.
From Verif.Model Require Import Status Poly PolyRef MeshTypes Geom MeshLinks MeshTiles Node NodeQueue FindPath Raycast StraightPath Sliced.
From Verif.Spec Require Import LinkSpec PathSpec MeshSpec.
From Verif.Proofs Require Import NodePoolProofs NodeQueueProofs OpenList LinkProofs SearchStep SearchInv FindPathProofs FloatAdd FloatMag SearchEnd FindPathEnd MeshStep TableProofs SlotProofs LinkTile MeshInv LinkValid FitProofs MeshHist SlicedProofs SlicedPath.
Import ListNotations.
Open Scope Z_scope.

(** ** Storing the path *)
Lemma id_at_node : forall np k n, node_at np k n -> id_at (np_nodes np) k = nID n.
Proof. intros np k n [_ H]. unfold id_at. now rewrite H. Qed.
Lemma AncI_line : forall np q, SOk np q -> forall k l, AncI np k l -> line (np_nodes np) l.
Proof.
  intros np q HS k l H. assert (F : forall k n, node_at np k n -> Z.land (nFlags n) nodeParentDetached = 0).
  { intros k0 n0 H0. destruct (so_flags _ _ HS k0 n0 H0) as [-> |[-> | ->]]; reflexivity. }
  induction H as [k n Hn Hp|k n j l Hn Hp H IH].
  - split; [|exact Logic.I]. exists n. split; [apply Hn|]. split; [eapply F; exact Hn|exact Hp].
  - assert (E : exists l', l = j :: l') by (inversion H; eauto). destruct E as [l' ->]. split; [|exact IH].
    exists n. split; [apply Hn|]. split; [eapply F; exact Hn|exact Hp].
Qed.
Lemma Anc_AncI : forall np k L, Anc np k L -> exists l, AncI np k (k :: l) /\ L = rev (map (id_at (np_nodes np)) (k :: l)).
Proof.
  intros np k L H. induction H as [k n Hn Hp|k n j L Hn Hp H IH].
  - exists []. split; [econstructor; eauto|]. cbn [map rev app]. now rewrite (id_at_node _ _ _ Hn).
  - destruct IH as (l & A & ->). exists (j :: l). split; [econstructor; eauto|]. cbn [map rev]. now rewrite (id_at_node _ _ _ Hn).
Qed.
Lemma AncI_Anc : forall np k l, AncI np k l -> Anc np k (rev (map (id_at (np_nodes np)) l)).
Proof.
  intros np k l H. induction H as [k n Hn Hp|k n j l Hn Hp H IH]; cbn [map rev app]; rewrite (id_at_node _ _ _ Hn); econstructor; eauto.
Qed.

Lemma deliver_line : forall fuel rf m q r k ks st path maxPath, qReq q = Some r -> zlen (np_nodes (qPool q)) <= 65535 ->
  line (np_nodes (qPool q)) (k :: ks) -> NoDup (k :: ks) -> (length ks < fuel)%nat -> 0 < maxPath <= zlen path ->
  let L := rev (map (id_at (np_nodes (qPool q))) (k :: ks)) in
  let c := Z.min (zlen L) maxPath in
  exists np', length (np_nodes np') = length (np_nodes (qPool q)) /\
  deliver fuel rf m q (Z.of_nat k) st path maxPath =
    Ok (reset_query np' q, firstn (Z.to_nat c) L ++ skipn (Z.to_nat c) path, c,
        Z.lor Success (Z.land (Z.lor st (if maxPath <=? zlen L then BufferTooSmall else 0)) StatusDetailMask)).
Proof.
  intros fuel rf m q r k ks st path maxPath Hr Hlen HL ND Hf HM L c.
  destruct (reverse_line ks fuel (qPool q) [] k Hlen HL Logic.I) as (np' & Er & Hl' & Hlen' & Ids); [rewrite app_nil_r; exact ND|exact Hf|].
  exists np'. split; [exact Hlen'|]. unfold deliver. rewrite Hr. cbn [of_option bind]. cbn [hd_error option_map] in Er. rewrite Er. cbn [bind].
  rewrite app_nil_r in Hl'. destruct (exists_last (l := k :: ks)) as (l' & j & El); [discriminate|].
  assert (Ej : last ks k = j) by (rewrite <- (last_cons_nat ks k k), El; apply last_last). rewrite Ej.
  assert (Erev : rev (k :: ks) = j :: rev l') by (rewrite El, rev_app_distr; reflexivity). rewrite Erev in Hl'.
  assert (EL : map (id_at (np_nodes np')) (j :: rev l') = L).
  { unfold L. rewrite <- map_rev, Erev. apply map_ext. exact Ids. }
  assert (Ll : (length (rev l') < fuel)%nat). { apply (f_equal (@length _)) in Erev. rewrite rev_length in Erev. cbn [length] in Erev. lia. }
  pose proof (store_line (rev l') fuel rf m (qFilter r) np' j path 0 maxPath) as S. cbv zeta in S. rewrite EL in S. rewrite S; [|unfold zlen in *; lia|exact Hl'|exact Ll|lia|lia|lia].
  cbn [bind]. rewrite Z.sub_0_r, !Z.add_0_l. cbn [Z.to_nat firstn app]. reflexivity.
Qed.

(** ** Meshes with few restrictions *)
Lemma run_poly : forall m A, Run sound m A -> forall r, IsValidPolyRef m r = Ok true -> exists t p, polygon_at m r t p.
Proof. intros m A HR r. apply (valid_exists m A). exact (Run_inv _ _ _ HR). Qed.
Lemma run_links : forall m A, Run sound m A -> forall r t p, IsValidPolyRef m r = Ok true -> polygon_at m r t p ->
  exists c, LChain (tdLinks (tD t)) (pFirstLink p) c /\ forall l, In l (at_slots (tdLinks (tD t)) c) -> lRef l <> 0 -> IsValidPolyRef m (lRef l) = Ok true.
Proof.
  intros m A HR r t p Hr Hp. destruct (valid_links m A r t p HR Hr Hp) as (c & HC & Hv). exists c. split; [exact HC|]. intros l Hl N0.
  pose proof (in_at_slots _ _ _ _ HC Hl) as Hin. apply in_map_iff in Hin. destruct Hin as (x & <- & Hx). now apply Hv.
Qed.

(** ** The same path as FindPath *)
Definition too_small (full : bool) (st : Z) : Z := if full then Z.lor st BufferTooSmall else st.

Lemma same_path : forall m A np q flt a b pa pb path fuel np' q' path' n st,
  Run sound m A -> QOk np q -> triangle_free m flt -> flat_links m ->
  FindPath fuel m np q flt a b pa pb path = Ok (np', q', path', n, st) -> StatusSucceed st = true ->
  forall options rf k more fuel' x, any_angle options = false -> Z.of_nat fuel <= k -> (Z.to_nat 65535 <= fuel')%nat ->
  qPool x = np -> qOpen x = q ->
  exists x1 x2 x3 s1 s2 d, InitSlicedFindPath m x a b pa pb flt options = Ok (x1, s1) /\
    UpdateSlicedFindPath rf m x1 k = Ok (x2, s2, d) /\ StatusSucceed s2 = true /\ StatusInProgress s2 = false /\
    FinalizeSlicedFindPath fuel' rf m x2 (path ++ more) (zlen path) =
      Ok (x3, path' ++ more, n, too_small ((n =? zlen path) && negb (a =? b)) st).
Proof.
  intros m A np q flt a b pa pb path fuel np' q' path' n st HR HQ HT HF E HS options rf k more fuel' x HA Hk Hf' Ex1 Ex2.
  unfold FindPath in E. apply bind_ok in E as (vs & Es & E). apply bind_ok in E as (ve & Ee & E).
  destruct (negb vs || negb ve || (zlen path =? 0)) eqn:G; [apply Ok_inj in E; injection E as <- <- <- <- <-; discriminate|].
  destruct vs; [|discriminate]. destruct ve; [|discriminate]. cbn in G. apply Z.eqb_neq in G.
  assert (Np : path <> []) by (intros ->; apply G; reflexivity).
  assert (Z0 : (a =? 0) || (b =? 0) = false).
  { apply orb_false_iff. split; [unfold IsValidPolyRef in Es; destruct (a =? 0)|unfold IsValidPolyRef in Ee; destruct (b =? 0)]; auto; discriminate. }
  unfold InitSlicedFindPath. rewrite Z0, Es. cbn [bind]. rewrite Ee. cbn [bind negb orb]. rewrite HA. cbn [bind].
  destruct (Z.eqb_spec a b) as [Eab|Nab].
  { apply bind_ok in E as (p1 & E1 & E). apply Ok_inj in E. injection E as <- <- <- <- <-. do 5 eexists. eexists. split; [reflexivity|].
    split; [unfold UpdateSlicedFindPath; cbn [qStatus]; change (StatusInProgress Success) with false; cbn [negb]; reflexivity|]. split; [reflexivity|]. split; [reflexivity|].
    unfold FinalizeSlicedFindPath. cbn [qStatus refs_of qReq qStartRef qEndRef]. change (StatusFailed Success) with false. cbv iota. rewrite Eab, Z.eqb_refl.
    destruct path as [|y path]; [congruence|]. rewrite set_in_range in E1 by (rewrite zlen_cons; pose proof (zlen_nonneg path); lia). apply Ok_inj in E1. cbn [Z.to_nat upd] in E1. subst p1.
    cbn [app]. rewrite set_in_range by (rewrite zlen_cons; pose proof (zlen_nonneg (path ++ more)); lia). cbn [bind Z.to_nat upd]. rewrite andb_false_r. rewrite Eab. reflexivity. }
  apply bind_ok in E as (s0 & E0 & E). pose proof (start_spec m flt np q a b pa pb HQ) as SS.
  destruct (np_maxNodes np =? 0); [rewrite SS in E0; discriminate|]. destruct SS as (s0' & Es0 & HI0 & _ & _ & _ & _ & _ & _ & _ & Out0). rewrite E0 in Es0. apply Ok_inj in Es0. subst s0'.
  rewrite Ex1, Ex2, E0. cbn [bind].
  apply bind_ok in E as (s & El & E). apply bind_ok in E as ([[p1 c1] st1] & Ep & E). apply bind_ok in E as (lastn & Eln & E). apply Ok_inj in E.
  injection E as <- <- <- <- <-.
  assert (HI : exists x, SInv m flt a b x s /\ exists kb nb, sBest s = Z.of_nat kb /\ node_at (sPool s) kb nb).
  { destruct (search_inv _ _ _ _ _ _ _ _ HI0 El) as [(kb & nb & HI & Eb & Hb & _)|[HI _]].
    - exists (Some kb). split; [exact HI|]. eauto.
    - exists None. split; [exact HI|]. apply (si_best _ _ _ _ _ _ HI). }
  destruct HI as (y & HI & kb & nb & Eb & Hb). pose proof (si_ok _ _ _ _ _ _ HI) as SO.
  rewrite Eb in Ep, Eln. rewrite (node_at_get _ _ _ Hb) in Eln. apply Ok_inj in Eln. subst lastn.
  assert (exists len, path_length (pool_fuel (sPool s)) (sPool s) (Z.of_nat kb) = Ok len) as [len Elen].
  { unfold pathToNode in Ep. apply bind_ok in Ep as (len & Elen & _). eauto. }
  destruct (path_length_anc _ _ _ _ _ _ _ _ _ _ HI Hb Elen) as (L & HAn & ->).
  rewrite (pathToNode_spec _ _ _ _ _ _ _ _ path HI HAn Np Elen) in Ep. apply Ok_inj in Ep. injection Ep as <- <- <-.
  set (req := mkRequest a b pa pb flt options maxFloat32).
  assert (Hloop : exists i o, slice_loop (Z.to_nat k) rf m req s0 = Ok (s, i, o) /\ (o = Reached \/ (o = GoOn /\ q_empty (sOpen s) = true))).
  { apply (loop_same m flt a b pa pb options maxFloat32 rf (run_poly m A HR) (run_links m A HR) HA Es HT HF fuel); auto. lia. }
  destruct Hloop as (i & o & Hloop & Ho).
  assert (Eta : mkSearch (sPool s0) (sOpen s0) (sBest s0) (sBestCost s0) false = s0) by (rewrite <- Out0; destruct s0; reflexivity).
  set (st2 := Z.lor Success (Z.land (with_out InProgress (sOut s)) StatusDetailMask)).
  destruct (Anc_AncI _ _ _ HAn) as (js & HJ & EL).
  pose proof (AncI_length _ _ _ (so_pool _ _ SO) HJ) as LJ. cbn [length] in LJ. pose proof (pi_nodes _ (so_pool _ _ SO)) as PN. pose proof (pi_max _ (so_pool _ _ SO)) as PM.
  pose proof (zlen_nonneg path). pose proof (zlen_nonneg more).
  assert (LP : zlen (path ++ more) = zlen path + zlen more) by (unfold zlen; rewrite app_length; lia).
  assert (D : exists np2, _ /\ _ = _) by (refine (deliver_line fuel' rf m (mkQuery (sPool s) (sOpen s) st2 (Z.of_nat kb) (sBestCost s) (Some req)) req kb js
    (if nID nb =? b then st2 else Z.lor st2 PartialResult) (path ++ more) (zlen path) eq_refl _ (AncI_line _ _ SO _ _ HJ) (AncI_NoDup _ _ _ HJ) _ _); cbn [qPool]; unfold zlen in *; lia).
  destruct D as (np2 & _ & Ed).
  do 3 eexists. exists InProgress. do 2 eexists. split; [reflexivity|].
  split.
  { unfold UpdateSlicedFindPath. cbn [qStatus]. change (StatusInProgress InProgress) with true. cbn [negb qReq of_option bind req qStartRef qEndRef]. rewrite Es. cbn [bind]. rewrite Ee. cbn [bind negb orb].
    cbn [qPool qOpen qBest qBestCost]. rewrite Eta. rewrite Hloop. cbn [bind].
    assert (X : match o with Reached => st2 | Vanished => Failure | GoOn => if q_empty (sOpen s) then st2 else with_out InProgress (sOut s) end = st2).
    { destruct Ho as [->|[-> ->]]; reflexivity. }
    fold st2. rewrite X. reflexivity. }
  split; [unfold st2; destruct (sOut s); reflexivity|]. split; [unfold st2; destruct (sOut s); reflexivity|].
  unfold FinalizeSlicedFindPath. cbn [qStatus refs_of qReq qStartRef qEndRef qPool qBest]. cbn [req qStartRef qEndRef].
  replace (StatusFailed st2) with false by (unfold st2; destruct (sOut s); reflexivity). rewrite (proj2 (Z.eqb_neq _ _) Nab). rewrite Eb, (node_at_get _ _ _ Hb). cbn [bind].
  rewrite Ed. cbn [qPool] in *. rewrite <- EL. clear Ed.
    assert (LN : L <> []) by exact (Anc_nonempty _ _ _ HAn). set (c := Z.min (zlen L) (zlen path)).
    assert (Ep : firstn (Z.to_nat c) L ++ skipn (Z.to_nat c) (path ++ more) = (firstn (length path) L ++ skipn (length L) path) ++ more).
    { rewrite <- app_assoc. unfold c, zlen. destruct (Z.min_spec (Z.of_nat (length L)) (Z.of_nat (length path))) as [[M ->]|[M ->]]; rewrite Nat2Z.id.
      - rewrite firstn_all, (firstn_all2 L) by lia. f_equal. rewrite skipn_app. replace (length L - length path)%nat with O by lia. reflexivity.
      - f_equal. rewrite skipn_app, skipn_all, Nat.sub_diag, (skipn_all2 path) by lia. reflexivity. }
    rewrite Ep. clear Ep. do 2 f_equal. unfold st2. cbn [negb]. rewrite andb_true_r.
    replace (c =? zlen path) with (zlen path <=? zlen L) by (unfold c; destruct (Z.leb_spec (zlen path) (zlen L)), (Z.eqb_spec (Z.min (zlen L) (zlen path)) (zlen path)); try reflexivity; lia).
    unfold too_small. destruct (Z.leb_spec (zlen path) (zlen L)), (Z.gtb_spec (zlen L) (zlen path)); try lia; destruct (nID nb =? b), (sOut s); reflexivity.
Qed.

(** ** The search by itself *)
Section Alone.
Variables (m : NavMesh) (flt : QueryFilter) (startRef endRef : Z) (startPos endPos : fvec) (options : Z) (limit : f32) (rf : nat) (Bad : Prop).
Let valid (r : Z) : Prop := IsValidPolyRef m r = Ok true.
Let req : Request := mkRequest startRef endRef startPos endPos flt options limit.
Hypothesis H_poly : forall r, valid r -> exists t p, polygon_at m r t p.
Hypothesis H_links : forall r t p, valid r -> polygon_at m r t p ->
  exists c, LChain (tdLinks (tD t)) (pFirstLink p) c /\
    forall l, In l (at_slots (tdLinks (tD t)) c) -> lRef l <> 0 -> valid (lRef l) /\
      forall t' p' old, polygon_at m (lRef l) t' p' -> fpos old ->
        fine Bad (edgeMidPoint r p t (lRef l) p' t' old) (fun x => fpos (snd x)).
Hypothesis H_cost : forall pa pb prev r t p next, fpos pa -> fpos pb -> valid r -> polygon_at m r t p ->
  fine Bad (qCost flt pa pb prev (r, Some (t, p)) next) nn.
Hypothesis H_end : fpos endPos.
Hypothesis H_plain : any_angle options = false.
Hypothesis H_start : valid startRef.

Lemma links_valid : forall r t p, valid r -> polygon_at m r t p ->
  exists c, LChain (tdLinks (tD t)) (pFirstLink p) c /\ forall l, In l (at_slots (tdLinks (tD t)) c) -> lRef l <> 0 -> valid (lRef l).
Proof. intros r t p Hr Hp. destruct (H_links r t p Hr Hp) as (c & Hc & H). exists c. split; [exact Hc|]. intros l Hl N0. now apply H. Qed.
Let poly_fine : forall r, valid r -> Bad \/ exists t p, polygon_at m r t p.
Proof. intros r Hr. right. now apply H_poly. Qed.

Lemma visit_sliced_end : forall b best t p par pk g s l,
  SInv m flt startRef endRef (Some b) s -> TInv endRef endPos valid s -> node_at (sPool s) b best -> polygon_at m (nID best) t p ->
  (fst par = 0 \/ has_ref (sPool s) (fst par)) -> (lRef l <> 0 -> linked m (nID best) (lRef l)) ->
  (lRef l <> 0 -> valid (lRef l) /\ forall t' p' old, polygon_at m (lRef l) t' p' -> fpos old ->
        fine Bad (edgeMidPoint (nID best) p t (lRef l) p' t' old) (fun x => fpos (snd x))) ->
  fine Bad (visit_sliced rf m flt endRef endPos (Z.of_nat b) (nID best) t p par pk g false s l)
    (fun s' => (SInv m flt startRef endRef (Some b) s' /\ TInv endRef endPos valid s' /\ mu s' <= mu s /\ ext (sPool s) (sPool s')) /\
       (sOut s' = false -> sOut s = false) /\ (sOut s' = false -> lRef l <> 0 -> passes m flt (lRef l) -> has_ref (sPool s') (lRef l))).
Proof.
  intros b best t p par pk g s l HI HT Hb Hp Hpar Hlk HG.
  destruct (visit_sliced_cases rf m flt endRef endPos b best t p par pk g s l (si_ok _ _ _ _ _ _ HI) (si_flag _ _ _ _ _ _ HI) Hb) as [->|(-> & N0 & k & n & Hn & En & _)].
  - eapply fine_and; [apply (visit_end m flt startRef endRef endPos Bad valid poly_fine H_cost H_end b best t p par s (flat l)); auto|].
    intros s' E R. split; [exact R|]. destruct (visit_inv m flt startRef endRef endPos b best (nID best) t p par s (flat l) s' eq_refl) as (_ & _ & R3 & R4); auto.
    { cbn [flat lRef]. destruct (Z.eq_dec (lRef l) 0); auto. }
  - cbn [fine]. split; [split; [exact HI|split; [exact HT|split; [lia|intros i y Hy; eauto]]]|]. split; [auto|]. intros _ _ _. exists k, n. auto.
Qed.

Lemma foldM_fine_pre : forall {S A} (f : S -> A -> res S) (I : list A -> S -> Prop) l pre s,
  I pre s -> (forall x s pre, In x l -> I pre s -> fine Bad (f s x) (I (pre ++ [x]))) -> fine Bad (foldM f l s) (I (pre ++ l)).
Proof.
  intros S A f I l. induction l as [|x l IH]; intros pre s Hs Hf; cbn [foldM]; [now rewrite app_nil_r|].
  eapply fine_bind; [apply Hf; [now left|exact Hs]|]. intros s' _ Hs'. replace (pre ++ x :: l) with ((pre ++ [x]) ++ l) by (rewrite <- app_assoc; reflexivity).
  apply IH; [exact Hs'|]. intros y s0 pre0 Hy. apply Hf. now right.
Qed.

Lemma slice_step_end : forall s, SInv m flt startRef endRef None s -> TInv endRef endPos valid s -> q_empty (sOpen s) = false ->
  fine Bad (slice_step rf m req s) (fun x => let '(s', o) := x in TInv endRef endPos valid s' /\
    ((o = GoOn /\ SInv m flt startRef endRef None s' /\ mu s' < mu s) \/ (o = Reached /\ Found m flt startRef endRef s'))).
Proof.
  intros s HI HT Q. destruct (step_form m flt startRef endRef startPos endPos options limit rf H_poly links_valid H_plain H_start s HI Q) as (s1 & b & n & Ep & HI1 & Hn & F).
  destruct (pop_end m flt startRef endRef endPos valid s HI HT Q) as (s1' & b' & n' & Ep' & _ & Hn' & HT1 & Mu). rewrite Ep in Ep'. apply Ok_inj in Ep'. injection Ep' as <- Eb. apply Nat2Z.inj in Eb. subst b'.
  clear n' Hn'. destruct (Z.eqb_spec (nID n) endRef) as [Eg|Ng].
  - fold req in F. rewrite F. cbn [fine]. split; [destruct HT1 as [T1 T2 T3 T4]; constructor; cbn [sPool]; auto|]. right. split; [reflexivity|]. exists b, n. cbn [sBest sPool]. split; [|auto].
    destruct HI1 as [I1 I2 I3 I4 IR I5 I6 I7 I8]. constructor; cbn [sPool sOpen sBest sOut]; auto. exists b, n. auto.
  - destruct F as (t & p & par & pk & g & c & Hp & Hc & Hpar & Hlk & F & _). fold req in F. rewrite F. clear F.
    pose proof (nodes_valid m flt startRef endRef links_valid H_start _ _ _ _ HI1 Hn) as Vn.
    destruct (H_links _ _ _ Vn Hp) as (c' & Hc' & HL). rewrite (LChain_det _ _ _ Hc' _ Hc) in *. clear c' Hc'.
    set (J := fun (pre : list Link) (s2 : Search) => (SInv m flt startRef endRef (Some b) s2 /\ TInv endRef endPos valid s2 /\ mu s2 <= mu s1 /\ ext (sPool s1) (sPool s2)) /\
       (sOut s2 = false -> forall l, In l pre -> lRef l <> 0 -> passes m flt (lRef l) -> has_ref (sPool s2) (lRef l))).
    assert (R : fine Bad (foldM (visit_sliced rf m flt endRef endPos (Z.of_nat b) (nID n) t p par pk g false) (at_slots (tdLinks (tD t)) c) s1) (J ([] ++ at_slots (tdLinks (tD t)) c))).
    { apply foldM_fine_pre.
      - split; [|intros _ l []]. split; [exact HI1|]. split; [exact HT1|]. split; [lia|]. intros k y Hy. eauto.
      - intros l s2 pre Hl ((I1 & I2 & I3 & I4) & I5). destruct (I4 _ _ Hn) as (n2 & Hn2 & En2). rewrite <- En2.
        eapply fine_and; [apply (visit_sliced_end b n2 t p par pk g s2 l I1 I2 Hn2)|].
        + now rewrite En2.
        + destruct Hpar as [Z0|Hh]; [now left|right]. eapply ext_has; eauto.
        + intros N0. rewrite En2. now apply Hlk.
        + intros N0. rewrite En2. exact (HL l Hl N0).
        + intros s3 _ ((J1 & J2 & J3 & J4) & J5 & J6). split.
          * split; [exact J1|]. split; [exact J2|]. split; [lia|]. intros k y Hy. destruct (I4 k y Hy) as (y1 & Hy1 & E1). destruct (J4 k y1 Hy1) as (y2 & Hy2 & E2). exists y2. split; congruence.
          * intros Ho l' Hl' N0 Pa. apply in_app_or in Hl'. destruct Hl' as [Hl'|[<-|[]]]; [|auto]. apply (ext_has _ _ _ J4). apply I5; auto. }
    cbn [app] in R. destruct (foldM _ _ _) as [s2| | |]; cbn [fine rmap] in R |- *; auto.
    destruct R as ((J1 & J2 & J3 & J4) & J5). split; [exact J2|]. left. split; [reflexivity|]. split; [|lia].
    destruct (J4 _ _ Hn) as (n2 & Hn2 & En2). destruct J1 as [I1 I2 I3 I4 IR I5 I6 I7 I8]. constructor; auto.
    + intros k y Hy Fy _. destruct (Nat.eq_dec k b) as [->|N]; [|apply (I6 k y Hy Fy); congruence]. rewrite (node_at_det _ _ _ _ Hy Hn2), En2. exact Ng.
    + intros Ho k y Hy Fy _. destruct (Nat.eq_dec k b) as [->|N]; [|apply (I7 Ho k y Hy Fy); congruence].
      rewrite (node_at_det _ _ _ _ Hy Hn2), En2. intros r' (N0 & t' & p' & c' & Hp' & Hc' & Hin) Pa.
      destruct (polygon_at_det _ _ _ _ _ _ Hp Hp') as [<- <-]. rewrite (LChain_det _ _ _ Hc' _ Hc) in Hin.
      destruct (at_slots_in _ _ _ _ Hc Hin) as (l & Hl & <-). apply J5; auto.
Qed.

Lemma slice_loop_end : forall n s, SInv m flt startRef endRef None s -> TInv endRef endPos valid s ->
  fine Bad (slice_loop n rf m req s) (fun x => let '(s', i, o) := x in TInv endRef endPos valid s' /\
    ((o = GoOn /\ SInv m flt startRef endRef None s' /\ (q_empty (sOpen s') = true \/ mu s' + Z.of_nat n <= mu s)) \/ (o = Reached /\ Found m flt startRef endRef s'))).
Proof.
  induction n as [|n IH]; intros s HI HT; cbn [slice_loop].
  - cbn [fine]. split; [exact HT|]. left. split; [reflexivity|]. split; [exact HI|]. right. lia.
  - destruct (q_empty (sOpen s)) eqn:Q; [cbn [fine]; split; [exact HT|left; auto]|].
    eapply fine_bind; [apply (slice_step_end s HI HT Q)|]. intros [s1 o] _ (HT1 & [(-> & HI1 & Mu)|(-> & HF)]).
    + eapply fine_bind; [apply (IH s1 HI1 HT1)|]. intros [[s2 i] o] _ (HT2 & HR). cbn [fine]. split; [exact HT2|].
      destruct HR as [(-> & HI2 & HE)|(-> & HF)]; [left|right; auto]. split; [reflexivity|]. split; [exact HI2|]. destruct HE as [HE|HE]; [now left|right; lia].
    + cbn [fine]. split; [exact HT1|]. right. auto.
Qed.
End Alone.

(** ** Meshes made by AddTile and RemoveTile *)
Lemma run_mid : forall (Bad : Prop) m A flt, Run sound m A -> small_mesh m -> (Bad \/ fits m A /\ edges_named m /\ never_panics flt) ->
  forall r t p, IsValidPolyRef m r = Ok true -> polygon_at m r t p ->
  exists c, LChain (tdLinks (tD t)) (pFirstLink p) c /\
    forall l, In l (at_slots (tdLinks (tD t)) c) -> lRef l <> 0 -> IsValidPolyRef m (lRef l) = Ok true /\
      forall t' p' old, polygon_at m (lRef l) t' p' -> fpos old ->
        fine Bad (edgeMidPoint r p t (lRef l) p' t' old) (fun x => fpos (snd x)).
Proof.
  intros Bad m A flt HR HS HB r t p Hr Hp. pose proof (Run_inv _ _ _ HR) as HI.
  destruct (valid_links m A r t p HR Hr Hp) as (c & HC & Hv). exists c. split; [exact HC|]. intros l Hl N0.
  assert (Vl : IsValidPolyRef m (lRef l) = Ok true).
  { pose proof (in_at_slots _ _ _ _ HC Hl) as Hin. apply in_map_iff in Hin. destruct Hin as (x & <- & Hx). now apply Hv. }
  split; [exact Vl|]. intros t' p' old Hp' Hold.
  destruct (valid_poly m A r t p HI Hr Hp) as (k & h & Ht & Hh & Hq). destruct (valid_poly m A (lRef l) t' p' HI Vl Hp') as (k' & h' & Ht' & Hh' & Hq').
  destruct (HS k t h Ht Hh) as [S1 S2]. destruct (HS k' t' h' Ht' Hh') as [S1' _].
  destruct (valid_links m A _ t' p' HR Vl Hp') as (c' & HC' & _).
  apply (edgeMidPoint_fine Bad r p t (lRef l) p' t' old c); auto; [eauto|].
  destruct HB as [B|(HA & HE & _)]; [now left|right].
  destruct (HE k t h p Ht Hh ltac:(eapply nth_error_In; exact Hq)) as [Tp Te]. destruct (HE k' t' h' p' Ht' Hh' ltac:(eapply nth_error_In; exact Hq')) as [Tp' _].
  split; [exact Tp|]. split; [exact Tp'|]. split.
  + pose proof (inv_fitM _ _ HI HA k t h Ht Hh) as [(_ & _ & _ & F) _]. rewrite Forall_forall in F. apply F. eapply nth_error_In; exact Hq.
  + intros l0 Hl0. unfold at_slots in Hl0. apply in_flat_map in Hl0. destruct Hl0 as ([s0 y] & Hx & Hl0). destruct (LSeg_at _ _ _ _ _ HC Hx) as (l1 & Hg & Hpay).
    rewrite Hg in Hl0. destruct Hl0 as [<-|[]]. cbn [snd] in Hpay. subst y. eapply Te; [exact HC|exact Hx].
Qed.
Lemma run_cost : forall (Bad : Prop) m A flt, fair flt -> (Bad \/ fits m A /\ edges_named m /\ never_panics flt) ->
  forall pa pb prev r t p next, fpos pa -> fpos pb -> IsValidPolyRef m r = Ok true -> polygon_at m r t p ->
  fine Bad (qCost flt pa pb prev (r, Some (t, p)) next) nn.
Proof.
  intros Bad m A flt HF HB qa qb prev r t p next Hqa Hqb _ _. specialize (HF qa qb prev (r, Some (t, p)) next (proj2 (fpos_finite _) Hqa) (proj2 (fpos_finite _) Hqb)).
  destruct HB as [B|(_ & _ & N)].
  + destruct (qCost flt qa qb prev (r, Some (t, p)) next); cbn; auto. now apply nonneg32_nn.
  + destruct (N qa qb prev r t p next) as (x & Ex). rewrite Ex in *. now apply nonneg32_nn.
Qed.

(** A search that ended without meeting the goal has seen everything (as in FindPath_spec). *)
Lemma all_seen : forall m flt a b s, SInv m flt a b None s -> q_empty (sOpen s) = true -> sOut s = false -> forall l, corridor m flt a l -> last l a <> b.
Proof.
  intros m flt a b s HI Hem Ho. pose proof (si_ok _ _ _ _ _ _ HI) as SO.
  assert (Cl : forall k y, node_at (sPool s) k y -> nFlags y = 2).
  { intros k y Hy. destruct (so_flags _ _ SO k y Hy) as [F|[F|F]]; [|exfalso|exact F].
    - exfalso. exact (si_flag _ _ _ _ _ _ HI k y Hy F).
    - destruct (so_queue _ _ SO) as (qs & HQs & _ & _ & Hfl). apply (Hfl k y Hy) in F. pose proof (queued_length _ _ HQs) as Lq.
      unfold q_empty in Hem. apply Nat.eqb_eq in Hem. rewrite Hem, map_length in Lq. destruct qs; [destruct F|discriminate]. }
  assert (Re : forall l0 r, corridor m flt r l0 -> has_ref (sPool s) r -> has_ref (sPool s) (last l0 r)).
  { induction l0 as [|r' l0 IH]; intros r Hc0 (k & y & Hy & Er); [exists k, y; auto|]. destruct Hc0 as (Li & Pa & Hc0).
    rewrite last_cons. apply IH; [exact Hc0|]. rewrite <- Er in Li.
    apply (si_done _ _ _ _ _ _ HI Ho k y Hy (Cl k y Hy)); [discriminate|exact Li|exact Pa]. }
  intros l0 Hc0 Eq. destruct (si_root _ _ _ _ _ _ HI) as (n0 & H0 & E0).
  destruct (Re l0 a Hc0) as (k & y & Hy & Er); [exists O, n0; auto|]. rewrite Eq in Er.
  apply (si_goal _ _ _ _ _ _ HI k y Hy (Cl k y Hy)); [discriminate|exact Er].
Qed.

Lemma sliced_all : forall (Bad : Prop) m A flt x a b pa pb options rf, Run sound m A -> small_mesh m -> fair flt ->
  (Bad \/ fits m A /\ edges_named m /\ never_panics flt) ->
  QOk (qPool x) (qOpen x) -> 0 < np_maxNodes (qPool x) -> finite_pool (qPool x) -> finite_pos pa -> finite_pos pb -> any_angle options = false ->
  IsValidPolyRef m a = Ok true -> IsValidPolyRef m b = Ok true -> a <> b ->
  exists x1 N, InitSlicedFindPath m x a b pa pb flt options = Ok (x1, InProgress) /\ qStatus x1 = InProgress /\
  forall k, fine Bad (UpdateSlicedFindPath rf m x1 k) (fun y => let '(x2, st, _) := y in qStatus x2 = st /\ (N <= k -> StatusInProgress st = false) /\
    exists l out, corridor m flt a l /\
      (st = with_out InProgress out \/ st = with_out Success out /\ (out = false -> last l a <> b -> forall l0, corridor m flt a l0 -> last l0 a <> b)) /\
      forall fuel path maxPath, (Z.to_nat 65535 <= fuel)%nat -> 0 < maxPath <= zlen path ->
        let c := Z.min (zlen (a :: l)) maxPath in
        exists x3, FinalizeSlicedFindPath fuel rf m x2 path maxPath =
          Ok (x3, firstn (Z.to_nat c) (a :: l) ++ skipn (Z.to_nat c) path, c, flags_of (maxPath <=? zlen (a :: l)) (negb (last l a =? b)) out)).
Proof.
  intros Bad m A flt x a b pa pb options rf HR HSm HF HB HQ Hmax Hfp Hpa Hpb HA Va Vb Nab.
  assert (Z0 : (a =? 0) || (b =? 0) = false).
  { apply orb_false_iff. split; [unfold IsValidPolyRef in Va; destruct (a =? 0)|unfold IsValidPolyRef in Vb; destruct (b =? 0)]; auto; discriminate. }
  pose proof (start_spec m flt (qPool x) (qOpen x) a b pa pb HQ) as SS. destruct (Z.eqb_spec (np_maxNodes (qPool x)) 0); [lia|]. destruct SS as (s0 & E0 & _ & _ & _ & _ & _ & _ & _ & _ & Out0).
  set (req := mkRequest a b pa pb flt options maxFloat32).
  exists (mkQuery (sPool s0) (sOpen s0) InProgress (sBest s0) (sBestCost s0) (Some req)), (mu s0 + 1). split.
  { unfold InitSlicedFindPath. rewrite Z0, Va. cbn [bind]. rewrite Vb. cbn [bind negb orb]. rewrite HA. cbn [bind]. rewrite (proj2 (Z.eqb_neq _ _) Nab), E0. reflexivity. }
  split; [reflexivity|]. intros k.
  assert (HP : fpos pa) by now apply fpos_finite. assert (HE : fpos pb) by now apply fpos_finite.
  destruct (start_end m flt a b pb (fun r => IsValidPolyRef m r = Ok true) HE (qPool x) (qOpen x) pa s0 HQ Va Nab HP) as [HI0 HT0]; [intros nd Hnd; apply fpos_finite; now apply Hfp|exact E0|].
  pose proof (slice_loop_end m flt a b pa pb options maxFloat32 rf Bad (run_poly m A HR) (run_mid Bad m A flt HR HSm HB) (run_cost Bad m A flt HF HB) HE HA Va (Z.to_nat k) s0 HI0 HT0) as HL. fold req in HL.
  unfold UpdateSlicedFindPath. cbn [qStatus]. change (StatusInProgress InProgress) with true. cbn [negb qReq of_option bind req qStartRef qEndRef]. rewrite Va. cbn [bind]. rewrite Vb. cbn [bind negb orb].
  cbn [qPool qOpen qBest qBestCost]. assert (Eta : mkSearch (sPool s0) (sOpen s0) (sBest s0) (sBestCost s0) false = s0) by (rewrite <- Out0; destruct s0; reflexivity). rewrite Eta. fold req.
  eapply fine_bind; [exact HL|]. clear HL. intros [[s i] o] _ (HT & Ho). cbn [fine]. cbn [qStatus]. split; [reflexivity|].
  set (ended := Z.lor Success (Z.land (with_out InProgress (sOut s)) StatusDetailMask)). assert (Ee : ended = with_out Success (sOut s)) by (unfold ended; destruct (sOut s); reflexivity).
  assert (HI : exists y, SInv m flt a b y s /\ exists kb nb, sBest s = Z.of_nat kb /\ node_at (sPool s) kb nb).
  { destruct Ho as [(_ & HI & _)|(_ & kb & nb & HI & Eb & Hb & _)].
    - exists None. split; [exact HI|]. apply (si_best _ _ _ _ _ _ HI).
    - exists (Some kb). split; [exact HI|]. eauto. }
  destruct HI as (y & HI & kb & nb & Eb & Hb). pose proof (si_ok _ _ _ _ _ _ HI) as SO.
  destruct (t_anc _ _ _ s HT kb nb Hb) as [lk Hlk]. destruct lk as [|kb' js]; [inversion Hlk|]. assert (kb' = kb) by (inversion Hlk; reflexivity). subst kb'.
  destruct (Anc_corridor _ _ _ _ _ _ _ _ HI (AncI_Anc _ _ _ Hlk)) as (l & EL & Hc & nb' & Hb' & Hl). rewrite (node_at_det _ _ _ _ Hb' Hb) in Hl. clear nb' Hb'.
  set (st := match o with Reached => ended | Vanished => Failure | GoOn => if q_empty (sOpen s) then ended else with_out InProgress (sOut s) end).
  assert (Hst : (st = with_out InProgress (sOut s) /\ q_empty (sOpen s) = false /\ mu s + Z.of_nat (Z.to_nat k) <= mu s0) \/
    (st = with_out Success (sOut s) /\ (sOut s = false -> last l a <> b -> forall l0, corridor m flt a l0 -> last l0 a <> b))).
  { unfold st. destruct Ho as [(-> & HIn & HE')|(-> & kg & ng & _ & Eg & Hg & Hgoal)].
    - destruct (q_empty (sOpen s)) eqn:Q; [right; split; [exact Ee|]|left].
      + intros Hout _. exact (all_seen _ _ _ _ _ HIn Q Hout).
      + destruct HE' as [X|X]; [discriminate|auto].
    - right. split; [exact Ee|]. intros _ X. exfalso. rewrite Eb in Eg. apply Nat2Z.inj in Eg. subst kg. rewrite (node_at_det _ _ _ _ Hg Hb) in Hgoal. congruence. }
  split.
  { intros Hk. destruct Hst as [(_ & _ & Hm)|(-> & _)]; [|destruct (sOut s); reflexivity]. exfalso.
    pose proof (W_nonneg _ _ _ s HT (so_pool _ _ SO)). unfold mu in Hm, Hk. unfold mu in Hk. lia. }
  exists l, (sOut s). split; [exact Hc|]. split; [destruct Hst as [(X & _)|X]; [left; exact X|right; exact X]|].
  intros fuel path maxPath Hf HM. set (c := Z.min (zlen (a :: l)) maxPath).
  pose proof (AncI_length _ _ _ (so_pool _ _ SO) Hlk) as LJ. cbn [length] in LJ. pose proof (pi_nodes _ (so_pool _ _ SO)) as PN. pose proof (pi_max _ (so_pool _ _ SO)) as PM.
  assert (D : exists np2, _ /\ _ = _) by (refine (deliver_line fuel rf m (mkQuery (sPool s) (sOpen s) st (sBest s) (sBestCost s) (Some req)) req kb js
    (if nID nb =? b then st else Z.lor st PartialResult) path maxPath eq_refl _ (AncI_line _ _ SO _ _ Hlk) (AncI_NoDup _ _ _ Hlk) _ HM); cbn [qPool]; unfold zlen in *; lia).
  destruct D as (np2 & _ & Ed). cbn [qPool] in Ed. rewrite EL in Ed. fold c in Ed.
  exists (reset_query np2 (mkQuery (sPool s) (sOpen s) st (sBest s) (sBestCost s) (Some req))).
  unfold FinalizeSlicedFindPath. cbn [qStatus refs_of qReq qPool qBest]. cbn [req qStartRef qEndRef].
  assert (Fs : StatusFailed st = false) by (destruct Hst as [(-> & _)|(-> & _)]; destruct (sOut s); reflexivity). rewrite Fs, (proj2 (Z.eqb_neq _ _) Nab). cbv iota.
  fold req. rewrite Eb at 1. rewrite (node_at_get _ _ _ Hb). cbn [bind]. rewrite <- Eb in Ed. rewrite Ed. do 2 f_equal.
  rewrite Hl. destruct Hst as [(-> & _)|(-> & _)]; destruct (sOut s), (nID nb =? b), (maxPath <=? zlen (a :: l)); reflexivity.
Qed.
