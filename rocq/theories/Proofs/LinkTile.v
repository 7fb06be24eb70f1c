(** Proofs about linking a new tile to its surroundings and unlinking a removed one. *)
From Coq Require Import ZArith List Bool Lia Permutation.
From Verif.Base Require Import Res GoNum F32 Num Grid.
From Verif.Model Require Import Status Poly PolyRef Bounds Geom MeshTypes Serial MeshLinks MeshTiles.
From Verif.Spec Require Import LinkSpec MeshSpec.
From Verif.Proofs Require Import BasicsProofs LinkProofs IntLinkProofs MeshStep TableProofs SlotProofs.
Import ListNotations.
Open Scope Z_scope.

(** ** Internal links of a new tile *)
Lemma erase_all : forall ps n, (length ps <= n)%nat -> erase_ps n ps = ps.
Proof. intros ps n H. unfold erase_ps. rewrite firstn_all2 by assumption. rewrite skipn_all2 by assumption. apply app_nil_r. Qed.
Lemma set_tD_self : forall t, set_tD t (set_tdPolys (tD t) (tdPolys (tD t))) = t.
Proof. intros [? ? ? [] ? ? ? ?]. reflexivity. Qed.
Lemma fresh_view : forall t fl, LChain (tdLinks (tD t)) (tLinksFree t) fl -> slots fl = zseq (length (tdLinks (tD t))) ->
  zlen (tdLinks (tD t)) < nullLink -> LinkView (erase O t) fl (repeat [] (length (tdPolys (tD t)))).
Proof.
  intros t fl Hc Hs Hl. assert (Ec : concat (repeat (@nil (Z * payload)) (length (tdPolys (tD t)))) = []).
  { generalize (length (tdPolys (tD t))) as n. induction n; auto. }
  split; [exact Hc|]. rewrite Ec. cbn [slots map]. rewrite app_nil_r, Hs. split; [|split; [|split]].
  - cbn [erase set_tD tD set_tdPolys tdPolys tdLinks]. unfold erase_ps. cbn [firstn skipn app].
    generalize (tdPolys (tD t)). intros l. induction l as [|p l IH]; cbn [map length repeat]; constructor; auto. constructor.
  - unfold zseq. apply FinFun.Injective_map_NoDup; [|apply seq_NoDup]. intros a b. lia.
  - intros i Hi. apply in_zseq. exact Hi.
  - exact Hl.
Qed.

Lemma nth_static : forall ps ps' n p, map static_poly ps' = map static_poly ps -> nth_error ps n = Some p ->
  exists p', nth_error ps' n = Some p' /\ static_poly p' = static_poly p.
Proof. intros ps ps' n p E H. pose proof (map_nth_error static_poly _ _ H) as Hm. rewrite <- E in Hm. now apply map_nth_inv in Hm. Qed.
Lemma int_links_static : forall base p q, static_poly p = static_poly q -> int_links base p = int_links base q.
Proof.
  intros base p q H. destruct (internal_edge_static _ _ H) as (E1 & E2). unfold int_links, Type_, int_payload. unfold static_poly in H.
  inversion H as [[H1 H2 H3 H4 H5]]. rewrite H4, H5, E1. now rewrite H2.
Qed.

Definition want (base : Z) (ps : list Poly) : nat := length (flat_map (int_links base) ps).
Lemma want_app : forall base a b, want base (a ++ b) = (want base a + want base b)%nat.
Proof. intros. unfold want. now rewrite flat_map_app, app_length. Qed.
Lemma firstn_S_nth : forall {A} (l : list A) n x, nth_error l n = Some x -> firstn (S n) l = firstn n l ++ [x].
Proof. intros A l. induction l as [|a l IH]; intros [|n] x H; cbn in H; try discriminate; [inversion H; reflexivity|]. cbn [firstn app]. f_equal. now apply IH. Qed.

Lemma connectIntLinks_spec : forall m i t h m' fl, connectIntLinks m i = Ok m' ->
  tile_of m i = Ok t -> tHeader t = Some h -> hPolyCount h = zlen (tdPolys (tD t)) ->
  LChain (tdLinks (tD t)) (tLinksFree t) fl -> slots fl = zseq (length (tdLinks (tD t))) -> zlen (tdLinks (tD t)) < nullLink ->
  let base := encodePolyID (mBits m) (tSalt t) (Z.of_nat i) 0 in
  exists t' fl' cs, m' = set_tile m i t' /\ frame t t' /\ LinkView t' fl' cs /\
    (forall n p c, nth_error (tdPolys (tD t)) n = Some p -> nth_error cs n = Some c -> exists k, map snd c = skipn k (int_links base p)) /\
    ((want base (tdPolys (tD t)) <= length (tdLinks (tD t)))%nat -> map (map snd) cs = map (int_links base) (tdPolys (tD t))).
Proof.
  intros m i t h m' fl H Ht Hh Hn Hc Hs Hl base. unfold connectIntLinks in H. rewrite Ht in H. cbn [bind] in H.
  unfold hdr_of in H. rewrite Hh in H. cbn [bind of_option] in H. rewrite (base_of_tile _ _ _ Ht) in H. cbn [bind] in H. fold base in H.
  apply bind_ok in H. destruct H as (t' & Hf & H). apply Ok_inj in H. subst m'. rewrite Hn in Hf. unfold zlen in Hf. rewrite Nat2Z.id in Hf.
  set (ps := tdPolys (tD t)) in *. set (np := length ps) in *.
  set (I := fun (pre : list Z) (s : MeshTile) => frame t s /\ exists fl' cs, LinkView (erase (length pre) s) fl' cs /\
     (forall n p c, nth_error ps n = Some p -> nth_error cs n = Some c -> (n < length pre)%nat -> exists k, map snd c = skipn k (int_links base p)) /\
     (forall n, (length pre <= n)%nat -> (n < np)%nat -> nth_error cs n = Some []) /\
     ((want base (firstn (length pre) ps) <= length fl)%nat ->
        (length fl' + want base (firstn (length pre) ps) = length fl)%nat /\
        map (map snd) (firstn (length pre) cs) = map (int_links base) (firstn (length pre) ps))).
  apply (foldM_ok_inv _ I) in Hf.
  - destruct Hf as (Hfr & fl' & cs & HV & Hk & _ & Hx). rewrite zseq_length in *.
    assert (Hlp : length (tdPolys (tD t')) = np) by (now rewrite (frame_polys _ _ Hfr)).
    unfold erase in HV. rewrite erase_all in HV by lia. rewrite set_tD_self in HV.
    assert (Hlc : length cs = np) by (destruct HV as (_ & HP & _); rewrite <- (Forall2_len _ _ _ HP); exact Hlp).
    exists t', fl', cs. split; auto. split; auto. split; auto. split.
    + intros n p c Hp Hcn. apply (Hk n); auto. unfold np, ps. apply nth_error_Some. intros E0. unfold ps in Hp. congruence.
    + intros Hw. rewrite firstn_all2 in Hx by lia. rewrite (firstn_all2 (n := np)) in Hx by lia. apply Hx.
      assert (length fl = length (tdLinks (tD t))) as -> by (rewrite <- (map_length fst fl); change (map fst fl) with (slots fl); rewrite Hs, zseq_length; reflexivity). exact Hw.
  - split; [apply frame_refl|]. exists fl, (repeat [] np). split; [now apply fresh_view|]. cbn [length firstn]. split; [intros; lia|]. split.
    + intros n _ Hnp. apply nth_error_repeat. exact Hnp.
    + intros _. unfold want. cbn. split; [lia|reflexivity].
  - intros pre j post s s' El (Hfr & fl' & cs & HV & Hk & He & Hx) E.
    apply zseq_split in El. destruct El as (Ej & Hlt). assert (Ejn : Z.to_nat j = length pre) by (subst j; unfold zlen; apply Nat2Z.id).
    destruct (nth_error_in_range ps (length pre)) as (p & Hp); [exact Hlt|].
    pose proof Hfr as (_ & Hst & _). destruct (nth_static _ _ _ _ Hst Hp) as (q & Hq & Eq).
    assert (Hgq : get (tdPolys (tD s)) j = Ok q) by (apply get_ok; rewrite Ejn; split; [subst j; unfold zlen; lia|exact Hq]).
    destruct (connectIntPoly_view base s j s' fl' cs q E Hgq) as (Hfr' & fl2 & c & HV2 & Hx2 & Hk2).
    + rewrite Ejn. apply He; lia.
    + rewrite Ejn. exact HV.
    + rewrite Ejn in *. unfold I. rewrite app_length. cbn [length]. rewrite (int_links_static base _ _ Eq) in *.
      assert (Hlc : (length pre < length cs)%nat) by (apply nth_error_Some; rewrite He; [discriminate|lia|exact Hlt]).
      split; [eapply frame_trans; eassumption|]. exists fl2, (upd cs (length pre) c).
      split; [now replace (length pre + 1)%nat with (S (length pre)) by lia|]. split; [|split].
      * intros n p' c' Hp' Hc' Hn'. rewrite nth_error_upd in Hc'. destruct (Nat.eqb_spec n (length pre)) as [->|Ne].
        -- destruct (nth_error cs (length pre)); [|discriminate]. inversion Hc'; subst c'. rewrite Hp in Hp'. inversion Hp'; subst p'. exact Hk2.
        -- apply (Hk n p' c'); auto. lia.
      * intros n H1 H2. rewrite nth_error_upd_neq by lia. apply He; lia.
      * replace (length pre + 1)%nat with (S (length pre)) by lia. rewrite (firstn_S_nth ps _ _ Hp). rewrite want_app. unfold want at 2 4. cbn [flat_map]. rewrite app_nil_r.
        intros Hw. destruct Hx as (Hx0 & Hx1); [lia|]. destruct Hx2 as (Hy0 & Hy1); [lia|]. split; [lia|].
        rewrite (firstn_S_nth (upd cs (length pre) c) (length pre) c) by (now apply nth_error_upd_eq).
        rewrite !map_app. cbn [map]. rewrite Hy0. f_equal. rewrite firstn_upd_ge by lia. exact Hx1.
Qed.

(** ** Links between tiles *)
Lemma adjacent_sym : forall h h', is_i32 (hX h) -> is_i32 (hY h) -> adjacent h h' -> adjacent h' h.
Proof.
  intros h h' Hx Hy [E|(s & Hs & E)]; [left; now symmetry|]. right. exists (oppositeTile s). split; [|now apply neighbour_back with (s := s)].
  clear E. assert (In s [0; 1; 2; 3; 4; 5; 6; 7]) as Hin by (cbn; lia).
  cbn [In] in Hin. repeat (destruct Hin as [<-|Hin]; [vm_compute; split; congruence|]). destruct Hin.
Qed.
Lemma adjacent_refl : forall h, adjacent h h.
Proof. intros h. left. reflexivity. Qed.

(** A reference that a link of tile [k] may have. *)
Definition rel (m : NavMesh) (k : nat) (r : Z) : Prop :=
  exists j hk hj, live m k hk /\ live m j hj /\ adjacent hk hj /\ polyref_of m j r.

Lemma mstep_live : forall Q m m' i h, mstep Q m m' -> (live m' i h <-> live m i h).
Proof. intros Q m m' i h H. apply live_map. eapply mstep_next_hdr; exact H. Qed.
Lemma rel_mstep : forall Q m m' k r, mstep Q m m' -> rel m' k r -> rel m k r.
Proof.
  intros Q m m' k r HS (j & hk & hj & Hk & Hj & Ha & Hr). exists j, hk, hj.
  split; [now apply (mstep_live _ _ _ _ _ HS)|]. split; [now apply (mstep_live _ _ _ _ _ HS)|]. split; auto. eapply polyref_mstep; eassumption.
Qed.
(** ... and a link that is not internal: to another tile, unless there are off-mesh connections. *)
Definition erel (m : NavMesh) (k : nat) (r : Z) : Prop :=
  exists j hk hj, live m k hk /\ live m j hj /\ adjacent hk hj /\ polyref_of m j r /\ (j <> k \/ has_cons m k).
Lemma erel_rel : forall m k r, erel m k r -> rel m k r.
Proof. intros m k r (j & hk & hj & H1 & H2 & H3 & H4 & _). exists j, hk, hj. auto. Qed.
Lemma erel_mstep : forall Q m m' k r, mstep Q m m' -> erel m' k r -> erel m k r.
Proof.
  intros Q m m' k r HS (j & hk & hj & Hk & Hj & Ha & Hr & Hn). exists j, hk, hj.
  split; [now apply (mstep_live _ _ _ _ _ HS)|]. split; [now apply (mstep_live _ _ _ _ _ HS)|]. split; auto. split; [eapply polyref_mstep; eassumption|].
  destruct Hn as [|Hn]; [now left|right]. now apply (has_cons_mstep _ _ _ _ HS).
Qed.
Lemma neighbour_differs : forall x y s, is_i32 x -> is_i32 y -> 0 <= s < 8 -> neighbourLoc x y s <> (x, y).
Proof.
  intros x y s Hx Hy Hs. assert (P : i32 (x + 1) <> x /\ i32 (x - 1) <> x /\ i32 (y + 1) <> y /\ i32 (y - 1) <> y).
  { unfold i32, is_i32 in *. repeat split; intros E.
    - destruct (Z.eq_dec x 2147483647) as [->|]; [cbn in E; lia|]. rewrite Z.mod_small in E; lia.
    - destruct (Z.eq_dec x (-2147483648)) as [->|]; [cbn in E; lia|]. rewrite Z.mod_small in E; lia.
    - destruct (Z.eq_dec y 2147483647) as [->|]; [cbn in E; lia|]. rewrite Z.mod_small in E; lia.
    - destruct (Z.eq_dec y (-2147483648)) as [->|]; [cbn in E; lia|]. rewrite Z.mod_small in E; lia. }
  destruct P as (P1 & P2 & P3 & P4).
  assert (s = 0 \/ s = 1 \/ s = 2 \/ s = 3 \/ s = 4 \/ s = 5 \/ s = 6 \/ s = 7)
    as [->|[->|[->|[->|[->|[->|[->| ->]]]]]]] by lia; unfold neighbourLoc; cbn [Z.eqb Pos.eqb]; congruence.
Qed.
Lemma mstep_rel_trans : forall m s s', mstep (erel m) m s -> mstep (erel s) s s' -> mstep (erel m) m s'.
Proof.
  intros m s s' H1 H2. eapply mstep_trans; [exact H1|]. eapply mstep_impl; [|exact H2]. intros i r. apply (erel_mstep _ _ _ _ _ H1).
Qed.
Lemma mstep_view : forall Q m m' free out bk, mstep Q m m' -> TableView m free out bk -> TableView m' free out bk.
Proof. intros Q m m' free out bk H. apply TableView_same; [apply H|eapply mstep_next_hdr; exact H]. Qed.
Lemma mstep_ok : forall Q m m', mstep Q m m' -> mesh_ok m -> mesh_ok m'.
Proof.
  intros Q m m' (T & L & _) (H1 & H2). unfold mesh_ok, zlen in *. rewrite L.
  assert (mMaxTiles m' = mMaxTiles m) as -> by (apply (f_equal mMaxTiles) in T; exact T).
  assert (mLUTMask m' = mLUTMask m) as -> by (apply (f_equal mLUTMask) in T; exact T).
  assert (mPosLookup m' = mPosLookup m) as -> by (apply (f_equal mPosLookup) in T; exact T). auto.
Qed.

Lemma pair_mstep : forall m i j side side' m' hi hj, i <> j -> live m i hi -> live m j hj -> adjacent hi hj -> adjacent hj hi ->
  (let* a := connectExtLinks m i j side in
   let* b := connectExtLinks a j i side' in
   let* c := connectExtOffMeshLinks b i j side in
   connectExtOffMeshLinks c j i side') = Ok m' -> mstep (erel m) m m'.
Proof.
  intros m i j side side' m' hi hj Hne Hi Hj Aij Aji H.
  apply bind_ok in H. destruct H as (a & Ha & H). apply bind_ok in H. destruct H as (b & Hb & H). apply bind_ok in H. destruct H as (c & Hc & Hd).
  assert (G : forall s, mstep (erel m) m s -> forall k r, (k = i /\ polyref_of s j r \/ k = j /\ polyref_of s i r) -> erel s k r).
  { intros s HS k r [(-> & Hr)|(-> & Hr)].
    - exists j, hi, hj. split; [now apply (mstep_live _ _ _ _ _ HS)|]. split; [now apply (mstep_live _ _ _ _ _ HS)|]. auto 6.
    - exists i, hj, hi. split; [now apply (mstep_live _ _ _ _ _ HS)|]. split; [now apply (mstep_live _ _ _ _ _ HS)|]. auto 6. }
  assert (Sa : mstep (erel m) m a).
  { eapply mstep_impl; [|eapply connectExtLinks_mstep; exact Ha]. intros k r (-> & Hr). apply (G m (mstep_refl _ _)). auto. }
  assert (Sb : mstep (erel m) m b).
  { eapply mstep_rel_trans; [exact Sa|]. eapply mstep_impl; [|eapply connectExtLinks_mstep; exact Hb]. intros k r (-> & Hr). apply (G a Sa). auto. }
  assert (Sc : mstep (erel m) m c).
  { eapply mstep_rel_trans; [exact Sb|]. eapply mstep_impl; [|eapply connectExtOffMeshLinks_mstep; exact Hc]. intros k r Hr. cbn beta in Hr. apply (G b Sb). tauto. }
  eapply mstep_rel_trans; [exact Sc|]. eapply mstep_impl; [|eapply connectExtOffMeshLinks_mstep; exact Hd]. intros k r Hr. cbn beta in Hr. apply (G c Sc). tauto.
Qed.

Lemma link_rest : forall m0 i hdr m', link_tile m0 i hdr = Ok m' ->
  forall m, connectIntLinks m0 i = Ok m -> forall free bk, mesh_ok m -> TableView m free [] bk -> live m i hdr -> is_i32 (hX hdr) -> is_i32 (hY hdr) ->
  mstep (erel m) m m'.
Proof.
  intros m0 i hdr m' H m Hm free bk Hok HV Hl Hx Hy. unfold link_tile in H. rewrite Hm in H. cbn [bind] in H. clear m0 Hm.
  apply bind_ok in H. destruct H as (a & Ha & H). apply bind_ok in H. destruct H as (b & Hb & H).
  apply bind_ok in H. destruct H as (neis & Hn & H). apply bind_ok in H. destruct H as (c & Hc & H).
  assert (Sa : mstep (erel m) m a).
  { eapply mstep_impl; [|eapply baseOffMeshLinks_mstep; exact Ha]. intros k r (-> & Hr & HC). exists i, hdr, hdr. split; auto. split; auto. split; [apply adjacent_refl|]. auto. }
  assert (Sb : mstep (erel m) m b).
  { eapply mstep_rel_trans; [exact Sa|]. assert (live a i hdr) by (now apply (mstep_live _ _ _ _ _ Sa)).
    eapply mstep_impl; [|eapply connectExtOffMeshLinks_mstep; exact Hb]. intros k r Hr. cbn beta in Hr. exists i, hdr, hdr.
    assert (k = i /\ polyref_of a i r /\ has_cons a i) as (-> & Hr' & HC) by tauto. split; auto. split; auto. split; [apply adjacent_refl|]. auto. }
  assert (Sc : mstep (erel m) m c).
  { destruct (TilesAt_spec b free [] bk (hX hdr) (hY hdr) 32) as (l & El & _ & Hin & _); [eapply mstep_ok; eassumption|eapply mstep_view; eassumption|lia|].
    rewrite El in Hn. apply Ok_inj in Hn. subst neis.
    eapply (foldM_ok_pres _ (fun s => mstep (erel m) m s)); [exact Hc|exact Sb|].
    intros j s s' Hj HS E. unfold link_layer in E. destruct (Nat.eqb_spec j i) as [->|Hne]; [apply Ok_inj in E; now subst|].
    eapply mstep_rel_trans; [exact HS|]. assert (In j l) as Hjl by (rewrite <- (firstn_skipn (Z.to_nat 32) l); apply in_app_iff; now left).
    destruct (Hin j Hjl) as (hj & Lj & Ex & Ey).
    eapply (pair_mstep s i j (-1) (-1) s' hdr hj); [auto|apply (mstep_live _ _ _ _ _ HS); exact Hl| | | |exact E].
    - apply (mstep_live _ _ _ _ _ HS). now apply (mstep_live _ _ _ _ _ Sb).
    - left. congruence.
    - left. congruence. }
  eapply (foldM_ok_pres _ (fun s => mstep (erel m) m s)); [exact H|exact Sc|].
  intros side s s' Hs HS E. apply in_zseq in Hs. unfold link_side in E. apply bind_ok in E. destruct E as (neis2 & Hn2 & E).
  unfold neighbourTilesAt in Hn2. destruct (neighbourLoc (hX hdr) (hY hdr) side) as [nx ny] eqn:En.
  destruct (TilesAt_spec s free [] bk nx ny 32) as (l & El & _ & Hin & _); [eapply mstep_ok; eassumption|eapply mstep_view; eassumption|lia|].
  rewrite El in Hn2. apply Ok_inj in Hn2. subst neis2.
  eapply (foldM_ok_pres _ (fun s => mstep (erel m) m s)); [exact E|exact HS|].
  intros j u u' Hj HU Eu. eapply mstep_rel_trans; [exact HU|].
  assert (In j l) as Hjl by (rewrite <- (firstn_skipn (Z.to_nat 32) l); apply in_app_iff; now left).
  destruct (Hin j Hjl) as (hj & Lj & Ex & Ey).
  assert (A : adjacent hdr hj) by (right; exists side; split; [lia|congruence]).
  eapply (pair_mstep u i j side (oppositeTile side) u' hdr hj); [intros <-|apply (mstep_live _ _ _ _ _ HU); exact Hl| | | |exact Eu].
  - destruct Lj as (tj & Htj & Hhj). destruct (proj2 (mstep_live _ _ _ _ _ HS) Hl) as (ti & Hti & Hhi). assert (hj = hdr) by congruence. subst hj.
    apply (neighbour_differs (hX hdr) (hY hdr) side Hx Hy); [lia|]. congruence.
  - apply (mstep_live _ _ _ _ _ HU). now apply (mstep_live _ _ _ _ _ HS).
  - exact A.
  - now apply adjacent_sym.
Qed.

(** ** Unlinking a tile *)
Definition okT (m : NavMesh) (k : nat) : Prop :=
  exists t h, nth_error (mTiles m) k = Some t /\ tHeader t = Some h /\ LinkInv t /\ hPolyCount h = zlen (tdPolys (tD t)).
(** The tiles in [vis] lost their links to slot [tg]; nothing else changed. *)
Definition unl (tg : Z) (vis : list nat) (m m' : NavMesh) : Prop :=
  table m' = table m /\ length (mTiles m') = length (mTiles m) /\
  forall k t, nth_error (mTiles m) k = Some t -> exists t', nth_error (mTiles m') k = Some t' /\ frame t t' /\
    (~ In k vis -> t' = t) /\
    (In k vis -> forall fl cs, LinkView t fl cs -> exists fl', LinkView t' fl' (map (filter (keep (mBits m) tg)) cs)).
Lemma unl_refl : forall tg m, unl tg [] m m.
Proof. intros tg m. split; auto. split; auto. intros k t H. exists t. split; auto. split; [apply frame_refl|]. split; auto. intros []. Qed.
Lemma filter_idem : forall {A} (f : A -> bool) l, filter f (filter f l) = filter f l.
Proof. intros A f l. induction l as [|a l IH]; cbn; auto. destruct (f a) eqn:E; cbn; auto. rewrite E. now f_equal. Qed.
Lemma unl_trans : forall tg v1 v2 a b c, unl tg v1 a b -> unl tg v2 b c -> unl tg (v1 ++ v2) a c.
Proof.
  intros tg v1 v2 a b c (T1 & L1 & S1) (T2 & L2 & S2). pose proof (table_mBits _ _ T1) as Eb.
  split; [congruence|]. split; [congruence|]. intros k t H.
  destruct (S1 k t H) as (t1 & H1 & F1 & N1 & V1). destruct (S2 k t1 H1) as (t2 & H2 & F2 & N2 & V2). rewrite Eb in V2.
  exists t2. split; auto. split; [eapply frame_trans; eassumption|]. rewrite in_app_iff. split; [intros Hn; rewrite N2 by tauto; apply N1; tauto|].
  intros Hin fl cs HV. destruct (in_dec Nat.eq_dec k v1) as [I1|I1]; destruct (in_dec Nat.eq_dec k v2) as [I2|I2].
  - destruct (V1 I1 _ _ HV) as (f1 & HV1). destruct (V2 I2 _ _ HV1) as (f2 & HV2). exists f2. rewrite map_map in HV2.
    erewrite map_ext in HV2; [exact HV2|]. intros l. apply filter_idem.
  - rewrite N2 by assumption. now apply (V1 I1 fl).
  - rewrite (N1 I1) in *. now apply (V2 I2 fl).
  - tauto.
Qed.
Lemma unl_okT : forall tg v m m' k, unl tg v m m' -> okT m k -> okT m' k.
Proof.
  intros tg v m m' k (_ & _ & S) (t & h & Ht & Hh & (fl & cs & HV) & Hn). destruct (S k t Ht) as (t' & Ht' & F & N & V).
  exists t', h. split; auto. rewrite (frame_header _ _ F). split; auto. unfold zlen in *. rewrite (frame_polys _ _ F). split; [|exact Hn].
  destruct (in_dec Nat.eq_dec k v) as [I1|I1].
  - destruct (V I1 _ _ HV) as (fl' & HV'). eexists _, _. exact HV'.
  - rewrite N by assumption. exists fl, cs. exact HV.
Qed.
Lemma unl_next_hdr : forall tg v m m', unl tg v m m' -> map next_hdr (mTiles m') = map next_hdr (mTiles m).
Proof.
  intros tg v m m' (_ & L & S). apply nth_error_ext'. intros k. destruct (nth_error (mTiles m) k) as [t|] eqn:E.
  - destruct (S k t E) as (t' & Ht' & F & _). rewrite (map_nth_error _ _ _ E), (map_nth_error _ _ _ Ht'). f_equal.
    apply frame_skel in F. unfold skel in F. unfold next_hdr. congruence.
  - apply nth_error_None in E. assert (nth_error (map next_hdr (mTiles m)) k = None) as -> by (apply nth_error_None; rewrite map_length; lia).
    apply nth_error_None. rewrite map_length. lia.
Qed.
Lemma unl_view : forall tg v m m' free out bk, unl tg v m m' -> TableView m free out bk -> TableView m' free out bk.
Proof. intros tg v m m' free out bk H. apply TableView_same; [apply H|eapply unl_next_hdr; exact H]. Qed.
Lemma unl_live : forall tg v m m' i h, unl tg v m m' -> (live m' i h <-> live m i h).
Proof. intros tg v m m' i h H. apply live_map. eapply unl_next_hdr; exact H. Qed.
Lemma unl_ok : forall tg v m m', unl tg v m m' -> mesh_ok m -> mesh_ok m'.
Proof.
  intros tg v m m' (T & L & _) (H1 & H2). unfold mesh_ok, zlen in *. rewrite L.
  assert (mMaxTiles m' = mMaxTiles m) as -> by (apply (f_equal mMaxTiles) in T; exact T).
  assert (mLUTMask m' = mLUTMask m) as -> by (apply (f_equal mLUTMask) in T; exact T).
  assert (mPosLookup m' = mPosLookup m) as -> by (apply (f_equal mPosLookup) in T; exact T). auto.
Qed.

Lemma unconnect_unl : forall m j i t, okT m j -> nth_error (mTiles m) i = Some t ->
  let tg := decodePolyIDTile (mBits m) (encodePolyID (mBits m) (tSalt t) (Z.of_nat i) 0) in
  exists m', unconnectLinks m j i = Ok m' /\ unl tg [j] m m'.
Proof.
  intros m j i t (tj & h & Hj & Hh & (fl & cs & HV) & Hn) Hi tg. assert (Hj' := Hj). apply tile_of_nth in Hj'.
  assert (Hr : TileRef m i = Ok (encodePolyID (mBits m) (tSalt t) (Z.of_nat i) 0)) by (apply base_of_tile; now apply tile_of_nth).
  destruct (unconnectLinks_view m j i tj h fl cs _ Hj' Hh Hr HV Hn) as (t' & fl' & E & F & HV'). fold tg in HV'.
  exists (set_tile m j t'). split; auto. split; [reflexivity|]. split; [apply upd_length|]. intros k s Hk. cbn [set_tile mTiles set_mTiles].
  rewrite nth_error_upd. destruct (Nat.eqb_spec k j) as [->|Hne].
  - rewrite Hj. rewrite Hj in Hk. inversion Hk; subst s. exists t'. split; auto. split; auto. split; [intros Hx; exfalso; apply Hx; left; reflexivity|].
    intros _ fl0 cs0 HV0.
    destruct (unconnectLinks_view m j i tj h fl0 cs0 _ Hj' Hh Hr HV0 Hn) as (t'' & fl'' & E2 & _ & HV'').
    rewrite E in E2. apply Ok_inj in E2. apply (f_equal mTiles) in E2. cbn [set_tile mTiles set_mTiles] in E2.
    apply (f_equal (fun l => nth_error l j)) in E2. rewrite !nth_error_upd_eq in E2 by (apply nth_error_Some; congruence). inversion E2; subst t''. eauto.
  - exists s. split; auto. split; [apply frame_refl|]. split; auto. intros [Hx|[]]. congruence.
Qed.

Lemma unconnect_list : forall i tg l m t, nth_error (mTiles m) i = Some t ->
  tg = decodePolyIDTile (mBits m) (encodePolyID (mBits m) (tSalt t) (Z.of_nat i) 0) ->
  (forall j, In j l -> okT m j) -> exists m', foldM (fun m j => unconnectLinks m j i) l m = Ok m' /\ unl tg l m m'.
Proof.
  intros i tg. induction l as [|j l IH]; intros m t Hi Htg Hl; cbn [foldM].
  - exists m. split; auto. apply unl_refl.
  - destruct (unconnect_unl m j i t) as (m1 & E & U); [apply Hl; left; reflexivity|exact Hi|]. rewrite E. cbn [bind].
    rewrite <- Htg in U. pose proof U as (T & _ & S). destruct (S i t Hi) as (t1 & Hi1 & F & _).
    destruct (IH m1 t1 Hi1) as (m2 & E2 & U2).
    + rewrite (table_mBits _ _ T), (frame_salt _ _ F). exact Htg.
    + intros k Hk. eapply unl_okT; [exact U|]. apply Hl. right. assumption.
    + exists m2. split; auto. change (j :: l) with ([j] ++ l). eapply unl_trans; eassumption.
Qed.

(** ** The whole removal from the neighbours *)
Lemma unlink_tile_spec : forall m i hdr t free bk, mesh_ok m -> TableView m free [i] bk -> nth_error (mTiles m) i = Some t ->
  (forall k, In k (concat bk) -> okT m k) ->
  let tg := decodePolyIDTile (mBits m) (encodePolyID (mBits m) (tSalt t) (Z.of_nat i) 0) in
  exists m' vis, unlink_tile m i hdr = Ok m' /\ unl tg vis m m' /\ (forall k, In k vis -> In k (concat bk)) /\
    ((forall x y l, NoDup l -> (forall k, In k l -> In k (concat bk) /\ exists h, live m k h /\ hX h = x /\ hY h = y) -> (length l <= 32)%nat) ->
     forall k hk, In k (concat bk) -> live m k hk -> adjacent hdr hk -> In k vis).
Proof.
  intros m i hdr t free bk Hok HV Hi Hall tg.
  assert (Hnotin : ~ In i (concat bk)).
  { destruct HV as (_ & _ & Hn & _). rewrite NoDup_app_iff' in Hn. destruct Hn as (_ & Hn & _). cbn [app] in Hn. apply NoDup_cons_iff in Hn. tauto. }
  assert (Hbk : forall s v, unl tg v m s -> forall x y, exists l, TilesAt s x y 32 = Ok (firstn 32 l) /\ NoDup l /\
            (forall k, In k l -> In k (concat bk) /\ exists h, live m k h /\ hX h = x /\ hY h = y) /\
            (forall k h, In k (concat bk) -> live m k h -> hX h = x -> hY h = y -> In k l)).
  { intros s v U x y. pose proof (unl_view _ _ _ _ _ _ _ U HV) as HVs. pose proof (unl_ok _ _ _ _ U Hok) as Hoks.
    destruct (bucket_at s free [i] bk x y Hoks HVs) as (head & b & Hg & Hb & Hc & Hnb).
    unfold TilesAt. rewrite Hg. cbn [bind].
    rewrite (chain_filter_spec (mTiles s) (fun t => at_xy t x y) 32 head b Hc (chain_fuel s) 0); [|unfold chain_fuel; pose proof (TChain_length _ _ _ Hc Hnb); lia|lia].
    eexists. split; [reflexivity|]. split; [apply NoDup_filter; exact Hnb|]. split.
    - intros k Hk. apply filter_In in Hk. destruct Hk as (Hkb & Hh). split; [apply in_concat; exists b; split; auto; eapply nth_error_In; exact Hb|].
      unfold holds in Hh. destruct (nth_error (mTiles s) k) as [t0|] eqn:Et; [|discriminate].
      unfold at_xy in Hh. destruct (tHeader t0) as [h|] eqn:Eh; [|discriminate]. apply andb_true_iff in Hh. rewrite !Z.eqb_eq in Hh.
      exists h. split; [|tauto]. apply (unl_live _ _ _ _ k h U). exists t0. auto.
    - intros k h Hk Hl Ex Ey. apply (unl_live _ _ _ _ k h U) in Hl. apply filter_In. split.
      + eapply bucket_live; eauto. intros [->|[]]. contradiction.
      + destruct Hl as (t0 & Ht & Hh). unfold holds, at_xy. rewrite Ht, Hh, Ex, Ey, !Z.eqb_refl. reflexivity. }
  assert (Hti : forall s v, unl tg v m s -> exists t', nth_error (mTiles s) i = Some t' /\ tg = decodePolyIDTile (mBits s) (encodePolyID (mBits s) (tSalt t') (Z.of_nat i) 0)).
  { intros s v (T & _ & S). destruct (S i t Hi) as (t' & Ht' & F & _). exists t'. split; auto. rewrite (table_mBits _ _ T), (frame_salt _ _ F). reflexivity. }
  assert (Hgroup : forall s v x y, unl tg v m s -> (forall k, In k v -> In k (concat bk)) ->
            exists l s' , TilesAt s x y 32 = Ok l /\ ~ In i l /\ foldM (fun m j => unconnectLinks m j i) l s = Ok s' /\ unl tg (v ++ l) m s' /\
              (forall k, In k l -> In k (concat bk)) /\
              ((forall x y l, NoDup l -> (forall k, In k l -> In k (concat bk) /\ exists h, live m k h /\ hX h = x /\ hY h = y) -> (length l <= 32)%nat) ->
               forall k h, In k (concat bk) -> live m k h -> hX h = x -> hY h = y -> In k l)).
  { intros s v x y U Hv. destruct (Hbk s v U x y) as (l & El & Hnl & Hin & Hex). destruct (Hti s v U) as (t' & Ht' & Etg).
    assert (Hf : forall k, In k (firstn 32 l) -> In k (concat bk)).
    { intros k Hk. apply Hin. rewrite <- (firstn_skipn 32 l). apply in_app_iff. now left. }
    destruct (unconnect_list i tg (firstn 32 l) s t' Ht' Etg) as (s' & E & U').
    { intros j Hj. eapply unl_okT; [exact U|]. apply Hall. now apply Hf. }
    exists (firstn 32 l), s'. split; auto. split; [intros Hx; apply Hnotin; now apply Hf|]. split; auto. split; [eapply unl_trans; eassumption|]. split; auto.
    intros Hmax k h Hk Hl Ex Ey. rewrite firstn_all2; [eapply Hex; eassumption|]. eapply Hmax; eassumption. }
  unfold unlink_tile.
  destruct (Hgroup m [] (hX hdr) (hY hdr) (unl_refl _ _)) as (l0 & s0 & E0 & N0 & F0 & U0 & I0 & M0); [intros k []|].
  rewrite E0. cbn [bind].
  assert (Efold : forall l s, ~ In i l -> foldM (fun m j => if Nat.eqb j i then Ok m else unconnectLinks m j i) l s = foldM (fun m j => unconnectLinks m j i) l s).
  { induction l as [|j l IH]; intros s Hl; cbn [foldM]; auto. destruct (Nat.eqb_spec j i) as [->|Hne]; [exfalso; apply Hl; left; reflexivity|].
    destruct (unconnectLinks s j i); cbn [bind]; auto. apply IH. intros Hx. apply Hl. right. assumption. }
  rewrite Efold by exact N0. rewrite F0. cbn [bind]. cbn [app] in U0.
  set (I := fun (pre : list Z) (s : NavMesh) => exists v, unl tg v m s /\ (forall k, In k v -> In k (concat bk)) /\
     ((forall x y l, NoDup l -> (forall k, In k l -> In k (concat bk) /\ exists h, live m k h /\ hX h = x /\ hY h = y) -> (length l <= 32)%nat) ->
      forall k h, In k (concat bk) -> live m k h -> ((hX h, hY h) = (hX hdr, hY hdr) \/ exists side, In side pre /\ neighbourLoc (hX hdr) (hY hdr) side = (hX h, hY h)) -> In k v)).
  match goal with |- context [foldM ?f ?l ?s] => destruct (foldM_inv f I l s) as (m' & E & v & U & Iv & Mv) end.
  - exists l0. split; auto. split; auto. intros Hmax k h Hk Hl [Eloc|(side & [] & _)]. apply (M0 Hmax k h); auto; congruence.
  - intros pre side post s _ (v & U & Iv & Mv).
    unfold neighbourTilesAt. destruct (neighbourLoc (hX hdr) (hY hdr) side) as [nx ny] eqn:En.
    destruct (Hgroup s v nx ny U Iv) as (l1 & s1 & E1 & N1 & F1 & U1 & I1 & M1). rewrite E1. cbn [bind]. exists s1. split; auto.
    exists (v ++ l1). split; auto. split; [intros k Hk; apply in_app_iff in Hk; destruct Hk; auto|].
    intros Hmax k h Hk Hl Hloc. apply in_app_iff. destruct Hloc as [Eloc|(sd & Hsd & Eloc)]; [left; apply (Mv Hmax k h); auto|].
    apply in_app_iff in Hsd. destruct Hsd as [Hsd|[<-|[]]]; [left; apply (Mv Hmax k h); auto; right; eauto|].
    right. apply (M1 Hmax k h); auto; congruence.
  - exists m', v. split; auto. split; auto. split; auto. intros Hmax k hk Hk Hl [Eloc|(side & Hside & Eloc)].
    + apply (Mv Hmax k hk); auto.
    + apply (Mv Hmax k hk); auto. right. exists side. split; auto. apply in_zseq. exact Hside.
Qed.
