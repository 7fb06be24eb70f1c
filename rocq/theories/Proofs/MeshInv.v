(** Proofs about AddTile and RemoveTile as whole steps, and the invariant of all histories. *)
From Coq Require Import ZArith List Bool Lia Permutation.
From Verif.Base Require Import Res GoNum F32 Num Grid Bytes.
From Verif.Model Require Import Status Poly PolyRef Bounds Geom MeshTypes Serial MeshLinks MeshTiles.
From Verif.Spec Require Import LinkSpec MeshSpec.
From Verif.Proofs Require Import BasicsProofs PolyRefProofs LinkProofs IntLinkProofs MeshStep TableProofs SlotProofs LinkTile.
Import ListNotations.
Open Scope Z_scope.

(** ** What the data of a tile says *)
Lemma rdi32_range : forall l k v, rdi32 l k = Ok v -> is_i32 v.
Proof. intros l k v H. unfold rdi32 in H. apply bind_ok in H. destruct H as (x & _ & H). apply Ok_inj in H. subst v. apply i32_range. Qed.
Lemma header_i32 : forall data h, header_unserialize data = Ok h ->
  is_i32 (hX h) /\ is_i32 (hY h) /\ is_i32 (hPolyCount h) /\ is_i32 (hMaxLinkCount h).
Proof.
  intros data h H. unfold header_unserialize in H. destruct (_ <? _); [discriminate|].
  repeat (apply bind_ok in H; destruct H as (? & ? & H)). apply Ok_inj in H. subst h. cbn [hX hY hPolyCount hMaxLinkCount].
  repeat split; eapply rdi32_range; eassumption.
Qed.
Lemma read_all_length : forall {A} (rd : Z -> res A) stride n off l, read_all rd stride n off = Ok l -> length l = n.
Proof.
  intros A rd stride n. induction n as [|n IH]; intros off l H; cbn [read_all] in H; [apply Ok_inj in H; now subst|].
  apply bind_ok in H. destruct H as (x & _ & H). apply bind_ok in H. destruct H as (r & Hr & H). apply Ok_inj in H. subst l. cbn. f_equal. eapply IH; exact Hr.
Qed.
Lemma make_len_inv : forall n k, make_len n = Ok k -> 0 <= n /\ k = Z.to_nat n.
Proof. intros n k H. unfold make_len in H. destruct (Z.ltb_spec n 0); [discriminate|]. apply Ok_inj in H. auto. Qed.
Lemma unserialize_lengths : forall h src td, tile_unserialize h src = Ok td ->
  zlen (tdPolys td) = hPolyCount h /\ zlen (tdLinks td) = hMaxLinkCount h /\ zlen (tdVerts td) = i32 (3 * hVertCount h) /\ zlen (tdCons td) = hOffMeshConCount h.
Proof.
  intros h src td H. unfold tile_unserialize in H.
  apply bind_ok in H. destruct H as (nv & Hnv & H). apply bind_ok in H. destruct H as (verts & Hv & H).
  apply bind_ok in H. destruct H as (np & Hnp & H). apply bind_ok in H. destruct H as (polys & Hp & H).
  apply bind_ok in H. destruct H as (nl & Hnl & H). apply bind_ok in H. destruct H as (links & Hl & H).
  do 8 (apply bind_ok in H; destruct H as (? & ? & H)).
  apply bind_ok in H. destruct H as (nc & Hnc & H). apply bind_ok in H. destruct H as (ocs & Hoc & H).
  apply Ok_inj in H. subst td. cbn [tdPolys tdLinks tdVerts tdCons].
  apply read_all_length in Hv, Hp, Hl, Hoc. apply make_len_inv in Hnv, Hnp, Hnl, Hnc. unfold zlen. rewrite Hv, Hp, Hl, Hoc. repeat split; lia.
Qed.

(** ** The data of a live tile *)
Definition tileOK (t : MeshTile) (h : MeshHeader) : Prop :=
  tHeader t = Some h /\ header_unserialize (tData t) = Ok h /\ tDataSize t = i32 (zlen (tData t)) /\ tFlags t = 0 /\
  (exists td, tile_unserialize h (skipn 100 (tData t)) = Ok td /\ frame (set_tD t td) t) /\ LinkInv t.
Lemma tileOK_polys : forall t h, tileOK t h -> hPolyCount h = zlen (tdPolys (tD t)).
Proof.
  intros t h (_ & _ & _ & _ & (td & Htd & F) & _). apply unserialize_lengths in Htd. destruct Htd as (<- & _).
  apply frame_polys in F. cbn [set_tD tD] in F. unfold zlen. now rewrite F.
Qed.
(** Equal but for links and the pointer to the next tile. *)
Definition frameN (t t' : MeshTile) : Prop := frame (no_next t) (no_next t').
Lemma frameN_refl : forall t, frameN t t. Proof. intros. apply frame_refl. Qed.
Lemma frameN_trans : forall a b c, frameN a b -> frameN b c -> frameN a c.
Proof. intros a b c. apply frame_trans. Qed.
Lemma frame_frameN : forall t t', frame t t' -> frameN t t'.
Proof.
  intros t t' (A & B). split; [|exact B]. unfold skel in *. cbn [no_next set_tNext tSalt tHeader tData tDataSize tFlags tNext].
  congruence.
Qed.
Lemma frameN_fields : forall t t', frameN t t' -> tSalt t' = tSalt t /\ tHeader t' = tHeader t /\ tData t' = tData t /\ tDataSize t' = tDataSize t /\ tFlags t' = tFlags t.
Proof. intros t t' (H & _). unfold skel in H. cbn [no_next set_tNext tSalt tHeader tData tDataSize tFlags tNext] in H. inversion H. auto. Qed.
Lemma frameN_data : forall t t' td, frameN t t' -> frame (set_tD t td) t -> frame (set_tD t' td) t'.
Proof. 
  intros t t' td (A & A1 & A2 & A3 & A4 & A5 & A6 & A7 & A8 & A9) (B & B1 & B2 & B3 & B4 & B5 & B6 & B7 & B8 & B9).
  split; [reflexivity|]. cbn [no_next set_tNext set_tD tD] in *.
  repeat (split; [try congruence; intros E; rewrite A4, B4; congruence|]). congruence.
Qed.
Lemma tileOK_frame : forall t t' h, tileOK t h -> frameN t t' -> LinkInv t' -> tileOK t' h.
Proof.
  intros t t' h (H1 & H2 & H3 & H4 & (td & Htd & F) & _) FN HL. destruct (frameN_fields _ _ FN) as (E1 & E2 & E3 & E4 & E5).
  split; [congruence|]. split; [congruence|]. split; [congruence|]. split; [congruence|]. split; [|exact HL].
  exists td. rewrite E3. split; [exact Htd|]. eapply frameN_data; eassumption.
Qed.
Lemma LinkInv_next : forall t n, LinkInv t -> LinkInv (set_tNext t n).
Proof. intros t n (fl & cs & H). exists fl, cs. exact H. Qed.
Lemma LinkView_no_next : forall t t' fl cs, no_next t' = no_next t -> LinkView t fl cs -> LinkView t' fl cs.
Proof.
  intros t t' fl cs E H. assert (LinkView (no_next t) fl cs) as G by exact H. rewrite <- E in G. exact G.
Qed.

(** ** Bits and salts *)
Lemma next_salt_eq : forall b s, 1 <= saltBits b <= 31 -> 1 <= s < 2 ^ saltBits b ->
  next_salt b s = if s =? 2 ^ saltBits b - 1 then 1 else s + 1.
Proof.
  intros b s Hb Hs. unfold next_salt. assert (2 ^ saltBits b <= 2 ^ 31) by (apply Z.pow_le_mono_r; lia).
  rewrite mask32 by lia. rewrite u32_id by (unfold is_u32; lia).
  replace (2 ^ saltBits b - 1) with (Z.ones (saltBits b)) by (rewrite Z.ones_equiv; lia). rewrite Z.land_ones by lia.
  rewrite Z.ones_equiv. destruct (Z.eqb_spec s (Z.pred (2 ^ saltBits b))) as [->|Hne].
  - replace (Z.pred (2 ^ saltBits b) + 1) with (2 ^ saltBits b) by lia. rewrite Z_mod_same_full. reflexivity.
  - rewrite Z.mod_small by lia. destruct (Z.eqb_spec (s + 1) 0); lia.
Qed.
Definition salt_ok (b : IdBits) (s : Z) : Prop := 1 <= s < 2 ^ saltBits b.
Lemma next_salt_ok : forall b s, 1 <= saltBits b <= 31 -> salt_ok b s -> salt_ok b (next_salt b s).
Proof.
  intros b s Hb Hs. unfold salt_ok in *. rewrite next_salt_eq by assumption. assert (2 ^ 1 <= 2 ^ saltBits b) by (apply Z.pow_le_mono_r; lia).
  destruct (Z.eqb_spec s (2 ^ saltBits b - 1)); lia.
Qed.
Lemma decode_salt_range : forall b r, 1 <= saltBits b <= 31 -> 0 <= decodePolyIDSalt b r < 2 ^ saltBits b.
Proof.
  intros b r Hb. unfold decodePolyIDSalt. rewrite mask32 by lia.
  replace (2 ^ saltBits b - 1) with (Z.ones (saltBits b)) by (rewrite Z.ones_equiv; lia). rewrite Z.land_ones by lia.
  apply Z.mod_pos_bound. apply Z.pow_pos_nonneg; lia.
Qed.
Lemma decode_tile_range : forall b r, 0 <= tileBits b <= 31 -> 0 <= decodePolyIDTile b r < 2 ^ tileBits b.
Proof.
  intros b r Hb. unfold decodePolyIDTile. rewrite mask32 by lia.
  replace (2 ^ tileBits b - 1) with (Z.ones (tileBits b)) by (rewrite Z.ones_equiv; lia). rewrite Z.land_ones by lia.
  apply Z.mod_pos_bound. apply Z.pow_pos_nonneg; lia.
Qed.

(** ** AddTile *)
Definition ostep (Q : Z -> Prop) (s s' : MeshTile) : Prop :=
  frameN s s' /\ forall fl cs, LinkView s fl cs -> exists fl' cs', LinkView s' fl' cs' /\ Forall2 (ext_chain Q) cs' cs.
Lemma polyref_mstep_fwd : forall Q m m' j r, mstep Q m m' -> polyref_of m j r -> polyref_of m' j r.
Proof.
  intros Q m m' j r HS (t & h & ip & Ht & Hh & H0 & Hip & ->). destruct (mstep_tile _ _ _ _ _ HS Ht) as (t' & Ht' & F & _).
  exists t', h, ip. split; auto. rewrite (frame_header _ _ F). split; auto. split; auto. split.
  - intros W. apply Hip. eapply frame_sym_wfT; eassumption.
  - rewrite (frame_salt _ _ F). destruct HS as (T & _). now rewrite (table_mBits _ _ T).
Qed.
Lemma rel_mstep_fwd : forall Q m m' k r, mstep Q m m' -> rel m k r -> rel m' k r.
Proof.
  intros Q m m' k r HS (j & hk & hj & Hk & Hj & Ha & Hr). exists j, hk, hj.
  split; [now apply (mstep_live _ _ _ _ _ HS)|]. split; [now apply (mstep_live _ _ _ _ _ HS)|]. split; auto. eapply polyref_mstep_fwd; eassumption.
Qed.
Lemma erel_mstep_fwd : forall Q m m' k r, mstep Q m m' -> erel m k r -> erel m' k r.
Proof.
  intros Q m m' k r HS (j & hk & hj & Hk & Hj & Ha & Hr & Hn). exists j, hk, hj.
  split; [now apply (mstep_live _ _ _ _ _ HS)|]. split; [now apply (mstep_live _ _ _ _ _ HS)|]. split; auto. split; [eapply polyref_mstep_fwd; eassumption|].
  destruct Hn as [|Hn]; [now left|right]. now apply (has_cons_mstep _ _ _ _ HS).
Qed.
Lemma fixed_table : forall m m', table m' = table m -> fixed m' = fixed m.
Proof.
  intros m m' T. unfold fixed, table in *. pose proof (f_equal mParams T). pose proof (f_equal mMaxTiles T). pose proof (f_equal mLUTSize T).
  pose proof (f_equal mLUTMask T). pose proof (f_equal mPosLookup T). pose proof (f_equal mBits T). cbn in *. congruence.
Qed.
Lemma mesh_ok_fixed : forall m m', fixed m' = fixed m -> length (mTiles m') = length (mTiles m) -> mesh_ok m -> mesh_ok m'.
Proof. intros m m' F L (H1 & H2). unfold fixed in F. inversion F. unfold mesh_ok, zlen in *. rewrite L. split; lia. Qed.
Lemma fixed_bits : forall m m', fixed m' = fixed m -> mBits m' = mBits m.
Proof. intros m m' F. unfold fixed in F. congruence. Qed.

Lemma AddTile_spec : forall m free bk data lastRef m' st ref, mesh_ok m -> TableView m free [] bk ->
  AddTile m data lastRef = Ok (m', st, ref) ->
  (st <> Success /\ m' = m /\ ref = 0) \/
  (st = Success /\ exists hdr i f1 f2 bk' t t',
     header_unserialize data = Ok hdr /\ hMagic hdr = navMeshMagic /\ hVersion hdr = navMeshVersion /\
     free = f1 ++ i :: f2 /\ fixed m' = fixed m /\ length (mTiles m') = length (mTiles m) /\
     TableView m' (f1 ++ f2) [] bk' /\ (forall k h, live m k h -> loc h <> loc hdr) /\
     nth_error (mTiles m) i = Some t /\ nth_error (mTiles m') i = Some t' /\ tileOK t' hdr /\ tData t' = data /\
     tSalt t' = (if lastRef =? 0 then tSalt t else decodePolyIDSalt (mBits m) lastRef) /\
     ref = encodePolyID (mBits m) (tSalt t') (Z.of_nat i) 0 /\
     (forall k s, k <> i -> nth_error (mTiles m) k = Some s -> exists s', nth_error (mTiles m') k = Some s' /\ ostep (erel m' k) s s') /\
     (exists fl cs cs0, LinkView t' fl cs /\ Forall2 (ext_chain (erel m' i)) cs cs0 /\
        (forall n p c, nth_error (tdPolys (tD t')) n = Some p -> nth_error cs0 n = Some c -> exists k, map snd c = skipn k (int_links ref p)) /\
        ((want ref (tdPolys (tD t')) <= length (tdLinks (tD t')))%nat -> map (map snd) cs0 = map (int_links ref) (tdPolys (tD t')))) /\
     (lastRef = 0 -> f1 = []) /\
     (lastRef <> 0 -> i = Z.to_nat (i32 (decodePolyIDTile (mBits m) lastRef)) /\ 0 <= i32 (decodePolyIDTile (mBits m) lastRef))).
Proof.
  intros m free bk data lastRef m' st ref Hok HV H. unfold AddTile in H.
  apply bind_ok in H. destruct H as (hdr & Hh & H).
  destruct (Z.eqb_spec (hMagic hdr) navMeshMagic) as [Em|]; cbn [negb] in H; [|apply Ok_inj in H; inversion H; subst; left; split; [discriminate|auto]].
  destruct (Z.eqb_spec (hVersion hdr) navMeshVersion) as [Ev|]; cbn [negb] in H; [|apply Ok_inj in H; inversion H; subst; left; split; [discriminate|auto]].
  destruct (TileAt_spec m free bk (hX hdr) (hY hdr) (hLayer hdr) Hok HV) as (o & Ho & Hloc). rewrite Ho in H. cbn [bind] in H.
  destruct o as [x|]; [apply Ok_inj in H; inversion H; subst; left; split; [discriminate|auto]|].
  apply bind_ok in H. destruct H as ([m1 i] & Ha & H). apply bind_ok in H. destruct H as (m2 & Hi & H).
  apply bind_ok in H. destruct H as (m4 & Hl & H). apply bind_ok in H. destruct H as (r & Hr & H). apply Ok_inj in H. inversion H; subst m' st ref; clear H.
  right. split; auto.
  destruct (alloc_slot_view m free bk lastRef m1 i Hok HV Ha) as (F1 & P1 & f1 & f2 & t & t1 & Ef & HV1 & Ht & Ht1 & Es & Ho1 & L1 & Hz & Hnz).
  assert (Hok1 : mesh_ok m1) by (eapply mesh_ok_fixed; eassumption).
  assert (Hlive1 : forall k h, k <> i -> live m1 k h -> live m k h).
  { intros k h Hk (s & Hs & Hh0). specialize (Ho1 k Hk). rewrite Hs in Ho1. destruct (nth_error (mTiles m) k) as [s0|] eqn:E0; [|discriminate].
    cbn in Ho1. inversion Ho1 as [Ho1']. exists s0. split; auto. fold (no_next s) in Ho1'. fold (no_next s0) in Ho1'. congruence. }
  assert (Hnb : ~ In i (concat bk)).
  { destruct HV1 as (_ & _ & Hn & _). rewrite NoDup_app_iff' in Hn. destruct Hn as (_ & Hn & _). cbn [app] in Hn. apply NoDup_cons_iff in Hn. tauto. }
  destruct (install_view m1 (f1 ++ f2) i bk hdr data m2 Hok1 HV1) as (F2 & _ & bk' & b & t1' & td & ls & head & HV2 & _ & _ & Ht1' & Htd & Hls & E2).
  { intros j h Hj Hlv. apply (Hloc j). apply Hlive1; auto. intros ->. contradiction. }
  { exact Hi. }
  rewrite Ht1 in Ht1'. inversion Ht1'; subst t1'. clear Ht1'. set (t2 := installed t1 hdr data td ls head) in *.
  assert (Ht2 : nth_error (mTiles m2) i = Some t2) by (rewrite E2; apply nth_error_upd_eq; apply nth_error_Some; congruence).
  assert (L2 : length (mTiles m2) = length (mTiles m1)) by (rewrite E2; apply upd_length).
  assert (Hok2 : mesh_ok m2) by (eapply mesh_ok_fixed; eassumption).
  pose proof (unserialize_lengths _ _ _ Htd) as (Lp & Ll & _). pose proof (header_i32 _ _ Hh) as (Xi & Yi & Pi & Mi).
  assert (Hmax : zlen (tdLinks td) < nullLink) by (unfold nullLink, is_i32 in *; lia).
  destruct (free_links_chain (tdLinks td) ls Hls Hmax) as (fl & Hfl & Esl). destruct (free_links_length _ _ Hls) as (Lls & _).
  assert (Hl' := Hl). unfold link_tile in Hl'. apply bind_ok in Hl'. destruct Hl' as (m3 & Hc & _).
  assert (Ht2' := Ht2). apply tile_of_nth in Ht2'.
  assert (Eb2 : mBits m2 = mBits m) by (rewrite (fixed_bits _ _ F2); now apply fixed_bits).
  destruct (connectIntLinks_spec m2 i t2 hdr m3 fl Hc Ht2' eq_refl) as (t3 & fl3 & cs3 & E3 & Fr3 & HV3 & Hk3 & Hw3).
  { cbn [t2 installed tD set_tdLinks tdPolys]. now symmetry. }
  { exact Hfl. }
  { cbn [t2 installed tD set_tdLinks tdLinks]. rewrite Esl. f_equal. lia. }
  { cbn [t2 installed tD set_tdLinks tdLinks]. unfold zlen in *. lia. }
  assert (Hts3 : mTiles m3 = upd (mTiles m2) i t3) by (rewrite E3; reflexivity).
  assert (Ht3 : nth_error (mTiles m3) i = Some t3) by (rewrite Hts3; apply nth_error_upd_eq; apply nth_error_Some; congruence).
  assert (Hh3 : tHeader t3 = Some hdr) by (rewrite (frame_header _ _ Fr3); reflexivity).
  assert (Hnx : map next_hdr (mTiles m3) = map next_hdr (mTiles m2)).
  { rewrite Hts3, map_upd. apply upd_self. rewrite (map_nth_error _ _ _ Ht2). f_equal. apply frame_skel in Fr3. unfold skel in Fr3. unfold next_hdr. congruence. }
  assert (HVt3 : TableView m3 (f1 ++ f2) [] bk') by (eapply TableView_same; [|exact Hnx|exact HV2]; rewrite E3; reflexivity).
  assert (Hok3 : mesh_ok m3). { eapply mesh_ok_fixed; [| |exact Hok2]; [rewrite E3; reflexivity|rewrite Hts3; apply upd_length]. }
  pose proof (link_rest m2 i hdr m4 Hl m3 Hc (f1 ++ f2) bk' Hok3 HVt3) as HS.
  specialize (HS (ex_intro _ t3 (conj Ht3 Hh3)) Xi Yi).
  assert (Ht3' := Ht3). apply tile_of_nth in Ht3'. destruct (mstep_tile _ _ _ _ _ HS Ht3') as (t4 & Ht4' & Fr4 & V4).
  assert (Ht4 := Ht4'). apply tile_of_nth in Ht4.
  destruct (V4 _ _ HV3) as (fl4 & cs4 & HV4 & Hext).
  assert (Eb3 : mBits m3 = mBits m) by (rewrite E3; exact Eb2).
  pose proof HS as (T4 & L4 & S4).
  assert (Eb4 : mBits m4 = mBits m) by (rewrite (table_mBits _ _ T4); exact Eb3).
  assert (Esalt : tSalt t4 = tSalt t1) by (rewrite (frame_salt _ _ Fr4), (frame_salt _ _ Fr3); reflexivity).
  assert (Er : r = encodePolyID (mBits m) (tSalt t4) (Z.of_nat i) 0).
  { unfold TileRef in Hr. rewrite (base_of_tile _ _ _ Ht4') in Hr. apply Ok_inj in Hr. rewrite <- Hr, Eb4. reflexivity. }
  assert (Er2 : encodePolyID (mBits m2) (tSalt t2) (Z.of_nat i) 0 = r) by (rewrite Er, Eb2, Esalt; reflexivity).
  rewrite Er2 in Hk3, Hw3.
  exists hdr, i, f1, f2, bk', t, t4.
  split; [exact Hh|]. split; [exact Em|]. split; [exact Ev|]. split; [exact Ef|].
  split; [rewrite (fixed_table _ _ T4); rewrite E3; change (fixed m2 = fixed m); congruence|].
  split; [rewrite L4, Hts3, upd_length; congruence|].
  split; [eapply mstep_view; eassumption|]. split; [exact Hloc|]. split; [exact Ht|]. split; [exact Ht4|].
  assert (Fr24 : frame t2 t4) by (eapply frame_trans; eassumption).
  split.
  { assert (Esk := frame_skel _ _ Fr24). unfold skel in Esk. inversion Esk as [[Q1 Q2 Q3 Q4 Q5 Q6]].
    split; [exact Q2|]. split; [rewrite Q3; exact Hh|]. split; [exact Q4|]. split; [exact Q5|]. split; [|exists fl4, cs4; exact HV4].
    exists td. split; [rewrite Q3; exact Htd|]. eapply (frame_trans _ (set_tD t4 (tD t2))).
    - cbn [t2 installed tD]. unfold frame. split; [reflexivity|]. cbn [set_tD tD set_tdLinks tdPolys tdLinks tdVerts tdCons].
      split; [reflexivity|]. split; [exact Lls|]. split; [reflexivity|]. split; [reflexivity|]. repeat (split; [reflexivity|]). reflexivity.
    - destruct Fr24 as (_ & B). split; [reflexivity|]. exact B. }
  split. { apply frame_skel in Fr24. unfold skel in Fr24. inversion Fr24. reflexivity. }
  split; [congruence|]. split; [exact Er|].
  split.
  { intros k s Hk Hs. specialize (Ho1 k Hk). rewrite Hs in Ho1. destruct (nth_error (mTiles m1) k) as [s1|] eqn:E1; [|discriminate].
    cbn [option_map] in Ho1. inversion Ho1 as [Ho1']. fold (no_next s1) in Ho1'. fold (no_next s) in Ho1'.
    assert (Hs3 : nth_error (mTiles m3) k = Some s1).
    { rewrite Hts3, E2. rewrite !nth_error_upd_neq by auto. exact E1. }
    destruct (S4 k s1 Hs3) as (s4 & Hs4 & Fs & Vs). exists s4. split; auto.
    assert (no_next s1 = no_next s) as En by congruence. split.
    - unfold frameN. rewrite <- En. apply (frame_frameN _ _ Fs).
    - intros fl0 cs0 HV0. apply (LinkView_no_next _ s1) in HV0; [|exact En]. destruct (Vs _ _ HV0) as (fl' & cs' & HV' & Hx). exists fl', cs'. split; auto.
      eapply Forall2_impl'; [|exact Hx]. intros x y (p & -> & Hp). exists p. split; auto. eapply Forall_impl; [|exact Hp].
      intros a. apply (erel_mstep_fwd _ _ _ _ _ HS). }
  split.
  { exists fl4, cs4, cs3. split; [exact HV4|]. split.
    - eapply Forall2_impl'; [|exact Hext]. intros x y (p & -> & Hp). exists p. split; auto. eapply Forall_impl; [|exact Hp].
      intros a. apply (erel_mstep_fwd _ _ _ _ _ HS).
    - pose proof Fr24 as (_ & Hst & Hlk & _). split.
      + intros n p c Hp Hcn. destruct (nth_static _ _ _ _ (eq_sym Hst) Hp) as (q & Hq & Eq). rewrite <- (int_links_static r _ _ Eq).
        eapply Hk3; eassumption.
      + assert (Emap : map (int_links r) (tdPolys (tD t4)) = map (int_links r) (tdPolys (tD t2))).
        { clear -Hst. revert Hst. generalize (tdPolys (tD t4)) (tdPolys (tD t2)). intros l. induction l as [|p l IH]; intros [|q k] E; cbn [map] in E; try discriminate; auto.
          cbn [map]. f_equal; [apply int_links_static; congruence|apply IH; congruence]. }
        intros Hw. rewrite Emap. apply Hw3. unfold want in *. rewrite flat_map_concat_map, <- Emap, <- flat_map_concat_map, <- Hlk. exact Hw. }
  split; [exact Hz|exact Hnz].
Qed.

(** ** RemoveTile *)
Lemma live_in_bucket : forall m free bk k h, TableView m free [] bk -> live m k h -> In k (concat bk).
Proof.
  intros m free bk k h (_ & _ & _ & Hcov & Hfree & _) (t & Ht & Hh).
  assert (k < length (mTiles m))%nat as Hk by (apply nth_error_Some; congruence). specialize (Hcov k Hk). cbn [app] in Hcov.
  apply in_app_iff in Hcov. destruct Hcov as [Hf|]; auto. destruct (Hfree k Hf) as (t' & Ht' & Hn & _). congruence.
Qed.
Lemma bucket_is_live : forall m free out bk k, TableView m free out bk -> In k (concat bk) -> exists h, live m k h.
Proof.
  intros m free out bk k (_ & _ & _ & _ & _ & Hb & _) Hk. apply in_concat in Hk. destruct Hk as (b & Hbb & Hk).
  apply In_nth_error in Hbb. destruct Hbb as (n & Hn). destruct (Hb n b k Hn Hk) as (h & Hl & _). eauto.
Qed.
(** At most 32 tiles per location. *)
Definition capped (m : NavMesh) : Prop :=
  forall x y l, NoDup l -> (forall k, In k l -> exists h, live m k h /\ hX h = x /\ hY h = y) -> (length l <= 32)%nat.

Lemma RemoveTile_live : forall m free bk ref i t hdr, mesh_ok m -> zlen (mTiles m) < 2 ^ 31 -> TableView m free [] bk ->
  (forall k s h, nth_error (mTiles m) k = Some s -> tHeader s = Some h -> tileOK s h) ->
  nth_error (mTiles m) i = Some t -> tHeader t = Some hdr -> ref <> 0 ->
  decodePolyIDTile (mBits m) ref = Z.of_nat i -> decodePolyIDSalt (mBits m) ref = tSalt t ->
  decodePolyIDTile (mBits m) (encodePolyID (mBits m) (tSalt t) (Z.of_nat i) 0) = Z.of_nat i ->
  exists m' bk' n vis, RemoveTile m ref = Ok (m', tData t, Success) /\
    fixed m' = fixed m /\ length (mTiles m') = length (mTiles m) /\
    TableView m' (i :: free) [] bk' /\ (forall k, In k (concat bk') <-> k <> i /\ In k (concat bk)) /\
    nth_error (mTiles m') i = Some (released (mBits m) t n) /\
    (forall k s, k <> i -> nth_error (mTiles m) k = Some s -> exists s', nth_error (mTiles m') k = Some s' /\ frameN s s' /\
       (In k vis -> forall fl cs, LinkView s fl cs -> exists fl', LinkView s' fl' (map (filter (keep (mBits m) (Z.of_nat i))) cs)) /\
       (~ In k vis -> forall fl cs, LinkView s fl cs -> LinkView s' fl cs)) /\
    (capped m -> forall k hk, k <> i -> live m k hk -> adjacent hdr hk -> In k vis).
Proof.
  intros m free bk ref i t hdr Hok Hsz HV Hall Ht Hh Hr Ei Es Edec. unfold RemoveTile.
  destruct (Z.eqb_spec ref 0); [contradiction|]. rewrite Ei, Es. pose proof Hok as (Hmx & _).
  assert (Hi : (i < length (mTiles m))%nat) by (apply nth_error_Some; congruence).
  assert (Hu : u32 (mMaxTiles m) = zlen (mTiles m)) by (rewrite Hmx; apply u32_id; unfold is_u32, zlen in *; lia). rewrite Hu.
  destruct (Z.leb_spec (zlen (mTiles m)) (Z.of_nat i)); [unfold zlen in *; lia|].
  assert (Hg : get (mTiles m) (Z.of_nat i) = Ok t) by (apply get_ok; rewrite Nat2Z.id; split; [lia|exact Ht]). rewrite Hg. cbn [bind].
  rewrite Z.eqb_refl. cbn [negb]. rewrite Nat2Z.id. unfold hdr_of. rewrite Hh. cbn [bind of_option].
  assert (Hlv : live m i hdr) by (exists t; auto).
  destruct (unhash_view m free bk i hdr Hok HV Hlv) as (m1 & bk1 & E1 & F1 & N1 & M1 & HV1 & Hin1). rewrite E1. cbn [bind].
  assert (L1 : length (mTiles m1) = length (mTiles m)) by (apply (f_equal (@length _)) in M1; now rewrite !map_length in M1).
  assert (Hok1 : mesh_ok m1) by (eapply mesh_ok_fixed; eassumption).
  destruct (no_next_nth _ _ i t M1 Ht) as (t1 & Ht1 & Et1).
  assert (Eb1 : mBits m1 = mBits m) by now apply fixed_bits.
  assert (Esalt1 : tSalt t1 = tSalt t) by (apply no_next_header in Et1; tauto).
  assert (Hok1' : forall k, In k (concat bk1) -> okT m1 k).
  { intros k Hk. apply Hin1 in Hk. destruct Hk as (Hki & Hkb). destruct (bucket_is_live _ _ _ _ _ HV Hkb) as (h & (s & Hs & Hhs)).
    destruct (no_next_nth _ _ k s M1 Hs) as (s1 & Hs1 & Es1). pose proof (Hall k s h Hs Hhs) as Hs_ok. pose proof (no_next_header _ _ Es1) as (Q1 & Q2 & Q3 & Q4 & _).
    exists s1, h. split; auto. split; [congruence|]. split.
    - destruct Hs_ok as (_ & _ & _ & _ & _ & (fl & cs & HVs)). exists fl, cs. eapply LinkView_no_next; eassumption.
    - rewrite Q4. now apply tileOK_polys. }
  destruct (unlink_tile_spec m1 i hdr t1 free bk1 Hok1 HV1 Ht1 Hok1') as (m2 & vis & E2 & U2 & Iv & Mv). rewrite E2. cbn [bind].
  rewrite Eb1, Esalt1, Edec in U2. pose proof U2 as (T2 & L2 & S2).
  destruct (S2 i t1 Ht1) as (t2 & Ht2 & Fr2 & _).
  pose proof (unl_view _ _ _ _ _ _ _ U2 HV1) as HV2.
  destruct (release_view m2 free bk1 i t2 HV2 Ht2) as (m3 & E3 & F3 & P3 & Ts3 & HV3). rewrite E3. cbn [bind].
  assert (Eb2 : mBits m2 = mBits m) by (rewrite (table_mBits _ _ T2); exact Eb1).
  exists m3, bk1, (mNextFree m2), vis. split; [reflexivity|]. split; [rewrite F3, (fixed_table _ _ T2); exact F1|].
  split; [rewrite Ts3, upd_length; congruence|]. split; [exact HV3|]. split; [exact Hin1|]. split.
  { rewrite Ts3, nth_error_upd_eq by (apply nth_error_Some; congruence). unfold released. rewrite Eb2, (frame_salt _ _ Fr2), Esalt1. reflexivity. }
  split.
  - intros k s Hk Hs. destruct (no_next_nth _ _ k s M1 Hs) as (s1 & Hs1 & Es1). destruct (S2 k s1 Hs1) as (s2 & Hs2 & Frs & Ns & Vs).
    exists s2. rewrite Ts3, nth_error_upd_neq by auto. split; auto. split; [unfold frameN; rewrite <- Es1; apply (frame_frameN _ _ Frs)|]. rewrite Eb1 in Vs. split.
    + intros Hv fl cs HVs. apply (Vs Hv fl). eapply LinkView_no_next; eassumption.
    + intros Hv fl cs HVs. rewrite (Ns Hv). eapply LinkView_no_next; eassumption.
  - intros Hcap k hk Hk Hl Hadj. assert (Hlk : forall q h, live m1 q h -> live m q h).
    { intros q h (s & Hs & Hhs). destruct (no_next_nth _ _ q s (eq_sym M1) Hs) as (s0 & Hs0 & Es0). exists s0. split; auto. apply no_next_header in Es0. intuition congruence. }
    apply (Mv) with (hk := hk); auto.
    + intros x y l Hnd Hl'. apply (Hcap x y l Hnd). intros q Hq. destruct (Hl' q Hq) as (_ & h & Lq & Ex). exists h. split; auto.
    + apply Hin1. split; auto. eapply live_in_bucket; eassumption.
    + destruct Hl as (s & Hs & Hhs). destruct (no_next_nth _ _ k s M1 Hs) as (s1 & Hs1 & Es1). exists s1. split; auto. apply no_next_header in Es1. intuition congruence.
Qed.
Lemma RemoveTile_fail : forall m ref, mesh_ok m -> zlen (mTiles m) < 2 ^ 31 ->
  (ref = 0 \/ zlen (mTiles m) <= decodePolyIDTile (mBits m) ref \/
   exists i t, decodePolyIDTile (mBits m) ref = Z.of_nat i /\ nth_error (mTiles m) i = Some t /\ tSalt t <> decodePolyIDSalt (mBits m) ref) ->
  RemoveTile m ref = Ok (m, [], Z.lor Failure InvalidParam).
Proof.
  intros m ref (Hmx & _) Hsz H. unfold RemoveTile. destruct (Z.eqb_spec ref 0) as [|Hr]; [reflexivity|].
  assert (Hu : u32 (mMaxTiles m) = zlen (mTiles m)) by (rewrite Hmx; apply u32_id; unfold is_u32, zlen in *; lia). rewrite Hu.
  destruct H as [|[H|(i & t & Ei & Ht & Hs)]]; [contradiction|rewrite (proj2 (Z.leb_le _ _) H); reflexivity|].
  rewrite Ei. destruct (zlen (mTiles m) <=? Z.of_nat i); [reflexivity|].
  assert (Hg : get (mTiles m) (Z.of_nat i) = Ok t) by (apply get_ok; rewrite Nat2Z.id; split; [lia|exact Ht]). rewrite Hg. cbn [bind].
  rewrite (proj2 (Z.eqb_neq _ _) Hs). reflexivity.
Qed.
Lemma RemoveTile_cases : forall m ref m' data st, mesh_ok m -> zlen (mTiles m) < 2 ^ 31 -> 0 <= decodePolyIDTile (mBits m) ref ->
  RemoveTile m ref = Ok (m', data, st) ->
  (st = Z.lor Failure InvalidParam /\ m' = m /\ data = [] /\
   (ref = 0 \/ zlen (mTiles m) <= decodePolyIDTile (mBits m) ref \/
    exists i t, decodePolyIDTile (mBits m) ref = Z.of_nat i /\ nth_error (mTiles m) i = Some t /\ tSalt t <> decodePolyIDSalt (mBits m) ref)) \/
  (exists i t hdr, nth_error (mTiles m) i = Some t /\ tHeader t = Some hdr /\ ref <> 0 /\
   decodePolyIDTile (mBits m) ref = Z.of_nat i /\ decodePolyIDSalt (mBits m) ref = tSalt t).
Proof.
  intros m ref m' data st (Hmx & _) Hsz Hd H. unfold RemoveTile in H.
  destruct (Z.eqb_spec ref 0) as [E0|E0]; [apply Ok_inj in H; inversion H; subst; left; auto 10|].
  assert (Hu : u32 (mMaxTiles m) = zlen (mTiles m)) by (rewrite Hmx; apply u32_id; unfold is_u32, zlen in *; lia). rewrite Hu in H.
  destruct (Z.leb_spec (zlen (mTiles m)) (decodePolyIDTile (mBits m) ref)) as [Hle|Hlt]; [apply Ok_inj in H; inversion H; subst; left; auto 10|].
  apply bind_ok in H. destruct H as (t & Ht & H). apply get_ok in Ht. destruct Ht as [_ Ht].
  destruct (Z.eqb_spec (tSalt t) (decodePolyIDSalt (mBits m) ref)) as [Es|Es]; cbn [negb] in H.
  - apply bind_ok in H. destruct H as (hdr & Hh & _). apply hdr_ok in Hh. right.
    exists (Z.to_nat (decodePolyIDTile (mBits m) ref)), t, hdr. split; auto. split; auto. split; auto. split; [lia|auto].
  - apply Ok_inj in H. inversion H; subst. left. split; auto. split; auto. split; auto. right. right.
    exists (Z.to_nat (decodePolyIDTile (mBits m') ref)), t. split; [lia|auto].
Qed.

(** ** The invariant *)
Definition entry_of (m : NavMesh) (i : nat) (t : MeshTile) (h : MeshHeader) : entry :=
  mkEntry (loc h) (encodePolyID (mBits m) (tSalt t) (Z.of_nat i) 0) (tData t).
Record Inv (m : NavMesh) (A : list entry) : Prop := mkInv {
  iv_params : good_params (mParams m) /\ mBits m = init_bits (npMaxTiles (mParams m)) (npMaxPolys (mParams m)) /\ zlen (mTiles m) = npMaxTiles (mParams m);
  iv_ok : mesh_ok m;
  iv_view : exists free bk, TableView m free [] bk;
  iv_salt : forall i t, nth_error (mTiles m) i = Some t -> salt_ok (mBits m) (tSalt t);
  iv_tile : forall k s h, nth_error (mTiles m) k = Some s -> tHeader s = Some h -> tileOK s h;
  iv_A : forall e, In e A <-> exists i t h, nth_error (mTiles m) i = Some t /\ tHeader t = Some h /\ e = entry_of m i t h;
  iv_nodup : NoDup (map eLoc A)
}.
Lemma good_bits : forall p, good_params p -> let b := init_bits (npMaxTiles p) (npMaxPolys p) in
  bits_ok b /\ 8 <= saltBits b <= 31 /\ 0 <= tileBits b <= 24 /\ 0 <= polyBits b <= 24 /\ npMaxTiles p <= 2 ^ tileBits b /\ npMaxPolys p <= 2 ^ polyBits b.
Proof.
  intros p (H1 & H2 & H3). cbn zeta. destruct (init_bits_facts (npMaxTiles p) (npMaxPolys p)) as (B & E1 & E2 & E3); [lia|lia|lia|].
  pose proof (Z.log2_up_nonneg (npMaxTiles p)). pose proof (Z.log2_up_nonneg (npMaxPolys p)).
  split; auto. split; [lia|]. split; [lia|]. split; [lia|]. rewrite E1, E2. split; apply log2_up_iff; lia.
Qed.
Lemma inv_bits : forall m A, Inv m A -> bits_ok (mBits m) /\ 8 <= saltBits (mBits m) <= 31 /\ 0 <= tileBits (mBits m) <= 24 /\ 0 <= polyBits (mBits m) <= 24 /\
  zlen (mTiles m) <= 2 ^ tileBits (mBits m) /\ zlen (mTiles m) < 2 ^ 31 /\ npMaxPolys (mParams m) <= 2 ^ polyBits (mBits m).
Proof.
  intros m A H. destruct (iv_params _ _ H) as (G & E & L). rewrite L, E. destruct (good_bits _ G) as (a & b & c & d & e & f).
  destruct G as ((_ & G) & _). auto 10.
Qed.
Lemma inv_ref : forall m A i t ip, Inv m A -> nth_error (mTiles m) i = Some t -> 0 <= ip < 2 ^ polyBits (mBits m) ->
  DecodePolyID (mBits m) (encodePolyID (mBits m) (tSalt t) (Z.of_nat i) ip) = (tSalt t, Z.of_nat i, ip) /\
  encodePolyID (mBits m) (tSalt t) (Z.of_nat i) ip <> 0 /\ is_u32 (encodePolyID (mBits m) (tSalt t) (Z.of_nat i) ip).
Proof.
  intros m A i t ip H Ht Hip. destruct (inv_bits _ _ H) as (Bk & Bs & Bt & Bp & Lt & _). pose proof (iv_salt _ _ H i t Ht) as Hs. unfold salt_ok in Hs.
  assert (Hi : 0 <= Z.of_nat i < 2 ^ tileBits (mBits m)).
  { assert (i < length (mTiles m))%nat by (apply nth_error_Some; congruence). unfold zlen in Lt. lia. }
  split; [apply decode_encode; auto; lia|]. rewrite encode_value by (auto; lia).
  assert (0 < 2 ^ tileBits (mBits m)) by (apply Z.pow_pos_nonneg; lia). assert (0 < 2 ^ polyBits (mBits m)) by (apply Z.pow_pos_nonneg; lia).
  split; [nia|]. destruct Bk as (_ & _ & _ & Hsum). unfold is_u32.
  assert (2 ^ (saltBits (mBits m) + tileBits (mBits m) + polyBits (mBits m)) <= 2 ^ 32) by (apply Z.pow_le_mono_r; lia).
  rewrite !Z.pow_add_r in H2 by lia. split; [nia|].
  assert ((tSalt t * 2 ^ tileBits (mBits m) + Z.of_nat i) < 2 ^ saltBits (mBits m) * 2 ^ tileBits (mBits m)) by nia. nia.
Qed.
Lemma inv_base : forall m A i t, Inv m A -> nth_error (mTiles m) i = Some t ->
  decodePolyIDTile (mBits m) (encodePolyID (mBits m) (tSalt t) (Z.of_nat i) 0) = Z.of_nat i /\
  decodePolyIDSalt (mBits m) (encodePolyID (mBits m) (tSalt t) (Z.of_nat i) 0) = tSalt t /\
  encodePolyID (mBits m) (tSalt t) (Z.of_nat i) 0 <> 0.
Proof.
  intros m A i t H Ht. destruct (inv_bits _ _ H) as (_ & _ & _ & Bp & _). assert (0 < 2 ^ polyBits (mBits m)) by (apply Z.pow_pos_nonneg; lia).
  destruct (inv_ref m A i t 0 H Ht) as (D & N & _); [lia|]. unfold DecodePolyID in D.
  pose proof (f_equal (fun x => fst (fst x)) D) as D1. pose proof (f_equal (fun x => snd (fst x)) D) as D2. cbn [fst snd] in D1, D2. auto.
Qed.
Lemma inv_dec_tile : forall m A r, Inv m A -> 0 <= decodePolyIDTile (mBits m) r < 2 ^ 31.
Proof.
  intros m A r H. destruct (inv_bits _ _ H) as (_ & _ & Bt & _). pose proof (decode_tile_range (mBits m) r ltac:(lia)).
  assert (2 ^ tileBits (mBits m) <= 2 ^ 31) by (apply Z.pow_le_mono_r; lia). lia.
Qed.
Lemma fixed_params : forall m m', fixed m' = fixed m -> mParams m' = mParams m.
Proof. intros m m' F. unfold fixed in F. congruence. Qed.

Lemma inv_init : forall p m st, good_params p -> Init p = Ok (m, st) -> Inv m [].
Proof.
  intros p m st G H. destruct (Init_view p m st H) as (Hok & HV & Ep & Eb & L & Hf); [destruct G; lia|].
  pose proof (good_bits _ G) as (_ & Bs & _). split.
  - rewrite Ep, Eb. split; auto. split; auto. unfold zlen. destruct G as (G & _). rewrite L. lia.
  - exact Hok.
  - eauto.
  - intros i t Ht. destruct (Hf i t Ht) as (n & ->). unfold salt_ok. cbn [freshTile tSalt]. rewrite Eb.
    assert (2 ^ 8 <= 2 ^ saltBits (init_bits (npMaxTiles p) (npMaxPolys p))) by (apply Z.pow_le_mono_r; lia). lia.
  - intros k s h Hk Hh. destruct (Hf k s Hk) as (n & ->). discriminate.
  - intros e. split; [intros []|]. intros (i & t & h & Ht & Hh & _). destruct (Hf i t Ht) as (n & ->). discriminate.
  - constructor.
Qed.

Lemma inv_add : forall m A data lastRef m' ref h, Inv m A -> (lastRef = 0 \/ decodePolyIDSalt (mBits m) lastRef <> 0) ->
  AddTile m data lastRef = Ok (m', Success, ref) -> header_unserialize data = Ok h -> Inv m' (mkEntry (loc h) ref data :: A).
Proof.
  intros m A data lastRef m' ref h HI Hlast H Hhd. destruct (iv_view _ _ HI) as (free & bk & HV).
  destruct (AddTile_spec _ _ _ _ _ _ _ _ (iv_ok _ _ HI) HV H) as [(Hx & _)|(_ & hdr & i & f1 & f2 & bk' & t & t' & Hh & Em & Ev & Ef & Fx & L & HV' & Hloc & Ht & Ht' & Hok' & Ed & Es & Er & Hoth & _)]; [contradiction|].
  rewrite Hhd in Hh. apply Ok_inj in Hh. subst hdr. pose proof (fixed_bits _ _ Fx) as Eb. pose proof (fixed_params _ _ Fx) as Ep.
  destruct (inv_bits _ _ HI) as (Bk & Bs & _).
  assert (Hfresh : tHeader t = None).
  { destruct HV as (_ & _ & _ & _ & Hfree & _). destruct (Hfree i) as (t0 & Ht0 & Hn & _); [rewrite Ef; apply in_app_iff; right; left; reflexivity|]. congruence. }
  assert (Hback : forall k s', k <> i -> nth_error (mTiles m') k = Some s' -> exists s, nth_error (mTiles m) k = Some s /\ ostep (erel m' k) s s').
  { intros k s' Hk Hs'. destruct (nth_error_in_range (mTiles m) k) as (s & Hs); [rewrite <- L; apply nth_error_Some; congruence|].
    destruct (Hoth k s Hk Hs) as (s2 & Hs2 & O). assert (s2 = s') by congruence. subst. eauto. }
  split.
  - rewrite Ep, Eb. unfold zlen in *. rewrite L. apply (iv_params _ _ HI).
  - eapply mesh_ok_fixed; [exact Fx|exact L|apply (iv_ok _ _ HI)].
  - eauto.
  - intros k s Hs. rewrite Eb. destruct (Nat.eq_dec k i) as [->|Hk].
    + assert (s = t') by congruence. subst s. rewrite Es. destruct (Z.eqb_spec lastRef 0) as [|Hl]; [eapply iv_salt; eassumption|].
      destruct Hlast as [|Hlast]; [contradiction|]. unfold salt_ok. pose proof (decode_salt_range (mBits m) lastRef ltac:(lia)). lia.
    + destruct (Hback k s Hk Hs) as (s0 & Hs0 & FN & _). apply frameN_fields in FN. destruct FN as (-> & _). eapply iv_salt; eassumption.
  - intros k s h0 Hs Hh0. destruct (Nat.eq_dec k i) as [->|Hk].
    + assert (s = t') by congruence. subst s. pose proof Hok' as (Hx & _). rewrite Hx in Hh0. inversion Hh0; subst h0. exact Hok'.
    + destruct (Hback k s Hk Hs) as (s0 & Hs0 & FN & V). pose proof (frameN_fields _ _ FN) as (_ & Eh & _).
      pose proof (iv_tile _ _ HI k s0 h0 Hs0 ltac:(congruence)) as T0. eapply tileOK_frame; [exact T0|exact FN|].
      destruct T0 as (_ & _ & _ & _ & _ & (fl & cs & HV0)). destruct (V _ _ HV0) as (fl' & cs' & HV1 & _). exists fl', cs'. exact HV1.
  - intros e. split.
    + intros [<-|He].
      * exists i, t', h. split; auto. pose proof Hok' as (Hx & _). split; auto. unfold entry_of. rewrite Er, Ed, Eb. reflexivity.
      * apply (iv_A _ _ HI) in He. destruct He as (k & s & hk & Hs & Hhk & ->).
        assert (Hk : k <> i) by (intros ->; congruence). destruct (Hoth k s Hk Hs) as (s' & Hs' & FN & _).
        pose proof (frameN_fields _ _ FN) as (E1 & E2 & E3 & _). exists k, s', hk. split; auto. split; [congruence|]. unfold entry_of. congruence.
    + intros (k & s & hk & Hs & Hhk & ->). destruct (Nat.eq_dec k i) as [->|Hk].
      * left. assert (s = t') by congruence. subst s. pose proof Hok' as (Hx & _). rewrite Hx in Hhk. inversion Hhk; subst hk.
        unfold entry_of. rewrite Er, Ed, Eb. reflexivity.
      * right. apply (iv_A _ _ HI). destruct (Hback k s Hk Hs) as (s0 & Hs0 & FN & _). pose proof (frameN_fields _ _ FN) as (E1 & E2 & E3 & _).
        exists k, s0, hk. split; auto. split; [congruence|]. unfold entry_of. congruence.
  - cbn [map]. constructor; [|apply (iv_nodup _ _ HI)]. intros Hin. apply in_map_iff in Hin. destruct Hin as (e & Ee & He).
    apply (iv_A _ _ HI) in He. destruct He as (k & s & hk & Hs & Hhk & ->). cbn [eLoc entry_of] in Ee. apply (Hloc k hk); [exists s; auto|exact Ee].
Qed.

Lemma same_tile_iff : forall m A i t j s, Inv m A -> nth_error (mTiles m) i = Some t -> forall r,
  decodePolyIDTile (mBits m) r = Z.of_nat j -> decodePolyIDSalt (mBits m) r = tSalt s -> nth_error (mTiles m) j = Some s ->
  same_tile (mBits m) (encodePolyID (mBits m) (tSalt t) (Z.of_nat i) 0) r = true <-> i = j.
Proof.
  intros m A i t j s HI Ht r E1 E2 Hs. destruct (inv_base m A i t HI Ht) as (D1 & D2 & _). unfold same_tile. rewrite D1, D2, E1, E2.
  rewrite andb_true_iff, !Z.eqb_eq. split; [lia|]. intros ->. split; auto. congruence.
Qed.
Lemma NoDup_map_filter : forall {A B} (f : A -> B) g l, NoDup (map f l) -> NoDup (map f (filter g l)).
Proof.
  intros A B f g l. induction l as [|a l IH]; cbn [map filter]; auto. intros H. inversion H; subst.
  destruct (g a); auto. cbn [map]. constructor; auto. intros Hin. apply H2. apply in_map_iff in Hin. destruct Hin as (x & Ex & Hx).
  apply filter_In in Hx. apply in_map_iff. exists x. tauto.
Qed.
Lemma inv_remove : forall m A ref m' data, Inv m A -> RemoveTile m ref = Ok (m', data, Success) ->
  Inv m' (filter (fun e => negb (same_tile (mBits m) (eRef e) ref)) A).
Proof.
  intros m A ref m' data HI H. destruct (iv_view _ _ HI) as (free & bk & HV). destruct (inv_bits _ _ HI) as (Bk & Bs & _ & _ & _ & Hsz & _).
  destruct (RemoveTile_cases _ _ _ _ _ (iv_ok _ _ HI) Hsz (proj1 (inv_dec_tile _ _ _ HI)) H) as [(Hx & _)|(i & t & hdr & Ht & Hh & Hr & Ei & Es)]; [discriminate|].
  destruct (inv_base m A i t HI Ht) as (D1 & D2 & _).
  destruct (RemoveTile_live m free bk ref i t hdr (iv_ok _ _ HI) Hsz HV (iv_tile _ _ HI) Ht Hh Hr Ei Es D1)
    as (m2 & bk' & n & vis & E & Fx & L & HV' & Hin & Hi' & Hoth & _).
  rewrite H in E. apply Ok_inj in E. inversion E; subst m2 data. clear E.
  pose proof (fixed_bits _ _ Fx) as Eb. pose proof (fixed_params _ _ Fx) as Ep.
  assert (Hback : forall k s', k <> i -> nth_error (mTiles m') k = Some s' -> exists s, nth_error (mTiles m) k = Some s /\ frameN s s' /\ (LinkInv s -> LinkInv s')).
  { intros k s' Hk Hs'. destruct (nth_error_in_range (mTiles m) k) as (s & Hs); [rewrite <- L; apply nth_error_Some; congruence|].
    destruct (Hoth k s Hk Hs) as (s2 & Hs2 & FN & V1 & V2). assert (s2 = s') by congruence. subst. exists s. split; auto. split; auto.
    intros (fl & cs & HVs). destruct (in_dec Nat.eq_dec k vis) as [Iv|Iv].
    - destruct (V1 Iv _ _ HVs) as (fl' & HVs'). eexists _, _. exact HVs'.
    - exists fl, cs. apply V2; auto. }
  split.
  - rewrite Ep, Eb. unfold zlen in *. rewrite L. apply (iv_params _ _ HI).
  - eapply mesh_ok_fixed; [exact Fx|exact L|apply (iv_ok _ _ HI)].
  - eauto.
  - intros k s Hs. rewrite Eb. destruct (Nat.eq_dec k i) as [->|Hk].
    + rewrite Hi' in Hs. inversion Hs; subst s. cbn [released tSalt]. apply next_salt_ok; [lia|]. eapply iv_salt; eassumption.
    + destruct (Hback k s Hk Hs) as (s0 & Hs0 & FN & _). apply frameN_fields in FN. destruct FN as (-> & _). eapply iv_salt; eassumption.
  - intros k s h0 Hs Hh0. destruct (Nat.eq_dec k i) as [->|Hk].
    + rewrite Hi' in Hs. inversion Hs; subst s. discriminate.
    + destruct (Hback k s Hk Hs) as (s0 & Hs0 & FN & V). pose proof (frameN_fields _ _ FN) as (_ & Eh & _).
      pose proof (iv_tile _ _ HI k s0 h0 Hs0 ltac:(congruence)) as T0. eapply tileOK_frame; [exact T0|exact FN|]. apply V. apply T0.
  - intros e. rewrite filter_In. split.
    + intros (He & Hne). apply (iv_A _ _ HI) in He. destruct He as (k & s & hk & Hs & Hhk & ->).
      assert (Hk : k <> i). { intros ->. apply negb_true_iff in Hne. cbn [eRef entry_of] in Hne. assert (i = i) as Ei' by auto.
        apply (same_tile_iff m A i s i t HI Hs ref Ei Es Ht) in Ei'. congruence. }
      destruct (Hoth k s Hk Hs) as (s' & Hs' & FN & _). pose proof (frameN_fields _ _ FN) as (E1 & E2 & E3 & _).
      exists k, s', hk. split; auto. split; [congruence|]. unfold entry_of. congruence.
    + intros (k & s & hk & Hs & Hhk & ->). destruct (Nat.eq_dec k i) as [->|Hk].
      * rewrite Hi' in Hs. inversion Hs; subst s. discriminate.
      * destruct (Hback k s Hk Hs) as (s0 & Hs0 & FN & _). pose proof (frameN_fields _ _ FN) as (E1 & E2 & E3 & _). split.
        -- apply (iv_A _ _ HI). exists k, s0, hk. split; auto. split; [congruence|]. unfold entry_of. congruence.
        -- apply negb_true_iff. cbn [eRef entry_of]. rewrite Eb, E1. destruct (same_tile _ _ _) eqn:Est; auto.
           exfalso. apply Hk. apply (same_tile_iff m A k s0 i t HI Hs0 ref Ei Es Ht). exact Est.
  - apply NoDup_map_filter. apply (iv_nodup _ _ HI).
Qed.

Theorem Run_inv : forall ok m A, Run ok m A -> Inv m A.
Proof.
  intros ok m A H. induction H as [p m st G E|m A data lastRef m' ref h HR IH Hl E Hh Hok|m A data lastRef m' st ref HR IH E Hst|m A ref m' data HR IH E|m A ref m' data st HR IH E Hst].
  - eapply inv_init; eassumption.
  - eapply inv_add; eassumption.
  - destruct (iv_view _ _ IH) as (free & bk & HV). destruct (AddTile_spec _ _ _ _ _ _ _ _ (iv_ok _ _ IH) HV E) as [(_ & -> & _)|(Hx & _)]; [exact IH|contradiction].
  - eapply inv_remove; eassumption.
  - destruct (inv_bits _ _ IH) as (_ & _ & _ & _ & _ & Hsz & _). destruct (iv_view _ _ IH) as (free & bk & HV).
    destruct (RemoveTile_cases _ _ _ _ _ (iv_ok _ _ IH) Hsz (proj1 (inv_dec_tile _ _ _ IH)) E) as [(_ & -> & _)|(i & t & hdr & Ht & Hh & Hr & Ei & Es)]; [exact IH|].
    destruct (inv_base m A i t IH Ht) as (D1 & _).
    destruct (RemoveTile_live m free bk ref i t hdr (iv_ok _ _ IH) Hsz HV (iv_tile _ _ IH) Ht Hh Hr Ei Es D1) as (m2 & bk' & n & vis & E2 & _).
    rewrite E in E2. apply Ok_inj in E2. inversion E2. contradiction.
Qed.
