(** Proofs about taking a tile slot, hashing a tile in and out, and releasing its slot. *)
From Coq Require Import ZArith List Bool Lia Permutation.
From Verif.Base Require Import Res GoNum F32 Num Grid.
From Verif.Model Require Import Status Poly PolyRef Bounds Geom MeshTypes Serial MeshLinks MeshTiles.
From Verif.Spec Require Import LinkSpec MeshSpec.
From Verif.Proofs Require Import LinkProofs IntLinkProofs MeshStep TableProofs.
Import ListNotations.
Open Scope Z_scope.

(** Everything but the Next pointer. *)
Definition no_next (t : MeshTile) : MeshTile := set_tNext t None.
(** Everything but the tiles, the free list and the buckets. *)
Definition fixed (m : NavMesh) := (mParams m, mMaxTiles m, mLUTSize m, mLUTMask m, zlen (mPosLookup m), mBits m).

Lemma no_next_set : forall t n, no_next (set_tNext t n) = no_next t.
Proof. reflexivity. Qed.
Lemma map_no_next_upd : forall ts i t n, nth_error ts i = Some t -> map no_next (upd ts i (set_tNext t n)) = map no_next ts.
Proof. intros ts i t n H. rewrite map_upd, no_next_set. apply upd_self. now apply map_nth_error. Qed.
Lemma no_next_header : forall t t', no_next t' = no_next t -> tHeader t' = tHeader t /\ tDataSize t' = tDataSize t /\ tSalt t' = tSalt t /\ tD t' = tD t /\ tLinksFree t' = tLinksFree t /\ tData t' = tData t /\ tFlags t' = tFlags t.
Proof. intros t t' H. unfold no_next, set_tNext in H. inversion H. auto 10. Qed.
Lemma no_next_nth : forall ts ts' i t, map no_next ts' = map no_next ts -> nth_error ts i = Some t ->
  exists t', nth_error ts' i = Some t' /\ no_next t' = no_next t.
Proof. intros ts ts' i t E H. pose proof (map_nth_error no_next _ _ H) as Hm. rewrite <- E in Hm. now apply map_nth_inv in Hm. Qed.

Lemma NoDup_cover_perm : forall {A} (l k : list A), Permutation l k -> NoDup l -> NoDup k.
Proof. intros. eapply Permutation_NoDup; eassumption. Qed.

(** ** Taking a slot *)
Lemma alloc_slot_view : forall m free bk lastRef m1 i, mesh_ok m -> TableView m free [] bk ->
  alloc_slot m lastRef = Ok (m1, i) ->
  fixed m1 = fixed m /\ mPosLookup m1 = mPosLookup m /\
  exists f1 f2 t t1, free = f1 ++ i :: f2 /\ TableView m1 (f1 ++ f2) [i] bk /\
    nth_error (mTiles m) i = Some t /\ nth_error (mTiles m1) i = Some t1 /\
    tSalt t1 = (if lastRef =? 0 then tSalt t else decodePolyIDSalt (mBits m) lastRef) /\
    (forall k, k <> i -> option_map no_next (nth_error (mTiles m1) k) = option_map no_next (nth_error (mTiles m) k)) /\
    length (mTiles m1) = length (mTiles m) /\
    (lastRef = 0 -> f1 = []) /\ (lastRef <> 0 -> i = Z.to_nat (i32 (decodePolyIDTile (mBits m) lastRef)) /\ 0 <= i32 (decodePolyIDTile (mBits m) lastRef)).
Proof.
  intros m free bk lastRef m1 i Hok HV H. destruct HV as (Hf & HB & Hn & Hcov & Hfree & Hbk & Hdist).
  unfold alloc_slot in H. destruct (Z.eqb_spec lastRef 0) as [El|El].
  - destruct (mNextFree m) as [k|] eqn:Ef; [|discriminate]. apply bind_ok in H. destruct H as (t & Ht & H). apply tile_of_nth in Ht.
    apply Ok_inj in H. inversion H; subst m1 k; clear H. split; [reflexivity|]. split; [reflexivity|].
    inversion Hf as [|? t' l Ht' Hf']; subst. rewrite Ht in Ht'. inversion Ht'; subst t'.
    set (ts1 := upd (mTiles m) i (set_tNext t None)).
    exists [], l, t, (set_tNext t None). split; auto.
    cbn [app] in Hn. apply NoDup_cons_iff in Hn. destruct Hn as (Hi & Hn).
    assert (Hik : ~ In i l /\ ~ In i (concat bk)) by (rewrite !in_app_iff in Hi; tauto).
    assert (Hne : forall k, k <> i -> nth_error ts1 k = nth_error (mTiles m) k) by (intros; unfold ts1; now apply nth_error_upd_neq).
    split.
    { cbn [app]. split; [|split; [|split; [|split; [|split; [|split]]]]].
      - change (TChain ts1 (tNext t) l). apply TChain_upd; tauto.
      - change (Forall2 (TChain ts1) (mPosLookup m) bk).
        assert (G : forall b, In b bk -> ~ In i b) by (intros b Hb Hib; apply Hik; apply in_concat; eauto).
        clear - HB G. induction HB as [|h b hs bs Hb HB IH]; constructor.
        + apply TChain_upd; auto. apply G. left. reflexivity.
        + apply IH. intros b' Hb'. apply G. right. assumption.
      - cbn [app] in Hn. rewrite NoDup_app_iff'. rewrite NoDup_app_iff' in Hn. destruct Hn as (A & B & C). split; auto. split.
        + cbn [app]. constructor; tauto.
        + intros x Hx [<-|Hx']; [tauto|]. apply (C x); auto.
      - intros k Hk. change (k < length ts1)%nat in Hk. unfold ts1 in Hk. rewrite upd_length in Hk. specialize (Hcov k Hk).
        cbn [app] in Hcov. cbn [app] in *. destruct Hcov as [<-|Hc]; [|rewrite !in_app_iff in *; cbn [In]; tauto].
        rewrite !in_app_iff. cbn. tauto.
      - intros k Hk. assert (k <> i) by (intros ->; tauto). change (exists t0, nth_error ts1 k = Some t0 /\ tHeader t0 = None /\ tDataSize t0 = 0).
        rewrite Hne by assumption. apply Hfree. right. assumption.
      - intros k b j Hk Hj. assert (j <> i) by (intros ->; apply Hik; apply in_concat; exists b; split; auto; eapply nth_error_In; exact Hk).
        destruct (Hbk k b j Hk Hj) as (h & (t0 & Ht0 & Hh) & E). exists h. split; [|exact E]. exists t0. split; auto.
        change (nth_error ts1 j = Some t0). now rewrite Hne.
      - intros j k h h' Hj Hk (t0 & Ht0 & Hh0) (t2 & Ht2 & Hh2). assert (j <> i) by (intros ->; tauto). assert (k <> i) by (intros ->; tauto).
        change (nth_error ts1 j = Some t0) in Ht0. change (nth_error ts1 k = Some t2) in Ht2. rewrite Hne in Ht0, Ht2 by assumption.
        apply Hdist; auto; [exists t0|exists t2]; auto. }
    split; auto. split; [change (nth_error ts1 i = Some (set_tNext t None)); apply nth_error_upd_eq; apply nth_error_Some; congruence|].
    split; [reflexivity|]. split; [intros k Hk; change (option_map no_next (nth_error ts1 k) = option_map no_next (nth_error (mTiles m) k)); now rewrite Hne|].
    split; [change (length ts1 = length (mTiles m)); apply upd_length|]. split; auto. intros. contradiction.
  - set (ti := i32 (decodePolyIDTile (mBits m) lastRef)) in *. destruct (mMaxTiles m <=? ti); [discriminate|].
    apply bind_ok in H. destruct H as (tt & Htt & H). apply get_ok in Htt. destruct Htt as [Hti Htt]. set (tg := Z.to_nat ti) in *.
    assert (Hfl : (length free < chain_fuel m)%nat).
    { unfold chain_fuel. rewrite NoDup_app_iff' in Hn. destruct Hn as (Hn & _). pose proof (TChain_length _ _ _ Hf Hn). lia. }
    destruct (chain_prev_spec (mTiles m) tg (mNextFree m) free Hf (chain_fuel m) None Hfl) as [(a & b & -> & Ha & E)|(_ & E)];
      rewrite E in H; cbn [bind] in H; [|discriminate].
    apply bind_ok in H. destruct H as (t0 & Ht0 & H). apply tile_of_nth in Ht0. rewrite Htt in Ht0. inversion Ht0; subst t0.
    apply bind_ok in H. destruct H as (m2 & Hm2 & H). apply bind_ok in H. destruct H as (t2 & Ht2 & H). apply tile_of_nth in Ht2.
    apply Ok_inj in H. inversion H; subst m1 i. clear H.
    assert (Hnd : NoDup (a ++ tg :: b)) by (rewrite NoDup_app_iff' in Hn; tauto).
    assert (Hpart : fixed m2 = fixed m /\ mPosLookup m2 = mPosLookup m /\ TChain (mTiles m2) (mNextFree m2) (a ++ b) /\
              map no_next (mTiles m2) = map no_next (mTiles m) /\
              (forall k t', ~ In k a -> nth_error (mTiles m2) k = Some t' -> nth_error (mTiles m) k = Some t')).
    { destruct (last_opt_cases a) as [(-> & L)|(a0 & x & -> & L)]; rewrite L in Hm2.
      - apply Ok_inj in Hm2. subst m2. split; [reflexivity|]. split; [reflexivity|]. split; [|split; [reflexivity|auto]].
        cbn [app] in *. inversion Hf as [|? t' l Ht' Hf']; subst. rewrite Htt in Ht'. inversion Ht'; subst t'. exact Hf'.
      - unfold set_next in Hm2. apply bind_ok in Hm2. destruct Hm2 as (tx & Hx & Hm2). apply tile_of_nth in Hx. apply Ok_inj in Hm2. subst m2.
        split; [reflexivity|]. split; [reflexivity|]. split; [|split].
        + cbn [set_tile mTiles mNextFree set_mTiles]. eapply TChain_unhook; eassumption.
        + cbn [set_tile mTiles set_mTiles]. now apply map_no_next_upd.
        + intros k t' Hk. cbn [set_tile mTiles set_mTiles]. rewrite nth_error_upd_neq; auto. intros ->. apply Hk. rewrite in_app_iff. right. left. reflexivity. }
    destruct Hpart as (Efix & EP & Hch & Emap & Hkeep).
    assert (t2 = tt).
    { apply Hkeep in Ht2; auto. rewrite Htt in Ht2. now inversion Ht2. }
    subst t2. set (s := decodePolyIDSalt (mBits m2) lastRef).
    assert (EB : mBits m2 = mBits m) by (unfold fixed in Efix; congruence).
    assert (EM : mLUTMask m2 = mLUTMask m) by (unfold fixed in Efix; congruence).
    set (ts1 := upd (mTiles m2) tg (set_tSalt tt s)).
    assert (HL : length (mTiles m2) = length (mTiles m)) by (apply (f_equal (@length _)) in Emap; now rewrite !map_length in Emap).
    split; [exact Efix|]. split; [exact EP|].
    exists a, b, tt, (set_tSalt tt s). split; auto.
    assert (Hdisj : ~ In tg a /\ ~ In tg b /\ ~ In tg (concat bk) /\ forall x, In x a -> ~ In x (concat bk)).
    { cbn [app] in Hn. rewrite NoDup_app_iff' in Hn. destruct Hn as (_ & _ & Hd). apply NoDup_app_iff' in Hnd. destruct Hnd as (_ & Hb & _).
      apply NoDup_cons_iff in Hb. split; auto. split; [tauto|]. split.
      - apply Hd. rewrite in_app_iff. right. left. reflexivity.
      - intros x Hx. apply Hd. rewrite in_app_iff. auto. }
    destruct Hdisj as (Da & Db & Dc & Dd).
    assert (Hget : forall k t', k <> tg -> nth_error (mTiles m) k = Some t' -> exists t'', nth_error ts1 k = Some t'' /\ no_next t'' = no_next t').
    { intros k t' Hk Hkt. unfold ts1. rewrite nth_error_upd_neq by assumption. eapply no_next_nth; eassumption. }
    assert (Hgetb : forall k t', k <> tg -> nth_error ts1 k = Some t' -> exists t'', nth_error (mTiles m) k = Some t'' /\ no_next t'' = no_next t').
    { intros k t' Hk Hkt. unfold ts1 in Hkt. rewrite nth_error_upd_neq in Hkt by assumption. eapply no_next_nth; [symmetry|]; eassumption. }
    split.
    { split; [|split; [|split; [|split; [|split; [|split]]]]].
      - change (TChain ts1 (mNextFree m2) (a ++ b)). apply TChain_upd; auto. rewrite in_app_iff. tauto.
      - change (Forall2 (TChain ts1) (mPosLookup m2) bk). rewrite EP.
        assert (G : forall b', In b' bk -> forall k, In k b' -> k <> tg /\ ~ In k a).
        { intros b' Hb' k Hk. assert (In k (concat bk)) by (apply in_concat; eauto). split; [intros ->; contradiction|]. intros Hka. eapply Dd; eauto. }
        clear - HB G Hkeep Emap. induction HB as [|h b' hs bs Hb HB IH]; constructor.
        + eapply TChain_frame; [|exact Hb]. intros k t Hk Ht. destruct (G b' (or_introl eq_refl) k Hk) as (G1 & G2).
          destruct (no_next_nth (mTiles m) (mTiles m2) k t Emap Ht) as (t' & Ht' & _). exists t'. split.
          * unfold ts1. now rewrite nth_error_upd_neq.
          * apply Hkeep in Ht'; auto. congruence.
        + apply IH. intros b'' Hb''. apply G. right. assumption.
      - cbn [app] in *. rewrite NoDup_app_iff'. rewrite NoDup_app_iff' in Hn. destruct Hn as (_ & B & C).
        apply NoDup_app_iff' in Hnd. destruct Hnd as (N1 & N2 & N3). apply NoDup_cons_iff in N2. destruct N2 as (_ & N2). split; [|split].
        + apply NoDup_app_iff'. split; auto. split; auto. intros x Hx Hx'. apply (N3 x Hx). right. assumption.
        + constructor; auto.
        + intros x Hx [<-|Hx']; [rewrite in_app_iff in Hx; tauto|]. apply (C x); auto. rewrite in_app_iff in *. cbn [In]. tauto.
      - intros k Hk. change (k < length ts1)%nat in Hk. unfold ts1 in Hk. rewrite upd_length, HL in Hk. specialize (Hcov k Hk).
        cbn [app] in *. rewrite !in_app_iff in *. cbn [In] in *. tauto.
      - intros k Hk. assert (k <> tg) by (intros ->; rewrite in_app_iff in Hk; tauto).
        destruct (Hfree k) as (t' & Ht' & Hh & Hd); [rewrite in_app_iff in *; cbn [In]; tauto|].
        destruct (Hget k t') as (t'' & Ht'' & En); auto. apply no_next_header in En. exists t''. split; [exact Ht''|]. intuition congruence.
      - intros k b' j Hk Hj. assert (j <> tg) by (intros ->; apply Dc; apply in_concat; exists b'; split; auto; eapply nth_error_In; exact Hk).
        destruct (Hbk k b' j Hk Hj) as (h & (t' & Ht' & Hh) & Eh). destruct (Hget j t') as (t'' & Ht'' & En); auto.
        apply no_next_header in En. exists h. split; [exists t''; split; [exact Ht''|intuition congruence]|].
        change (computeTileHash (hX h) (hY h) (mLUTMask m2) = Z.of_nat k). now rewrite EM.
      - intros j k h h' Hj Hk (t' & Ht' & Hh') (t'' & Ht'' & Hh''). assert (j <> tg) by (intros ->; contradiction). assert (k <> tg) by (intros ->; contradiction).
        destruct (Hgetb j t') as (u & Hu & Eu); auto. destruct (Hgetb k t'') as (v & Hv & Ev); auto.
        apply no_next_header in Eu, Ev. apply Hdist; auto; [exists u|exists v]; intuition congruence. }
    split; auto. split; [change (nth_error ts1 tg = Some (set_tSalt tt s)); apply nth_error_upd_eq; apply nth_error_Some; congruence|].
    split; [cbn [tSalt set_tSalt]; unfold s; now rewrite EB|].
    split.
    { intros k Hk. change (option_map no_next (nth_error ts1 k) = option_map no_next (nth_error (mTiles m) k)).
      destruct (nth_error (mTiles m) k) as [t'|] eqn:Ek.
      - destruct (Hget k t' Hk Ek) as (t'' & -> & En). cbn. now rewrite En.
      - destruct (nth_error ts1 k) as [t''|] eqn:Ek'; auto. destruct (Hgetb k t'' Hk Ek') as (u & Hu & _). congruence. }
    split; [change (length ts1 = length (mTiles m)); unfold ts1; now rewrite upd_length|]. split; [intros; contradiction|auto].
Qed.

Lemma alloc_slot_free : forall m i, mNextFree m = Some i -> (i < length (mTiles m))%nat -> exists m1, alloc_slot m 0 = Ok (m1, i).
Proof.
  intros m i E Hi. unfold alloc_slot. rewrite Z.eqb_refl, E. destruct (nth_error_in_range (mTiles m) i Hi) as (t & Ht).
  apply tile_of_nth in Ht. rewrite Ht. cbn [bind]. eauto.
Qed.

(** ** Hashing a tile in *)
Definition installed (t : MeshTile) (hdr : MeshHeader) (data : list Z) (td : TileData) (ls : list Link) (head : option nat) : MeshTile :=
  mkTile (tSalt t) 0 (Some hdr) (set_tdLinks td ls) data (i32 (zlen data)) 0 head.

Lemma install_view : forall m free i bk hdr data m2, mesh_ok m -> TableView m free [i] bk ->
  (forall j h, In j (concat bk) -> live m j h -> loc h <> loc hdr) ->
  install m i hdr data = Ok m2 ->
  fixed m2 = fixed m /\ mNextFree m2 = mNextFree m /\
  exists bk' b t td ls head, TableView m2 free [] bk' /\
    bk' = upd bk (Z.to_nat (computeTileHash (hX hdr) (hY hdr) (mLUTMask m))) (i :: b) /\
    nth_error bk (Z.to_nat (computeTileHash (hX hdr) (hY hdr) (mLUTMask m))) = Some b /\
    nth_error (mTiles m) i = Some t /\ tile_unserialize hdr (skipn 100 data) = Ok td /\ free_links (tdLinks td) = Ok ls /\
    mTiles m2 = upd (mTiles m) i (installed t hdr data td ls head).
Proof.
  intros m free i bk hdr data m2 Hok HV Hloc H. destruct HV as (Hf & HB & Hn & Hcov & Hfree & Hbk & Hdist).
  unfold install in H. set (hh := computeTileHash (hX hdr) (hY hdr) (mLUTMask m)) in *.
  pose proof (hash_range m (hX hdr) (hY hdr) Hok) as Hr. fold hh in Hr.
  apply bind_ok in H. destruct H as (head & Hhead & H). apply bind_ok in H. destruct H as (lut & Hlut & H).
  apply bind_ok in H. destruct H as (t & Ht & H). apply bind_ok in H. destruct H as (td & Htd & H).
  apply bind_ok in H. destruct H as (ls & Hls & H). apply Ok_inj in H. subst m2. apply tile_of_nth in Ht.
  apply set_ok_upd in Hlut. destruct Hlut as [_ ->]. apply get_ok in Hhead. destruct Hhead as [_ Hhead].
  destruct (Forall2_nth _ _ _ _ _ HB Hhead) as (b & Hb & Hcb).
  fold (installed t hdr data td ls head). set (t2 := installed t hdr data td ls head). set (ts2 := upd (mTiles m) i t2).
  split; [unfold fixed; cbn [set_tile set_mPosLookup set_mTiles mParams mMaxTiles mLUTSize mLUTMask mPosLookup mBits]; now rewrite zlen_upd|].
  split; [reflexivity|].
  exists (upd bk (Z.to_nat hh) (i :: b)), b, t, td, ls, head.
  assert (Hi : ~ In i free /\ ~ In i (concat bk)).
  { rewrite NoDup_app_iff' in Hn. destruct Hn as (_ & Hn & Hd). cbn [app] in Hn. apply NoDup_cons_iff in Hn. split; [|tauto].
    intros Hx. apply (Hd i Hx). left. reflexivity. }
  destruct Hi as (Hi1 & Hi2).
  assert (Hgi : nth_error ts2 i = Some t2) by (apply nth_error_upd_eq; apply nth_error_Some; congruence).
  assert (Hne : forall k, k <> i -> nth_error ts2 k = nth_error (mTiles m) k) by (intros; unfold ts2; now apply nth_error_upd_neq).
  destruct (nth_error_split_upd _ _ _ Hb) as (ca & cb & Ebk & _ & U).
  assert (Hperm : Permutation (free ++ [] ++ concat (upd bk (Z.to_nat hh) (i :: b))) (free ++ [i] ++ concat bk)).
  { apply Permutation_app_head. rewrite U, Ebk, !concat_app. cbn [concat app]. symmetry. rewrite app_assoc. rewrite <- (app_assoc (concat ca)). apply Permutation_middle. }
  split; [|split; [reflexivity|split; [exact Hb|split; [exact Ht|split; [exact Htd|split; [exact Hls|reflexivity]]]]]].
  assert (Hin : forall k, In k (concat (upd bk (Z.to_nat hh) (i :: b))) <-> k = i \/ In k (concat bk)).
  { intros k. rewrite U, Ebk, !concat_app. cbn [concat app]. rewrite !in_app_iff. cbn [In]. rewrite !in_app_iff. intuition congruence. }
  split; [|split; [|split; [|split; [|split; [|split]]]]].
  - change (TChain ts2 (mNextFree m) free). now apply TChain_upd.
  - change (Forall2 (TChain ts2) (upd (mPosLookup m) (Z.to_nat hh) (Some i)) (upd bk (Z.to_nat hh) (i :: b))).
    apply (Forall2_upd (TChain (mTiles m))); auto.
    + intros j x y Hj Hx Hy Hc. apply TChain_upd; auto. intros Hiy. apply Hi2. apply in_concat. exists y. split; auto. eapply nth_error_In; exact Hy.
    + apply (TChain_cons _ i t2); auto. unfold t2, installed. cbn [tNext]. apply TChain_upd; auto.
      intros Hib. apply Hi2. apply in_concat. exists b. split; auto. eapply nth_error_In; exact Hb.
  - eapply Permutation_NoDup; [apply Permutation_sym; exact Hperm|exact Hn].
  - intros k Hk. change (k < length ts2)%nat in Hk. unfold ts2 in Hk. rewrite upd_length in Hk.
    eapply Permutation_in; [apply Permutation_sym; exact Hperm|]. apply Hcov. exact Hk.
  - intros k Hk. assert (k <> i) by (intros ->; contradiction). change (exists t0, nth_error ts2 k = Some t0 /\ tHeader t0 = None /\ tDataSize t0 = 0).
    rewrite Hne by assumption. now apply Hfree.
  - intros k b' j Hk Hj. change (exists h, live (set_mTiles m ts2) j h /\ computeTileHash (hX h) (hY h) (mLUTMask m) = Z.of_nat k).
    rewrite nth_error_upd in Hk. destruct (Nat.eqb_spec k (Z.to_nat hh)) as [->|Hkh].
    + rewrite Hb in Hk. inversion Hk; subst b'. destruct Hj as [<-|Hj].
      * exists hdr. split; [exists t2; split; [exact Hgi|reflexivity]|]. fold hh. lia.
      * assert (j <> i) by (intros ->; apply Hi2; apply in_concat; exists b; split; auto; eapply nth_error_In; exact Hb).
        destruct (Hbk _ _ _ Hb Hj) as (h & (t' & Ht' & Hh) & E). exists h. split; auto. exists t'. split; auto. change (nth_error ts2 j = Some t'). now rewrite Hne.
    + assert (j <> i) by (intros ->; apply Hi2; apply in_concat; exists b'; split; auto; eapply nth_error_In; exact Hk).
      destruct (Hbk _ _ _ Hk Hj) as (h & (t' & Ht' & Hh) & E). exists h. split; auto. exists t'. split; auto. change (nth_error ts2 j = Some t'). now rewrite Hne.
  - intros j k h h' Hj Hk (tj & Htj & Hhj) (tk & Htk & Hhk) El. change (nth_error ts2 j = Some tj) in Htj. change (nth_error ts2 k = Some tk) in Htk.
    apply Hin in Hj. apply Hin in Hk.
    destruct (Nat.eq_dec j i) as [->|Nj]; destruct (Nat.eq_dec k i) as [->|Nk]; auto.
    + exfalso. rewrite Hgi in Htj. inversion Htj; subst tj. cbn in Hhj. inversion Hhj; subst h. rewrite Hne in Htk by assumption.
      apply (Hloc k h'); [tauto|exists tk; auto|congruence].
    + exfalso. rewrite Hgi in Htk. inversion Htk; subst tk. cbn in Hhk. inversion Hhk; subst h'. rewrite Hne in Htj by assumption.
      apply (Hloc j h); [tauto|exists tj; auto|congruence].
    + rewrite Hne in Htj, Htk by assumption. apply (Hdist j k h h'); [tauto|tauto|exists tj; auto|exists tk; auto|exact El].
Qed.

(** ** Hashing a tile out *)
Lemma unhash_view : forall m free bk i hdr, mesh_ok m -> TableView m free [] bk -> live m i hdr ->
  exists m' bk', unhash m i hdr = Ok m' /\ fixed m' = fixed m /\ mNextFree m' = mNextFree m /\
    map no_next (mTiles m') = map no_next (mTiles m) /\ TableView m' free [i] bk' /\
    (forall k, In k (concat bk') <-> k <> i /\ In k (concat bk)).
Proof.
  intros m free bk i hdr Hok HV Hlive.
  destruct (bucket_at m free [] bk (hX hdr) (hY hdr) Hok HV) as (head & b & Hg & Hb & Hc & Hnb).
  assert (Hib : In i b) by (eapply bucket_live; eauto). pose proof HV as (Hf & HB & Hn & Hcov & Hfree & Hbk & Hdist).
  unfold unhash. set (hh := computeTileHash (hX hdr) (hY hdr) (mLUTMask m)) in *. rewrite Hg. cbn [bind].
  assert (Hlen : (length b < chain_fuel m)%nat) by (unfold chain_fuel; pose proof (TChain_length _ _ _ Hc Hnb); lia).
  destruct (chain_prev_spec (mTiles m) i head b Hc (chain_fuel m) None Hlen) as [(a & b2 & -> & Ha & E)|(Hx & _)]; [|contradiction].
  rewrite E. cbn [bind]. destruct Hlive as (t & Ht & Hh). assert (Ht' := Ht). apply tile_of_nth in Ht'. rewrite Ht'. cbn [bind].
  pose proof (hash_range m (hX hdr) (hY hdr) Hok) as Hr. fold hh in Hr.
  destruct (nth_error_split_upd _ _ _ Hb) as (ca & cb & Ebk & Lca & U).
  (* the new buckets *)
  set (bk' := upd bk (Z.to_nat hh) (a ++ b2)).
  assert (Hperm : Permutation (i :: concat bk') (concat bk)).
  { unfold bk'. rewrite U, Ebk, !concat_app. cbn [concat]. rewrite <- !app_assoc. cbn [app]. rewrite !app_assoc.
    rewrite <- (app_assoc (concat ca ++ a)). apply Permutation_middle. }
  assert (Hnbk : NoDup (concat bk)) by (cbn [app] in Hn; rewrite NoDup_app_iff' in Hn; tauto).
  assert (Hnd2 : NoDup (i :: concat bk')) by (eapply Permutation_NoDup; [apply Permutation_sym; exact Hperm|exact Hnbk]).
  apply NoDup_cons_iff in Hnd2. destruct Hnd2 as (Hi' & Hnd2).
  assert (Hin : forall k, In k (concat bk') <-> k <> i /\ In k (concat bk)).
  { intros k. split.
    - intros Hk. split; [intros ->; contradiction|]. eapply Permutation_in; [exact Hperm|]. right. assumption.
    - intros (Hk & Hk'). eapply Permutation_in in Hk'; [|apply Permutation_sym; exact Hperm]. destruct Hk' as [->|]; [contradiction|assumption]. }
  assert (Hif : ~ In i free).
  { intros Hx. destruct (Hfree i Hx) as (t0 & Ht0 & Hn0 & _). congruence. }
  (* common conclusion *)
  assert (Final : forall m', fixed m' = fixed m -> mNextFree m' = mNextFree m -> map no_next (mTiles m') = map no_next (mTiles m) ->
            (forall k t0, (~ In k a) -> nth_error (mTiles m) k = Some t0 -> nth_error (mTiles m') k = Some t0) ->
            length (mPosLookup m') = length (mPosLookup m) ->
            (forall k, k <> Z.to_nat hh -> nth_error (mPosLookup m') k = nth_error (mPosLookup m) k) ->
            (exists head', nth_error (mPosLookup m') (Z.to_nat hh) = Some head' /\ TChain (mTiles m') head' (a ++ b2)) ->
            TableView m' free [i] bk').
  { intros m' Efix EF Emap Hsame HLlen HL (head' & Hh' & Hch').
    assert (EM : mLUTMask m' = mLUTMask m) by (unfold fixed in Efix; congruence).
    assert (Hafree : forall k, In k free -> ~ In k a).
    { intros k Hk Hka. cbn [app] in Hn. rewrite NoDup_app_iff' in Hn. destruct Hn as (_ & _ & Hd). apply (Hd k Hk).
      apply in_concat. exists (a ++ i :: b2). split; [eapply nth_error_In; exact Hb|rewrite in_app_iff; auto]. }
    assert (Hpre : forall s l, TChain (mTiles m) s l -> (forall k, In k l -> ~ In k a) -> TChain (mTiles m') s l).
    { intros s l Hs Hl. eapply TChain_frame; [|exact Hs]. intros k t0 Hk Hkt. exists t0. split; auto. }
    split; [|split; [|split; [|split; [|split; [|split]]]]].
    - rewrite EF. apply Hpre; auto.
    - rewrite <- (upd_self (mPosLookup m') (Z.to_nat hh) head' Hh').
      assert (upd (mPosLookup m') (Z.to_nat hh) head' = upd (mPosLookup m) (Z.to_nat hh) head') as ->.
      { apply nth_error_ext'. intros k. rewrite !nth_error_upd. destruct (Nat.eqb_spec k (Z.to_nat hh)); auto.
        rewrite Hh'. apply get_ok in Hg. destruct Hg as [_ Hg]. now rewrite Hg. }
      apply (Forall2_upd (TChain (mTiles m))); auto.
      intros k x y Hk Hx Hy Hc'. apply Hpre; auto. intros j Hj Hja.
      rewrite Ebk in Hnbk, Hy. 
      assert (In j (concat ca) \/ In j (concat cb)) as Hjj.
      { destruct (Nat.lt_ge_cases k (length ca)).
        - rewrite nth_error_app1 in Hy by lia. left. apply in_concat. exists y. split; auto. eapply nth_error_In; exact Hy.
        - rewrite nth_error_app2 in Hy by lia. destruct (k - length ca)%nat as [|q] eqn:Eq; [lia|]. cbn in Hy. right. apply in_concat. exists y. split; auto. eapply nth_error_In; exact Hy. }
      rewrite concat_app in Hnbk. cbn [concat] in Hnbk. rewrite !NoDup_app_iff' in Hnbk. destruct Hnbk as (_ & (_ & _ & N1) & N2).
      destruct Hjj as [Hjj|Hjj].
      + apply (N2 j Hjj). rewrite !in_app_iff. auto.
      + apply (N1 j); auto. rewrite in_app_iff. auto.
    - rewrite NoDup_app_iff'. cbn [app] in Hn. rewrite NoDup_app_iff' in Hn. destruct Hn as (N1 & N2 & N3). split; auto. split.
      + cbn [app]. constructor; auto.
      + intros x Hx [<-|Hx']; [contradiction|]. apply (N3 x Hx). apply Hin in Hx'. tauto.
    - intros k Hk. assert (length (mTiles m') = length (mTiles m)) as HLt by (apply (f_equal (@length _)) in Emap; now rewrite !map_length in Emap).
      rewrite HLt in Hk. specialize (Hcov k Hk). cbn [app] in *. rewrite !in_app_iff in *. cbn [In]. destruct (Nat.eq_dec k i); [auto|].
      destruct Hcov as [?|Hcc]; auto. right. right. apply Hin. auto.
    - intros k Hk. destruct (Hfree k Hk) as (t0 & Ht0 & Hh0 & Hd0). exists t0. split; auto.
    - intros k b' j Hk Hj. assert (In j (concat bk')) as Hjc by (apply in_concat; exists b'; split; auto; eapply nth_error_In; exact Hk).
      unfold bk' in Hk. rewrite nth_error_upd in Hk. rewrite EM.
      assert (G : exists b0, nth_error bk k = Some b0 /\ In j b0).
      { destruct (Nat.eqb_spec k (Z.to_nat hh)) as [->|_]; [|eauto]. rewrite Hb in Hk. inversion Hk; subst b'. eexists. split; [exact Hb|].
        rewrite in_app_iff in *. cbn [In]. tauto. }
      destruct G as (b0 & Hb0 & Hj0). destruct (Hbk k b0 j Hb0 Hj0) as (h & (t0 & Ht0 & Hh0) & Eh). exists h. split; auto.
      destruct (no_next_nth _ (mTiles m') j t0 Emap Ht0) as (t1 & Ht1 & E1). apply no_next_header in E1. exists t1. split; auto. intuition congruence.
    - intros j k h h' Hj Hk (t0 & Ht0 & Hh0) (t1 & Ht1 & Hh1). apply Hin in Hj, Hk.
      destruct (no_next_nth _ (mTiles m) j t0 (eq_sym Emap) Ht0) as (u & Hu & Eu). destruct (no_next_nth _ (mTiles m) k t1 (eq_sym Emap) Ht1) as (v & Hv & Ev).
      apply no_next_header in Eu, Ev. apply Hdist; try tauto; [exists u|exists v]; intuition congruence. }
  destruct (last_opt_cases a) as [(-> & L)|(a0 & x & -> & L)]; rewrite L.
  - rewrite set_in_range by exact Hr. cbn [bind]. eexists _, bk'. split; [reflexivity|].
    split; [unfold fixed; cbn [set_mPosLookup mParams mMaxTiles mLUTSize mLUTMask mPosLookup mBits]; now rewrite zlen_upd|].
    split; [reflexivity|]. split; [reflexivity|]. split; [|exact Hin]. apply Final.
    + unfold fixed. cbn [set_mPosLookup mParams mMaxTiles mLUTSize mLUTMask mPosLookup mBits]. now rewrite zlen_upd.
    + reflexivity.
    + reflexivity.
    + auto.
    + apply upd_length.
    + intros k Hk. now apply nth_error_upd_neq.
    + exists (tNext t). split; [apply nth_error_upd_eq; unfold zlen in Hr; lia|]. cbn [app].
      change (TChain (mTiles m) (tNext t) b2). inversion Hc as [|? t' ? Ht0 Hc']; subst. rewrite Ht in Ht0. inversion Ht0; subst. exact Hc'.
  - unfold set_next. destruct (TChain_split (mTiles m) a0 x (i :: b2) head) as (tx & Htx & _); [now rewrite <- app_assoc in Hc|].
    assert (Htx' := Htx). apply tile_of_nth in Htx'. rewrite Htx'. cbn [bind]. eexists _, bk'. split; [reflexivity|].
    split; [reflexivity|]. split; [reflexivity|]. split; [cbn [set_tile mTiles set_mTiles]; now apply map_no_next_upd|]. split; [|exact Hin].
    apply Final; auto.
    + cbn [set_tile mTiles set_mTiles]. now apply map_no_next_upd.
    + intros k t0 Hk Hkt. cbn [set_tile mTiles set_mTiles]. rewrite nth_error_upd_neq; auto. intros ->. apply Hk. rewrite in_app_iff. right. left. reflexivity.
    + exists head. split; [apply get_ok in Hg; tauto|]. cbn [set_tile mTiles set_mTiles]. eapply TChain_unhook; eassumption.
Qed.

(** ** Returning a slot *)
Definition released (b : IdBits) (t : MeshTile) (next : option nat) : MeshTile := mkTile (next_salt b (tSalt t)) 0 None noData [] 0 0 next.
Lemma release_view : forall m free bk i t, TableView m free [i] bk -> nth_error (mTiles m) i = Some t ->
  exists m', release m i = Ok m' /\ fixed m' = fixed m /\ mPosLookup m' = mPosLookup m /\
    mTiles m' = upd (mTiles m) i (released (mBits m) t (mNextFree m)) /\ TableView m' (i :: free) [] bk.
Proof.
  intros m free bk i t (Hf & HB & Hn & Hcov & Hfree & Hbk & Hdist) Ht. unfold release.
  assert (Ht' := Ht). apply tile_of_nth in Ht'. rewrite Ht'. cbn [bind]. fold (released (mBits m) t (mNextFree m)).
  eexists. split; [reflexivity|]. split; [reflexivity|]. split; [reflexivity|]. split; [reflexivity|].
  set (t2 := released (mBits m) t (mNextFree m)). set (ts2 := upd (mTiles m) i t2).
  assert (Hi : ~ In i free /\ ~ In i (concat bk)).
  { rewrite NoDup_app_iff' in Hn. destruct Hn as (_ & Hn & Hd). cbn [app] in Hn. apply NoDup_cons_iff in Hn. split; [|tauto].
    intros Hx. apply (Hd i Hx). left. reflexivity. }
  destruct Hi as (Hi1 & Hi2).
  assert (Hgi : nth_error ts2 i = Some t2) by (apply nth_error_upd_eq; apply nth_error_Some; congruence).
  assert (Hne : forall k, k <> i -> nth_error ts2 k = nth_error (mTiles m) k) by (intros; unfold ts2; now apply nth_error_upd_neq).
  split; [|split; [|split; [|split; [|split; [|split]]]]].
  - change (TChain ts2 (Some i) (i :: free)). apply (TChain_cons _ i t2); auto. cbn [t2 released tNext]. now apply TChain_upd.
  - change (Forall2 (TChain ts2) (mPosLookup m) bk).
    assert (G : forall b, In b bk -> ~ In i b) by (intros b Hb Hib; apply Hi2; apply in_concat; eauto).
    clear - HB G. induction HB as [|h b hs bs Hb HB IH]; constructor.
    + apply TChain_upd; auto. apply G. left. reflexivity.
    + apply IH. intros b' Hb'. apply G. right. assumption.
  - eapply Permutation_NoDup; [|exact Hn]. cbn [app]. symmetry. apply Permutation_middle.
  - intros k Hk. change (k < length ts2)%nat in Hk. unfold ts2 in Hk. rewrite upd_length in Hk. specialize (Hcov k Hk).
    cbn [app] in *. rewrite in_app_iff in *. cbn [In] in *. rewrite in_app_iff. tauto.
  - intros k Hk. change (exists t0, nth_error ts2 k = Some t0 /\ tHeader t0 = None /\ tDataSize t0 = 0). destruct (Nat.eq_dec k i) as [->|Nk].
    + exists t2. split; auto.
    + rewrite Hne by assumption. apply Hfree. destruct Hk; [congruence|assumption].
  - intros k b j Hk Hj. assert (j <> i) by (intros ->; apply Hi2; apply in_concat; exists b; split; auto; eapply nth_error_In; exact Hk).
    destruct (Hbk k b j Hk Hj) as (h & (t0 & Ht0 & Hh) & E). exists h. split; [|exact E]. exists t0. split; auto.
    change (nth_error ts2 j = Some t0). now rewrite Hne.
  - intros j k h h' Hj Hk (t0 & Ht0 & Hh0) (t1 & Ht1 & Hh1). assert (j <> i) by (intros ->; contradiction). assert (k <> i) by (intros ->; contradiction).
    change (nth_error ts2 j = Some t0) in Ht0. change (nth_error ts2 k = Some t1) in Ht1. rewrite Hne in Ht0, Ht1 by assumption.
    apply Hdist; auto; [exists t0|exists t1]; auto.
Qed.

(** ** The new mesh *)
Lemma TChain_fresh : forall n d k, (k + d = n)%nat ->
  TChain (map (fun i => freshTile (if Nat.ltb (S i) n then Some (S i) else None)) (seq 0 n)) (match d with O => None | _ => Some k end) (seq k d).
Proof.
  intros n. induction d as [|d IH]; intros k Hk; cbn [seq]; [constructor|].
  apply (TChain_cons _ k (freshTile (if Nat.ltb (S k) n then Some (S k) else None))).
  - rewrite (map_nth_error _ k (seq 0 n) (d := k)); auto. rewrite (nth_error_nth' (seq 0 n) O) by (rewrite seq_length; lia).
    rewrite seq_nth by lia. reflexivity.
  - cbn [tNext freshTile]. specialize (IH (S k)). destruct (Nat.ltb_spec (S k) n).
    + destruct d as [|d]; [lia|]. apply IH. lia.
    + destruct d as [|d]; [|lia]. apply IH. lia.
Qed.
Lemma Init_view : forall p m st, Init p = Ok (m, st) -> 0 <= npMaxTiles p < 2 ^ 31 ->
  mesh_ok m /\ TableView m (seq 0 (Z.to_nat (npMaxTiles p))) [] (repeat [] (length (mPosLookup m))) /\
  mParams m = p /\ mBits m = init_bits (npMaxTiles p) (npMaxPolys p) /\ length (mTiles m) = Z.to_nat (npMaxTiles p) /\
  (forall i t, nth_error (mTiles m) i = Some t -> exists n, t = freshTile n).
Proof.
  intros p m st H Hp. unfold Init in H.
  assert (Em : i32 (npMaxTiles p) = npMaxTiles p) by (apply i32_id; unfold is_i32; lia). rewrite Em in H.
  set (lut0 := i32 (NextPow2 (npMaxTiles p / 4))) in *. set (lut := if lut0 =? 0 then 1 else lut0) in *.
  apply bind_ok in H. destruct H as (n & Hn & H). apply bind_ok in H. destruct H as (nl & Hnl & H). apply Ok_inj in H. inversion H; subst m; clear H.
  unfold make_len in Hn, Hnl. destruct (_ <? 0) in Hn; [discriminate|]. apply Ok_inj in Hn.
  destruct (Z.ltb_spec lut 0) as [|Hlut]; [discriminate|]. apply Ok_inj in Hnl. 
  assert (Hlut1 : 1 <= lut < 2147483648).
  { split; [|unfold lut, lut0; destruct (_ =? 0); [lia|]; pose proof (i32_range (NextPow2 (npMaxTiles p / 4))) as R; unfold is_i32 in R; lia].
    unfold lut in *. destruct (Z.eqb_spec lut0 0); lia. }
  assert (Hlen : length (map (fun i => freshTile (if Nat.ltb (S i) n then Some (S i) else None)) (seq 0 n)) = n) by now rewrite map_length, seq_length.
  rewrite Hn. split; [|split; [|split; [reflexivity|split; [reflexivity|split]]]].
  - unfold mesh_ok. cbn [mMaxTiles mTiles mLUTMask mPosLookup]. unfold zlen. rewrite Hlen, repeat_length. split; [lia|].
    rewrite i32_id by (unfold is_i32; lia). lia.
  - cbn [mPosLookup]. rewrite repeat_length. split; [|split; [|split; [|split; [|split; [|split]]]]]; cbn [mTiles mNextFree mPosLookup mLUTMask].
    + apply (TChain_fresh n n O). lia.
    + clear. induction nl as [|nl IH]; cbn [repeat]; constructor; auto. constructor.
    + cbn [app]. assert (concat (repeat (@nil nat) nl) = []) as -> by (clear; induction nl; auto). rewrite app_nil_r. apply seq_NoDup.
    + intros i Hi. rewrite Hlen in Hi. apply in_app_iff. left. apply in_seq. lia.
    + intros i Hi. apply in_seq in Hi. eexists. rewrite (map_nth_error _ i (seq 0 n) (d := i)); [split; [reflexivity|split; reflexivity]|].
      rewrite (nth_error_nth' (seq 0 n) O) by (rewrite seq_length; lia). rewrite seq_nth by lia. reflexivity.
    + intros k b i Hk Hi. apply nth_error_In in Hk. apply repeat_spec in Hk. subst b. destruct Hi.
    + intros i j h h' Hi. assert (concat (repeat (@nil nat) nl) = []) as E by (clear; induction nl; auto). rewrite E in Hi. destruct Hi.
  - exact Hlen.
  - intros i t Ht. cbn [mTiles] in Ht. apply map_nth_inv in Ht. destruct Ht as (k & _ & <-). eauto.
Qed.
