(** Consequences of the mesh invariant for histories: counts, references, salts. *)
From Coq Require Import ZArith List Bool Lia Permutation.
From Verif.Base Require Import Res GoNum F32 Num Grid Bytes.
From Verif.Model Require Import Status Poly PolyRef Bounds Geom MeshTypes Serial MeshLinks MeshTiles.
From Verif.Spec Require Import LinkSpec SerialSpec MeshSpec.
From Verif.Proofs Require Import BasicsProofs PolyRefProofs LinkProofs IntLinkProofs MeshStep TableProofs SlotProofs LinkTile MeshInv LinkValid FitProofs.
Import ListNotations.
Open Scope Z_scope.

Lemma Run_mono : forall (P Q : NavMesh -> list entry -> Prop) m A, (forall m A, P m A -> Q m A) -> Run P m A -> Run Q m A.
Proof.
  intros P Q m A HPQ H. induction H.
  - eapply Run_init; eassumption.
  - eapply Run_add; eauto.
  - eapply Run_add_fail; eauto.
  - eapply Run_remove; eauto.
  - eapply Run_remove_fail; eauto.
Qed.
Lemma Run_fits : forall m A, Run fits m A -> fits m A.
Proof.
  intros m A H. induction H; auto.
  - constructor.
  - unfold fits in *. apply Forall_forall. intros e He. apply filter_In in He. rewrite Forall_forall in IHRun. apply IHRun. tauto.
Qed.

(** ** Entries and slots *)
Definition slot_of (m : NavMesh) (e : entry) : nat := Z.to_nat (decodePolyIDTile (mBits m) (eRef e)).
Lemma entry_slot : forall m A e, Inv m A -> In e A ->
  exists t h, nth_error (mTiles m) (slot_of m e) = Some t /\ tHeader t = Some h /\ e = entry_of m (slot_of m e) t h /\
    decodePolyIDTile (mBits m) (eRef e) = Z.of_nat (slot_of m e) /\ decodePolyIDSalt (mBits m) (eRef e) = tSalt t /\ eRef e <> 0.
Proof.
  intros m A e HI He. apply (iv_A _ _ HI) in He. destruct He as (i & t & h & Ht & Hh & ->). destruct (inv_base m A i t HI Ht) as (D1 & D2 & D3).
  unfold slot_of. cbn [entry_of eRef]. rewrite D1, Nat2Z.id. exists t, h. auto 10.
Qed.
Lemma live_count : forall m A free bk, Inv m A -> TableView m free [] bk ->
  (length A + length free = length (mTiles m))%nat.
Proof.
  intros m A free bk HI HV. pose proof HV as (Hf & HB & Hn & Hcov & Hfree & Hbk & Hdist). cbn [app] in *.
  assert (HA : length A = length (concat bk)).
  { rewrite <- (map_length (slot_of m) A). apply Permutation_length. apply NoDup_Permutation.
    - assert (HN : forall e e', In e A -> In e' A -> slot_of m e = slot_of m e' -> e = e').
      { intros e e' He He' E. destruct (entry_slot m A e HI He) as (t & h & Ht & Hh & Ee & _). destruct (entry_slot m A e' HI He') as (t' & h' & Ht' & Hh' & Ee' & _).
        rewrite Ee, Ee'. rewrite E in *. congruence. }
      pose proof (iv_nodup _ _ HI) as HD. apply NoDup_map_inv in HD. clear -HD HN. induction HD as [|e l Hin HD IH]; cbn [map]; constructor.
      + intros Hx. apply in_map_iff in Hx. destruct Hx as (e' & E & He'). apply Hin. rewrite (HN e e'); [assumption|now left|now right|now symmetry].
      + apply IH. intros a c Ha Hc. apply HN; now right.
    - rewrite NoDup_app_iff' in Hn. tauto.
    - intros k. split.
      + intros Hk. apply in_map_iff in Hk. destruct Hk as (e & <- & He). destruct (entry_slot m A e HI He) as (t & h & Ht & Hh & _).
        eapply live_in_bucket; [exact HV|]. exists t. eauto.
      + intros Hk. destruct (bucket_is_live m free [] bk k HV Hk) as (h & t & Ht & Hh). apply in_map_iff. exists (entry_of m k t h). split.
        * unfold slot_of. cbn [entry_of eRef]. destruct (inv_base m A k t HI Ht) as (-> & _). apply Nat2Z.id.
        * apply (iv_A _ _ HI). eauto 10. }
  rewrite HA, Nat.add_comm, <- app_length. rewrite <- (seq_length (length (mTiles m)) 0). apply Permutation_length, NoDup_Permutation; auto; [apply seq_NoDup|].
  intros k. rewrite in_seq. split.
  - intros Hk. apply in_app_iff in Hk. destruct Hk as [Hk|Hk].
    + destruct (Hfree k Hk) as (t & Ht & _). split; [lia|]. cbn. apply nth_error_Some. congruence.
    + destruct (bucket_is_live m free [] bk k HV Hk) as (h & t & Ht & Hh). split; [lia|]. cbn. apply nth_error_Some. congruence.
  - intros (_ & Hk). apply Hcov. exact Hk.
Qed.
Lemma free_iff : forall m A free bk k, Inv m A -> TableView m free [] bk ->
  In k free <-> ((k < length (mTiles m))%nat /\ forall h, ~ live m k h).
Proof.
  intros m A free bk k HI HV. pose proof HV as (_ & _ & _ & Hcov & Hfree & _). split.
  - intros Hk. destruct (Hfree k Hk) as (t & Ht & Hn & _). split; [apply nth_error_Some; congruence|]. intros h (t' & Ht' & Hh). congruence.
  - intros (Hk & Hl). specialize (Hcov k Hk). cbn [app] in Hcov. apply in_app_iff in Hcov. destruct Hcov as [|Hb]; auto.
    destruct (bucket_is_live m free [] bk k HV Hb) as (h & Hh). exfalso. eapply Hl; exact Hh.
Qed.

(** ** Adding with and without free slots *)
Lemma add_result : forall m A data h, Run fits m A -> fit_data data h -> ~ In (loc h) (map eLoc A) ->
  ((length A < length (mTiles m))%nat -> exists m' ref, AddTile m data 0 = Ok (m', Success, ref)) /\
  ((length A >= length (mTiles m))%nat -> AddTile m data 0 = Exit).
Proof.
  intros m A data h HR HD Hloc. pose proof (Run_inv _ _ _ HR) as HI. destruct (iv_view _ _ HI) as (free & bk & HV). destruct (inv_bits _ _ HI) as (_ & _ & _ & _ & _ & Hsz & _).
  pose proof (live_count m A free bk HI HV) as HC. destruct (alloc_slot_total m free bk (iv_ok _ _ HI) Hsz HV) as (A1 & A2 & _).
  assert (Hl : forall k hk, live m k hk -> loc hk <> loc h).
  { intros k hk (t & Ht & Hh) E. apply Hloc. rewrite <- E. apply in_map_iff. exists (entry_of m k t hk). split; [reflexivity|]. apply (iv_A _ _ HI). eauto 10. }
  split; intros Hn.
  - destruct free as [|i f]; [cbn in HC; lia|]. destruct (A1 i f eq_refl) as (m1 & Ea).
    eapply AddTile_total; try eassumption; [apply (iv_ok _ _ HI)|]. eapply inv_fitM; [exact HI|now apply Run_fits].
  - destruct free as [|i f]; [|cbn in HC; lia]. destruct HD as (Hh & Em & Ev & _). unfold AddTile. rewrite Hh. cbn [bind]. rewrite Em, Ev, !Z.eqb_refl. cbn [negb].
    destruct (TileAt_spec m [] bk (hX h) (hY h) (hLayer h) (iv_ok _ _ HI) HV) as (o & -> & Ho). cbn [bind].
    destruct o as [x|]; [destruct Ho as (hk & Hlk & El); exfalso; eapply Hl; [exact Hlk|]; rewrite El; reflexivity|]. rewrite (A2 eq_refl). reflexivity.
Qed.
Lemma add_result_ref : forall m A data h r, Run fits m A -> fit_data data h -> ~ In (loc h) (map eLoc A) -> r <> 0 ->
  ((exists t, get (mTiles m) (decodePolyIDTile (mBits m) r) = Ok t /\ tHeader t = None) ->
     exists m', AddTile m data r = Ok (m', Success, encodePolyID (mBits m) (decodePolyIDSalt (mBits m) r) (decodePolyIDTile (mBits m) r) 0)) /\
  (~ (exists t, get (mTiles m) (decodePolyIDTile (mBits m) r) = Ok t /\ tHeader t = None) -> AddTile m data r = Exit).
Proof.
  intros m A data h r HR HD Hloc Hr. pose proof (Run_inv _ _ _ HR) as HI. destruct (iv_view _ _ HI) as (free & bk & HV). destruct (inv_bits _ _ HI) as (_ & _ & _ & _ & _ & Hsz & _).
  pose proof (inv_dec_tile m A r HI) as Hd.
  destruct (alloc_slot_total m free bk (iv_ok _ _ HI) Hsz HV) as (_ & _ & A3). destruct (A3 r Hr Hd) as (B1 & B2). clear A3.
  assert (Hl : forall k hk, live m k hk -> loc hk <> loc h).
  { intros k hk (t & Ht & Hh) E. apply Hloc. rewrite <- E. apply in_map_iff. exists (entry_of m k t hk). split; [reflexivity|]. apply (iv_A _ _ HI). eauto 10. }
  assert (Hfr : In (Z.to_nat (decodePolyIDTile (mBits m) r)) free <-> exists t, get (mTiles m) (decodePolyIDTile (mBits m) r) = Ok t /\ tHeader t = None).
  { rewrite (free_iff m A free bk _ HI HV). split.
    - intros (Hk & Hnl). destruct (nth_error_in_range _ _ Hk) as (t & Ht). exists t. split; [apply get_ok; split; [lia|exact Ht]|].
      destruct (tHeader t) eqn:E; auto. exfalso. eapply Hnl. exists t. eauto.
    - intros (t & Ht & Hn). apply get_ok in Ht. destruct Ht as (_ & Ht). split; [apply nth_error_Some; congruence|]. intros h0 (t0 & Ht0 & Hh0). congruence. }
  split; intros Hx.
  - apply Hfr in Hx. destruct (B1 Hx) as (m1 & Ea). assert (HF : fitM m) by (eapply inv_fitM; [exact HI|now apply Run_fits]).
    destruct (AddTile_total m free bk data r h m1 _ (iv_ok _ _ HI) HV HF HD Hl Ea) as (m' & ref & E).
    exists m'. rewrite E. do 2 f_equal. destruct (AddTile_spec _ _ _ _ _ _ _ _ (iv_ok _ _ HI) HV E) as [(Hbad & _)|(_ & hdr & i & f1 & f2 & bk' & t & t' & _ & _ & _ & _ & Fx & _ & _ & _ & _ & _ & _ & _ & Es & Er & _ & _ & _ & Hnz)]; [contradiction|].
    rewrite Er, Es. destruct (Z.eqb_spec r 0); [contradiction|]. destruct (Hnz Hr) as (Ei & _). rewrite i32_id in Ei by (unfold is_i32; lia). rewrite Ei, Z2Nat.id by lia. reflexivity.
  - destruct HD as (Hh & Em & Ev & _). unfold AddTile. rewrite Hh. cbn [bind]. rewrite Em, Ev, !Z.eqb_refl. cbn [negb].
    destruct (TileAt_spec m free bk (hX h) (hY h) (hLayer h) (iv_ok _ _ HI) HV) as (o & -> & Ho). cbn [bind].
    destruct o as [x|]; [destruct Ho as (hk & Hlk & El); exfalso; eapply Hl; [exact Hlk|]; rewrite El; reflexivity|]. rewrite B2; [reflexivity|]. intros Hin. apply Hx. now apply Hfr.
Qed.

(** ** References that are accepted and references that are not *)
Lemma lor_encode : forall b s i ip, Z.lor (encodePolyID b s i 0) ip = encodePolyID b s i ip.
Proof. intros. unfold encodePolyID. now rewrite Z.lor_0_r. Qed.
Lemma accepted : forall m A e, Inv m A -> In e A ->
  exists t h, nth_error (mTiles m) (slot_of m e) = Some t /\ tHeader t = Some h /\ tData t = eData e /\
    TileByRef m (eRef e) = Ok (Some (slot_of m e)) /\
    (forall ip, 0 <= ip < 2 ^ polyBits (mBits m) ->
       IsValidPolyRef m (Z.lor (eRef e) ip) = Ok (ip <? hPolyCount h) /\
       (forall p, get (tdPolys (tD t)) ip = Ok p -> TileAndPolyByRef m (Z.lor (eRef e) ip) = Ok (Success, Some (slot_of m e, p)))) /\
    exists m', RemoveTile m (eRef e) = Ok (m', eData e, Success).
Proof.
  intros m A e HI He. destruct (entry_slot m A e HI He) as (t & h & Ht & Hh & Ee & D1 & D2 & D3). exists t, h.
  destruct (inv_bits _ _ HI) as (_ & _ & _ & _ & _ & Hsz & _). destruct (iv_ok _ _ HI) as (Hmx & _).
  assert (Hlt : (slot_of m e < length (mTiles m))%nat) by (apply nth_error_Some; congruence).
  pose proof (inv_dec_tile m A (eRef e) HI) as Hd.
  assert (Hg : get (mTiles m) (Z.of_nat (slot_of m e)) = Ok t) by (apply get_ok; rewrite Nat2Z.id; split; [lia|exact Ht]).
  assert (Hu : u32 (mMaxTiles m) = zlen (mTiles m)) by (rewrite Hmx; apply u32_id; unfold is_u32, zlen in *; lia).
  split; [exact Ht|]. split; [exact Hh|]. split; [rewrite Ee; reflexivity|]. split; [|split].
  - unfold TileByRef. rewrite (proj2 (Z.eqb_neq _ _) D3). rewrite D1. rewrite i32_id by (unfold is_i32; lia). rewrite Hmx.
    destruct (Z.leb_spec (zlen (mTiles m)) (Z.of_nat (slot_of m e))); [unfold zlen in *; lia|]. rewrite Hg. cbn [bind]. rewrite D2, Z.eqb_refl. cbn [negb]. now rewrite Nat2Z.id.
  - intros ip Hip. assert (Er : eRef e = encodePolyID (mBits m) (tSalt t) (Z.of_nat (slot_of m e)) 0) by (now rewrite Ee at 1). rewrite Er, lor_encode.
    destruct (inv_ref m A (slot_of m e) t ip HI Ht Hip) as (D & N & _).
    pose proof (iv_tile _ _ HI _ t h Ht Hh) as HT. pose proof (tileOK_polys _ _ HT) as Hpc. destruct HT as (_ & Hdd & _). apply header_i32 in Hdd. destruct Hdd as (_ & _ & Hpi & _).
    assert (Hup : u32 (hPolyCount h) = hPolyCount h) by (apply u32_id; unfold is_u32, is_i32, zlen in *; lia).
    set (sl := slot_of m e) in *. split.
    + unfold IsValidPolyRef. rewrite (proj2 (Z.eqb_neq _ _) N), D, Hu. destruct (Z.leb_spec (zlen (mTiles m)) (Z.of_nat sl)); [unfold zlen in *; lia|].
      rewrite Hg. cbn [bind]. rewrite Hh, Z.eqb_refl. cbn [negb]. rewrite Hup. destruct (Z.leb_spec (hPolyCount h) ip), (Z.ltb_spec ip (hPolyCount h)); try lia; reflexivity.
    + intros p Hp. unfold TileAndPolyByRef. rewrite (proj2 (Z.eqb_neq _ _) N), D, Hu. destruct (Z.leb_spec (zlen (mTiles m)) (Z.of_nat sl)); [unfold zlen in *; lia|].
      rewrite Hg. cbn [bind]. rewrite Hh, Z.eqb_refl. cbn [negb]. rewrite Hup. pose proof (get_range _ _ _ Hp) as Hr. destruct (Z.leb_spec (hPolyCount h) ip); [lia|]. rewrite Hp. cbn [bind]. rewrite ?Nat2Z.id. reflexivity.
  - destruct (iv_view _ _ HI) as (free & bk & HV).
    destruct (RemoveTile_live m free bk (eRef e) (slot_of m e) t h (iv_ok _ _ HI) Hsz HV (iv_tile _ _ HI) Ht Hh D3 D1 D2) as (m2 & bk' & n & vis & E2 & _).
    { destruct (inv_base m A (slot_of m e) t HI Ht) as (X & _). exact X. }
    exists m2. rewrite E2. rewrite Ee. reflexivity.
Qed.
Lemma rejected : forall m A r t, Inv m A -> get (mTiles m) (decodePolyIDTile (mBits m) r) = Ok t -> tSalt t <> decodePolyIDSalt (mBits m) r ->
  TileByRef m r = Ok None /\ IsValidPolyRef m r = Ok false /\
  (exists st, TileAndPolyByRef m r = Ok (st, None) /\ StatusFailed st = true) /\
  RemoveTile m r = Ok (m, [], Z.lor Failure InvalidParam).
Proof.
  intros m A r t HI Hg Hs. destruct (inv_bits _ _ HI) as (_ & _ & _ & _ & _ & Hsz & _). destruct (iv_ok _ _ HI) as (Hmx & _).
  pose proof (inv_dec_tile m A r HI) as Hd.
  assert (Hu : u32 (mMaxTiles m) = zlen (mTiles m)) by (rewrite Hmx; apply u32_id; unfold is_u32, zlen in *; lia). pose proof (get_range _ _ _ Hg) as Hr.
  unfold TileByRef, IsValidPolyRef, TileAndPolyByRef, RemoveTile, DecodePolyID.
  destruct (Z.eqb_spec r 0) as [->|Hz].
  { repeat split; eauto. }
  rewrite Hu, Hmx. rewrite i32_id by (unfold is_i32; lia). destruct (Z.leb_spec (zlen (mTiles m)) (decodePolyIDTile (mBits m) r)); [lia|].
  rewrite Hg. cbn [bind]. apply Z.eqb_neq in Hs. rewrite Hs. cbn [negb]. destruct (tHeader t); repeat split; eauto.
Qed.

(** ** Salts *)
Lemma salt_iter : forall b n s, 8 <= saltBits b <= 31 -> salt_ok b s ->
  Nat.iter n (next_salt b) s = (s - 1 + Z.of_nat n) mod (2 ^ saltBits b - 1) + 1.
Proof.
  intros b n s Hb Hs. unfold salt_ok in Hs. set (M := 2 ^ saltBits b - 1) in *.
  assert (Hp : 2 ^ 8 <= 2 ^ saltBits b) by (apply Z.pow_le_mono_r; lia). change (2 ^ 8) with 256 in Hp.
  induction n as [|n IH]; cbn [Nat.iter nat_rect].
  - rewrite Z.add_0_r, Z.mod_small; lia.
  - change (next_salt b (Nat.iter n (next_salt b) s) = (s - 1 + Z.of_nat (S n)) mod M + 1). rewrite IH.
    pose proof (Z.mod_pos_bound (s - 1 + Z.of_nat n) M ltac:(lia)) as Hm. rewrite next_salt_eq by lia. fold M.
    replace (s - 1 + Z.of_nat (S n)) with (s - 1 + Z.of_nat n + 1) by lia. rewrite <- (Zplus_mod_idemp_l (s - 1 + Z.of_nat n)). set (x := (s - 1 + Z.of_nat n) mod M) in *.
    destruct (Z.eqb_spec (x + 1) M) as [E|E].
    + replace (x + 1) with M by lia. rewrite Z_mod_same_full. lia.
    + rewrite Z.mod_small by lia. lia.
Qed.
Lemma salt_differs : forall b n s, 8 <= saltBits b <= 31 -> salt_ok b s -> (0 < n)%nat -> Z.of_nat n < 2 ^ saltBits b - 1 ->
  Nat.iter n (next_salt b) s <> s.
Proof.
  intros b n s Hb Hs H0 Hn. rewrite salt_iter by assumption. unfold salt_ok in Hs. set (M := 2 ^ saltBits b - 1) in *. intros E.
  destruct (Z.ltb_spec (s - 1 + Z.of_nat n) M).
  - rewrite Z.mod_small in E by lia. lia.
  - assert (Em : (s - 1 + Z.of_nat n) mod M = s - 1 + Z.of_nat n - M).
    { symmetry. apply Z.mod_unique with (q := 1); [left; lia|lia]. }
    rewrite Em in E. lia.
Qed.
Lemma salt_whole_cycle : forall b n s, 8 <= saltBits b <= 31 -> salt_ok b s -> Z.of_nat n = 2 ^ saltBits b - 1 ->
  Nat.iter n (next_salt b) s = s.
Proof.
  intros b n s Hb Hs Hn. rewrite salt_iter by assumption. unfold salt_ok in Hs. rewrite Hn. set (M := 2 ^ saltBits b - 1) in *.
  assert (Hp : 2 ^ 8 <= 2 ^ saltBits b) by (apply Z.pow_le_mono_r; lia). change (2 ^ 8) with 256 in Hp.
  replace (s - 1 + M) with (s - 1 + 1 * M) by lia. rewrite Z_mod_plus_full, Z.mod_small; lia.
Qed.
Lemma iter_shift : forall {A} (f : A -> A) n x, Nat.iter n f (f x) = Nat.iter (S n) f x.
Proof. intros A f n x. induction n as [|n IH]; [reflexivity|]. cbn [Nat.iter nat_rect] in *. change (f (Nat.iter n f (f x)) = f (Nat.iter (S n) f x)). now rewrite IH. Qed.

Lemma after_inv : forall i n m m', After (Z.of_nat i) n m m' -> forall A, Inv m A ->
  exists A', Inv m' A' /\ mBits m' = mBits m /\
    forall t, nth_error (mTiles m) i = Some t -> exists t', nth_error (mTiles m') i = Some t' /\ tSalt t' = Nat.iter n (next_salt (mBits m)) (tSalt t).
Proof.
  intros i n m m' H. induction H as [m|n m m' data lastRef m'' st ref HA IH Hl E|n m m' ref m'' data st HA IH E]; intros A HI.
  - exists A. split; auto. split; auto. intros t Ht. exists t. auto.
  - destruct (IH A HI) as (A' & HI' & Eb & Hs). destruct (iv_view _ _ HI') as (free & bk & HV).
    destruct (AddTile_spec _ _ _ _ _ _ _ _ (iv_ok _ _ HI') HV E) as [(_ & -> & _)|(Est & hdr & k & f1 & f2 & bk' & t & t' & Hh & _ & _ & _ & Fx & L & _ & _ & Ht & Ht' & _ & _ & Es & _ & Hoth & _ & _ & Hnz)]; [eauto|].
    subst st. exists (mkEntry (loc hdr) ref data :: A'). split; [eapply inv_add; try eassumption; tauto|]. pose proof (fixed_bits _ _ Fx) as Eb2. split; [congruence|].
    intros s Hs0. destruct (Hs s Hs0) as (s' & Hs' & Esalt). destruct (Nat.eq_dec i k) as [->|Hne].
    + assert (s' = t) by congruence. subst s'. exists t'. split; auto. rewrite Es. destruct (Z.eqb_spec lastRef 0) as [|Hz]; [exact Esalt|].
      destruct Hl as [|(_ & Hx)]; [contradiction|]. exfalso. apply Hx. destruct (Hnz Hz) as (Ek & _). pose proof (inv_dec_tile m' A' lastRef HI') as Hd.
      rewrite i32_id in Ek by (unfold is_i32; lia). rewrite Ek, Z2Nat.id by lia. reflexivity.
    + destruct (Hoth i s' Hne Hs') as (s2 & Hs2 & FN & _). exists s2. split; auto. apply frameN_fields in FN. destruct FN as (-> & _). exact Esalt.
  - destruct (IH A HI) as (A' & HI' & Eb & Hs). destruct (inv_bits _ _ HI') as (_ & _ & _ & _ & _ & Hsz & _). destruct (iv_view _ _ HI') as (free & bk & HV).
    destruct (RemoveTile_cases _ _ _ _ _ (iv_ok _ _ HI') Hsz (proj1 (inv_dec_tile _ _ _ HI')) E) as [(-> & -> & _)|(k & t & hdr & Ht & Hh & Hr & Ei & Esl)].
    + exists A'. split; auto.
    + destruct (inv_base m' A' k t HI' Ht) as (D1 & _).
      destruct (RemoveTile_live m' free bk ref k t hdr (iv_ok _ _ HI') Hsz HV (iv_tile _ _ HI') Ht Hh Hr Ei Esl D1) as (m2 & bk' & nx & vis & E2 & Fx & L & _ & _ & Hk & Hoth & _).
      rewrite E in E2. apply Ok_inj in E2. inversion E2. subst m2 data st. clear E2. pose proof (fixed_bits _ _ Fx) as Eb2.
      eexists. split; [eapply inv_remove; eassumption|]. split; [congruence|]. rewrite Z.eqb_refl. cbn [andb]. rewrite Ei.
      intros s Hs0. destruct (Hs s Hs0) as (s' & Hs' & Esalt). destruct (Nat.eq_dec i k) as [->|Hne].
      * rewrite Z.eqb_refl. assert (s' = t) by congruence. subst s'. eexists. split; [exact Hk|]. cbn [released tSalt]. rewrite Eb, Esalt. reflexivity.
      * destruct (Z.eqb_spec (Z.of_nat k) (Z.of_nat i)) as [Ex|_]; [lia|]. destruct (Hoth i s' Hne Hs') as (s2 & Hs2 & FN & _). exists s2. split; auto. apply frameN_fields in FN. destruct FN as (-> & _). exact Esalt.
Qed.

(** ** Links inside a tile *)
Lemma flat_map_filter : forall {A B} (f : A -> bool) (g : A -> B) l,
  flat_map (fun x => if f x then [g x] else []) l = map g (filter f l).
Proof. intros A B f g l. induction l as [|a l IH]; [reflexivity|]. cbn [flat_map filter]. rewrite IH. destruct (f a); reflexivity. Qed.
Lemma int_links_inner : forall b s i p, typed_poly p -> 1 <= pVertCount p ->
  int_links (encodePolyID b s i 0) p = inner_links b s i p.
Proof.
  intros b s i p (_ & _ & _ & Hl & Hn & _ & Hv & _) H1. unfold int_links, inner_links. destruct (Type_ p =? polyTypeOffMeshConnection); [reflexivity|].
  assert (u8 (pVertCount p - 1) + 1 = pVertCount p) as ->.
  { unfold u8, is_u8 in *. rewrite Z.mod_small; lia. }
  rewrite (flat_map_filter (fun j => inner_edge (nth (Z.to_nat j) (pNeis p) 0)) (fun j => (encodePolyID b s i (nth (Z.to_nat j) (pNeis p) 0 - 1), j, 255, 0, 0))).
  assert (Hf : forall j, internal_edge p j = inner_edge (nth (Z.to_nat j) (pNeis p) 0)).
  { intros j. unfold internal_edge, inner_edge. destruct (nth_error (pNeis p) (Z.to_nat j)) as [nei|] eqn:E.
    - rewrite (nth_error_nth _ _ 0 E). now rewrite negb_orb, negb_involutive.
    - apply nth_error_None in E. now rewrite nth_overflow by assumption. }
  rewrite (filter_ext _ _ Hf). apply map_ext_in. intros j Hj. apply filter_In in Hj. destruct Hj as (_ & Hj). unfold int_payload. rewrite lor_encode.
  assert (Hr : is_u16 (nth (Z.to_nat j) (pNeis p) 0)).
  { destruct (nth_error (pNeis p) (Z.to_nat j)) as [nei|] eqn:E.
    - rewrite (nth_error_nth _ _ 0 E). rewrite Forall_forall in Hn. apply Hn. eapply nth_error_In; exact E.
    - apply nth_error_None in E. rewrite nth_overflow by assumption. unfold is_u16. lia. }
  unfold inner_edge in Hj. apply andb_true_iff in Hj. destruct Hj as (Hj & _). apply negb_true_iff, Z.eqb_neq in Hj.
  unfold u16, is_u16 in *. rewrite Z.mod_small by lia. reflexivity.
Qed.
Lemma int_links_static : forall base p q, static_poly p = static_poly q -> int_links base p = int_links base q.
Proof.
  intros base p q E. unfold static_poly in E. injection E as E1 E2 E3 E4 E5. unfold int_links, int_payload, internal_edge, Type_. now rewrite E2, E4, E5.
Qed.
Lemma inner_links_length : forall b s i s' i' b' p, length (inner_links b s i p) = length (inner_links b' s' i' p).
Proof.
  intros. unfold inner_links. destruct (_ =? _); [reflexivity|]. induction (zseq _) as [|j l IH]; [reflexivity|]. cbn [flat_map]. rewrite !app_length, IH. destruct (inner_edge _); reflexivity.
Qed.
Lemma flat_map_len : forall {A B} (f : A -> list B) l, length (flat_map f l) = list_sum (map (fun x => length (f x)) l).
Proof. intros. induction l as [|a l IH]; [reflexivity|]. cbn. now rewrite app_length, IH. Qed.
Lemma rel_other : forall m A k j r, Inv m A -> sound m A -> j <> k -> (exists hj, live m j hj) -> polyref_of m j r -> decodePolyIDTile (mBits m) r <> Z.of_nat k.
Proof.
  intros m A k j r HI HS Hne _ (t & h & ip & Ht & Hh & H0 & Hip & ->). apply tile_of_nth in Ht.
  destruct (sound_wfT _ _ j t h HI HS Ht Hh) as (W & Hmax & _). specialize (Hip W). destruct (inv_bits _ _ HI) as (_ & _ & _ & _ & _ & _ & Hmp).
  rewrite lor_encode. destruct (inv_ref m A j t ip HI Ht ltac:(lia)) as (D & _).
  apply (f_equal (fun q => snd (fst q))) in D. cbn [fst snd DecodePolyID] in D. rewrite D. lia.
Qed.
Lemma map_nth_eq : forall {A B} (f : A -> B) l l' n x, map f l = map f l' -> nth_error l n = Some x -> exists y, nth_error l' n = Some y /\ f y = f x.
Proof.
  intros A B f l l' n x E H. assert (nth_error (map f l') n = Some (f x)) as G by (rewrite <- E; now apply map_nth_error).
  rewrite nth_error_map in G. destruct (nth_error l' n) as [y|]; [|discriminate]. cbn in G. injection G as G. eauto.
Qed.
Lemma added_links : forall m A data lastRef m' ref h td, Inv m A ->
  (lastRef = 0 \/ decodePolyIDSalt (mBits m) lastRef <> 0) ->
  AddTile m data lastRef = Ok (m', Success, ref) -> header_unserialize data = Ok h ->
  tile_unserialize h (skipn 100 data) = Ok td ->
  Forall (fun p => typed_poly p /\ 1 <= pVertCount p) (tdPolys td) ->
  exists i t, TileByRef m' ref = Ok (Some i) /\ nth_error (mTiles m') i = Some t /\ LinkInv t /\
    forall ip p, get (tdPolys td) ip = Ok p -> exists ext k,
      PolyLinks t ip (ext ++ skipn k (inner_links (mBits m') (tSalt t) (Z.of_nat i) p)) /\
      (Z.of_nat (list_sum (map (fun q => length (inner_links (mBits m') 0 0 q)) (tdPolys td))) <= hMaxLinkCount h -> k = O) /\
      (tdCons td = [] -> sound m' (mkEntry (loc h) ref data :: A) ->
         Forall (fun x => decodePolyIDTile (mBits m') (pay_ref x) <> Z.of_nat i) ext).
Proof.
  intros m A data lastRef m' ref h td HI Hl E Hh Htd Hty. pose proof (inv_add _ _ _ _ _ _ _ HI Hl E Hh) as HI'.
  destruct (iv_view _ _ HI) as (free & bk & HV).
  destruct (AddTile_spec _ _ _ _ _ _ _ _ (iv_ok _ _ HI) HV E) as [(Hx & _)|(_ & hdr & i & f1 & f2 & bk' & t & t' & Hhd & Em & Ev & Ef & Fx & L & HV' & Hloc & Ht & Ht' & Hok' & Ed & Es & Er & Hoth & (fl & cs & cs0 & HVl & Hext & Hint & Hwant) & _)]; [contradiction|].
  assert (hdr = h) by congruence. subst hdr. pose proof (fixed_bits _ _ Fx) as Eb.
  destruct (accepted m' _ (mkEntry (loc h) ref data) HI' (or_introl eq_refl)) as (s & hs & Hs & Hhs & _ & HB & _).
  assert (Esl : slot_of m' (mkEntry (loc h) ref data) = i).
  { unfold slot_of. cbn [eRef]. rewrite Er, <- Eb. destruct (inv_base m' _ i t' HI' Ht') as (-> & _). apply Nat2Z.id. }
  rewrite Esl in *. cbn [eRef] in HB. exists i, t'. split; [exact HB|]. split; [exact Ht'|]. split; [apply Hok'|].
  destruct Hok' as (Ht'h & _ & _ & _ & (td' & Htd' & F) & _). rewrite Ed in Htd'. assert (td' = td) by congruence. subst td'.
  pose proof F as (_ & Hst & Hll & _ & _ & _ & _ & _ & _ & Hcs). cbn [set_tD tD] in Hst, Hll, Hcs.
  intros ip p Hp. apply get_ok in Hp. destruct Hp as (Hip & Hp).
  destruct (map_nth_eq static_poly _ _ _ p (eq_sym Hst) Hp) as (q & Hq & Eq). pose proof HVl as (_ & HP & _).
  destruct (Forall2_nth _ _ _ _ _ HP Hq) as (c & Hc & HLC). destruct (Forall2_nth _ _ _ _ _ Hext Hc) as (c0 & Hc0 & (pre & Ec & Hpre)).
  assert (Hbase : forall p0 q0, In p0 (tdPolys td) -> static_poly q0 = static_poly p0 -> int_links ref q0 = inner_links (mBits m') (tSalt t') (Z.of_nat i) p0).
  { intros p0 q0 Hp0 E0. rewrite (int_links_static ref q0 p0 E0), Er, <- Eb. rewrite Forall_forall in Hty. destruct (Hty p0 Hp0). now apply int_links_inner. }
  pose proof (Hbase p q (nth_error_In _ _ Hp) Eq) as Eq'.
  assert (Hk : exists k, map snd c0 = skipn k (inner_links (mBits m') (tSalt t') (Z.of_nat i) p) /\
     (Z.of_nat (list_sum (map (fun q => length (inner_links (mBits m') 0 0 q)) (tdPolys td))) <= hMaxLinkCount h -> k = O)).
  { destruct (Z.leb_spec (Z.of_nat (list_sum (map (fun q => length (inner_links (mBits m') 0 0 q)) (tdPolys td)))) (hMaxLinkCount h)) as [Hle|Hgt].
    - exists O. split; [|reflexivity]. cbn [skipn]. rewrite <- Eq'.
      assert (Hw : (want ref (tdPolys (tD t')) <= length (tdLinks (tD t')))%nat).
      { rewrite Hll. pose proof (unserialize_lengths _ _ _ Htd) as UL. assert (UL2 : zlen (tdLinks td) = hMaxLinkCount h) by (decompose [and] UL; assumption).
        unfold want. rewrite flat_map_len. 
        assert (map (fun x => length (int_links ref x)) (tdPolys (tD t')) = map (fun q => length (inner_links (mBits m') 0 0 q)) (tdPolys td)) as ->.
        { apply nth_error_ext'. intros n. rewrite !nth_error_map. destruct (nth_error (tdPolys (tD t')) n) as [x|] eqn:Ex.
          - destruct (map_nth_eq static_poly _ _ _ x Hst Ex) as (y & Hy & Ey). rewrite Hy. cbn. f_equal.
            rewrite (Hbase y x (nth_error_In _ _ Hy) (eq_sym Ey)). apply inner_links_length.
          - destruct (nth_error (tdPolys td) n) as [y|] eqn:Ey; [|reflexivity]. destruct (map_nth_eq static_poly _ _ _ y (eq_sym Hst) Ey) as (z & Hz & _). congruence. }
        unfold zlen in UL2. lia. }
      specialize (Hwant Hw). assert (nth_error (map (map snd) cs0) (Z.to_nat ip) = Some (map snd c0)) as G by now apply map_nth_error.
      rewrite Hwant, nth_error_map, Hq in G. cbn in G. congruence.
    - destruct (Hint _ q c0 Hq Hc0) as (k & Ek). exists k. split; [rewrite Ek, Eq'; reflexivity|]. lia. }
  destruct Hk as (k & Ek & Hk0). exists (map snd pre), k. split; [|split; [exact Hk0|]].
  - exists q, c. split; [apply get_ok; auto|]. split; [exact HLC|]. rewrite Ec, map_app, Ek. reflexivity.
  - intros Hnc HS. apply Forall_forall. intros x Hx. apply in_map_iff in Hx. destruct Hx as (y & <- & Hy). rewrite Forall_forall in Hpre.
    destruct (Hpre y Hy) as (j & hk & hj & _ & Lj & _ & Hpr & [Hj|Hcons]).
    + eapply rel_other; try eassumption. eauto.
    + destruct Hcons as (t0 & Ht0 & Hc'). apply tile_of_nth in Ht0. assert (t0 = t') by congruence. subst t0. congruence.
Qed.
