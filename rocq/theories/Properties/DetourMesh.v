(** C10-C16, C62: the tile table of a navigation mesh, tile references and polygon links. *)
From Coq Require Import ZArith List Bool Lia.
From Verif.Base Require Import Res GoNum Grid.
From Verif.Model Require Import Status Poly PolyRef MeshTypes Serial MeshLinks MeshTiles.
From Verif.Spec Require Import LinkSpec SerialSpec MeshSpec.
From Verif.Proofs Require Import PolyRefProofs LinkProofs MeshStep TableProofs SlotProofs LinkTile MeshInv LinkValid FitProofs MeshHist.
From Verif.Properties Require Import ExampleMesh.
Import ListNotations.
Open Scope Z_scope.

(** ** C10: the table of tiles *)

(** Slot [i] holds the tile of entry [e]: it has that reference, header and data. *)
Definition holds_entry (m : NavMesh) (i : nat) (e : entry) : Prop :=
  TileRef m i = Ok (eRef e) /\ exists t h, nth_error (mTiles m) i = Some t /\ tHeader t = Some h /\
    header_unserialize (eData e) = Ok h /\ loc h = eLoc e /\ tData t = eData e.
Lemma entry_holds : forall m A i t h, Inv m A -> nth_error (mTiles m) i = Some t -> tHeader t = Some h ->
  In (entry_of m i t h) A /\ holds_entry m i (entry_of m i t h).
Proof.
  intros m A i t h HI Ht Hh. split; [apply (iv_A _ _ HI); eauto 10|]. destruct (iv_tile _ _ HI i t h Ht Hh) as (_ & Hd & _). split.
  - unfold TileRef, polyRefBase. rewrite (proj2 (tile_of_nth m i t) Ht). reflexivity.
  - exists t, h. cbn [entry_of eData eLoc]. auto.
Qed.
Lemma holds_unique : forall m A i e e', Inv m A -> holds_entry m i e -> holds_entry m i e' -> e = e'.
Proof.
  intros m A i [l r d] [l' r' d'] _ (R & t & h & Ht & Hh & _ & L & D) (R' & t' & h' & Ht' & Hh' & _ & L' & D'). cbn [eRef eData eLoc] in *.
  rewrite R in R'. apply Ok_inj in R'. rewrite Ht in Ht'. injection Ht' as <-. rewrite Hh in Hh'. injection Hh' as <-. congruence.
Qed.

Theorem C10_TileAt : forall m A x y layer, Run any m A ->
  exists o, TileAt m x y layer = Ok o /\
    match o with
    | Some i => exists e, In e A /\ eLoc e = (x, y, layer) /\ holds_entry m i e
    | None => forall e, In e A -> eLoc e <> (x, y, layer)
    end.
Proof.
  intros m A x y layer HR. apply Run_inv in HR. destruct (iv_view _ _ HR) as (free & bk & HV).
  destruct (TileAt_spec m free bk x y layer (iv_ok _ _ HR) HV) as (o & E & Ho). exists o. split; [exact E|]. destruct o as [i|].
  - destruct Ho as (h & (t & Ht & Hh) & El). destruct (entry_holds m A i t h HR Ht Hh) as (H1 & H2). exists (entry_of m i t h). auto.
  - intros e He El. apply (iv_A _ _ HR) in He. destruct He as (i & t & h & Ht & Hh & ->). apply (Ho i h); [exists t; auto|exact El].
Qed.
(** ... and the entry at a location is found there. *)
Theorem C10_TileAt_finds : forall m A e, Run any m A -> In e A ->
  exists i, (let '(x, y, layer) := eLoc e in TileAt m x y layer = Ok (Some i) /\ TileRefAt m x y layer = Ok (eRef e)) /\ holds_entry m i e.
Proof.
  intros m A e HR He. destruct (eLoc e) as [[x y] l] eqn:El. destruct (C10_TileAt m A x y l HR) as (o & E & Ho).
  pose proof (Run_inv _ _ _ HR) as HI. destruct o as [i|]; [|exfalso; now apply (Ho e He)].
  destruct Ho as (e' & He' & El' & Hh).
  assert (e' = e) as ->.
  { pose proof (iv_nodup _ _ HI) as Hn. clear -Hn He He' El El'. induction A as [|a A IH]; [destruct He|]. cbn [map] in Hn. apply NoDup_cons_iff in Hn. destruct Hn as (Ha & Hn).
    destruct He as [->|He], He' as [->|He']; auto; exfalso; apply Ha; apply in_map_iff; [exists e'|exists e]; split; auto; congruence. }
  exists i. split; [|exact Hh]. split; [exact E|]. unfold TileRefAt. rewrite E. cbn [bind]. apply Hh.
Qed.
Theorem C10_unique_location : forall m A, Run any m A -> NoDup (map eLoc A).
Proof. intros m A HR. apply Run_inv in HR. apply (iv_nodup _ _ HR). Qed.
(** TilesAt gives the tiles of a column, each once, as many as there is room for. *)
Theorem C10_TilesAt : forall m A x y maxTiles, Run any m A -> 0 <= maxTiles ->
  exists l, TilesAt m x y maxTiles = Ok (firstn (Z.to_nat maxTiles) l) /\ NoDup l /\
    (forall i, In i l -> exists e, In e A /\ at_loc x y e = true /\ holds_entry m i e) /\
    (forall e, In e A -> at_loc x y e = true -> exists i, In i l /\ holds_entry m i e) /\
    length l = length (filter (at_loc x y) A).
Proof.
  intros m A x y mx HR Hmx. pose proof (Run_inv _ _ _ HR) as HI. destruct (iv_view _ _ HI) as (free & bk & HV).
  destruct (TilesAt_spec m free [] bk x y mx (iv_ok _ _ HI) HV Hmx) as (l & E & Hn & H1 & H2). exists l. split; [exact E|]. split; [exact Hn|].
  assert (F1 : forall i, In i l -> exists e, In e A /\ at_loc x y e = true /\ holds_entry m i e).
  { intros i Hi. destruct (H1 i Hi) as (h & (t & Ht & Hh) & Ex & Ey). destruct (entry_holds m A i t h HI Ht Hh) as (G1 & G2). exists (entry_of m i t h). split; auto. split; auto.
    unfold at_loc, entry_of, loc. cbn [eLoc]. now rewrite Ex, Ey, !Z.eqb_refl. }
  assert (F2 : forall e, In e A -> at_loc x y e = true -> exists i, In i l /\ holds_entry m i e).
  { intros e He Hx. apply (iv_A _ _ HI) in He. destruct He as (i & t & h & Ht & Hh & ->). unfold at_loc, entry_of, loc in Hx. cbn [eLoc] in Hx. apply andb_true_iff in Hx. destruct Hx as (Hx & Hy).
    apply Z.eqb_eq in Hx, Hy. exists i. split; [apply H2; [tauto|]; exists h; split; [exists t; auto|auto]|]. apply (entry_holds m A i t h HI Ht Hh). }
  split; [exact F1|]. split; [exact F2|].
  apply Nat.le_antisymm.
  - assert (G : forall l0, NoDup l0 -> (forall i, In i l0 -> In i l) -> (length l0 <= length (filter (at_loc x y) A))%nat).
    { intros l0 Hn0 Hin. rewrite <- (map_length (fun i => Z.of_nat i) l0), <- (map_length (fun e => decodePolyIDTile (mBits m) (eRef e)) (filter (at_loc x y) A)).
      apply NoDup_incl_length.
      - apply FinFun.Injective_map_NoDup; auto. intros a b Hab. now apply Nat2Z.inj.
      - intros z Hz. apply in_map_iff in Hz. destruct Hz as (i & <- & Hi). destruct (H1 i (Hin i Hi)) as (h & (t & Ht & Hh) & Ex & Ey). apply in_map_iff. exists (entry_of m i t h).
        split; [cbn [entry_of eRef]; now destruct (inv_base m A i t HI Ht) as (-> & _)|]. apply filter_In. split; [apply (iv_A _ _ HI); eauto 10|].
        unfold at_loc, entry_of, loc. cbn [eLoc]. now rewrite Ex, Ey, !Z.eqb_refl. }
    apply G; auto.
  - assert (Hnd : NoDup (map (slot_of m) (filter (at_loc x y) A))).
    { assert (HN : forall e e', In e A -> In e' A -> slot_of m e = slot_of m e' -> e = e').
      { intros e e' He He' Es. destruct (entry_slot m A e HI He) as (t & h & Ht & Hh & Ee & _). destruct (entry_slot m A e' HI He') as (t' & h' & Ht' & Hh' & Ee' & _).
        rewrite Ee, Ee'. rewrite Es in *. congruence. }
      pose proof (iv_nodup _ _ HI) as HD. apply NoDup_map_inv in HD. clear -HN HD. induction HD as [|e l Hin HD IH]; cbn [filter map]; [constructor|].
      assert (IH' : NoDup (map (slot_of m) (filter (at_loc x y) l))) by (apply IH; intros; apply HN; auto; now right).
      destruct (at_loc x y e); [|exact IH']. cbn [map]. constructor; [|exact IH']. intros Hx. apply in_map_iff in Hx. destruct Hx as (e' & Es & He'). apply filter_In in He'.
      apply Hin. rewrite (HN e e'); [tauto|now left|right; tauto|now symmetry]. }
    rewrite <- (map_length (slot_of m)). apply NoDup_incl_length; auto. intros i Hi. apply in_map_iff in Hi. destruct Hi as (e & <- & He). apply filter_In in He. destruct He as (He & Hx).
    destruct (entry_slot m A e HI He) as (t & h & Ht & Hh & Ee & _). apply H2; [tauto|]. exists h. split; [exists t; auto|]. rewrite Ee in Hx. unfold at_loc, entry_of, loc in Hx. cbn [eLoc] in Hx.
    apply andb_true_iff in Hx. destruct Hx as (Hx & Hy). apply Z.eqb_eq in Hx, Hy. auto.
Qed.

(** ** C11: references *)

(** While a tile is loaded its reference and those of its polygons are accepted. *)
Theorem C11_accepted_while_loaded : forall m A e, Run any m A -> In e A ->
  exists i t h, holds_entry m i e /\ nth_error (mTiles m) i = Some t /\ tHeader t = Some h /\
    TileByRef m (eRef e) = Ok (Some i) /\
    (forall ip, 0 <= ip < 2 ^ polyBits (mBits m) ->
       IsValidPolyRef m (Z.lor (eRef e) ip) = Ok (ip <? hPolyCount h) /\
       (forall p, get (tdPolys (tD t)) ip = Ok p -> TileAndPolyByRef m (Z.lor (eRef e) ip) = Ok (Success, Some (i, p)))) /\
    exists m', RemoveTile m (eRef e) = Ok (m', eData e, Success).
Proof.
  intros m A e HR He. apply Run_inv in HR. destruct (accepted m A e HR He) as (t & h & Ht & Hh & _ & H1 & H2 & H3).
  destruct (entry_slot m A e HR He) as (t' & h' & Ht' & Hh' & Ee & _). assert (t' = t) by congruence. subst t'. assert (h' = h) by congruence. subst h'.
  exists (slot_of m e), t, h. split; [|auto 10]. rewrite Ee at 2. apply (entry_holds m A _ t h HR Ht Hh).
Qed.

(** After its removal every reference into the tile is rejected, whatever happens, until the
    slot has gone through all salts. *)
Theorem C11_rejected_after_removal : forall m A e n m' r, Run any m A -> In e A ->
  After (decodePolyIDTile (mBits m) (eRef e)) n m m' -> (0 < n)%nat -> Z.of_nat n < 2 ^ saltBits (mBits m) - 1 ->
  same_tile (mBits m) r (eRef e) = true ->
  TileByRef m' r = Ok None /\ IsValidPolyRef m' r = Ok false /\
  (exists st, TileAndPolyByRef m' r = Ok (st, None) /\ StatusFailed st = true) /\
  RemoveTile m' r = Ok (m', [], Z.lor Failure InvalidParam).
Proof.
  intros m A e n m' r HR He HA H0 Hn Hs. apply Run_inv in HR. destruct (entry_slot m A e HR He) as (t & h & Ht & Hh & Ee & D1 & D2 & _).
  rewrite D1 in HA. destruct (after_inv _ _ _ _ HA A HR) as (A' & HI' & Eb & Hsalt). destruct (Hsalt t Ht) as (t' & Ht' & Es).
  unfold same_tile in Hs. apply andb_true_iff in Hs. destruct Hs as (Hs1 & Hs2). apply Z.eqb_eq in Hs1, Hs2.
  apply (rejected m' A' r t' HI').
  - rewrite Eb, Hs1, D1. apply get_ok. rewrite Nat2Z.id. split; [lia|exact Ht'].
  - rewrite Es, Eb, Hs2, D2. apply salt_differs; auto; [apply (inv_bits _ _ HR)|apply (iv_salt _ _ HR _ t Ht)].
Qed.
(** The removal itself is the first of these, so the reference is dead at once. *)
Theorem C11_dead_at_once : forall m A e m' data, Run any m A -> In e A ->
  RemoveTile m (eRef e) = Ok (m', data, Success) ->
  TileByRef m' (eRef e) = Ok None /\ IsValidPolyRef m' (eRef e) = Ok false /\
  RemoveTile m' (eRef e) = Ok (m', [], Z.lor Failure InvalidParam).
Proof.
  intros m A e m' data HR He E. pose proof (Run_inv _ _ _ HR) as HI. destruct (inv_bits _ _ HI) as (_ & Hb & _).
  assert (2 ^ 8 <= 2 ^ saltBits (mBits m)) by (apply Z.pow_le_mono_r; lia). change (2 ^ 8) with 256 in *.
  pose proof (After_remove _ _ _ _ _ _ _ _ (After_here (decodePolyIDTile (mBits m) (eRef e)) m) E) as HA. rewrite !Z.eqb_refl in HA. cbn [andb] in HA.
  destruct (C11_rejected_after_removal m A e 1 m' (eRef e) HR He HA) as (H1 & H2 & _ & H4); [lia|change (Z.of_nat 1) with 1; lia| |auto].
  unfold same_tile. now rewrite !Z.eqb_refl.
Qed.
(** The bound is exact: after a whole cycle of salts the old reference names the slot again. *)
Theorem C11_salt_cycle_exact : forall m A e n m', Run any m A -> In e A ->
  After (decodePolyIDTile (mBits m) (eRef e)) n m m' -> Z.of_nat n = 2 ^ saltBits (mBits m) - 1 ->
  TileByRef m' (eRef e) = Ok (Some (Z.to_nat (decodePolyIDTile (mBits m) (eRef e)))).
Proof.
  intros m A e n m' HR He HA Hn. apply Run_inv in HR. destruct (entry_slot m A e HR He) as (t & h & Ht & Hh & Ee & D1 & D2 & D3).
  rewrite D1 in HA. destruct (after_inv _ _ _ _ HA A HR) as (A' & HI' & Eb & Hsalt). destruct (Hsalt t Ht) as (t' & Ht' & Es).
  rewrite salt_whole_cycle in Es; auto; [|apply (inv_bits _ _ HR)|apply (iv_salt _ _ HR _ t Ht)].
  destruct (inv_bits _ _ HI') as (_ & _ & _ & _ & _ & Hsz & _). destruct (iv_ok _ _ HI') as (Hmx & _).
  assert (Hlt : (slot_of m e < length (mTiles m'))%nat) by (apply nth_error_Some; congruence).
  unfold TileByRef. rewrite (proj2 (Z.eqb_neq _ _) D3), Eb, D1, Hmx. rewrite i32_id by (unfold is_i32, zlen in *; lia).
  destruct (Z.leb_spec (zlen (mTiles m')) (Z.of_nat (slot_of m e))); [unfold zlen in *; lia|].
  assert (get (mTiles m') (Z.of_nat (slot_of m e)) = Ok t') as -> by (apply get_ok; rewrite Nat2Z.id; split; [lia|exact Ht']). cbn [bind].
  rewrite Es, D2, Z.eqb_refl. reflexivity.
Qed.

(** ** C12: adding a tile again under its last reference *)
Lemma ref_restore : forall m A e m2 A2, Inv m A -> In e A -> Inv m2 A2 -> mParams m2 = mParams m ->
  mBits m2 = mBits m /\ eRef e <> 0 /\
  encodePolyID (mBits m) (decodePolyIDSalt (mBits m) (eRef e)) (decodePolyIDTile (mBits m) (eRef e)) 0 = eRef e.
Proof.
  intros m A e m2 A2 HI He HI2 Ep. destruct (iv_params _ _ HI) as (_ & E1 & _). destruct (iv_params _ _ HI2) as (_ & E2 & _).
  split; [rewrite E1, E2, Ep; reflexivity|]. destruct (entry_slot m A e HI He) as (t & h & Ht & Hh & Ee & D1 & D2 & D3). split; auto.
  rewrite D1, D2. rewrite Ee at 2. reflexivity.
Qed.
(** In any later state (or any mesh with the same parameters) in which the slot is free, data
    for a location that is not taken is added under the old reference. *)
Theorem C12_readd_restores_reference : forall m A e m2 A2 data h,
  Run fits m A -> In e A -> Run fits m2 A2 -> mParams m2 = mParams m ->
  (exists t, get (mTiles m2) (decodePolyIDTile (mBits m) (eRef e)) = Ok t /\ tHeader t = None) ->
  fit_data data h -> ~ In (loc h) (map eLoc A2) ->
  exists m3, AddTile m2 data (eRef e) = Ok (m3, Success, eRef e).
Proof.
  intros m A e m2 A2 data h HR He HR2 Ep Hfree HD Hloc. pose proof (Run_inv _ _ _ HR) as HI. pose proof (Run_inv _ _ _ HR2) as HI2.
  destruct (ref_restore m A e m2 A2 HI He HI2 Ep) as (Eb & Hz & Er).
  destruct (add_result_ref m2 A2 data h (eRef e) HR2 HD Hloc Hz) as (H1 & _). rewrite Eb, Er in H1. now apply H1.
Qed.
(** Removing a tile and adding its data again brings back the reference and the entry. *)
Theorem C12_remove_then_readd : forall m A e, Run fits m A -> In e A ->
  exists m1 m2, RemoveTile m (eRef e) = Ok (m1, eData e, Success) /\
    AddTile m1 (eData e) (eRef e) = Ok (m2, Success, eRef e) /\
    exists A2, Run fits m2 A2 /\ In e A2 /\ (forall e', In e' A2 <-> In e' A).
Proof.
  intros m A e HR He. pose proof (Run_inv _ _ _ HR) as HI. destruct (accepted m A e HI He) as (t & h & Ht & Hh & Hd & _ & _ & (m1 & E1)).
  pose proof (Run_remove _ _ _ _ _ _ HR E1) as HR1. set (A1 := filter _ A) in HR1. pose proof (Run_inv _ _ _ HR1) as HI1.
  destruct (entry_slot m A e HI He) as (t0 & h0 & Ht0 & Hh0 & Ee & D1 & D2 & D3). assert (t0 = t) by congruence. subst t0. assert (h0 = h) by congruence. subst h0.
  destruct (inv_bits _ _ HI) as (_ & _ & _ & _ & _ & Hsz & _). destruct (iv_view _ _ HI) as (free & bk & HV).
  destruct (RemoveTile_live m free bk (eRef e) (slot_of m e) t h (iv_ok _ _ HI) Hsz HV (iv_tile _ _ HI) Ht Hh D3 D1 D2) as (m1' & bk' & nx & vis & E1' & Fx & _ & _ & _ & Hrel & _).
  { destruct (inv_base m A _ t HI Ht) as (X & _). exact X. }
  assert (m1' = m1) by congruence. subst m1'.
  assert (HA1 : forall e', In e' A1 <-> In e' A /\ e' <> e).
  { intros e'. unfold A1. rewrite filter_In. split; intros (H1 & H2); split; auto.
    - intros ->. unfold same_tile in H2. rewrite !Z.eqb_refl in H2. discriminate.
    - apply negb_true_iff. destruct (same_tile (mBits m) (eRef e') (eRef e)) eqn:Es; auto. exfalso. apply H2.
      unfold same_tile in Es. apply andb_true_iff in Es. destruct Es as (Es & _). apply Z.eqb_eq in Es.
      destruct (entry_slot m A e' HI H1) as (t' & h' & Ht' & Hh' & Ee' & D1' & _). assert (slot_of m e' = slot_of m e) as X by lia. rewrite Ee, Ee', X. rewrite X in *. congruence. }
  assert (Hfit : exists hf, fit_data (eData e) hf) by (pose proof (Run_fits _ _ HR) as HF; unfold fits in HF; rewrite Forall_forall in HF; auto).
  destruct Hfit as (hf & HF). assert (hf = h).
  { destruct HF as (X & _). destruct (iv_tile _ _ HI _ t h Ht Hh) as (_ & Y & _). rewrite Hd in Y. congruence. } subst hf.
  destruct (C12_readd_restores_reference m A e m1 A1 (eData e) h HR He HR1) as (m2 & E2).
  - now apply fixed_params.
  - eexists. split; [rewrite D1; apply get_ok; rewrite Nat2Z.id; split; [lia|exact Hrel]|reflexivity].
  - exact HF.
  - intros Hin. apply in_map_iff in Hin. destruct Hin as (e' & El & He'). apply HA1 in He'. destruct He' as (He' & Hne). apply Hne.
    pose proof (iv_nodup _ _ HI) as Hn. assert (El2 : eLoc e = loc h) by (rewrite Ee; reflexivity). clear -Hn He He' El El2.
    induction A as [|a A IH]; [destruct He|]. cbn [map] in Hn. apply NoDup_cons_iff in Hn. destruct Hn as (Ha & Hn).
    destruct He as [->|He], He' as [->|He']; auto; exfalso; apply Ha; apply in_map_iff; [exists e'|exists e]; split; auto; congruence.
  - exists m1, m2. split; [exact E1|]. split; [exact E2|]. exists (mkEntry (loc h) (eRef e) (eData e) :: A1).
    assert (Eself : mkEntry (loc h) (eRef e) (eData e) = e) by (rewrite Ee; reflexivity). rewrite Eself. split; [|split; [now left|]].
    + rewrite <- Eself at 1. apply (Run_add fits m1 A1 (eData e) (eRef e) m2 (eRef e) h); auto.
      * right. rewrite (fixed_bits _ _ Fx), D2. pose proof (iv_salt _ _ HI _ t Ht) as Hs. unfold salt_ok in Hs. lia.
      * apply HF.
      * rewrite Eself. constructor; [eauto|]. apply (Run_fits _ _ HR1).
    + intros e'. cbn [In]. rewrite HA1. split; [intros [<-|(? & _)]; auto|]. intros Hx.
      destruct (iv_A _ _ HI e') as (X & _). destruct (X Hx) as (i' & t' & h' & Ht' & Hh' & Ee').
      destruct (Nat.eq_dec i' (slot_of m e)) as [->|Hne]; [left; rewrite Ee, Ee'; congruence|]. right. split; auto. intros ->.
      apply Hne. unfold slot_of. rewrite Ee'. cbn [entry_of eRef]. destruct (inv_base m A i' t' HI Ht') as (-> & _). symmetry. apply Nat2Z.id.
Qed.
(** A slot that is taken is not given away: the program ends (log.Fatalln). *)
Theorem C12_slot_taken_exits : forall m A data h r, Run fits m A -> fit_data data h -> ~ In (loc h) (map eLoc A) -> r <> 0 ->
  ~ (exists t, get (mTiles m) (decodePolyIDTile (mBits m) r) = Ok t /\ tHeader t = None) -> AddTile m data r = Exit.
Proof. intros m A data h r HR HD Hl Hr. apply (add_result_ref m A data h r HR HD Hl Hr). Qed.

(** ** C13: slots *)

(** The slots are the free list and the buckets, each slot once ([TableView]), and there are
    as many free ones as MaxTiles minus the loaded tiles. *)
Theorem C13_slots_conserved : forall m A, Run any m A ->
  exists free buckets, TableView m free [] buckets /\
    Z.of_nat (length A) + Z.of_nat (length free) = npMaxTiles (mParams m) /\
    (forall i, In i (concat buckets) <-> exists e, In e A /\ holds_entry m i e).
Proof.
  intros m A HR. apply Run_inv in HR. destruct (iv_view _ _ HR) as (free & bk & HV). exists free, bk. split; [exact HV|]. split.
  - pose proof (live_count m A free bk HR HV). destruct (iv_params _ _ HR) as (_ & _ & <-). unfold zlen. lia.
  - intros i. split.
    + intros Hi. destruct (bucket_is_live m free [] bk i HV Hi) as (h & t & Ht & Hh). exists (entry_of m i t h). apply (entry_holds m A i t h HR Ht Hh).
    + intros (e & _ & (_ & t & h & Ht & Hh & _)). eapply live_in_bucket; [exact HV|]. exists t. eauto.
Qed.
Theorem C13_add_iff_free_slot : forall m A data h, Run fits m A -> fit_data data h -> ~ In (loc h) (map eLoc A) ->
  (Z.of_nat (length A) < npMaxTiles (mParams m) -> exists m' ref, AddTile m data 0 = Ok (m', Success, ref)) /\
  (npMaxTiles (mParams m) <= Z.of_nat (length A) -> AddTile m data 0 = Exit).
Proof.
  intros m A data h HR HD Hl. pose proof (Run_inv _ _ _ HR) as HI. destruct (iv_params _ _ HI) as (_ & _ & Hz). unfold zlen in Hz.
  destruct (add_result m A data h HR HD Hl) as (H1 & H2). split; intros Hn; [apply H1|apply H2]; lia.
Qed.
Theorem C13_location_taken : forall m A data h e, Run any m A -> header_unserialize data = Ok h ->
  hMagic h = navMeshMagic -> hVersion h = navMeshVersion -> In e A -> eLoc e = loc h ->
  forall lastRef, AddTile m data lastRef = Ok (m, Failure, 0).
Proof.
  intros m A data h e HR Hh Em Ev He El lastRef. unfold AddTile. rewrite Hh. cbn [bind]. rewrite Em, Ev, !Z.eqb_refl. cbn [negb].
  destruct (C10_TileAt m A (hX h) (hY h) (hLayer h) HR) as (o & -> & Ho). cbn [bind]. destruct o; [reflexivity|]. exfalso. exact (Ho e He El).
Qed.
Theorem C13_remove_returns_slot : forall m A e, Run any m A -> In e A ->
  exists m' i free buckets buckets', RemoveTile m (eRef e) = Ok (m', eData e, Success) /\ holds_entry m i e /\
    TableView m free [] buckets /\ TableView m' (i :: free) [] buckets' /\
    (forall k, In k (concat buckets') <-> k <> i /\ In k (concat buckets)).
Proof.
  intros m A e HR He. pose proof (Run_inv _ _ _ HR) as HI. destruct (entry_slot m A e HI He) as (t & h & Ht & Hh & Ee & D1 & D2 & D3).
  destruct (inv_bits _ _ HI) as (_ & _ & _ & _ & _ & Hsz & _). destruct (iv_view _ _ HI) as (free & bk & HV).
  destruct (RemoveTile_live m free bk (eRef e) (slot_of m e) t h (iv_ok _ _ HI) Hsz HV (iv_tile _ _ HI) Ht Hh D3 D1 D2) as (m1 & bk' & nx & vis & E1 & _ & _ & HV' & Hin & _).
  { destruct (inv_base m A _ t HI Ht) as (X & _). exact X. }
  exists m1, (slot_of m e), free, bk, bk'. assert (tData t = eData e) as <- by (rewrite Ee; reflexivity). split; [exact E1|]. split; [|auto].
  rewrite Ee at 2. apply (entry_holds m A _ t h HI Ht Hh).
Qed.

(** ** C14: link slots *)
Theorem C14_links_partitioned : forall m A i t h, Run any m A ->
  nth_error (mTiles m) i = Some t -> tHeader t = Some h -> LinkInv t.
Proof. intros m A i t h HR Ht Hh. apply Run_inv in HR. apply (iv_tile _ _ HR i t h Ht Hh). Qed.
Theorem C14_alloc : forall t fl cs, LinkView t fl cs ->
  match fl with
  | [] => allocLink t = Ok (t, nullLink)
  | (s, _) :: fl' => s <> nullLink /\ exists t', allocLink t = Ok (t', s) /\
      LChain (tdLinks (tD t')) (tLinksFree t') fl' /\ tD t' = tD t
  end.
Proof.
  intros t fl cs (Hf & _). unfold allocLink, LChain in *. destruct fl as [|[s p] fl'].
  - inversion Hf as [s0 E|]. subst. now rewrite Z.eqb_refl.
  - inversion Hf as [|s0 l c e Hs Hg Hr]. subst. split; [exact Hs|]. rewrite (proj2 (Z.eqb_neq _ _) Hs), Hg. cbn [bind]. eexists. split; [reflexivity|]. auto.
Qed.
Theorem C14_free : forall t fl s l, LChain (tdLinks (tD t)) (tLinksFree t) fl -> s <> nullLink ->
  get (tdLinks (tD t)) s = Ok l -> ~ In s (slots fl) ->
  exists t', freeLink t s = Ok t' /\ LChain (tdLinks (tD t')) (tLinksFree t') ((s, pay l) :: fl) /\
    (forall s', s' <> s -> get (tdLinks (tD t')) s' = get (tdLinks (tD t)) s') /\ tdPolys (tD t') = tdPolys (tD t).
Proof.
  intros t fl s l Hf Hs Hg Hn. unfold freeLink. rewrite Hg. cbn [bind]. pose proof (get_range _ _ _ Hg) as Hr. rewrite set_in_range by lia. cbn [bind].
  eexists. split; [reflexivity|]. cbn [set_tLinksFree set_tD set_tdLinks tD tdLinks tLinksFree tdPolys].
  assert (Hoth : forall s', s' <> s -> get (upd (tdLinks (tD t)) (Z.to_nat s) (set_lNext l (tLinksFree t))) s' = get (tdLinks (tD t)) s').
  { intros s' Hne. destruct (Z.ltb_spec s' 0) as [Hneg|Hneg]; [unfold get; destruct (Z.ltb_spec s' 0); [reflexivity|lia]|]. rewrite get_upd by lia. destruct (Z.eqb_spec s' s); [contradiction|reflexivity]. }
  split; [|split; [exact Hoth|reflexivity]].
  unfold LChain. replace (pay l) with (pay (set_lNext l (tLinksFree t))) by reflexivity. constructor; auto.
  - rewrite get_upd by lia. rewrite Z.eqb_refl. cbn [andb]. destruct (Z.ltb_spec s (zlen (tdLinks (tD t)))); [reflexivity|lia].
  - cbn [set_lNext lNext]. eapply LSeg_frame; [|exact Hf]. intros i Hi. apply Hoth. intros ->. contradiction.
Qed.

(** ** C15: links inside a tile *)

(** The links of a polygon of an added tile: links to other tiles in front, then one link for
    each edge with a neighbour in the tile; with too few link slots the first ones of these
    are missing. *)
Theorem C15_internal_links : forall m A data lastRef m' ref h td, Run any m A ->
  (lastRef = 0 \/ decodePolyIDSalt (mBits m) lastRef <> 0) ->
  AddTile m data lastRef = Ok (m', Success, ref) -> header_unserialize data = Ok h ->
  tile_unserialize h (skipn 100 data) = Ok td ->
  Forall (fun p => typed_poly p /\ 1 <= pVertCount p) (tdPolys td) ->
  exists i t, TileByRef m' ref = Ok (Some i) /\ nth_error (mTiles m') i = Some t /\
    forall ip p, get (tdPolys td) ip = Ok p -> exists ext k,
      PolyLinks t ip (ext ++ skipn k (inner_links (mBits m') (tSalt t) (Z.of_nat i) p)) /\
      (Z.of_nat (list_sum (map (fun q => length (inner_links (mBits m') 0 0 q)) (tdPolys td))) <= hMaxLinkCount h -> k = O) /\
      (tdCons td = [] -> sound m' (mkEntry (loc h) ref data :: A) ->
         Forall (fun x => decodePolyIDTile (mBits m') (pay_ref x) <> Z.of_nat i) ext).
Proof.
  intros m A data lastRef m' ref h td HR Hl E Hh Htd Hty. apply Run_inv in HR.
  destruct (added_links m A data lastRef m' ref h td HR Hl E Hh Htd Hty) as (i & t & H1 & H2 & _ & H3). eauto.
Qed.

(** ** C16: removing links *)
Theorem C16_unconnect_exact : forall m it itarget t h fl cs tref,
  nth_error (mTiles m) it = Some t -> tHeader t = Some h -> hPolyCount h = zlen (tdPolys (tD t)) ->
  TileRef m itarget = Ok tref -> LinkView t fl cs ->
  let other x := negb (decodePolyIDTile (mBits m) (pay_ref (snd x)) =? decodePolyIDTile (mBits m) tref) in
  exists t' fl', unconnectLinks m it itarget = Ok (set_tile m it t') /\ LinkView t' fl' (map (filter other) cs) /\
    (forall s, In s (slots fl') <-> In s (slots fl) \/ exists c x, In c cs /\ In x c /\ other x = false /\ fst x = s).
Proof.
  intros m it itarget t h fl cs tref Ht Hh Hn Hr HV other.
  destruct (unconnectLinks_view m it itarget t h fl cs tref (proj2 (tile_of_nth m it t) Ht) Hh Hr HV Hn) as (t' & fl' & E & F & HV').
  exists t', fl'. split; [exact E|]. change (map (filter (keep (mBits m) (decodePolyIDTile (mBits m) tref))) cs) with (map (filter other) cs) in HV'. split; [exact HV'|].
  destruct HV as (Hf & HP & Hnd & Hcov & _). destruct HV' as (Hf' & HP' & Hnd' & Hcov' & _).
  pose proof F as (_ & _ & Hlen & _). assert (Hz : zlen (tdLinks (tD t')) = zlen (tdLinks (tD t))) by (unfold zlen; now rewrite Hlen).
  assert (Hin : forall s, In s (slots (concat (map (filter other) cs))) <-> exists c x, In c cs /\ In x c /\ other x = true /\ fst x = s).
  { intros s. unfold slots. rewrite in_map_iff. split.
    - intros (x & <- & Hx). apply in_concat in Hx. destruct Hx as (c' & Hc' & Hx). apply in_map_iff in Hc'. destruct Hc' as (c & <- & Hc). apply filter_In in Hx. exists c, x. tauto.
    - intros (c & x & Hc & Hx & Ho & <-). exists x. split; auto. apply in_concat. exists (filter other c). split; [now apply in_map|]. now apply filter_In. }
  assert (Huniq : forall c x c' x', In c cs -> In x c -> In c' cs -> In x' c' -> fst x = fst x' -> other x = other x').
  { intros c x c' x' Hc Hx Hc' Hx' Efst. apply NoDup_app_iff' in Hnd. destruct Hnd as (_ & Hnd & _).
    assert (G : forall l : list (Z * payload), NoDup (map fst l) -> forall a b, In a l -> In b l -> fst a = fst b -> a = b).
    { induction l as [|y l IH]; intros Hl a b Ha Hb Eab; [destruct Ha|]. cbn [map] in Hl. apply NoDup_cons_iff in Hl. destruct Hl as (Hy & Hl).
      destruct Ha as [->|Ha], Hb as [->|Hb]; auto; exfalso; apply Hy; apply in_map_iff; [exists b|exists a]; auto. }
    rewrite (G _ Hnd x x'); auto; apply in_concat; eauto. }
  intros s. split.
  - intros Hs. pose proof (LSeg_range _ _ _ _ _ Hf' Hs) as (Hrg & _). rewrite Hz in Hrg. specialize (Hcov s Hrg). apply in_app_iff in Hcov. destruct Hcov as [|Hc]; [now left|right].
    unfold slots in Hc. apply in_map_iff in Hc. destruct Hc as (x & Ex & Hx). apply in_concat in Hx. destruct Hx as (c & Hc & Hx). exists c, x. split; auto. split; auto. split; auto.
    destruct (other x) eqn:Eo; auto. exfalso. apply NoDup_app_iff' in Hnd'. destruct Hnd' as (_ & _ & Hd). apply (Hd s Hs). apply Hin. eauto 10.
  - intros Hs. assert (Hrg : 0 <= s < zlen (tdLinks (tD t'))).
    { rewrite Hz. destruct Hs as [Hs|(c & x & Hc & Hx & _ & <-)]; [apply (LSeg_range _ _ _ _ _ Hf Hs)|].
      destruct (In_nth_error _ _ Hc) as (nc & Hnc). destruct (Forall2_nth_r _ _ _ _ _ HP Hnc) as (p & _ & HL). apply (LSeg_range _ _ _ _ (fst x) HL). now apply in_map. }
    specialize (Hcov' s Hrg). apply in_app_iff in Hcov'. destruct Hcov' as [|Hc]; auto. exfalso. apply Hin in Hc. destruct Hc as (c & x & Hc & Hx & Ho & Ex).
    destruct Hs as [Hs|(c2 & x2 & Hc2 & Hx2 & Ho2 & Ex2)].
    + apply NoDup_app_iff' in Hnd. destruct Hnd as (_ & _ & Hd). apply (Hd s Hs). unfold slots. apply in_map_iff. exists x. split; auto. apply in_concat. eauto.
    + rewrite (Huniq c x c2 x2) in Ho; auto; congruence.
Qed.

(** ** C62: links never dangle *)

(** In every reachable state every link of every loaded tile holds a valid polygon reference,
    of a loaded tile at the same location or at one of the eight around. *)
Theorem C62_links_valid : forall m A k t h ip ls x, Run sound m A ->
  nth_error (mTiles m) k = Some t -> tHeader t = Some h -> PolyLinks t ip ls -> In x ls ->
  IsValidPolyRef m (pay_ref x) = Ok true /\
  exists j h', TileByRef m (pay_ref x) = Ok (Some j) /\ live m j h' /\ adjacent h h'.
Proof.
  intros m A k t h ip ls x HR Ht Hh (p & c & Hp & HL & <-) Hx. pose proof (Run_inv _ _ _ HR) as HI. pose proof (Run_sound _ _ HR) as HS.
  destruct (LinksIn_run m A HR k t h Ht Hh) as (fl & cs & HV & Hrel). apply get_ok in Hp. destruct Hp as (_ & Hp). pose proof HV as (_ & HP & _).
  destruct (Forall2_nth _ _ _ _ _ HP Hp) as (c' & Hc' & HL'). rewrite (LChain_det _ _ _ HL' _ HL) in Hc'. apply nth_error_In in Hc'.
  apply in_map_iff in Hx. destruct Hx as (y & <- & Hy). specialize (Hrel c y Hc' Hy). split; [eapply rel_valid; eassumption|].
  destruct Hrel as (j & hk & hj & Lk & Lj & Ha & Hpr). assert (hk = h) by (destruct Lk as (q & Hq & Hhq); congruence). subst hk. exists j, hj. split; [|auto].
  destruct Hpr as (tj & h' & ipj & Htj & Hhj & H0 & Hip & Er). apply tile_of_nth in Htj. destruct (sound_wfT _ _ j tj h' HI HS Htj Hhj) as (W & Hmax & _). specialize (Hip W).
  destruct (inv_bits _ _ HI) as (_ & _ & _ & _ & _ & Hsz & Hmp). rewrite lor_encode in Er. destruct (inv_ref m A j tj ipj HI Htj ltac:(lia)) as (D & N & _).
  unfold DecodePolyID in D. injection D as Ds Dt Dp.
  assert (Hlt : (j < length (mTiles m))%nat) by (apply nth_error_Some; congruence). destruct (iv_ok _ _ HI) as (Hmx & _).
  unfold TileByRef. rewrite Er, (proj2 (Z.eqb_neq _ _) N), Dt, Ds, Hmx. rewrite i32_id by (unfold is_i32, zlen in *; lia).
  destruct (Z.leb_spec (zlen (mTiles m)) (Z.of_nat j)); [unfold zlen in *; lia|].
  assert (get (mTiles m) (Z.of_nat j) = Ok tj) as -> by (apply get_ok; rewrite Nat2Z.id; split; [lia|exact Htj]). cbn [bind]. rewrite Z.eqb_refl. cbn [negb]. now rewrite Nat2Z.id.
Qed.

(** ** Examples: the mesh of [ExampleMesh], two tiles side by side. *)
Example C10_example : Run any ex_m2 ex_A /\ TileAt ex_m2 1 0 0 = Ok (Some 1%nat) /\ TileRefAt ex_m2 1 0 0 = Ok ex_r1 /\
  TileAt ex_m2 1 1 0 = Ok None /\ TilesAt ex_m2 0 0 32 = Ok [0%nat] /\
  computeTileHash 0 0 (mLUTMask ex_m2) = computeTileHash 1 0 (mLUTMask ex_m2).
Proof. split; [exact ex_run_any|]. vm_compute. repeat split. Qed.

Definition ex_e0 : entry := mkEntry (0, 0, 0) ex_r0 ex_d0.
Definition ex_e1 : entry := mkEntry (1, 0, 0) ex_r1 ex_d1.
Definition ex_m3 : NavMesh := Eval vm_compute in fst (fst (ok_or (no_mesh, [], 0) (RemoveTile ex_m2 ex_r0))).
Lemma ex_remove0 : RemoveTile ex_m2 ex_r0 = Ok (ex_m3, ex_d0, Success).
Proof. vm_compute. reflexivity. Qed.
Definition ex_m4 : NavMesh := Eval vm_compute in fst (fst (ok_or (no_mesh, 0, 0) (AddTile ex_m3 ex_d0 0))).
Definition ex_r4 : Z := Eval vm_compute in snd (ok_or (no_mesh, 0, 0) (AddTile ex_m3 ex_d0 0)).
Lemma ex_add4 : AddTile ex_m3 ex_d0 0 = Ok (ex_m4, Success, ex_r4).
Proof. vm_compute. reflexivity. Qed.
(** The slot is used again under another reference, and the old one is rejected. *)
Example C11_example : In ex_e0 ex_A /\ After (decodePolyIDTile (mBits ex_m2) ex_r0) 1 ex_m2 ex_m4 /\
  1 < 2 ^ saltBits (mBits ex_m2) - 1 /\ same_tile (mBits ex_m2) (ex_r0 + 1) ex_r0 = true /\
  IsValidPolyRef ex_m2 (ex_r0 + 1) = Ok true /\ IsValidPolyRef ex_m4 (ex_r0 + 1) = Ok false /\
  IsValidPolyRef ex_m4 (ex_r4 + 1) = Ok true /\ decodePolyIDTile (mBits ex_m4) ex_r4 = decodePolyIDTile (mBits ex_m2) ex_r0.
Proof.
  split; [right; left; reflexivity|]. split; [|vm_compute; repeat split].
  apply (After_add _ 1 ex_m2 ex_m3 ex_d0 0 ex_m4 Success ex_r4); [|now left|exact ex_add4].
  exact (After_remove (decodePolyIDTile (mBits ex_m2) ex_r0) 0 ex_m2 ex_m2 ex_r0 ex_m3 ex_d0 Success (After_here _ _) ex_remove0).
Qed.
Example C12_example : Run fits ex_m2 ex_A /\ In ex_e0 ex_A /\ fit_data ex_d0 (ex_head 0 0 one) /\
  (let* (m, _, _) := RemoveTile ex_m2 ex_r0 in let* (_, st, r) := AddTile m ex_d0 ex_r0 in Ok (st, r)) = Ok (Success, ex_r0) /\
  ex_r4 <> ex_r0.
Proof. split; [exact ex_run_fits|]. split; [right; left; reflexivity|]. split; [exact ex_fit0|]. split; [vm_compute; reflexivity|discriminate]. Qed.
Example C13_example : Run fits ex_m2 ex_A /\ Z.of_nat (length ex_A) < npMaxTiles (mParams ex_m2) /\
  AddTile ex_m2 ex_d0 0 = Ok (ex_m2, Failure, 0) /\
  AddTile (fst (ok_or (no_mesh, 0) (Init (mkParams (0, 0, 0) one one 0 4)))) ex_d0 0 = Exit.
Proof. split; [exact ex_run_fits|]. split; [reflexivity|]. split; vm_compute; reflexivity. Qed.
(** Tile 0: polygon 0 has links 2 and 0, polygon 1 link 1, and slot 3 is free. *)
Definition ex_t0 : MeshTile := nth 0 (mTiles ex_m2) (freshTile None).
Lemma ex_links0 : LinkView ex_t0 [(3, (0, 0, 0, 0, 0))] [[(2, (21, 1, 0, 0, 255)); (0, (17, 2, 255, 0, 0))]; [(1, (16, 0, 255, 0, 0))]].
Proof.
  assert (N : forall s, s < nullLink -> s <> nullLink) by (intros; lia).
  split; [|split; [|split; [|split]]].
  - unfold LChain. eapply (LSeg_cons _ 3 (mkLink 0 nullLink 0 0 0 0)); [apply N; reflexivity|reflexivity|constructor].
  - constructor; [|constructor; [|constructor]]; unfold LChain.
    + eapply (LSeg_cons _ 2 (mkLink 21 0 1 0 0 255)); [apply N; reflexivity|reflexivity|].
      eapply (LSeg_cons _ 0 (mkLink 17 nullLink 2 255 0 0)); [apply N; reflexivity|reflexivity|constructor].
    + eapply (LSeg_cons _ 1 (mkLink 16 nullLink 0 255 0 0)); [apply N; reflexivity|reflexivity|constructor].
  - cbn. repeat constructor; cbn; intuition lia.
  - intros i Hi. change (zlen (tdLinks (tD ex_t0))) with 4 in Hi. cbn. lia.
  - reflexivity.
Qed.
Example C14_example : LinkView ex_t0 [(3, (0, 0, 0, 0, 0))] [[(2, (21, 1, 0, 0, 255)); (0, (17, 2, 255, 0, 0))]; [(1, (16, 0, 255, 0, 0))]] /\
  (let* (t, s) := allocLink ex_t0 in let* (t, s') := allocLink t in let* t := freeLink t 3 in let* (_, s'') := allocLink t in Ok [s; s'; s'']) =
  Ok [3; nullLink; 3].
Proof. split; [exact ex_links0|]. vm_compute. reflexivity. Qed.
Example C15_example : Run any ex_m1 [ex_e0] /\ AddTile ex_m1 ex_d1 0 = Ok (ex_m2, Success, ex_r1) /\
  tile_unserialize (ex_head 1 one two) (skipn 100 ex_d1) = Ok (ex_td one two) /\
  Forall (fun p => typed_poly p /\ 1 <= pVertCount p) (tdPolys (ex_td one two)) /\
  map (inner_links (mBits ex_m2) 1 1) (tdPolys (ex_td one two)) = [[(ex_r1 + 1, 2, 255, 0, 0)]; [(ex_r1, 0, 255, 0, 0)]] /\
  Z.of_nat (list_sum (map (fun q => length (inner_links (mBits ex_m2) 0 0 q)) (tdPolys (ex_td one two)))) <= hMaxLinkCount (ex_head 1 one two).
Proof.
  split.
  { apply (Run_add any ex_m0 [] ex_d0 0 ex_m1 ex_r0 (ex_head 0 0 one)); [eapply Run_init; [exact ex_good|exact ex_init]|now left|exact ex_add0|apply ex_fit0|exact I]. }
  split; [exact ex_add1|]. split; [vm_compute; reflexivity|]. split; [|split; [vm_compute; reflexivity|vm_compute; discriminate]].
  constructor; [|constructor; [|constructor]]; (split; [|cbn; lia]); unfold typed_poly, ex_tri; cbn [pFirstLink pVerts pNeis pFlags pVertCount pAreaAndType app];
    repeat (split; [unfold is_u32, is_u16, is_u8; try lia; try reflexivity; repeat (constructor; [lia|]); constructor|]); unfold is_u8; lia.
Qed.
(** Removing tile 1's links from tile 0 leaves the inner ones. *)
Example C16_example : TileRef ex_m2 1 = Ok ex_r1 /\ nth_error (mTiles ex_m2) 0 = Some ex_t0 /\
  LinkView ex_t0 [(3, (0, 0, 0, 0, 0))] [[(2, (21, 1, 0, 0, 255)); (0, (17, 2, 255, 0, 0))]; [(1, (16, 0, 255, 0, 0))]] /\
  map (fun r => negb (decodePolyIDTile (mBits ex_m2) r =? decodePolyIDTile (mBits ex_m2) ex_r1)) [21; 17; 16] = [false; true; true] /\
  (let* m := unconnectLinks ex_m2 0 1 in let* t := tile_of m 0 in Ok (tLinksFree t, map pFirstLink (tdPolys (tD t)))) = Ok (2, [0; 1]).
Proof. split; [reflexivity|]. split; [reflexivity|]. split; [exact ex_links0|]. split; vm_compute; reflexivity. Qed.
Example C62_example : Run sound ex_m2 ex_A /\ PolyLinks ex_t0 0 [(21, 1, 0, 0, 255); (17, 2, 255, 0, 0)] /\
  map (IsValidPolyRef ex_m2) [21; 17] = [Ok true; Ok true] /\ TileByRef ex_m2 21 = Ok (Some 1%nat).
Proof.
  split; [exact ex_run_sound|]. split; [|split; vm_compute; reflexivity].
  destruct ex_links0 as (_ & HP & _). exists (nth 0 (tdPolys (tD ex_t0)) (ex_tri [] [])), [(2, (21, 1, 0, 0, 255)); (0, (17, 2, 255, 0, 0))]. split; [reflexivity|]. split; [|reflexivity].
  inversion HP as [|? ? ? ? HL]. exact HL.
Qed.

Print Assumptions C10_TileAt.
Print Assumptions C10_TilesAt.
Print Assumptions C11_rejected_after_removal.
Print Assumptions C12_remove_then_readd.
Print Assumptions C13_add_iff_free_slot.
Print Assumptions C14_links_partitioned.
Print Assumptions C15_internal_links.
Print Assumptions C16_unconnect_exact.
Print Assumptions C62_links_valid.
