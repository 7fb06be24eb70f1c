(** Proofs that AddTile returns for well-formed tile data. *)
From Coq Require Import ZArith List Bool Lia Permutation.
From Verif.Base Require Import Res GoNum F32 Num Grid Bytes.
From Verif.Model Require Import Status Poly PolyRef Bounds Geom MeshTypes Serial MeshLinks MeshTiles.
From Verif.Spec Require Import LinkSpec MeshSpec.
From Verif.Proofs Require Import BasicsProofs PolyRefProofs LinkProofs IntLinkProofs MeshStep TableProofs SlotProofs LinkTile MeshInv.
Import ListNotations.
Open Scope Z_scope.

Lemma foldM_total : forall {S A} (f : S -> A -> res S) (I : S -> Prop) l s, I s ->
  (forall a s, In a l -> I s -> exists s', f s a = Ok s' /\ I s') -> exists s', foldM f l s = Ok s' /\ I s'.
Proof.
  intros S A f I l. induction l as [|a l IH]; intros s Hs H; cbn [foldM]; [eauto|].
  destruct (H a s (or_introl eq_refl) Hs) as (s' & -> & Hs'). cbn [bind]. apply IH; auto. intros b u Hb. apply H. now right.
Qed.

(** ** Adding a link *)
Definition FreeOK (t : MeshTile) : Prop := exists fl, LChain (tdLinks (tD t)) (tLinksFree t) fl /\ NoDup (slots fl).
Lemma LinkInv_FreeOK : forall t, LinkInv t -> FreeOK t.
Proof. intros t (fl & cs & H1 & _ & H3 & _). exists fl. split; auto. rewrite NoDup_app_iff' in H3. tauto. Qed.
Lemma push_total : forall t ip ref edge side b, FreeOK t -> 0 <= ip < zlen (tdPolys (tD t)) ->
  exists t', push_link t ip ref edge side b = Ok t' /\ FreeOK t'.
Proof.
  intros t ip ref edge side b (fl & Hc & Hn) Hip. unfold push_link, allocLink. destruct (Z.eqb_spec (tLinksFree t) nullLink) as [E|E].
  - cbn [bind]. rewrite Z.eqb_refl. exists t. split; auto. exists fl. auto.
  - inversion Hc as [s Es|s l c e Hs Hg Hr]; subst; [congruence|]. rewrite Hg. cbn [bind].
    destruct (Z.eqb_spec (tLinksFree t) nullLink); [contradiction|]. cbn [set_tLinksFree tD tdPolys tdLinks].
    destruct (get_in_range _ _ Hip) as (p & Hp). rewrite Hp. cbn [bind]. rewrite Hg. cbn [bind].
    set (bb := match b with Some bb => bb | None => (lBMin l, lBMax l) end). destruct bb as [b0 b1].
    rewrite (set_in_range (tdLinks (tD t))) by (now apply get_range in Hg). cbn [bind]. rewrite set_in_range by assumption. cbn [bind].
    eexists. split; [reflexivity|]. inversion Hn as [|? ? Hni Hn']; subst. exists c. split; auto.
    cbn [set_tD tD set_tdPolys set_tdLinks tdLinks tLinksFree].
    eapply LSeg_frame; [|exact Hr]. intros i Hi. pose proof (LSeg_range _ _ _ _ _ Hr Hi) as ((Hi0 & _) & _). apply get_range in Hg.
    rewrite get_upd by lia. destruct (Z.eqb_spec i (tLinksFree t)) as [->|]; [contradiction|reflexivity].
Qed.

Lemma connectIntPoly_total : forall base t i p, FreeOK t -> get (tdPolys (tD t)) i = Ok p -> length (pNeis p) = 6%nat -> 1 <= pVertCount p <= 6 ->
  exists t', connectIntPoly base t i = Ok t' /\ FreeOK t' /\ frame t t'.
Proof.
  intros base t i p HF Hp Hn Hv. unfold connectIntPoly. rewrite Hp. cbn [bind]. pose proof (get_range _ _ _ Hp) as Hi.
  rewrite set_in_range by assumption. cbn [bind]. set (t1 := set_tD t _).
  assert (Hs1 : map static_poly (tdPolys (tD t1)) = map static_poly (tdPolys (tD t))).
  { unfold t1. cbn [set_tD tD set_tdPolys tdPolys]. rewrite map_upd. apply upd_self. apply get_ok in Hp. destruct Hp as (_ & Hp). now apply map_nth_error with (f := static_poly) in Hp. }
  assert (F1 : frame t t1).
  { split; [reflexivity|]. split; [exact Hs1|]. repeat (split; [reflexivity|]). reflexivity. }
  assert (HF1 : FreeOK t1) by exact HF.
  destruct (Type_ p =? _); [eauto|].
  destruct (foldM_total (fun t j => let* nei := get (pNeis p) j in
      if (nei =? 0) || negb (Z.land nei extLink =? 0) then Ok t
      else push_link t i (Z.lor base (u16 (nei - 1))) j 255 (Some (0, 0))) (fun s => FreeOK s /\ frame t s)
      (rev (zseq (Z.to_nat (u8 (pVertCount p - 1) + 1)))) t1) as (t' & E & HF' & Fr); [auto| |eauto].
  intros j s Hj (Hs & Fs). apply in_rev in Hj. apply in_zseq in Hj. unfold u8 in Hj. rewrite Z.mod_small in Hj by lia.
  destruct (get_in_range (pNeis p) j) as (nei & Hnei); [unfold zlen; lia|]. rewrite Hnei. cbn [bind].
  destruct (_ || _); [eauto|]. destruct (push_total s i (Z.lor base (u16 (nei - 1))) j 255 (Some (0, 0)) Hs) as (s' & E & Hs').
  - pose proof (frame_polys _ _ Fs) as L. unfold zlen in *. lia.
  - exists s'. split; auto. split; auto. eapply frame_trans; [exact Fs|]. eapply push_frame; exact E.
Qed.

(** ** Tiles in order *)
Definition fitS (t : MeshTile) (h : MeshHeader) : Prop :=
  hPolyCount h = zlen (tdPolys (tD t)) /\ hOffMeshConCount h = 0 /\ tdCons (tD t) = [] /\
  Forall (fit_poly (zlen (tdVerts (tD t)))) (tdPolys (tD t)).
Definition fitM (m : NavMesh) : Prop := forall i t h, nth_error (mTiles m) i = Some t -> tHeader t = Some h -> fitS t h /\ LinkInv t.

Lemma fit_poly_static : forall n p q, static_poly p = static_poly q -> fit_poly n p -> fit_poly n q.
Proof. intros n p q H. unfold static_poly in H. inversion H as [[H1 H2 H3 H4 H5]]. unfold fit_poly. now rewrite H1, H2, H4. Qed.
Lemma fitS_frame : forall t t' h, frame t t' -> fitS t h -> fitS t' h.
Proof.
  intros t t' h F (H1 & H2 & H3 & H4). pose proof (frame_polys _ _ F) as Hl. destruct F as (_ & Hp & _ & Hv & _ & _ & _ & _ & _ & Hc).
  split; [unfold zlen in *; rewrite Hl; exact H1|]. split; auto. split; [congruence|].
  apply Forall_forall. intros q Hq. assert (In (static_poly q) (map static_poly (tdPolys (tD t)))) as Hin by (rewrite <- Hp; now apply in_map).
  apply in_map_iff in Hin. destruct Hin as (p & Ep & Hin). rewrite Forall_forall in H4. unfold zlen. rewrite Hv. eapply fit_poly_static; [exact Ep|]. now apply H4.
Qed.
Lemma fitM_mstep : forall Q m m', mstep Q m m' -> fitM m -> fitM m'.
Proof.
  intros Q m m' HS HF i t' h Ht' Hh. apply tile_of_nth in Ht'. destruct (mstep_tile_rev _ _ _ _ _ HS Ht') as (t & Ht & F & V).
  apply tile_of_nth in Ht. rewrite (frame_header _ _ F) in Hh. destruct (HF i t h Ht Hh) as (G & (fl & cs & HV)). split; [eapply fitS_frame; eassumption|].
  destruct (V fl cs HV) as (fl' & cs' & HV' & _). exists fl', cs'. exact HV'.
Qed.

(** ** Vertices *)
Lemma vec3_total : forall vs off, 0 <= off -> off + 3 <= zlen vs -> exists v, vec3_at vs off = Ok v.
Proof.
  intros vs off H1 H2. unfold vec3_at. destruct (get_in_range vs off) as (a & ->); [lia|]. destruct (get_in_range vs (off + 1)) as (b & ->); [lia|].
  destruct (get_in_range vs (off + 2)) as (c & ->); [lia|]. cbn [bind]. eauto.
Qed.
Lemma vert16_total : forall vs v, 0 <= v -> 3 * v + 3 <= zlen vs -> 3 * v + 3 <= 65535 -> exists w, vert16 vs v = Ok w.
Proof.
  intros vs v H1 H2 H3. unfold vert16. assert (E : u16 (v * 3) = 3 * v) by (unfold u16; rewrite Z.mod_small; lia). rewrite E.
  assert (E2 : u16 (3 * v + 3) = 3 * v + 3) by (unfold u16; rewrite Z.mod_small; lia). rewrite E2.
  destruct (Z.ltb_spec (3 * v + 3) (3 * v)); [lia|]. apply vec3_total; lia.
Qed.
Lemma tail_total : forall vs v, 0 <= v -> 3 * v + 3 <= zlen vs -> 3 * v + 3 <= 65535 -> vert_tail vs v = Ok (skipn (Z.to_nat (3 * v)) vs).
Proof.
  intros vs v H1 H2 H3. unfold vert_tail. assert (E : u16 (v * 3) = 3 * v) by (unfold u16; rewrite Z.mod_small; lia). rewrite E.
  destruct (Z.leb_spec (3 * v) (zlen vs)); [reflexivity|lia].
Qed.
Lemma skipn_zlen : forall {A} (l : list A) k, 0 <= k <= zlen l -> zlen (skipn (Z.to_nat k) l) = zlen l - k.
Proof. intros A l k H. unfold zlen in *. rewrite skipn_length. lia. Qed.
Lemma slab_total : forall va vb side, 3 <= zlen va -> 3 <= zlen vb -> exists r, calcSlabEndPoints va vb side = Ok r.
Proof.
  intros va vb side Ha Hb. unfold calcSlabEndPoints.
  assert (G : forall k, 0 <= k < 3 -> exists r, (let* a := get va k in let* b := get vb k in let* ay := get va 1 in let* by_ := get vb 1 in
     if flt (f_of_bits a) (f_of_bits b) then Ok (f_of_bits a, f_of_bits ay, (f_of_bits b, f_of_bits by_)) else Ok (f_of_bits b, f_of_bits by_, (f_of_bits a, f_of_bits ay))) = Ok r).
  { intros k Hk. destruct (get_in_range va k) as (a & ->); [lia|]. destruct (get_in_range vb k) as (b & ->); [lia|].
    destruct (get_in_range va 1) as (c & ->); [lia|]. destruct (get_in_range vb 1) as (d & ->); [lia|]. cbn [bind]. destruct (flt _ _); eauto. }
  destruct (_ || _); [apply (G 2); lia|]. destruct (_ || _); [apply (G 0); lia|]. eauto.
Qed.
Lemma coord_total : forall va side, 3 <= zlen va -> exists r, slabCoord va side = Ok r.
Proof.
  intros va side Ha. unfold slabCoord. destruct (get_in_range va 0) as (a & ->); [lia|]. destruct (get_in_range va 2) as (b & ->); [lia|]. cbn [bind].
  destruct (_ || _); [eauto|]. destruct (_ || _); eauto.
Qed.

Lemma connecting_edge_total : forall t p side amin amax apos climb n j, fit_poly (zlen (tdVerts (tD t))) p -> 0 <= j -> j + Z.of_nat n <= pVertCount p ->
  exists r, connecting_edge t p side amin amax apos climb n j = Ok r.
Proof.
  intros t p side amin amax apos climb n. induction n as [|n IH]; intros j (L1 & L2 & Hc & Hv) H0 H1; cbn [connecting_edge]; [eauto|].
  assert (IH' : exists r, connecting_edge t p side amin amax apos climb n (j + 1) = Ok r) by (apply IH; [repeat split; auto; try apply Hc; try apply (Hv _ _ H H2)|lia|lia]).
  destruct (get_in_range (pNeis p) j) as (nei & ->); [unfold zlen; lia|]. cbn [bind]. destruct (negb _); [exact IH'|].
  destruct (get_in_range (pVerts p) j) as (v & Ev); [unfold zlen; lia|]. rewrite Ev. cbn [bind].
  assert (Eu : u8 (j + 1) = j + 1) by (unfold u8; rewrite Z.mod_small; lia). rewrite Eu.
  assert (Hm : 0 <= (j + 1) mod pVertCount p < pVertCount p) by (apply Z.mod_pos_bound; lia).
  destruct (get_in_range (pVerts p) ((j + 1) mod pVertCount p)) as (w & Ew); [unfold zlen; lia|]. rewrite Ew. cbn [bind].
  destruct (Hv j v ltac:(lia) Ev) as (V1 & V2 & V3). destruct (Hv _ w Hm Ew) as (W1 & W2 & W3).
  destruct (vert16_total (tdVerts (tD t)) v V1 V2 V3) as (a & ->). destruct (vert16_total (tdVerts (tD t)) w W1 W2 W3) as (b & ->). cbn [bind].
  assert (E : u16 (v * 3) = 3 * v) by (unfold u16; rewrite Z.mod_small; lia). assert (E' : u16 (w * 3) = 3 * w) by (unfold u16; rewrite Z.mod_small; lia). rewrite E, E'.
  assert (La : 3 <= zlen (skipn (Z.to_nat (3 * v)) (tdVerts (tD t)))) by (rewrite skipn_zlen; lia).
  assert (Lb : 3 <= zlen (skipn (Z.to_nat (3 * w)) (tdVerts (tD t)))) by (rewrite skipn_zlen; lia).
  destruct (coord_total _ side La) as (bpos & ->). cbn [bind]. destruct (fgt _ _); [exact IH'|].
  destruct (slab_total _ _ side La Lb) as ([bmin bmax] & ->). cbn [bind]. destruct (negb _); [exact IH'|]. eauto.
Qed.
Lemma findConnectingPolys_total : forall m va vb it side k h, fitM m -> live m it h -> 3 <= zlen va -> 3 <= zlen vb ->
  exists l, findConnectingPolys m va vb it side k = Ok l.
Proof.
  intros m va vb it side k h HF (t & Ht & Hh) Ha Hb. unfold findConnectingPolys.
  destruct (slab_total va vb side Ha Hb) as ([amin amax] & ->). cbn [bind]. destruct (coord_total va side Ha) as (apos & ->). cbn [bind].
  destruct (HF it t h Ht Hh) as ((Hn & _ & _ & Hp) & _). assert (Ht' := Ht). apply tile_of_nth in Ht'. rewrite (base_of_tile _ _ _ Ht'), Ht'. cbn [bind].
  unfold hdr_of. rewrite Hh. cbn [bind of_option].
  match goal with |- exists l, foldM ?f ?xs ?s = Ok l => destruct (foldM_total f (fun _ => True) xs s I) as (l & -> & _); [|eauto] end.
  intros i acc Hi _. apply in_zseq in Hi. destruct (get_in_range (tdPolys (tD t)) i) as (p & Ep); [lia|]. rewrite Ep. cbn [bind].
  rewrite Forall_forall in Hp. assert (Hfp : fit_poly (zlen (tdVerts (tD t))) p) by (apply Hp; apply get_ok in Ep; destruct Ep as (_ & Ep); eapply nth_error_In; exact Ep).
  destruct (connecting_edge_total t p side amin amax apos (f_of_bits (hWalkableClimb h)) (Z.to_nat (pVertCount p)) 0 Hfp) as (r & ->); [lia|destruct Hfp as (_ & _ & ? & _); lia|].
  cbn [bind]. destruct r; [destruct (_ <? _)|]; eauto.
Qed.
Lemma limits_total : forall va vb dir area, 3 <= zlen va -> 3 <= zlen vb -> exists r, portal_limits va vb dir area = Ok r.
Proof.
  intros va vb dir area Ha Hb. unfold portal_limits.
  destruct (get_in_range va 0) as (a & ->); [lia|]. destruct (get_in_range vb 0) as (b & ->); [lia|].
  destruct (get_in_range va 2) as (c & ->); [lia|]. destruct (get_in_range vb 2) as (d & ->); [lia|]. cbn [bind].
  destruct (_ || _); [|destruct (_ || _); [|eauto]]; destruct (fgt _ _); eauto.
Qed.

(** ** Linking *)
Definition stepT (m s : NavMesh) : Prop := mstep (fun _ _ => True) m s.
Lemma stepT_of : forall Q m s, mstep Q m s -> stepT m s.
Proof. intros Q m s. apply mstep_impl. auto. Qed.
Lemma stepT_trans : forall a b c, stepT a b -> stepT b c -> stepT a c.
Proof. intros a b c. apply mstep_trans. Qed.

Lemma connectExtLinks_total : forall m it itarget side h ht, fitM m -> live m it h -> live m itarget ht ->
  exists m', connectExtLinks m it itarget side = Ok m' /\ stepT m m'.
Proof.
  intros m it itarget side h ht HF Hl Hlt.
  assert (G : exists m', connectExtLinks m it itarget side = Ok m'); [|destruct G as (m' & E); exists m'; split; auto; eapply stepT_of, connectExtLinks_mstep, E].
  unfold connectExtLinks. pose proof Hl as (t & Ht & Hh). assert (Ht' := Ht). apply tile_of_nth in Ht'. rewrite Ht'. cbn [bind]. unfold hdr_of. rewrite Hh. cbn [bind of_option].
  match goal with |- exists l, foldM ?f ?xs ?s = Ok l => destruct (foldM_total f (fun s => stepT m s) xs s) as (l & -> & _); [apply mstep_refl| |eauto] end.
  intros i s Hi HS. apply in_zseq in Hi. destruct (mstep_tile _ _ _ _ _ HS Ht') as (u & Hu & Fu & _). rewrite Hu. cbn [bind].
  destruct (HF it t h Ht Hh) as (Ft & _). pose proof (fitS_frame _ _ _ Fu Ft) as (Hn & _ & _ & Hp).
  destruct (get_in_range (tdPolys (tD u)) i) as (p & Ep); [lia|]. rewrite Ep. cbn [bind].
  apply foldM_total; auto. intros j w Hj HW. apply in_zseq in Hj.
  assert (G : exists s', connectExtEdge it itarget side i w j = Ok s' /\ stepT w s'); [|destruct G as (s' & E & S'); exists s'; split; auto; eapply stepT_trans; eassumption].
  unfold connectExtEdge. destruct (mstep_tile _ _ _ _ _ HW Ht') as (x & Hx & Fx & Vx). rewrite Hx. cbn [bind].
  pose proof (fitS_frame _ _ _ Fx Ft) as (Hnx & _ & _ & Hpx).
  destruct (get_in_range (tdPolys (tD x)) i) as (q & Eq); [lia|]. rewrite Eq. cbn [bind].
  assert (Hst : static_poly q = static_poly p).
  { destruct Fx as (_ & Sx & _). destruct Fu as (_ & Su & _). apply get_ok in Ep, Eq. destruct Ep as (_ & Ep). destruct Eq as (_ & Eq).
    apply (map_nth_error static_poly) in Ep. apply (map_nth_error static_poly) in Eq. congruence. }
  assert (Hqp : pVertCount q = pVertCount p) by (unfold static_poly in Hst; congruence).
  rewrite Forall_forall in Hpx. assert (Hfq : fit_poly (zlen (tdVerts (tD x))) q) by (apply Hpx; apply get_ok in Eq; destruct Eq as (_ & Eq); eapply nth_error_In; exact Eq).
  destruct Hfq as (L1 & L2 & Hc & Hv).
  destruct (get_in_range (pNeis q) j) as (nei & ->); [unfold zlen; lia|]. cbn [bind].
  destruct (_ =? 0); [exists w; split; auto; apply mstep_refl|]. destruct (_ && _); [exists w; split; auto; apply mstep_refl|].
  destruct (get_in_range (pVerts q) j) as (v & Ev); [unfold zlen; lia|]. rewrite Ev. cbn [bind].
  assert (Hm : 0 <= (j + 1) mod pVertCount q < pVertCount q) by (apply Z.mod_pos_bound; lia).
  destruct (get_in_range (pVerts q) ((j + 1) mod pVertCount q)) as (y & Ey); [unfold zlen; lia|]. rewrite Ey. cbn [bind].
  destruct (Hv j v ltac:(lia) Ev) as (V1 & V2 & V3). destruct (Hv _ y Hm Ey) as (W1 & W2 & W3).
  rewrite (tail_total _ v V1 V2 V3), (tail_total _ y W1 W2 W3). cbn [bind].
  set (va := skipn (Z.to_nat (3 * v)) (tdVerts (tD x))). set (vb := skipn (Z.to_nat (3 * y)) (tdVerts (tD x))).
  assert (La : 3 <= zlen va) by (unfold va; rewrite skipn_zlen; lia). assert (Lb : 3 <= zlen vb) by (unfold vb; rewrite skipn_zlen; lia).
  destruct (findConnectingPolys_total w va vb itarget (oppositeTile (Z.land nei 255)) 4 ht) as (neis & En); [eapply fitM_mstep; eassumption|apply (mstep_live _ _ _ _ _ HW); exact Hlt|exact La|exact Lb|].
  rewrite En. cbn [bind].
  assert (Hli : LinkInv x).
  { destruct (HF it t h Ht Hh) as (_ & (fl & cs & HV)). destruct (Vx fl cs HV) as (fl' & cs' & HV' & _). exists fl', cs'. exact HV'. }
  match goal with |- exists l, (let* _ := foldM ?f ?xs ?s in _) = _ /\ _ => destruct (foldM_total f (fun z => FreeOK z /\ tstep (fun _ => True) x z) xs s) as (z & -> & _ & Sz) end.
  - split; [now apply LinkInv_FreeOK|apply tstep_refl].
  - intros [ref area] z _ (Hz & Sz). destruct (_ =? _); [eauto|]. destruct (limits_total va vb (Z.land nei 255) area La Lb) as (lim & ->). cbn [bind].
    destruct (push_total z i ref j (u8 (Z.land nei 255)) lim Hz) as (z' & E & Hz').
    + destruct Sz as (Fz & _). pose proof (frame_polys _ _ Fz) as L. unfold zlen in *. lia.
    + exists z'. split; auto. split; auto. eapply tstep_trans; [exact Sz|]. eapply push_tstep; [exact E|exact I].
  - cbn [bind]. eexists. split; [reflexivity|]. eapply mstep_set; [exact Hx|exact Sz].
Qed.

Lemma no_cons_ext : forall m it itarget side ht, fitM m -> live m itarget ht -> connectExtOffMeshLinks m it itarget side = Ok m.
Proof.
  intros m it itarget side ht HF (t & Ht & Hh). unfold connectExtOffMeshLinks. destruct (HF itarget t ht Ht Hh) as ((_ & Hc & _) & _).
  apply tile_of_nth in Ht. rewrite Ht. cbn [bind]. unfold hdr_of. rewrite Hh. cbn [bind of_option]. rewrite Hc. reflexivity.
Qed.
Lemma no_cons_base : forall m it h, fitM m -> live m it h -> baseOffMeshLinks m it = Ok m.
Proof.
  intros m it ht HF (t & Ht & Hh). unfold baseOffMeshLinks. destruct (HF it t ht Ht Hh) as ((_ & Hc & _) & _).
  apply tile_of_nth in Ht. rewrite (base_of_tile _ _ _ Ht), Ht. cbn [bind]. unfold hdr_of. rewrite Hh. cbn [bind of_option]. rewrite Hc. reflexivity.
Qed.
Lemma pair_total : forall m i j side side' hi hj, fitM m -> live m i hi -> live m j hj ->
  exists m', (let* a := connectExtLinks m i j side in
   let* b := connectExtLinks a j i side' in
   let* c := connectExtOffMeshLinks b i j side in
   connectExtOffMeshLinks c j i side') = Ok m' /\ stepT m m'.
Proof.
  intros m i j side side' hi hj HF Hi Hj. destruct (connectExtLinks_total m i j side hi hj HF Hi Hj) as (a & -> & Sa). cbn [bind].
  pose proof (fitM_mstep _ _ _ Sa HF) as Fa.
  destruct (connectExtLinks_total a j i side' hj hi Fa) as (b & -> & Sb); [now apply (mstep_live _ _ _ _ _ Sa)|now apply (mstep_live _ _ _ _ _ Sa)|]. cbn [bind].
  pose proof (stepT_trans _ _ _ Sa Sb) as Sab. pose proof (fitM_mstep _ _ _ Sab HF) as Fb.
  rewrite (no_cons_ext b i j side hj Fb) by (now apply (mstep_live _ _ _ _ _ Sab)). cbn [bind].
  rewrite (no_cons_ext b j i side' hi Fb) by (now apply (mstep_live _ _ _ _ _ Sab)). eauto.
Qed.

Lemma link_rest_total : forall m i hdr free bk, mesh_ok m -> TableView m free [] bk -> fitM m -> live m i hdr ->
  exists m', (let* m := baseOffMeshLinks m i in
  let* m := connectExtOffMeshLinks m i i (-1) in
  let* neis := TilesAt m (hX hdr) (hY hdr) 32 in
  let* m := foldM (link_layer i) neis m in
  foldM (link_side (hX hdr) (hY hdr) i) (zseq 8) m) = Ok m'.
Proof.
  intros m i hdr free bk Hok HV HF Hl. rewrite (no_cons_base m i hdr HF Hl). cbn [bind]. rewrite (no_cons_ext m i i (-1) hdr HF Hl). cbn [bind].
  destruct (TilesAt_spec m free [] bk (hX hdr) (hY hdr) 32 Hok HV ltac:(lia)) as (l & -> & _ & Hin & _). cbn [bind].
  destruct (foldM_total (link_layer i) (stepT m) (firstn (Z.to_nat 32) l) m) as (c & -> & Sc); [apply mstep_refl| |].
  { intros j s Hj HS. unfold link_layer. destruct (Nat.eqb j i); [eauto|].
    assert (In j l) as Hjl by (rewrite <- (firstn_skipn (Z.to_nat 32) l); apply in_app_iff; now left). destruct (Hin j Hjl) as (hj & Lj & _).
    destruct (pair_total s i j (-1) (-1) hdr hj) as (s' & E & S'); [eapply fitM_mstep; eassumption|now apply (mstep_live _ _ _ _ _ HS)|now apply (mstep_live _ _ _ _ _ HS)|].
    exists s'. split; auto. eapply stepT_trans; eassumption. }
  cbn [bind]. destruct (foldM_total (link_side (hX hdr) (hY hdr) i) (stepT m) (zseq 8) c Sc) as (d & -> & _); [|eauto].
  intros side s Hs HS. unfold link_side, neighbourTilesAt. destruct (neighbourLoc (hX hdr) (hY hdr) side) as [nx ny].
  destruct (TilesAt_spec s free [] bk nx ny 32) as (l2 & -> & _ & Hin2 & _); [eapply mstep_ok; eassumption|eapply mstep_view; eassumption|lia|]. cbn [bind].
  apply foldM_total; auto. intros j u Hj HU.
  assert (In j l2) as Hjl by (rewrite <- (firstn_skipn (Z.to_nat 32) l2); apply in_app_iff; now left). destruct (Hin2 j Hjl) as (hj & Lj & _).
  apply (mstep_live _ _ _ _ _ HS) in Lj.
  destruct (pair_total u i j side (oppositeTile side) hdr hj) as (s' & E & S'); [eapply fitM_mstep; eassumption|now apply (mstep_live _ _ _ _ _ HU)|now apply (mstep_live _ _ _ _ _ HU)|].
  exists s'. split; auto. eapply stepT_trans; eassumption.
Qed.

(** ** AddTile *)
Lemma connectIntLinks_total : forall m i t h, tile_of m i = Ok t -> tHeader t = Some h -> fitS t h -> FreeOK t ->
  exists m', connectIntLinks m i = Ok m'.
Proof.
  intros m i t h Ht Hh (Hn & _ & _ & Hp) HF. unfold connectIntLinks. rewrite (base_of_tile _ _ _ Ht), Ht. cbn [bind]. unfold hdr_of. rewrite Hh. cbn [bind of_option].
  set (base := encodePolyID _ _ _ _).
  destruct (foldM_total (connectIntPoly base) (fun s => FreeOK s /\ frame t s) (zseq (Z.to_nat (hPolyCount h))) t) as (t' & -> & _); [split; [auto|apply frame_refl]| |cbn [bind]; eauto].
  intros j s Hj (Hs & Fs). apply in_zseq in Hj. pose proof (frame_polys _ _ Fs) as L. destruct (get_in_range (tdPolys (tD s)) j) as (p & Ep); [unfold zlen in *; lia|].
  assert (Hf : fit_poly (zlen (tdVerts (tD t))) p).
  { assert (In p (tdPolys (tD s))) as Hin by (apply get_ok in Ep; destruct Ep as (_ & Ep); eapply nth_error_In; exact Ep).
    destruct Fs as (_ & Hst & _). apply (in_map static_poly) in Hin. rewrite Hst in Hin. apply in_map_iff in Hin. destruct Hin as (q & Eq & Hin).
    rewrite Forall_forall in Hp. eapply fit_poly_static; [exact Eq|]. now apply Hp. }
  destruct Hf as (_ & L6 & Hc & _). destruct (connectIntPoly_total base s j p Hs Ep L6 Hc) as (s' & E & Hs' & Fs'). exists s'. split; auto. split; auto. eapply frame_trans; eassumption.
Qed.
Lemma fitS_no_next : forall t t' h, no_next t' = no_next t -> fitS t h -> fitS t' h.
Proof. intros t t' h E H. assert (tD t' = tD t) as E1 by (apply (f_equal tD) in E; exact E). unfold fitS. rewrite E1. exact H. Qed.

Lemma AddTile_total : forall m free bk data lastRef hdr m1 i, mesh_ok m -> TableView m free [] bk -> fitM m ->
  fit_data data hdr -> (forall k h, live m k h -> loc h <> loc hdr) -> alloc_slot m lastRef = Ok (m1, i) ->
  exists m' ref, AddTile m data lastRef = Ok (m', Success, ref).
Proof.
  intros m free bk data lastRef hdr m1 i Hok HV HF (Hh & Em & Ev & td & Htd & Hml & Hoc & Hps) Hloc Ha. unfold AddTile. rewrite Hh. cbn [bind].
  rewrite Em, Ev, !Z.eqb_refl. cbn [negb].
  destruct (TileAt_spec m free bk (hX hdr) (hY hdr) (hLayer hdr) Hok HV) as (o & -> & Ho). cbn [bind].
  destruct o as [x|]; [destruct Ho as (h & Hl & El); exfalso; eapply Hloc; [exact Hl|]; rewrite El; reflexivity|]. clear Ho.
  rewrite Ha. cbn [bind].
  destruct (alloc_slot_view m free bk lastRef m1 i Hok HV Ha) as (F1 & P1 & f1 & f2 & t & t1 & Ef & HV1 & Ht & Ht1 & Es & Ho1 & L1 & Hz & Hnz).
  assert (Hok1 : mesh_ok m1) by (eapply mesh_ok_fixed; eassumption).
  assert (Hback1 : forall k s1, k <> i -> nth_error (mTiles m1) k = Some s1 -> exists s, nth_error (mTiles m) k = Some s /\ no_next s1 = no_next s).
  { intros k s1 Hk Hs1. specialize (Ho1 k Hk). rewrite Hs1 in Ho1. destruct (nth_error (mTiles m) k) as [s0|] eqn:E0; [|discriminate].
    cbn in Ho1. inversion Ho1 as [Ho1']. exists s0. split; auto. fold (no_next s1) in Ho1'. fold (no_next s0) in Ho1'. congruence. }
  assert (Hnb : ~ In i (concat bk)).
  { destruct HV1 as (_ & _ & Hn & _). rewrite NoDup_app_iff' in Hn. destruct Hn as (_ & Hn & _). cbn [app] in Hn. apply NoDup_cons_iff in Hn. tauto. }
  (* install *)
  pose proof (unserialize_lengths _ _ _ Htd) as (Lp & Ll & _ & Lc).
  assert (Hi : exists m2, install m1 i hdr data = Ok m2).
  { unfold install. pose proof (hash_range m1 (hX hdr) (hY hdr) Hok1) as Hr. destruct (get_in_range _ _ Hr) as (head & ->). cbn [bind]. rewrite set_in_range by assumption. cbn [bind].
    assert (Ht1' := Ht1). apply tile_of_nth in Ht1'. rewrite Ht1'. cbn [bind]. rewrite Htd. cbn [bind]. unfold free_links. destruct (tdLinks td) as [|l0 ls0] eqn:El; [unfold zlen in Ll; cbn in Ll; lia|]. cbn [bind]. eauto. }
  destruct Hi as (m2 & Hi). rewrite Hi. cbn [bind].
  destruct (install_view m1 (f1 ++ f2) i bk hdr data m2 Hok1 HV1) as (F2 & _ & bk' & b & t1' & td' & ls & head & HV2 & _ & _ & Ht1' & Htd' & Hls & E2).
  { intros j h Hj (s & Hs & Hhs). assert (j <> i) as Hji by (intros ->; contradiction). destruct (Hback1 j s Hji Hs) as (s0 & Hs0 & En).
    apply (Hloc j). exists s0. split; auto. apply (f_equal tHeader) in En. cbn in En. congruence. }
  { exact Hi. }
  rewrite Htd in Htd'. apply Ok_inj in Htd'. subst td'. rewrite Ht1 in Ht1'. inversion Ht1'; subst t1'. clear Ht1'. set (t2 := installed t1 hdr data td ls head) in *.
  assert (Ht2 : nth_error (mTiles m2) i = Some t2) by (rewrite E2; apply nth_error_upd_eq; apply nth_error_Some; congruence).
  assert (Hok2 : mesh_ok m2) by (eapply mesh_ok_fixed; [exact F2|rewrite E2; apply upd_length|exact Hok1]).
  pose proof (header_i32 _ _ Hh) as (Xi & Yi & Pi & Mi).
  assert (Hmax : zlen (tdLinks td) < nullLink) by (unfold nullLink, is_i32 in *; lia).
  destruct (free_links_chain (tdLinks td) ls Hls Hmax) as (fl & Hfl & Esl). destruct (free_links_length _ _ Hls) as (Lls & _).
  assert (Ht2' := Ht2). apply tile_of_nth in Ht2'.
  assert (Hfit2 : fitS t2 hdr).
  { split; [cbn [t2 installed tD set_tdLinks tdPolys]; now symmetry|]. split; [exact Hoc|]. split; [|exact Hps].
    cbn [t2 installed tD set_tdLinks tdCons]. destruct (tdCons td); [reflexivity|]. unfold zlen in Lc. cbn in Lc. lia. }
  assert (HF2 : FreeOK t2).
  { exists fl. split; [exact Hfl|]. rewrite Esl. unfold zseq. apply FinFun.Injective_map_NoDup; [|apply seq_NoDup]. intros a c. lia. }
  destruct (connectIntLinks_total m2 i t2 hdr Ht2' eq_refl Hfit2 HF2) as (m3 & Hc). unfold link_tile. rewrite Hc. cbn [bind].
  destruct (connectIntLinks_spec m2 i t2 hdr m3 fl Hc Ht2' eq_refl) as (t3 & fl3 & cs3 & E3 & Fr3 & HV3 & Hk3 & Hw3).
  { cbn [t2 installed tD set_tdLinks tdPolys]. now symmetry. }
  { exact Hfl. }
  { cbn [t2 installed tD set_tdLinks tdLinks]. rewrite Esl. f_equal. lia. }
  { cbn [t2 installed tD set_tdLinks tdLinks]. unfold zlen in *. lia. }
  assert (Hts3 : mTiles m3 = upd (mTiles m2) i t3) by (rewrite E3; reflexivity).
  assert (Ht3 : nth_error (mTiles m3) i = Some t3) by (rewrite Hts3; apply nth_error_upd_eq; apply nth_error_Some; congruence).
  assert (Hh3 : tHeader t3 = Some hdr) by (rewrite (frame_header _ _ Fr3); reflexivity).
  assert (Hnx : map next_hdr (mTiles m3) = map next_hdr (mTiles m2)).
  { rewrite Hts3, map_upd. apply upd_self. rewrite (map_nth_error _ _ _ Ht2). f_equal. apply frame_skel in Fr3. unfold skel in Fr3. unfold next_hdr. congruence. }
  assert (HVt3 : TableView m3 (f1 ++ f2) [] bk') by (eapply TableView_same; [|exact Hnx|exact HV2]; rewrite E3; reflexivity).
  assert (Hok3 : mesh_ok m3). { eapply mesh_ok_fixed; [| |exact Hok2]; [rewrite E3; reflexivity|rewrite Hts3; apply upd_length]. }
  assert (HF3 : fitM m3).
  { intros k s h Hs Hhs. destruct (Nat.eq_dec k i) as [->|Hk].
    - assert (s = t3) by congruence. subst s. assert (h = hdr) by congruence. subst h. split; [eapply fitS_frame; eassumption|exists fl3, cs3; exact HV3].
    - rewrite Hts3, nth_error_upd_neq in Hs by assumption. rewrite E2, nth_error_upd_neq in Hs by assumption.
      destruct (Hback1 k s Hk Hs) as (s0 & Hs0 & En). assert (tHeader s0 = Some h) as Hh0 by (apply (f_equal tHeader) in En; cbn in En; congruence).
      destruct (HF k s0 h Hs0 Hh0) as (G & (fl0 & cs0 & HV0)). split; [eapply fitS_no_next; eassumption|]. exists fl0, cs0. eapply LinkView_no_next; eassumption. }
  destruct (link_rest_total m3 i hdr (f1 ++ f2) bk' Hok3 HVt3 HF3 (ex_intro _ t3 (conj Ht3 Hh3))) as (m4 & Em4). rewrite Em4. cbn [bind].
  assert (Hl4 : link_tile m2 i hdr = Ok m4) by (unfold link_tile; rewrite Hc; exact Em4).
  pose proof (link_rest m2 i hdr m4 Hl4 m3 Hc (f1 ++ f2) bk' Hok3 HVt3 (ex_intro _ t3 (conj Ht3 Hh3)) Xi Yi) as HS.
  apply tile_of_nth in Ht3. destruct (mstep_tile _ _ _ _ _ HS Ht3) as (t4 & Ht4 & _).
  unfold TileRef. rewrite (base_of_tile _ _ _ Ht4). cbn [bind]. eauto.
Qed.

Lemma alloc_slot_total : forall m free bk, mesh_ok m -> zlen (mTiles m) < 2 ^ 31 -> TableView m free [] bk ->
  (forall i f, free = i :: f -> exists m1, alloc_slot m 0 = Ok (m1, i)) /\
  (free = [] -> alloc_slot m 0 = Exit) /\
  (forall r, r <> 0 -> 0 <= decodePolyIDTile (mBits m) r < 2 ^ 31 ->
     (In (Z.to_nat (decodePolyIDTile (mBits m) r)) free -> exists m1, alloc_slot m r = Ok (m1, Z.to_nat (decodePolyIDTile (mBits m) r))) /\
     (~ In (Z.to_nat (decodePolyIDTile (mBits m) r)) free -> alloc_slot m r = Exit)).
Proof.
  intros m free bk (Hmx & _) Hsz (Hf & HB & Hn & Hcov & Hfree & Hbk & Hdist). unfold alloc_slot. rewrite Z.eqb_refl. split; [|split].
  - intros i f ->. inversion Hf as [|? t' l Ht' Hf']; subst. apply tile_of_nth in Ht'. rewrite Ht'. cbn [bind]. eauto.
  - intros ->. inversion Hf. reflexivity.
  - intros r Hr Hd. destruct (Z.eqb_spec r 0); [contradiction|].
    assert (Ei : i32 (decodePolyIDTile (mBits m) r) = decodePolyIDTile (mBits m) r) by (apply i32_id; unfold is_i32; lia). rewrite Ei. set (d := decodePolyIDTile (mBits m) r) in *.
    assert (Hfl : (length free < chain_fuel m)%nat).
    { unfold chain_fuel. rewrite NoDup_app_iff' in Hn. destruct Hn as (Hn & _). pose proof (TChain_length _ _ _ Hf Hn). lia. }
    pose proof (chain_prev_spec (mTiles m) (Z.to_nat d) (mNextFree m) free Hf (chain_fuel m) None Hfl) as HC. split.
    + intros Hin. destruct (Hfree _ Hin) as (t & Ht & _). assert (Hlt : (Z.to_nat d < length (mTiles m))%nat) by (apply nth_error_Some; congruence).
      rewrite Hmx. destruct (Z.leb_spec (zlen (mTiles m)) d); [unfold zlen in *; lia|].
      assert (Hg : get (mTiles m) d = Ok t) by (apply get_ok; split; [lia|exact Ht]). rewrite Hg. cbn [bind].
      destruct HC as [(a & b & Efr & Ha & E)|(Hx & _)]; [|contradiction]. rewrite E. cbn [bind]. assert (Ht' := Ht). apply tile_of_nth in Ht'. rewrite Ht'. cbn [bind].
      destruct (last_opt a None) as [p|] eqn:Elo.
      * assert (Hpa : In p a). { clear -Elo. revert Elo. assert (forall (l : list nat) d, last_opt l d = Some p -> In p l \/ d = Some p) as G.
          { induction l as [|x l IHl]; intros d0 H; cbn in *; auto. destruct (IHl _ H) as [|H']; auto. inversion H'; auto. }
          intros H. destruct (G _ _ H); [assumption|discriminate]. }
        assert (Hne : p <> Z.to_nat d) by (intros ->; contradiction).
        destruct (Hfree p) as (tp & Htp & _); [rewrite Efr; apply in_app_iff; now left|]. unfold set_next. apply tile_of_nth in Htp. rewrite Htp. cbn [bind].
        unfold tile_of at 1. cbn [set_tile set_mTiles mTiles]. unfold getn. rewrite nth_error_upd_neq by auto. rewrite Ht. cbn [of_option bind]. eauto.
      * cbn [bind]. unfold tile_of. cbn [set_mNextFree mTiles]. unfold getn. rewrite Ht. cbn [of_option bind]. eauto.
    + intros Hin. rewrite Hmx. destruct (Z.leb_spec (zlen (mTiles m)) d); [reflexivity|].
      destruct (get_in_range (mTiles m) d) as (t & ->); [lia|]. cbn [bind]. destruct HC as [(a & b & Efr & _)|(_ & E)]; [exfalso; apply Hin; rewrite Efr; apply in_app_iff; right; left; reflexivity|].
      rewrite E. reflexivity.
Qed.

(** The tiles of a history of well-formed additions. *)
Lemma inv_fitM : forall m A, Inv m A -> fits m A -> fitM m.
Proof.
  intros m A HI HA k t h Ht Hh. pose proof (iv_tile _ _ HI k t h Ht Hh) as (_ & Hd & _ & _ & (td & Htd & F) & HL). split; [|exact HL].
  unfold fits in HA. rewrite Forall_forall in HA. destruct (HA (entry_of m k t h)) as (h' & Hh' & _ & _ & td' & Htd' & _ & Hoc & Hps); [apply (iv_A _ _ HI); eauto 10|].
  cbn [entry_of eData] in *. rewrite Hd in Hh'. apply Ok_inj in Hh'. subst h'. rewrite Htd in Htd'. apply Ok_inj in Htd'. subst td'.
  pose proof (unserialize_lengths _ _ _ Htd) as (Lp & _ & _ & Lc).
  assert (G : fitS (set_tD t td) h).
  { split; [now symmetry|]. split; [exact Hoc|]. split; [|exact Hps]. cbn [set_tD tD]. destruct (tdCons td); [reflexivity|]. unfold zlen in Lc. cbn in Lc. lia. }
  eapply fitS_frame; eassumption.
Qed.
