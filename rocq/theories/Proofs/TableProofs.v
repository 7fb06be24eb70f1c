(** Proofs about the tile table: chains, lookups, taking and returning slots. *)
From Coq Require Import ZArith List Bool Lia Permutation.
From Verif.Base Require Import Res GoNum F32 Num Grid.
From Verif.Model Require Import Status Poly PolyRef Bounds Geom MeshTypes Serial MeshLinks MeshTiles.
From Verif.Spec Require Import LinkSpec MeshSpec.
From Verif.Proofs Require Import LinkProofs IntLinkProofs MeshStep.
Import ListNotations.
Open Scope Z_scope.

(** ** Chains *)
Lemma TChain_frame : forall ts ts' s l, (forall i t, In i l -> nth_error ts i = Some t -> exists t', nth_error ts' i = Some t' /\ tNext t' = tNext t) ->
  TChain ts s l -> TChain ts' s l.
Proof.
  intros ts ts' s l Hf H. induction H as [|i t l Hi H IH]; [constructor|].
  destruct (Hf i t) as (t' & Ht' & En); [left; reflexivity|assumption|]. apply (TChain_cons ts' i t'); auto. rewrite En.
  apply IH. intros j s Hj. apply Hf. right. assumption.
Qed.
Lemma TChain_upd : forall ts s l i t', ~ In i l -> TChain ts s l -> TChain (upd ts i t') s l.
Proof.
  intros ts s l i t' Hi. apply TChain_frame. intros j t Hj Ht. exists t. split; auto. rewrite nth_error_upd_neq; auto. intros ->. contradiction.
Qed.
Lemma TChain_range : forall ts s l i, TChain ts s l -> In i l -> (i < length ts)%nat.
Proof.
  intros ts s l i H. induction H as [|j t l Hj H IH]; intros Hi; [destruct Hi|]. destruct Hi as [<-|Hi]; auto.
  apply nth_error_Some. congruence.
Qed.
Lemma TChain_length : forall ts s l, TChain ts s l -> NoDup l -> (length l <= length ts)%nat.
Proof.
  intros ts s l H Hn. rewrite <- (seq_length (length ts) 0). apply NoDup_incl_length; auto.
  intros i Hi. apply in_seq. pose proof (TChain_range _ _ _ _ H Hi). lia.
Qed.
Lemma TChain_split : forall ts a i b s, TChain ts s (a ++ i :: b) ->
  exists t, nth_error ts i = Some t /\ TChain ts (tNext t) b.
Proof.
  intros ts a i b. induction a as [|j a IH]; intros s H; cbn [app] in H; inversion H; subst; eauto.
Qed.

Lemma chain_find_spec : forall ts f s l, TChain ts s l -> forall fuel, (length l < fuel)%nat ->
  exists o, chain_find fuel ts f s = Ok o /\
    match o with
    | Some i => In i l /\ exists t, nth_error ts i = Some t /\ f t = true
    | None => forall i t, In i l -> nth_error ts i = Some t -> f t = false
    end.
Proof.
  intros ts f s l H. induction H as [|i t l Hi H IH]; intros fuel Hf.
  - exists None. split; [destruct fuel; reflexivity|]. intros i t [].
  - destruct fuel as [|fuel]; [cbn in Hf; lia|]. cbn [chain_find]. unfold getn. rewrite Hi. cbn [of_option bind].
    destruct (f t) eqn:E.
    + exists (Some i). split; auto. split; [left; reflexivity|]. eauto.
    + destruct (IH fuel) as (o & Ho & Hs); [cbn in Hf; lia|]. exists o. split; auto. destruct o as [k|].
      * destruct Hs as (Hin & Ht). split; auto. right. assumption.
      * intros k t' [<-|Hk] Ht'; [congruence|]. eapply Hs; eauto.
Qed.
Definition holds (ts : list MeshTile) (f : MeshTile -> bool) (i : nat) : bool :=
  match nth_error ts i with Some t => f t | None => false end.
Lemma chain_filter_spec : forall ts f max s l, TChain ts s l -> forall fuel n, (length l < fuel)%nat -> n <= max ->
  chain_filter fuel ts f max n s = Ok (firstn (Z.to_nat (max - n)) (filter (holds ts f) l)).
Proof.
  intros ts f max s l H. induction H as [|i t l Hi H IH]; intros fuel n Hf Hn.
  - destruct fuel; cbn; now rewrite firstn_nil.
  - destruct fuel as [|fuel]; [cbn in Hf; lia|]. cbn [chain_filter]. unfold getn. rewrite Hi. cbn [of_option bind].
    cbn [filter]. assert (holds ts f i = f t) as -> by (unfold holds; now rewrite Hi). cbn [length] in Hf.
    destruct (f t); cbn [andb].
    + destruct (Z.ltb_spec n max).
      * rewrite IH by lia. cbn [bind]. replace (Z.to_nat (max - n)) with (S (Z.to_nat (max - (n + 1)))) by lia. reflexivity.
      * rewrite IH by lia. replace (Z.to_nat (max - n)) with O by lia. reflexivity.
    + apply IH; lia.
Qed.
Definition last_opt (a : list nat) (prev : option nat) : option nat := fold_left (fun _ x => Some x) a prev.
Lemma chain_prev_spec : forall ts target s l, TChain ts s l -> forall fuel prev, (length l < fuel)%nat ->
  (exists a b, l = a ++ target :: b /\ ~ In target a /\ chain_prev fuel ts target prev s = Ok (Some (last_opt a prev))) \/
  (~ In target l /\ chain_prev fuel ts target prev s = Ok None).
Proof.
  intros ts target s l H. induction H as [|i t l Hi H IH]; intros fuel prev Hf.
  - right. split; [intros []|]. destruct fuel; reflexivity.
  - destruct fuel as [|fuel]; [cbn in Hf; lia|]. cbn [chain_prev]. destruct (Nat.eqb_spec i target) as [->|Hne].
    + left. exists [], l. auto.
    + unfold getn. rewrite Hi. cbn [of_option bind]. cbn [length] in Hf.
      destruct (IH fuel (Some i)) as [(a & b & -> & Ha & E)|(Hn & E)]; [lia| |].
      * left. exists (i :: a), b. split; auto. split; [intros [->|Hx]; [congruence|contradiction]|]. exact E.
      * right. split; auto. intros [->|Hx]; [congruence|contradiction].
Qed.
Lemma last_opt_app : forall a x prev, last_opt (a ++ [x]) prev = Some x.
Proof. intros. unfold last_opt. now rewrite fold_left_app. Qed.
Lemma last_opt_cases : forall a, a = [] /\ last_opt a None = None \/ exists a0 x, a = a0 ++ [x] /\ last_opt a None = Some x.
Proof.
  intros a. destruct (rev a) as [|x r] eqn:E.
  - left. assert (a = []) as -> by (rewrite <- (rev_involutive a), E; reflexivity). auto.
  - right. assert (a = rev r ++ [x]) as -> by (rewrite <- (rev_involutive a), E; reflexivity). exists (rev r), x. split; auto. apply last_opt_app.
Qed.
(** Unhooking [target] by redirecting its predecessor. *)
Lemma TChain_unhook : forall ts s a0 x target b tx tt, TChain ts s ((a0 ++ [x]) ++ target :: b) -> NoDup ((a0 ++ [x]) ++ target :: b) ->
  nth_error ts x = Some tx -> nth_error ts target = Some tt ->
  TChain (upd ts x (set_tNext tx (tNext tt))) s ((a0 ++ [x]) ++ b).
Proof.
  intros ts s a0 x target b tx tt. revert s. induction a0 as [|y a0 IH]; intros s H Hn Hx Ht; cbn [app] in *.
  - inversion H as [|? t0 ? H0 H1]; subst. inversion H1 as [|? t1 ? H2 H3]; subst.
    rewrite Hx in H0. inversion H0; subst t0. rewrite Ht in H2. inversion H2; subst t1.
    apply (TChain_cons _ x (set_tNext tx (tNext tt))).
    + apply nth_error_upd_eq. apply nth_error_Some. congruence.
    + cbn [tNext set_tNext]. apply TChain_upd; auto. apply NoDup_cons_iff in Hn. destruct Hn as (Hn & _). intros Hb. apply Hn. right. assumption.
  - inversion H as [|? t0 ? H0 H1]; subst. apply NoDup_cons_iff in Hn. destruct Hn as (Hy & Hn).
    apply (TChain_cons _ y t0).
    + rewrite nth_error_upd_neq; auto. intros ->. apply Hy. rewrite !in_app_iff. left. right. left. reflexivity.
    + apply IH; auto.
Qed.

(** ** Skeletons *)
Definition next_hdr (t : MeshTile) := (tNext t, tHeader t, tDataSize t).
Lemma live_map : forall m m' i h, map next_hdr (mTiles m') = map next_hdr (mTiles m) -> (live m' i h <-> live m i h).
Proof.
  assert (forall m m' i h, map next_hdr (mTiles m') = map next_hdr (mTiles m) -> live m' i h -> live m i h) as G.
  { intros m m' i h E (t' & Ht & Hh). pose proof (map_nth_error next_hdr _ _ Ht) as Hm. rewrite E in Hm.
    destruct (nth_error (mTiles m) i) as [t|] eqn:Et.
    - rewrite (map_nth_error next_hdr _ _ Et) in Hm. exists t. split; auto. unfold next_hdr in Hm. congruence.
    - apply nth_error_None in Et. assert (nth_error (map next_hdr (mTiles m)) i = None) by (apply nth_error_None; now rewrite map_length). congruence. }
  intros m m' i h E. split; apply G; auto.
Qed.
Lemma TChain_map : forall ts ts' s l, map next_hdr ts' = map next_hdr ts -> TChain ts s l -> TChain ts' s l.
Proof.
  intros ts ts' s l E. apply TChain_frame. intros i t _ Ht. pose proof (map_nth_error next_hdr _ _ Ht) as Hm. rewrite <- E in Hm.
  destruct (nth_error ts' i) as [t'|] eqn:Et.
  - rewrite (map_nth_error next_hdr _ _ Et) in Hm. exists t'. split; auto. unfold next_hdr in Hm. congruence.
  - apply nth_error_None in Et. assert (nth_error (map next_hdr ts') i = None) by (apply nth_error_None; now rewrite map_length). congruence.
Qed.
Lemma map_nth_inv : forall {A B} (f : A -> B) l i y, nth_error (map f l) i = Some y -> exists x, nth_error l i = Some x /\ f x = y.
Proof.
  intros A B f l i y H. destruct (nth_error l i) as [x|] eqn:E.
  - rewrite (map_nth_error f _ _ E) in H. inversion H. eauto.
  - apply nth_error_None in E. assert (nth_error (map f l) i = None) by (apply nth_error_None; now rewrite map_length). congruence.
Qed.
Lemma TableView_same : forall m m' free out bk, table m' = table m -> map next_hdr (mTiles m') = map next_hdr (mTiles m) ->
  TableView m free out bk -> TableView m' free out bk.
Proof.
  intros m m' free out bk T E (H1 & H2 & H3 & H4 & H5 & H6 & H7).
  assert (mNextFree m' = mNextFree m) as EF by (apply (f_equal mNextFree) in T; exact T).
  assert (mPosLookup m' = mPosLookup m) as EP by (apply (f_equal mPosLookup) in T; exact T).
  assert (mLUTMask m' = mLUTMask m) as EM by (apply (f_equal mLUTMask) in T; exact T).
  assert (length (mTiles m') = length (mTiles m)) as EL by (apply (f_equal (@length _)) in E; now rewrite !map_length in E).
  split; [rewrite EF; eapply TChain_map; eassumption|].
  split; [rewrite EP; eapply Forall2_impl'; [|exact H2]; intros x y; apply TChain_map; assumption|].
  split; auto. split; [rewrite EL; auto|]. split.
  { intros i Hi. destruct (H5 i Hi) as (t & Ht & Hh & Hd). pose proof (map_nth_error next_hdr _ _ Ht) as Hm. rewrite <- E in Hm.
    apply map_nth_inv in Hm. destruct Hm as (t' & Ht' & En). exists t'. split; auto. unfold next_hdr in En. split; congruence. }
  split.
  { intros k b i Hk Hi. destruct (H6 k b i Hk Hi) as (h & Hl & Hh). exists h. rewrite EM. split; auto. apply (live_map m m' i h E). assumption. }
  intros i j h h' Hi Hj Hl Hl'. apply H7; auto; eapply live_map; try eassumption; auto.
Qed.
Lemma mstep_next_hdr : forall Q m m', mstep Q m m' -> map next_hdr (mTiles m') = map next_hdr (mTiles m).
Proof.
  intros Q m m' HS. pose proof HS as (_ & L & S). apply nth_error_ext'. intros i.
  destruct (nth_error (mTiles m) i) as [t|] eqn:E.
  - destruct (S i t E) as (t' & Ht' & F & _). rewrite (map_nth_error next_hdr _ _ E), (map_nth_error next_hdr _ _ Ht'). f_equal.
    apply frame_skel in F. unfold skel in F. unfold next_hdr. congruence.
  - apply nth_error_None in E. assert (nth_error (map next_hdr (mTiles m)) i = None) as -> by (apply nth_error_None; now rewrite map_length).
    apply nth_error_None. rewrite map_length. lia.
Qed.

(** ** Lookups *)
Definition mesh_ok (m : NavMesh) : Prop := mMaxTiles m = zlen (mTiles m) /\ 0 <= mLUTMask m < zlen (mPosLookup m).

Lemma hash_range : forall m x y, mesh_ok m -> 0 <= computeTileHash x y (mLUTMask m) < zlen (mPosLookup m).
Proof.
  intros m x y (_ & Hm). unfold computeTileHash. set (v := i32 _). 
  assert (0 <= Z.land v (mLUTMask m) <= mLUTMask m) as H; [|lia].
  split; [apply Z.land_nonneg; lia|]. rewrite Z.land_comm. apply Z.ldiff_le; [lia|].
  apply Z.bits_inj'. intros n Hn. rewrite Z.bits_0, Z.ldiff_spec, Z.land_spec. destruct (Z.testbit (mLUTMask m) n), (Z.testbit v n); reflexivity.
Qed.
Lemma bucket_at : forall m free out bk x y, mesh_ok m -> TableView m free out bk ->
  exists head l, get (mPosLookup m) (computeTileHash x y (mLUTMask m)) = Ok head /\
    nth_error bk (Z.to_nat (computeTileHash x y (mLUTMask m))) = Some l /\ TChain (mTiles m) head l /\ NoDup l.
Proof.
  intros m free out bk x y Hok (_ & HB & Hn & _). pose proof (hash_range m x y Hok) as Hr.
  destruct (get_in_range _ _ Hr) as (head & Hh). pose proof Hh as Hh'. apply get_ok in Hh'. destruct Hh' as [_ Hh'].
  destruct (Forall2_nth _ _ _ _ _ HB Hh') as (l & Hl & Hc). exists head, l. repeat (split; [assumption|]).
  destruct (nth_error_split_upd _ _ _ Hl) as (a & b & -> & _). rewrite concat_app in Hn. cbn [concat] in Hn.
  rewrite !NoDup_app_iff' in Hn. tauto.
Qed.
(** The bucket of a location has exactly the live tiles of that location. *)
Lemma bucket_live : forall m free out bk x y l i h, TableView m free out bk ->
  nth_error bk (Z.to_nat (computeTileHash x y (mLUTMask m))) = Some l -> mesh_ok m ->
  live m i h -> hX h = x -> hY h = y -> ~ In i out -> In i l.
Proof.
  intros m free out bk x y l i h HV Hl Hok Hlive <- <- Ho. destruct HV as (_ & _ & _ & Hcov & Hfree & Hbk & _).
  pose proof Hlive as (t & Ht & Hh).
  assert (In i (free ++ out ++ concat bk)) as Hin by (apply Hcov; apply nth_error_Some; congruence).
  rewrite !in_app_iff in Hin. destruct Hin as [Hin|[Hin|Hin]]; [|contradiction|].
  - destruct (Hfree i Hin) as (t' & Ht' & Hn & _). congruence.
  - apply in_concat in Hin. destruct Hin as (b & Hb & Hi). apply In_nth_error in Hb. destruct Hb as (k & Hk).
    destruct (Hbk k b i Hk Hi) as (h' & (t' & Ht' & Hh') & Hash). assert (h' = h) as -> by congruence.
    rewrite Hash, Nat2Z.id in Hl. congruence.
Qed.

Lemma at_xyl_loc : forall t h x y l, tHeader t = Some h -> at_xyl t x y l = true <-> loc h = (x, y, l).
Proof.
  intros t h x y l H. unfold at_xyl, loc. rewrite H. rewrite !andb_true_iff, !Z.eqb_eq. split.
  - intros ((-> & ->) & ->). reflexivity.
  - intros E. inversion E. auto.
Qed.
Lemma TileAt_spec : forall m free bk x y l, mesh_ok m -> TableView m free [] bk ->
  exists o, TileAt m x y l = Ok o /\
    match o with
    | Some i => exists h, live m i h /\ loc h = (x, y, l)
    | None => forall i h, live m i h -> loc h <> (x, y, l)
    end.
Proof.
  intros m free bk x y l Hok HV. destruct (bucket_at m free [] bk x y Hok HV) as (head & b & Hg & Hb & Hc & Hn).
  unfold TileAt. rewrite Hg. cbn [bind].
  destruct (chain_find_spec (mTiles m) (fun t => at_xyl t x y l) head b Hc (chain_fuel m)) as (o & Ho & Hs).
  { unfold chain_fuel. pose proof (TChain_length _ _ _ Hc Hn). lia. }
  exists o. split; auto. destruct o as [i|].
  - destruct Hs as (_ & t & Ht & Hx). unfold at_xyl in Hx. destruct (tHeader t) as [h|] eqn:Eh; [|discriminate].
    exists h. split; [exists t; auto|]. apply (at_xyl_loc t h); auto. unfold at_xyl. now rewrite Eh.
  - intros i h Hl E. assert (In i b) as Hi.
    { eapply bucket_live; eauto; unfold loc in E; congruence || (intros []). }
    destruct Hl as (t & Ht & Hh). specialize (Hs i t Hi Ht). apply (at_xyl_loc t h x y l) in E; auto. cbn beta in Hs. congruence.
Qed.
Lemma TilesAt_spec : forall m free out bk x y mx, mesh_ok m -> TableView m free out bk -> 0 <= mx ->
  exists l, TilesAt m x y mx = Ok (firstn (Z.to_nat mx) l) /\ NoDup l /\
    (forall i, In i l -> exists h, live m i h /\ hX h = x /\ hY h = y) /\
    (forall i, ~ In i out -> (exists h, live m i h /\ hX h = x /\ hY h = y) -> In i l).
Proof.
  intros m free out bk x y mx Hok HV Hmx. destruct (bucket_at m free out bk x y Hok HV) as (head & b & Hg & Hb & Hc & Hn).
  unfold TilesAt. rewrite Hg. cbn [bind].
  rewrite (chain_filter_spec (mTiles m) (fun t => at_xy t x y) mx head b Hc (chain_fuel m) 0).
  2:{ unfold chain_fuel. pose proof (TChain_length _ _ _ Hc Hn). lia. }
  2:{ assumption. }
  rewrite Z.sub_0_r. eexists. split; [reflexivity|]. split; [apply NoDup_filter; exact Hn|]. split.
  - intros i Hi. apply filter_In in Hi. destruct Hi as (_ & Hh). unfold holds in Hh. destruct (nth_error (mTiles m) i) as [t|] eqn:Et; [|discriminate].
    unfold at_xy in Hh. destruct (tHeader t) as [h|] eqn:Eh; [|discriminate]. apply andb_true_iff in Hh. rewrite !Z.eqb_eq in Hh.
    exists h. split; [exists t; auto|tauto].
  - intros i Ho (h & Hl & Ex & Ey). apply filter_In. split.
    + eapply bucket_live; eauto.
    + destruct Hl as (t & Ht & Hh). unfold holds, at_xy. rewrite Ht, Hh, Ex, Ey, !Z.eqb_refl. reflexivity.
Qed.
