(** Proofs that links never point to a tile that is not there. *)
From Coq Require Import ZArith List Bool Lia Permutation.
From Verif.Base Require Import Res GoNum F32 Num Grid Bytes.
From Verif.Model Require Import Status Poly PolyRef Bounds Geom MeshTypes Serial MeshLinks MeshTiles.
From Verif.Spec Require Import LinkSpec MeshSpec.
From Verif.Proofs Require Import BasicsProofs PolyRefProofs LinkProofs IntLinkProofs MeshStep TableProofs SlotProofs LinkTile MeshInv.
Import ListNotations.
Open Scope Z_scope.

Lemma sound_filter : forall m m' A f, mParams m' = mParams m -> sound m A -> sound m' (filter f A).
Proof.
  intros m m' A f E (H1 & H2). split.
  - rewrite E. apply Forall_forall. intros e He. apply filter_In in He. rewrite Forall_forall in H1. apply H1. tauto.
  - intros x y. specialize (H2 x y). assert (forall (g : entry -> bool) l, (length (filter g (filter f l)) <= length (filter g l))%nat) as G.
    { intros g l. induction l as [|a l IH]; cbn; auto. destruct (f a); cbn; destruct (g a); cbn; lia. }
    specialize (G (at_loc x y) A). lia.
Qed.
Lemma Run_sound : forall m A, Run sound m A -> sound m A.
Proof.
  intros m A H. induction H as [p m st G E|m A data lastRef m' ref h HR IH Hl E Hh Hok|m A data lastRef m' st ref HR IH E Hst|m A ref m' data HR IH E|m A ref m' data st HR IH E Hst].
  - split; [constructor|]. intros x y. cbn. lia.
  - exact Hok.
  - apply Run_inv in HR. destruct (iv_view _ _ HR) as (free & bk & HV). destruct (AddTile_spec _ _ _ _ _ _ _ _ (iv_ok _ _ HR) HV E) as [(_ & -> & _)|(Hx & _)]; [exact IH|contradiction].
  - pose proof (Run_inv _ _ _ HR) as HI. pose proof (inv_remove _ _ _ _ _ HI E) as HI'.
    apply sound_filter with (m := m); auto.
    destruct (iv_view _ _ HI) as (free & bk & HV). destruct (inv_bits _ _ HI) as (_ & _ & _ & _ & _ & Hsz & _).
    destruct (RemoveTile_cases _ _ _ _ _ (iv_ok _ _ HI) Hsz (proj1 (inv_dec_tile _ _ _ HI)) E) as [(_ & -> & _)|(i & t & hdr & Ht & Hh & Hr & Ei & Es)]; [reflexivity|].
    destruct (inv_base m A i t HI Ht) as (D1 & _).
    destruct (RemoveTile_live m free bk ref i t hdr (iv_ok _ _ HI) Hsz HV (iv_tile _ _ HI) Ht Hh Hr Ei Es D1) as (m2 & bk' & n & vis & E2 & Fx & _).
    rewrite E in E2. apply Ok_inj in E2. inversion E2. subst. now apply fixed_params.
  - pose proof (Run_inv _ _ _ HR) as HI. destruct (iv_view _ _ HI) as (free & bk & HV). destruct (inv_bits _ _ HI) as (_ & _ & _ & _ & _ & Hsz & _).
    destruct (RemoveTile_cases _ _ _ _ _ (iv_ok _ _ HI) Hsz (proj1 (inv_dec_tile _ _ _ HI)) E) as [(_ & -> & _)|(i & t & hdr & Ht & Hh & Hr & Ei & Es)]; [exact IH|].
    destruct (inv_base m A i t HI Ht) as (D1 & _).
    destruct (RemoveTile_live m free bk ref i t hdr (iv_ok _ _ HI) Hsz HV (iv_tile _ _ HI) Ht Hh Hr Ei Es D1) as (m2 & bk' & n & vis & E2 & _).
    rewrite E in E2. apply Ok_inj in E2. inversion E2. contradiction.
Qed.

(** ** Data in order *)
Lemma sound_wfT : forall m A k t h, Inv m A -> sound m A -> nth_error (mTiles m) k = Some t -> tHeader t = Some h ->
  wfT t h /\ hPolyCount h <= npMaxPolys (mParams m) /\
  (forall p, In p (tdPolys (tD t)) -> Forall (fun nei => nei = 0 \/ Z.land nei extLink <> 0 \/ 1 <= nei <= hPolyCount h) (pNeis p)).
Proof.
  intros m A k t h HI (HS & _) Ht Hh. pose proof (iv_tile _ _ HI k t h Ht Hh) as HT. pose proof (tileOK_polys _ _ HT) as Hn.
  destruct HT as (_ & Hd & _ & _ & (td & Htd & F) & _).
  rewrite Forall_forall in HS. assert (He : In (entry_of m k t h) A) by (apply (iv_A _ _ HI); eauto 10).
  destruct (HS _ He h td Hd Htd) as (Hc & Hb & Hq).
  assert (Hp : forall p, In p (tdPolys (tD t)) -> Forall (fun nei => nei = 0 \/ Z.land nei extLink <> 0 \/ 1 <= nei <= hPolyCount h) (pNeis p)).
  { intros p Hp. destruct F as (_ & Hst & _). cbn [set_tD tD] in Hst. assert (In (static_poly p) (map static_poly (tdPolys td))) as Hin by (rewrite <- Hst; now apply in_map).
    apply in_map_iff in Hin. destruct Hin as (q & Eq & Hin). rewrite Forall_forall in Hq. specialize (Hq q Hin).
    destruct (internal_edge_static _ _ Eq) as (_ & <-). exact Hq. }
  split; [|auto]. split; [exact Hn|]. split.
  - intros n Hin. destruct F as (_ & _ & _ & _ & _ & _ & _ & _ & Hbv & _). cbn [set_tD tD] in Hbv. rewrite Hbv in Hin. rewrite Forall_forall in Hb. now apply Hb.
  - intros p j Hin Hj. specialize (Hp p Hin). unfold internal_edge in Hj. destruct (nth_error (pNeis p) (Z.to_nat j)) as [nei|] eqn:En; [|discriminate].
    rewrite (nth_error_nth _ _ 0 En). rewrite Forall_forall in Hp. apply nth_error_In in En. specialize (Hp nei En).
    apply negb_true_iff, orb_false_iff in Hj. destruct Hj as (Hj1 & Hj2). apply Z.eqb_neq in Hj1. apply negb_false_iff, Z.eqb_eq in Hj2.
    destruct Hp as [?|[?|?]]; [contradiction|contradiction|lia].
Qed.
Lemma sound_capped : forall m A, Inv m A -> sound m A -> capped m.
Proof.
  intros m A HI (_ & HC) x y l Hnd Hl.
  set (f := fun k => match nth_error (mTiles m) k with Some t => match tHeader t with Some h => entry_of m k t h | None => mkEntry (0, 0, 0) 0 [] end | None => mkEntry (0, 0, 0) 0 [] end).
  assert (Hf : forall k, In k l -> exists t h, nth_error (mTiles m) k = Some t /\ tHeader t = Some h /\ f k = entry_of m k t h /\ hX h = x /\ hY h = y).
  { intros k Hk. destruct (Hl k Hk) as (h & (t & Ht & Hh) & Ex & Ey). exists t, h. split; auto. split; auto. split; auto. unfold f. now rewrite Ht, Hh. }
  rewrite <- (map_length f). eapply Nat.le_trans; [|apply (HC x y)]. apply NoDup_incl_length.
  - clear HC Hl. induction Hnd as [|a l Ha Hnd IH]; cbn [map]; constructor.
    + intros Hin. apply in_map_iff in Hin. destruct Hin as (b & Eb & Hb).
      destruct (Hf a) as (ta & ha & Hta & _ & Ea & _); [left; reflexivity|]. destruct (Hf b) as (tb & hb & Htb & _ & Eb' & _); [right; assumption|].
      rewrite Ea, Eb' in Eb. apply (f_equal eRef) in Eb. cbn [eRef entry_of] in Eb. apply (f_equal (decodePolyIDTile (mBits m))) in Eb.
      destruct (inv_base m A a ta HI Hta) as (D1 & _). destruct (inv_base m A b tb HI Htb) as (D2 & _). rewrite D1, D2 in Eb. apply Ha. replace a with b by lia. assumption.
    + apply IH. intros k Hk. apply Hf. right. assumption.
  - intros e He. apply in_map_iff in He. destruct He as (k & <- & Hk). destruct (Hf k Hk) as (t & h & Ht & Hh & -> & Ex & Ey). apply filter_In. split.
    + apply (iv_A _ _ HI). eauto 10.
    + unfold at_loc, entry_of, loc. cbn [eLoc]. rewrite Ex, Ey, !Z.eqb_refl. reflexivity.
Qed.

(** ** All links of all live tiles *)
Definition LinksIn (m : NavMesh) : Prop :=
  forall k t h, nth_error (mTiles m) k = Some t -> tHeader t = Some h ->
    exists fl cs, LinkView t fl cs /\ forall c x, In c cs -> In x c -> rel m k (pay_ref (snd x)).

Lemma polyref_keep : forall m m' j t t' r, nth_error (mTiles m) j = Some t -> nth_error (mTiles m') j = Some t' -> frameN t t' -> mBits m' = mBits m ->
  polyref_of m j r -> polyref_of m' j r.
Proof.
  intros m m' j t t' r Ht Ht' FN Eb (s & h & ip & Hs & Hh & H0 & Hip & ->). apply tile_of_nth in Hs. rewrite Ht in Hs. inversion Hs; subst s.
  pose proof (frameN_fields _ _ FN) as (E1 & E2 & _). exists t', h, ip. split; [now apply tile_of_nth|]. split; [congruence|]. split; auto. split; [|congruence].
  intros W. apply Hip. apply (frame_sym_wfT (no_next t) (no_next t') h FN). exact W.
Qed.
Lemma rel_keep : forall m m' k r, mBits m' = mBits m ->
  (forall j t h, (exists hk, live m k hk /\ live m j h /\ adjacent hk h /\ polyref_of m j r) -> nth_error (mTiles m) j = Some t ->
     exists t', nth_error (mTiles m') j = Some t' /\ frameN t t') ->
  (forall hk, live m k hk -> live m' k hk) ->
  rel m k r -> rel m' k r.
Proof.
  intros m m' k r Eb Hk Hlk (j & hk & hj & Lk & Lj & Ha & Hr). pose proof Lj as (t & Ht & Hh).
  destruct (Hk j t hj) as (t' & Ht' & FN); [eauto|exact Ht|]. exists j, hk, hj. split; auto.
  pose proof (frameN_fields _ _ FN) as (_ & E2 & _). split; [exists t'; split; [exact Ht'|congruence]|]. split; auto.
  exact (polyref_keep m m' j t t' r Ht Ht' FN Eb Hr).
Qed.

Lemma Forall2_in_l : forall {A B} (R : A -> B -> Prop) l k x, Forall2 R l k -> In x l -> exists y, In y k /\ R x y.
Proof. intros A B R l k x H. induction H; intros []; [subst; eexists; split; [left; reflexivity|assumption]|]. destruct (IHForall2 H1) as (y0 & ? & ?). exists y0. split; [right|]; assumption. Qed.

Lemma LinksIn_run : forall m A, Run sound m A -> LinksIn m.
Proof.
  intros m A H. induction H as [p m st G E|m A data lastRef m' ref h HR IH Hl E Hh Hok|m A data lastRef m' st ref HR IH E Hst|m A ref m' data HR IH E|m A ref m' data st HR IH E Hst].
  - pose proof (inv_init _ _ _ G E) as HI. intros k t h Ht Hh. exfalso. assert (In (entry_of m k t h) []) as [] by (apply (iv_A _ _ HI); eauto 10).
  - pose proof (Run_inv _ _ _ HR) as HI. pose proof (inv_add _ _ _ _ _ _ _ HI Hl E Hh) as HI'.
    destruct (iv_view _ _ HI) as (free & bk & HV).
    destruct (AddTile_spec _ _ _ _ _ _ _ _ (iv_ok _ _ HI) HV E) as [(Hx & _)|(_ & hdr & i & f1 & f2 & bk' & t & t' & Hhd & Em & Ev & Ef & Fx & L & HV' & Hloc & Ht & Ht' & Hok' & Ed & Es & Er & Hoth & (fl & cs & cs0 & HVl & Hext & Hint & _) & _)]; [contradiction|].
    pose proof (fixed_bits _ _ Fx) as Eb.
    intros k s hk Hs Hhk. destruct (Nat.eq_dec k i) as [->|Hk].
    + assert (s = t') by congruence. subst s. exists fl, cs. split; auto. intros c x Hc Hx.
      destruct (In_nth_error _ _ Hc) as (n & Hn). destruct (Forall2_nth _ _ _ _ _ Hext Hn) as (c0 & Hc0 & (p & -> & Hp)).
      apply in_app_iff in Hx. destruct Hx as [Hx|Hx]; [rewrite Forall_forall in Hp; apply erel_rel, (Hp x Hx)|].
      destruct HVl as (_ & HP & _). destruct (Forall2_nth_r _ _ _ _ _ HP Hn) as (q & Hq & _).
      destruct (Hint n q c0 Hq Hc0) as (kk & Ek).
      assert (Hpay : In (snd x) (int_links ref q)).
      { rewrite <- (firstn_skipn kk (int_links ref q)). apply in_app_iff. right. rewrite <- Ek. now apply in_map. }
      unfold int_links in Hpay. destruct (Type_ q =? polyTypeOffMeshConnection); [destruct Hpay|]. apply in_map_iff in Hpay. destruct Hpay as (j & Ej & Hj).
      apply filter_In in Hj. destruct Hj as (_ & Hj). rewrite <- Ej. unfold int_payload. cbn [pay_ref].
      destruct (sound_wfT _ _ i t' hk HI' Hok Hs Hhk) as (W & _ & Hneis). specialize (Hneis q (nth_error_In _ _ Hq)).
      unfold internal_edge in Hj. destruct (nth_error (pNeis q) (Z.to_nat j)) as [nei|] eqn:En; [|discriminate].
      rewrite (nth_error_nth _ _ 0 En). rewrite Forall_forall in Hneis. apply nth_error_In in En. specialize (Hneis nei En).
      apply negb_true_iff, orb_false_iff in Hj. destruct Hj as (Hj1 & Hj2). apply Z.eqb_neq in Hj1. apply negb_false_iff, Z.eqb_eq in Hj2.
      destruct Hneis as [?|[?|Hnei]]; [contradiction|contradiction|].
      assert (Hu : 0 <= u16 (nei - 1) <= nei - 1).
      { unfold u16. split; [apply Z.mod_pos_bound; lia|apply Z.mod_le; lia]. }
      exists i, hk, hk. split; [exists t'; auto|]. split; [exists t'; auto|]. split; [apply adjacent_refl|].
      exists t', hk, (u16 (nei - 1)). split; [now apply tile_of_nth|]. split; auto. split; [lia|]. split; [intros _; lia|]. rewrite Er, Eb. reflexivity.
    + destruct (nth_error_in_range (mTiles m) k) as (s0 & Hs0); [rewrite <- L; apply nth_error_Some; congruence|].
      destruct (Hoth k s0 Hk Hs0) as (s2 & Hs2 & FN & V). assert (s2 = s) by congruence. subst s2.
      pose proof (frameN_fields _ _ FN) as (_ & Eh & _). destruct (IH k s0 hk Hs0 ltac:(congruence)) as (fl0 & c0 & HV0 & Hrel).
      destruct (V _ _ HV0) as (fl' & cs' & HV1 & Hx). exists fl', cs'. split; auto. intros c x Hc Hxc.
      destruct (Forall2_in_l _ _ _ _ Hx Hc) as (y & Hy & (p & -> & Hp)). apply in_app_iff in Hxc. destruct Hxc as [Hxc|Hxc]; [rewrite Forall_forall in Hp; apply erel_rel, (Hp x Hxc)|].
      assert (Hfree : tHeader t = None).
      { destruct HV as (_ & _ & _ & _ & Hfree & _). destruct (Hfree i) as (t0 & Ht0 & Hn & _); [rewrite Ef; apply in_app_iff; right; left; reflexivity|]. congruence. }
      apply (rel_keep m m'); auto.
      * intros j tj hj (_ & _ & (tj' & Htj' & Hhj) & _) Htj. assert (tj' = tj) by congruence. subst tj'.
        assert (Hji : j <> i) by (intros ->; congruence). destruct (Hoth j tj Hji Htj) as (tj2 & Htj2 & FNj & _). eauto.
      * intros hk' (s1 & Hs1 & Hh1). exists s. split; auto. congruence.
      * apply (Hrel y x Hy Hxc).
  - pose proof (Run_inv _ _ _ HR) as HI. destruct (iv_view _ _ HI) as (free & bk & HV). destruct (AddTile_spec _ _ _ _ _ _ _ _ (iv_ok _ _ HI) HV E) as [(_ & -> & _)|(Hx & _)]; [exact IH|contradiction].
  - pose proof (Run_inv _ _ _ HR) as HI. pose proof (Run_sound _ _ HR) as HSo. pose proof (sound_capped _ _ HI HSo) as Hcap.
    destruct (iv_view _ _ HI) as (free & bk & HV). destruct (inv_bits _ _ HI) as (_ & _ & _ & _ & _ & Hsz & _).
    destruct (RemoveTile_cases _ _ _ _ _ (iv_ok _ _ HI) Hsz (proj1 (inv_dec_tile _ _ _ HI)) E) as [(_ & -> & _)|(i & t & hdr & Ht & Hh & Hr & Ei & Es)]; [exact IH|].
    destruct (inv_base m A i t HI Ht) as (D1 & _).
    destruct (RemoveTile_live m free bk ref i t hdr (iv_ok _ _ HI) Hsz HV (iv_tile _ _ HI) Ht Hh Hr Ei Es D1) as (m2 & bk' & n & vis & E2 & Fx & L & HV' & Hin & Hi' & Hoth & Hvis).
    rewrite E in E2. apply Ok_inj in E2. inversion E2. subst m2 data. clear E2. pose proof (fixed_bits _ _ Fx) as Eb.
    intros k s hk Hs Hhk. destruct (Nat.eq_dec k i) as [->|Hk]; [rewrite Hi' in Hs; inversion Hs; subst s; discriminate|].
    destruct (nth_error_in_range (mTiles m) k) as (s0 & Hs0); [rewrite <- L; apply nth_error_Some; congruence|].
    destruct (Hoth k s0 Hk Hs0) as (s2 & Hs2 & FN & V1 & V2). assert (s2 = s) by congruence. subst s2.
    pose proof (frameN_fields _ _ FN) as (_ & Eh & _). destruct (IH k s0 hk Hs0 ltac:(congruence)) as (fl0 & c0 & HV0 & Hrel).
    assert (Hlk : live m k hk) by (exists s0; split; auto; congruence).
    assert (Hstep : forall r, rel m k r -> decodePolyIDTile (mBits m) r <> Z.of_nat i -> rel m' k r).
    { intros r Hrr Hd. apply (rel_keep m m'); auto.
      - intros j tj hj (hk' & _ & (tj' & Htj' & Hhj) & _ & Hpr) Htj. assert (tj' = tj) by congruence. subst tj'.
        assert (Hji : j <> i).
        { intros ->. apply Hd. destruct Hpr as (tt & hh & ip & Htt & Hhh & Hip0 & Hip & ->). apply tile_of_nth in Htt.
          destruct (sound_wfT _ _ i tt hh HI HSo Htt Hhh) as (W & Hmax & _). specialize (Hip W).
          destruct (inv_bits _ _ HI) as (_ & _ & _ & _ & _ & _ & Hmp).
          destruct (inv_ref m A i tt ip HI Htt ltac:(lia)) as (D & _).
          assert (El : Z.lor (encodePolyID (mBits m) (tSalt tt) (Z.of_nat i) 0) ip = encodePolyID (mBits m) (tSalt tt) (Z.of_nat i) ip) by (unfold encodePolyID; now rewrite Z.lor_0_r).
          rewrite El. apply (f_equal (fun q => snd (fst q))) in D. exact D. }
        destruct (Hoth j tj Hji Htj) as (tj2 & Htj2 & FNj & _). eauto.
      - intros hk' (s1 & Hs1 & Hh1). exists s. split; auto. congruence. }
    destruct (in_dec Nat.eq_dec k vis) as [Iv|Iv].
    + destruct (V1 Iv _ _ HV0) as (fl' & HV1). eexists _, _. split; [exact HV1|]. intros c x Hc Hx. apply in_map_iff in Hc. destruct Hc as (c1 & <- & Hc1).
      apply filter_In in Hx. destruct Hx as (Hx & Hkeep). unfold keep in Hkeep. apply negb_true_iff, Z.eqb_neq in Hkeep.
      apply Hstep; [apply (Hrel c1 x Hc1 Hx)|exact Hkeep].
    + exists fl0, c0. split; [apply (V2 Iv fl0 c0 HV0)|]. intros c x Hc Hx. specialize (Hrel c x Hc Hx). apply Hstep; [exact Hrel|].
      intros Ed. apply Iv. destruct Hrel as (j & hk' & hj & Lk & Lj & Ha & Hpr).
      assert (hk' = hk) by (destruct Lk as (q & Hq & Hhq); destruct Hlk as (q' & Hq' & Hhq'); congruence). subst hk'.
      assert (j = i).
      { destruct Hpr as (tt & hh & ip & Htt & Hhh & Hip0 & Hip & Epr). rewrite Epr in Ed. apply tile_of_nth in Htt.
          destruct (sound_wfT _ _ j tt hh HI HSo Htt Hhh) as (W & Hmax & _). specialize (Hip W).
          destruct (inv_bits _ _ HI) as (_ & _ & _ & _ & _ & _ & Hmp).
          destruct (inv_ref m A j tt ip HI Htt ltac:(lia)) as (D & _).
          assert (El : Z.lor (encodePolyID (mBits m) (tSalt tt) (Z.of_nat j) 0) ip = encodePolyID (mBits m) (tSalt tt) (Z.of_nat j) ip) by (unfold encodePolyID; now rewrite Z.lor_0_r).
          rewrite El in Ed. apply (f_equal (fun q => snd (fst q))) in D. cbn [fst snd DecodePolyID] in D. rewrite D in Ed. lia. }
      subst j. assert (hj = hdr) by (destruct Lj as (q & Hq & Hhq); congruence). subst hj.
      apply (Hvis Hcap k hk Hk Hlk). apply adjacent_sym; auto.
      * pose proof (iv_tile _ _ HI k s0 hk Hs0 ltac:(congruence)) as (_ & Hd & _). apply header_i32 in Hd. tauto.
      * pose proof (iv_tile _ _ HI k s0 hk Hs0 ltac:(congruence)) as (_ & Hd & _). apply header_i32 in Hd. tauto.
  - pose proof (Run_inv _ _ _ HR) as HI. destruct (iv_view _ _ HI) as (free & bk & HV). destruct (inv_bits _ _ HI) as (_ & _ & _ & _ & _ & Hsz & _).
    destruct (RemoveTile_cases _ _ _ _ _ (iv_ok _ _ HI) Hsz (proj1 (inv_dec_tile _ _ _ HI)) E) as [(_ & -> & _)|(i & t & hdr & Ht & Hh & Hr & Ei & Es)]; [exact IH|].
    destruct (inv_base m A i t HI Ht) as (D1 & _).
    destruct (RemoveTile_live m free bk ref i t hdr (iv_ok _ _ HI) Hsz HV (iv_tile _ _ HI) Ht Hh Hr Ei Es D1) as (m2 & bk' & n & vis & E2 & _).
    rewrite E in E2. apply Ok_inj in E2. inversion E2. contradiction.
Qed.

(** ** Accepted references *)
Lemma valid_ref : forall m A j t h ip, Inv m A -> nth_error (mTiles m) j = Some t -> tHeader t = Some h ->
  0 <= ip < hPolyCount h -> ip < 2 ^ polyBits (mBits m) ->
  IsValidPolyRef m (encodePolyID (mBits m) (tSalt t) (Z.of_nat j) ip) = Ok true.
Proof.
  intros m A j t h ip HI Ht Hh Hip Hpb. destruct (inv_ref m A j t ip HI Ht ltac:(lia)) as (D & N & _). unfold IsValidPolyRef.
  rewrite (proj2 (Z.eqb_neq _ _) N). rewrite D. destruct (inv_bits _ _ HI) as (_ & _ & _ & _ & _ & Hsz & _). destruct (iv_ok _ _ HI) as (Hmx & _).
  assert (Hj : (j < length (mTiles m))%nat) by (apply nth_error_Some; congruence).
  assert (Hu : u32 (mMaxTiles m) = zlen (mTiles m)) by (rewrite Hmx; apply u32_id; unfold is_u32, zlen in *; lia). rewrite Hu.
  destruct (Z.leb_spec (zlen (mTiles m)) (Z.of_nat j)); [unfold zlen in *; lia|].
  assert (Hg : get (mTiles m) (Z.of_nat j) = Ok t) by (apply get_ok; rewrite Nat2Z.id; split; [lia|exact Ht]). rewrite Hg. cbn [bind]. rewrite Hh, Z.eqb_refl. cbn [negb].
  pose proof (iv_tile _ _ HI j t h Ht Hh) as (_ & Hd & _). apply header_i32 in Hd. destruct Hd as (_ & _ & Hpc & _).
  assert (Hup : u32 (hPolyCount h) = hPolyCount h) by (apply u32_id; unfold is_u32, is_i32 in *; lia). rewrite Hup.
  destruct (Z.leb_spec (hPolyCount h) ip); [lia|reflexivity].
Qed.
Lemma rel_valid : forall m A k r, Inv m A -> sound m A -> rel m k r -> IsValidPolyRef m r = Ok true.
Proof.
  intros m A k r HI HS (j & hk & hj & _ & _ & _ & (t & h & ip & Ht & Hh & H0 & Hip & ->)). apply tile_of_nth in Ht.
  destruct (sound_wfT _ _ j t h HI HS Ht Hh) as (W & Hmax & _). specialize (Hip W). destruct (inv_bits _ _ HI) as (_ & _ & _ & _ & _ & _ & Hmp).
  assert (El : Z.lor (encodePolyID (mBits m) (tSalt t) (Z.of_nat j) 0) ip = encodePolyID (mBits m) (tSalt t) (Z.of_nat j) ip) by (unfold encodePolyID; now rewrite Z.lor_0_r).
  rewrite El. eapply valid_ref; try eassumption; lia.
Qed.
