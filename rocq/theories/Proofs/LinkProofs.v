(** Proofs about the link slots of a tile. *)
From Coq Require Import ZArith List Bool Lia Permutation.
From Verif.Base Require Import Res GoNum F32 Num Grid.
From Verif.Model Require Import Poly PolyRef Bounds Geom MeshTypes MeshLinks.
From Verif.Spec Require Import LinkSpec.
Import ListNotations.
Open Scope Z_scope.

(** ** Lists *)
Lemma nth_error_split_upd : forall {A} (l : list A) i x, nth_error l i = Some x ->
  exists a b, l = a ++ x :: b /\ length a = i /\ forall v, upd l i v = a ++ v :: b.
Proof.
  induction l as [|y l IH]; intros [|i] x H; cbn in H; try discriminate.
  - inversion H; subst. exists [], l. auto.
  - destruct (IH i x H) as (a & b & -> & L & U). exists (y :: a), b. cbn. split; auto. split; [lia|].
    intros v. now rewrite U.
Qed.

Lemma Forall2_upd : forall {A B} (P Q : A -> B -> Prop) l k i a b, Forall2 P l k ->
  (forall j x y, j <> i -> nth_error l j = Some x -> nth_error k j = Some y -> P x y -> Q x y) ->
  Q a b -> Forall2 Q (upd l i a) (upd k i b).
Proof.
  intros A B P Q l k i a b H. revert i. induction H as [|x y l k Hxy H IH]; intros i Hj Hab; [constructor|].
  destruct i as [|i]; cbn; constructor; auto.
  - clear IH Hxy. assert (forall j x y, nth_error l j = Some x -> nth_error k j = Some y -> P x y -> Q x y) as Hj'.
    { intros j x' y' ? ? ?. apply (Hj (S j)); auto. }
    clear Hj. induction H as [|x' y' l k Hxy H IH]; constructor.
    + apply (Hj' O); auto.
    + apply IH. intros j. apply (Hj' (S j)).
  - apply (Hj O); auto.
  - apply IH; auto. intros j x' y' Hn. apply (Hj (S j)). lia.
Qed.

Lemma Forall2_len : forall {A B} (P : A -> B -> Prop) l k, Forall2 P l k -> length l = length k.
Proof. intros A B P l k H. induction H; cbn; auto. Qed.
Lemma Forall2_nth : forall {A B} (P : A -> B -> Prop) l k i x, Forall2 P l k -> nth_error l i = Some x ->
  exists y, nth_error k i = Some y /\ P x y.
Proof.
  intros A B P l k i x H. revert i. induction H; intros [|i] Hx; cbn in *; try discriminate.
  - inversion Hx; subst. eauto.
  - auto.
Qed.
Lemma Forall2_nth_r : forall {A B} (P : A -> B -> Prop) l k i y, Forall2 P l k -> nth_error k i = Some y ->
  exists x, nth_error l i = Some x /\ P x y.
Proof.
  intros A B P l k i x H. revert i. induction H; intros [|i] Hx; cbn in *; try discriminate.
  - inversion Hx; subst. eauto.
  - auto.
Qed.

Lemma set_ok_upd : forall {A} (l l' : list A) i v, set l i v = Ok l' -> 0 <= i < zlen l /\ l' = upd l (Z.to_nat i) v.
Proof. intros A l l' i v H. apply set_ok in H. tauto. Qed.

(** ** Segments *)
Lemma LSeg_app : forall L a b s e, LSeg L s (a ++ b) e <-> exists m, LSeg L s a m /\ LSeg L m b e.
Proof.
  intros L a b. induction a as [|x a IH]; intros s e; cbn [app].
  - split; [intros H; exists s; split; [constructor|assumption]|].
    intros (m & H1 & H2). inversion H1; subst. assumption.
  - split.
    + intros H. inversion H as [|? l ? ? Hs Hg Hr]; subst. apply IH in Hr. destruct Hr as (m & Ha & Hb). exists m. split; auto. now constructor.
    + intros (m & Ha & Hb). inversion Ha as [|? l ? ? Hs Hg Hr]; subst. constructor; auto. apply IH. eauto.
Qed.
Lemma LSeg_frame : forall L L' s c e, (forall i, In i (slots c) -> get L' i = get L i) -> LSeg L s c e -> LSeg L' s c e.
Proof.
  intros L L' s c e Hf H. induction H; constructor; auto.
  - rewrite Hf; auto. left. reflexivity.
  - apply IHLSeg. intros i Hi. apply Hf. right. assumption.
Qed.
Lemma LSeg_range : forall L s c e i, LSeg L s c e -> In i (slots c) -> 0 <= i < zlen L /\ i <> nullLink.
Proof.
  intros L s c e i H. induction H; intros Hi; [destruct Hi|]. destruct Hi as [<-|Hi]; auto.
  split; auto. now apply get_range in H0.
Qed.
Lemma LChain_det : forall L s c, LChain L s c -> forall c', LChain L s c' -> c = c'.
Proof.
  unfold LChain. intros L s c H. remember nullLink as e. induction H; intros c' H'; subst.
  - inversion H'; subst; auto. congruence.
  - inversion H'; subst; [congruence|]. rewrite H0 in H3. inversion H3; subst. f_equal. auto.
Qed.
Lemma LChain_null : forall L c, LChain L nullLink c -> c = [].
Proof. intros L c H. inversion H; subst; auto. congruence. Qed.

Lemma slots_app : forall a b, slots (a ++ b) = slots a ++ slots b.
Proof. intros. apply map_app. Qed.

(** ** The view *)
Lemma NoDup_app_iff' : forall {A} (a b : list A), NoDup (a ++ b) <-> NoDup a /\ NoDup b /\ forall x, In x a -> ~ In x b.
Proof.
  intros A a b. induction a as [|y a IH]; cbn [app].
  - split; [intros H; split; [constructor|split; [assumption|intros x []]]|tauto].
  - rewrite !NoDup_cons_iff, IH, in_app_iff. split.
    + intros (H1 & H2 & H3 & H4). repeat split; auto. intros x [<-|Hx]; auto.
    + intros ((H1 & H2) & H3 & H4). repeat split; auto.
      * intros [H|H]; auto. apply (H4 y); [left; reflexivity|assumption].
      * intros x Hx. apply H4. right. assumption.
Qed.

Lemma View_slots_disjoint : forall t fl cs i c x, LinkView t fl cs -> nth_error cs i = Some c -> In x (slots c) ->
  ~ In x (slots fl) /\ (forall j d, j <> i -> nth_error cs j = Some d -> ~ In x (slots d)).
Proof.
  intros t fl cs i c x (_ & _ & Hn & _) Hc Hx. destruct (nth_error_split_upd _ _ _ Hc) as (a & b & -> & L & _).
  rewrite concat_app in Hn. cbn [concat] in Hn. rewrite !slots_app in Hn.
  apply NoDup_app_iff' in Hn. destruct Hn as (_ & Hn & Hd). apply NoDup_app_iff' in Hn. destruct Hn as (_ & Hn & Hda).
  apply NoDup_app_iff' in Hn. destruct Hn as (_ & _ & Hdb).
  split.
  - intros Hf. apply (Hd x Hf). rewrite !in_app_iff. auto.
  - intros j d Hj He Hxd.
    assert (forall l, In d l -> In x (slots (concat l))) as Hcc.
    { intros l Hl. unfold slots in *. apply in_map_iff in Hxd. destruct Hxd as (z & <- & Hz). apply in_map. apply in_concat. eauto. }
    destruct (Nat.lt_ge_cases j (length a)).
    + rewrite nth_error_app1 in He by lia. apply nth_error_In in He. apply (Hda x); auto. rewrite in_app_iff. auto.
    + rewrite nth_error_app2 in He by lia. destruct (j - length a)%nat as [|k] eqn:E; [lia|]. cbn in He.
      apply nth_error_In in He. apply (Hdb x); auto.
Qed.

Lemma View_free_disjoint : forall t fl cs j d x, LinkView t fl cs -> In x (slots fl) -> nth_error cs j = Some d -> ~ In x (slots d).
Proof.
  intros t fl cs j d x HV Hx Hd Hxd. destruct (View_slots_disjoint t fl cs j d x HV Hd Hxd) as [H _]. auto.
Qed.

(** Pushing a link takes the first free slot, if there is one. *)
Lemma alloc_view : forall t fl cs t' idx, LinkView t fl cs -> allocLink t = Ok (t', idx) ->
  (fl = [] /\ idx = nullLink /\ t' = t) \/
  (exists px fl' l, fl = (idx, px) :: fl' /\ idx <> nullLink /\ get (tdLinks (tD t)) idx = Ok l /\
     t' = set_tLinksFree t (lNext l) /\ LChain (tdLinks (tD t)) (lNext l) fl').
Proof.
  intros t fl cs t' idx (Hf & _) H. unfold allocLink in H. unfold LChain in Hf.
  destruct (Z.eqb_spec (tLinksFree t) nullLink) as [E|E].
  - inversion H; subst. left. rewrite E in Hf. apply LChain_null in Hf. auto.
  - inversion Hf; subst; [congruence|]. rewrite H1 in H. cbn [bind] in H. inversion H; subst. right. eauto 8.
Qed.

Lemma push_view : forall t fl cs ip ref edge side b t',
  LinkView t fl cs -> push_link t ip ref edge side b = Ok t' ->
  (fl = [] /\ t' = t) \/
  (exists x px fl' p c bb, fl = (x, px) :: fl' /\ get (tdPolys (tD t)) ip = Ok p /\ nth_error cs (Z.to_nat ip) = Some c /\
     match b with Some b' => bb = b' | None => True end /\
     LinkView t' fl' (upd cs (Z.to_nat ip) ((x, (ref, edge, side, fst bb, snd bb)) :: c))).
Proof.
  intros t fl cs ip ref edge side b t' HV H. unfold push_link in H.
  apply bind_ok in H. destruct H as ([t1 idx] & Ha & H).
  destruct (alloc_view t fl cs t1 idx HV Ha) as [(-> & -> & ->)|(px & fl' & l & -> & Hne & Hl & -> & Hfl')].
  - rewrite Z.eqb_refl in H. inversion H. auto.
  - right. destruct (Z.eqb_spec idx nullLink); [contradiction|].
    cbn [tD set_tLinksFree] in H.
    apply bind_ok in H. destruct H as (p & Hp & H). rewrite Hl in H. cbn [bind] in H.
    set (bb := match b with Some bb => bb | None => (lBMin l, lBMax l) end) in *.
    destruct bb as [b0 b1] eqn:Eb.
    apply bind_ok in H. destruct H as (ls & Hls & H). apply bind_ok in H. destruct H as (ps & Hps & H).
    inversion H; subst t'; clear H. apply set_ok_upd in Hls. destruct Hls as [Hr ->]. apply set_ok_upd in Hps. destruct Hps as [Hrp ->].
    destruct HV as (Hf & HP & Hnd & Hcov & Hlen).
    assert (nth_error (tdPolys (tD t)) (Z.to_nat ip) = Some p) as Hpn by (apply get_ok in Hp; tauto).
    destruct (Forall2_nth _ _ _ _ _ HP Hpn) as (c & Hc & Hcp).
    exists idx, px, fl', p, c, (b0, b1). split; auto. split; auto. split; auto.
    split; [destruct b; [unfold bb in Eb; now inversion Eb|exact I]|].
    set (nl := mkLink ref (pFirstLink p) edge side b0 b1).
    set (L := tdLinks (tD t)) in *. set (L' := upd L (Z.to_nat idx) nl).
    assert (Hgn : get L' idx = Ok nl).
    { unfold L'. rewrite get_upd by lia. rewrite Z.eqb_refl. destruct (Z.ltb_spec idx (zlen L)); [reflexivity|lia]. }
    assert (Hgo : forall i, i <> idx -> get L' i = get L i).
    { intros i Hi. unfold L'. unfold get. destruct (Z.ltb_spec i 0); auto. rewrite nth_error_upd_neq; auto. lia. }
    assert (HV0 : LinkView t ((idx, px) :: fl') cs) by (repeat (split; [assumption|]); assumption).
    assert (Hnot : forall j d, nth_error cs j = Some d -> ~ In idx (slots d)).
    { intros j d Hd. eapply View_free_disjoint; eauto. left. reflexivity. }
    assert (Hnotf : ~ In idx (slots fl')) by (cbn in Hnd; inversion Hnd; subst; rewrite in_app_iff in *; tauto).
    destruct (nth_error_split_upd _ _ _ Hc) as (ca & cb & Ecs & _ & U).
    assert (Permutation (slots fl' ++ slots (concat (upd cs (Z.to_nat ip) ((idx, (ref, edge, side, b0, b1)) :: c))))
                        (slots ((idx, px) :: fl') ++ slots (concat cs))) as Hperm.
    { rewrite U, Ecs, !concat_app. cbn [concat app]. unfold slots. rewrite !map_app. cbn [map fst app]. rewrite !map_app.
      rewrite !app_assoc. symmetry. cbn [app]. rewrite <- !app_assoc. rewrite (app_assoc (map fst fl') (map fst (concat ca))).
      rewrite (app_assoc (map fst fl') (map fst (concat ca)) (idx :: _)). apply Permutation_middle. }
    cbn [tD set_tD set_tdPolys set_tdLinks tdLinks tdPolys tLinksFree set_tLinksFree fst snd].
    split; [|split; [|split; [|split]]].
    + apply (LSeg_frame L L'); auto. intros i Hi. apply Hgo. intros ->. contradiction.
    + apply (Forall2_upd (fun p c => LChain L (pFirstLink p) c)); auto.
      * intros j q d Hj Hq Hd Hch. apply (LSeg_frame L L'); auto. intros i Hi. apply Hgo. intros ->. eapply Hnot; eauto.
      * cbn [pFirstLink with_FirstLink]. apply (LSeg_cons L' idx nl c nullLink); auto. cbn [lNext nl].
        apply (LSeg_frame L L'); auto. intros i Hi. apply Hgo. intros ->. eapply Hnot; eauto.
    + eapply Permutation_NoDup; [apply Permutation_sym, Hperm|assumption].
    + intros i Hi. eapply Permutation_in; [apply Permutation_sym, Hperm|]. apply Hcov.
      change (0 <= i < zlen L') in Hi. unfold L' in Hi. now rewrite zlen_upd in Hi.
    + change (zlen L' < nullLink). unfold L'. now rewrite zlen_upd.
Qed.

Lemma View_chain_nodup : forall t fl cs i c, LinkView t fl cs -> nth_error cs i = Some c -> NoDup (slots c).
Proof.
  intros t fl cs i c (_ & _ & Hn & _) Hc. destruct (nth_error_split_upd _ _ _ Hc) as (a & b & -> & _).
  rewrite concat_app in Hn. cbn [concat] in Hn. rewrite !slots_app in Hn.
  apply NoDup_app_iff' in Hn. destruct Hn as (_ & Hn & _). apply NoDup_app_iff' in Hn. destruct Hn as (_ & Hn & _).
  apply NoDup_app_iff' in Hn. tauto.
Qed.

(** What the link operations leave alone. *)
Definition skel (t : MeshTile) := (tSalt t, tHeader t, tData t, tDataSize t, tFlags t, tNext t).
Definition static_poly (p : Poly) := (pVerts p, pNeis p, pFlags p, pVertCount p, pAreaAndType p).
Definition frame (t t' : MeshTile) : Prop :=
  skel t' = skel t /\
  map static_poly (tdPolys (tD t')) = map static_poly (tdPolys (tD t)) /\
  length (tdLinks (tD t')) = length (tdLinks (tD t)) /\
  length (tdVerts (tD t')) = length (tdVerts (tD t)) /\
  (tdCons (tD t) = [] -> tdVerts (tD t') = tdVerts (tD t)) /\
  tdDMeshes (tD t') = tdDMeshes (tD t) /\ tdDVerts (tD t') = tdDVerts (tD t) /\ tdDTris (tD t') = tdDTris (tD t) /\
  tdBv (tD t') = tdBv (tD t) /\ tdCons (tD t') = tdCons (tD t).
Lemma frame_refl : forall t, frame t t.
Proof. intros t. unfold frame. repeat (split; [reflexivity|]). reflexivity. Qed.
Lemma frame_trans : forall a b c, frame a b -> frame b c -> frame a c.
Proof.
  unfold frame. intros a b c (A1 & A2 & A3 & A4 & A5 & A6 & A7 & A8 & A9 & A10) (B1 & B2 & B3 & B4 & B5 & B6 & B7 & B8 & B9 & B10).
  split; [congruence|]. split; [congruence|]. split; [congruence|]. split; [congruence|].
  split; [intros E; rewrite B5, A5; congruence|]. repeat (split; [congruence|]). congruence.
Qed.

Lemma map_upd : forall {A B} (f : A -> B) l i v, map f (upd l i v) = upd (map f l) i (f v).
Proof. induction l as [|x l IH]; intros [|i] v; cbn; auto. now rewrite IH. Qed.
Lemma static_upd_first : forall ps i p f, nth_error ps i = Some p -> map static_poly (upd ps i (with_FirstLink p f)) = map static_poly ps.
Proof.
  intros ps i p f H. rewrite map_upd. apply upd_self. rewrite (map_nth_error static_poly _ _ H). reflexivity.
Qed.

Lemma push_frame : forall t ip ref edge side b t', push_link t ip ref edge side b = Ok t' -> frame t t'.
Proof.
  intros t ip ref edge side b t' H. unfold push_link in H.
  apply bind_ok in H. destruct H as ([t1 idx] & Ha & H).
  assert (exists f, t1 = set_tLinksFree t f) as (f & ->).
  { unfold allocLink in Ha. destruct (_ =? _).
    - inversion Ha. exists (tLinksFree t1). destruct t1; reflexivity.
    - apply bind_ok in Ha. destruct Ha as (l & _ & Ha). inversion Ha. eauto. }
  destruct (_ =? _).
  - inversion H; subst. unfold frame; repeat (split; [reflexivity|]); reflexivity.
  - apply bind_ok in H. destruct H as (p & Hp & H). apply bind_ok in H. destruct H as (l & Hl & H).
    destruct (match b with Some bb => bb | None => _ end) as [b0 b1].
    apply bind_ok in H. destruct H as (ls & Hls & H). apply bind_ok in H. destruct H as (ps & Hps & H).
    inversion H; subst. apply set_ok_upd in Hls. apply set_ok_upd in Hps. destruct Hls as [_ ->]. destruct Hps as [_ ->].
    apply get_ok in Hp. destruct Hp as [_ Hp].
    unfold frame. split; [reflexivity|]. cbn [tD set_tD set_tdPolys set_tdLinks tdLinks tdPolys tdVerts set_tLinksFree].
    split; [apply static_upd_first; exact Hp|]. split; [apply upd_length|]. repeat (split; [reflexivity|]); reflexivity.
Qed.

(** ** Taking links out of a list *)
Definition keep (b : IdBits) (target : Z) (x : Z * payload) : bool := negb (decodePolyIDTile b (pay_ref (snd x)) =? target).

Lemma nth_error_ext' : forall {A} (l k : list A), (forall i, nth_error l i = nth_error k i) -> l = k.
Proof.
  induction l as [|x l IH]; intros [|y k] H; auto.
  - specialize (H O). discriminate.
  - specialize (H O). discriminate.
  - pose proof (H O) as H0. cbn in H0. inversion H0; subst. f_equal. apply IH. intros i. apply (H (S i)).
Qed.
Lemma perm_mid3 : forall {A} (x : A) f a p r, Permutation (x :: f ++ a ++ p ++ r) (f ++ a ++ p ++ x :: r).
Proof. intros. rewrite !app_assoc. apply Permutation_middle. Qed.

(** One removal: slot [j] leaves the list of polygon [i] and becomes the first free slot. *)
Lemma unlink_view : forall t fl cs i p pre j l rest L' P',
  LinkView t fl cs -> get (tdPolys (tD t)) i = Ok p -> get (tdLinks (tD t)) j = Ok l ->
  nth_error cs (Z.to_nat i) = Some (pre ++ (j, pay l) :: rest) ->
  (pre = [] /\ P' = upd (tdPolys (tD t)) (Z.to_nat i) (with_FirstLink p (lNext l)) /\
     L' = upd (tdLinks (tD t)) (Z.to_nat j) (set_lNext l (tLinksFree t))
   \/ exists pre0 pj q, pre = pre0 ++ [(pj, pay q)] /\ get (tdLinks (tD t)) pj = Ok q /\ P' = tdPolys (tD t) /\
     L' = upd (upd (tdLinks (tD t)) (Z.to_nat pj) (set_lNext q (lNext l))) (Z.to_nat j) (set_lNext l (tLinksFree t))) ->
  LinkView (set_tLinksFree (set_tD t (set_tdPolys (set_tdLinks (tD t) L') P')) j) ((j, pay l) :: fl)
           (upd cs (Z.to_nat i) (pre ++ rest)).
Proof.
  intros t fl cs i p pre j l rest L' P' HV Hp Hl Hc Hcase.
  assert (HV0 := HV). destruct HV0 as (Hf & HP & Hnd & Hcov & Hlen).
  set (L := tdLinks (tD t)) in *.
  apply get_ok in Hp. destruct Hp as [Hi0 Hp].
  destruct (Forall2_nth _ _ _ _ _ HP Hp) as (c' & Hc' & Hch). rewrite Hc in Hc'. inversion Hc'; subst c'; clear Hc'.
  pose proof (View_chain_nodup _ _ _ _ _ HV Hc) as Hndc. rewrite slots_app in Hndc. cbn [slots map fst] in Hndc.
  fold (slots rest) in Hndc. apply NoDup_app_iff' in Hndc. destruct Hndc as (Hnd1 & Hnd2 & Hnd3).
  apply NoDup_cons_iff in Hnd2. destruct Hnd2 as (Hnr & Hnd2).
  assert (Hjpre : ~ In j (slots pre)) by (intros H; apply (Hnd3 j H); left; reflexivity).
  pose proof (get_range _ _ _ Hl) as Hjr.
  apply LSeg_app in Hch. destruct Hch as (mid & Hpre & Hrest).
  inversion Hrest as [|? l0 ? ? Hjn Hl0 Hrest']; subst. fold L in Hl0. rewrite Hl in Hl0. inversion Hl0; subst l0; clear Hl0.
  assert (Hjin : In j (slots (pre ++ (j, pay l) :: rest))) by (rewrite slots_app, in_app_iff; right; left; reflexivity).
  destruct (View_slots_disjoint _ _ _ _ _ _ HV Hc Hjin) as (Hjf & Hjo).
  assert (HL : length L' = length L).
  { destruct Hcase as [(_ & _ & ->)|(? & ? & ? & _ & _ & _ & ->)]; now rewrite ?upd_length. }
  (* the new link array *)
  assert (Hgj : get L' j = Ok (set_lNext l (tLinksFree t))).
  { apply get_ok. split; [lia|]. destruct Hcase as [(_ & _ & ->)|(? & ? & ? & _ & _ & _ & ->)];
      apply nth_error_upd_eq; rewrite ?upd_length; unfold zlen in Hjr; lia. }
  assert (Hgo : forall k, k <> j -> ~ In k (slots pre) -> get L' k = get L k).
  { intros k Hk Hkp. unfold get. destruct (Z.ltb_spec k 0); auto. f_equal.
    destruct Hcase as [(_ & _ & ->)|(pre0 & pj & q & E & Hq & _ & ->)].
    - apply nth_error_upd_neq. lia.
    - assert (k <> pj) by (intros ->; apply Hkp; rewrite E, slots_app, in_app_iff; right; left; reflexivity).
      apply get_range in Hq. rewrite !nth_error_upd_neq; auto; lia. }
  assert (Hpren : forall k, In k (slots pre) -> ~ In k (slots fl) /\ ~ In k (slots rest) /\
            forall j' d, j' <> Z.to_nat i -> nth_error cs j' = Some d -> ~ In k (slots d)).
  { intros k Hk. assert (In k (slots (pre ++ (j, pay l) :: rest))) as Hin by (rewrite slots_app, in_app_iff; auto).
    destruct (View_slots_disjoint _ _ _ _ _ _ HV Hc Hin) as (A & B). split; auto. split; auto. intros Hr. apply (Hnd3 k Hk). right. assumption. }
  assert (Hnew : exists p', nth_error P' (Z.to_nat i) = Some p' /\ LChain L' (pFirstLink p') (pre ++ rest) /\
            forall k, k <> Z.to_nat i -> nth_error P' k = nth_error (tdPolys (tD t)) k).
  { assert (Hr : LChain L' (lNext l) rest).
    { apply (LSeg_frame L L'); auto. intros k Hk. apply Hgo.
      - intros ->. contradiction.
      - intros Hk'. destruct (Hpren k Hk') as (_ & ? & _). contradiction. }
    destruct Hcase as [(-> & -> & _)|(pre0 & pj & q & E & Hq & -> & EL)].
    - exists (with_FirstLink p (lNext l)). split; [apply nth_error_upd_eq; apply nth_error_Some; congruence|]. split; auto.
      intros k Hk. apply nth_error_upd_neq. auto.
    - exists p. split; auto. split; auto. rewrite E in Hpre |- *. apply LSeg_app in Hpre. destruct Hpre as (m0 & Hq1 & Hq2).
      inversion Hq2 as [|? q0 ? ? Hpn Hq0 Hq3]; subst. fold L in Hq0, Hq1. rewrite Hq in Hq0. inversion Hq0; subst q0; clear Hq0.
      rewrite <- app_assoc. apply LSeg_app. rewrite slots_app in Hnd1. apply NoDup_app_iff' in Hnd1. destruct Hnd1 as (_ & _ & Hpj0).
      rewrite slots_app in Hjpre. rewrite in_app_iff in Hjpre. cbn in Hjpre.
      pose proof (get_range _ _ _ Hq) as Hpjr.
      set (L2 := upd (upd L (Z.to_nat pj) (set_lNext q (lNext l))) (Z.to_nat j) (set_lNext l (tLinksFree t))) in *.
      exists pj. split.
      + apply (LSeg_frame L L2); auto. intros k Hk. unfold get. destruct (Z.ltb_spec k 0); auto. f_equal. unfold L2.
        assert (k <> pj) by (intros ->; apply (Hpj0 pj Hk); left; reflexivity).
        assert (k <> j) by (intros ->; tauto).
        rewrite !nth_error_upd_neq; auto; lia.
      + cbn [app]. change (pay q) with (pay (set_lNext q (lNext l))). apply LSeg_cons; auto.
        apply get_ok. split; [lia|]. unfold L2. rewrite nth_error_upd_neq by (intros Hz; assert (pj = j) by lia; subst; tauto).
        apply nth_error_upd_eq. unfold zlen in Hpjr. lia. }
  destruct Hnew as (p' & Hp' & Hchain' & Hothers).
  destruct (nth_error_split_upd _ _ _ Hc) as (ca & cb & Ecs & Lca & U).
  assert (Permutation (slots ((j, pay l) :: fl) ++ slots (concat (upd cs (Z.to_nat i) (pre ++ rest))))
                      (slots fl ++ slots (concat cs))) as Hperm.
  { rewrite U, Ecs, !concat_app. cbn [concat]. rewrite <- !app_assoc. cbn [app].
    unfold slots. rewrite !map_app. cbn [map fst app]. rewrite !map_app.
    apply perm_mid3. }
  split; [|split; [|split; [|split]]].
  - change (LSeg L' j ((j, pay l) :: fl) nullLink). change (pay l) with (pay (set_lNext l (tLinksFree t))).
    apply LSeg_cons; auto. cbn [lNext set_lNext]. apply (LSeg_frame L L'); auto.
    intros k Hk. apply Hgo; [intros ->; contradiction|]. intros Hk'. destruct (Hpren k Hk'). contradiction.
  - change (Forall2 (fun p c => LChain L' (pFirstLink p) c) P' (upd cs (Z.to_nat i) (pre ++ rest))).
    rewrite <- (upd_self P' (Z.to_nat i) p' Hp').
    assert (upd P' (Z.to_nat i) p' = upd (tdPolys (tD t)) (Z.to_nat i) p') as ->.
    { apply nth_error_ext'. intros k. rewrite !nth_error_upd. destruct (Nat.eqb_spec k (Z.to_nat i)).
      - now rewrite Hp, Hp'.
      - auto. }
    apply (Forall2_upd (fun p c => LChain L (pFirstLink p) c)); auto.
    intros k q d Hk Hq Hd Hch. apply (LSeg_frame L L'); auto. intros s Hs. apply Hgo.
    + intros ->. eapply Hjo; eauto.
    + intros Hs'. destruct (Hpren s Hs') as (_ & _ & B). eapply B; eauto.
  - eapply Permutation_NoDup; [apply Permutation_sym, Hperm|assumption].
  - intros k Hk. eapply Permutation_in; [apply Permutation_sym, Hperm|]. apply Hcov.
    change (0 <= k < zlen L') in Hk. unfold zlen in *. now rewrite HL in Hk.
  - change (zlen L' < nullLink). unfold zlen in *. now rewrite HL.
Qed.

Lemma LSeg_prefix : forall L s pre j, LSeg L s pre j -> forall rest e, LSeg L s (pre ++ rest) e -> LSeg L j rest e.
Proof.
  intros L s pre j H. induction H as [|s l c e0 Hs Hg H IH]; intros rest e Hr; auto.
  cbn [app] in Hr. inversion Hr as [|? l' ? ? Hs' Hg' Hr']; subst. rewrite Hg in Hg'. inversion Hg'; subst. auto.
Qed.
Lemma unconnect_view : forall b target i rest fuel t fl cs p pre j pj,
  LinkView t fl cs -> get (tdPolys (tD t)) i = Ok p -> nth_error cs (Z.to_nat i) = Some (pre ++ rest) ->
  LSeg (tdLinks (tD t)) (pFirstLink p) pre j ->
  (pre = [] /\ pj = nullLink \/ exists pre0 x, pre = pre0 ++ [(pj, x)]) ->
  (length rest < fuel)%nat ->
  exists t' fl', unconnect_chain fuel b target i t j pj = Ok t' /\ frame t t' /\
    LinkView t' fl' (upd cs (Z.to_nat i) (pre ++ filter (keep b target) rest)).
Proof.
  intros b target i. induction rest as [|[j0 x] rest IH]; intros fuel t fl cs p pre j pj HV Hp Hc Hpre Hpj Hfuel.
  - assert (j = nullLink) as ->.
    { destruct HV as (_ & HP & _). apply get_ok in Hp. destruct Hp as [_ Hp]. destruct (Forall2_nth _ _ _ _ _ HP Hp) as (c & Hc' & Hch).
      rewrite app_nil_r in Hc. rewrite Hc in Hc'. inversion Hc'; subst c.
      rewrite <- (app_nil_r pre) in Hch. apply (LSeg_prefix _ _ _ _ Hpre) in Hch. now inversion Hch. }
    exists t, fl. split; [destruct fuel; reflexivity|]. split; [apply frame_refl|].
    cbn [filter]. rewrite upd_self; auto.
  - assert (Hch : exists l, j = j0 /\ j <> nullLink /\ get (tdLinks (tD t)) j = Ok l /\ x = pay l).
    { destruct HV as (_ & HP & _). apply get_ok in Hp. destruct Hp as [_ Hp]. destruct (Forall2_nth _ _ _ _ _ HP Hp) as (c & Hc' & Hch).
      rewrite Hc in Hc'. inversion Hc'; subst c.
      apply (LSeg_prefix _ _ _ _ Hpre) in Hch. inversion Hch; subst. eauto. }
    destruct Hch as (l & <- & Hjn & Hl & ->).
    destruct fuel as [|fuel]; [cbn in Hfuel; lia|]. cbn [unconnect_chain].
    destruct (Z.eqb_spec j nullLink); [contradiction|]. rewrite Hl. cbn [bind].
    cbn [filter]. assert (Hk : keep b target (j, pay l) = negb (decodePolyIDTile b (lRef l) =? target)) by reflexivity.
    rewrite Hk. clear Hk.
    pose proof (get_range _ _ _ Hp) as Hpr. pose proof (get_range _ _ _ Hl) as Hjr.
    destruct (Z.eqb_spec (decodePolyIDTile b (lRef l)) target) as [Et|Et].
    + cbn [negb].
      (* removed *)
      assert (Hstep : exists P' L',
        (let* t0 := (if pj =? nullLink then
             let* p := get (tdPolys (tD t)) i in
             let* ps := set (tdPolys (tD t)) i (with_FirstLink p (lNext l)) in
             Ok (set_tD t (set_tdPolys (tD t) ps))
           else
             let* q := get (tdLinks (tD t)) pj in
             let* ls := set (tdLinks (tD t)) pj (set_lNext q (lNext l)) in
             Ok (set_tD t (set_tdLinks (tD t) ls))) in freeLink t0 j)
        = Ok (set_tLinksFree (set_tD t (set_tdPolys (set_tdLinks (tD t) L') P')) j) /\
        (pre = [] /\ P' = upd (tdPolys (tD t)) (Z.to_nat i) (with_FirstLink p (lNext l)) /\
           L' = upd (tdLinks (tD t)) (Z.to_nat j) (set_lNext l (tLinksFree t))
         \/ exists pre0 pj q, pre = pre0 ++ [(pj, pay q)] /\ get (tdLinks (tD t)) pj = Ok q /\ P' = tdPolys (tD t) /\
           L' = upd (upd (tdLinks (tD t)) (Z.to_nat pj) (set_lNext q (lNext l))) (Z.to_nat j) (set_lNext l (tLinksFree t)))).
      { destruct Hpj as [(-> & ->)|(pre0 & y & ->)].
        - rewrite Z.eqb_refl, Hp. cbn [bind]. rewrite set_in_range by lia. cbn [bind].
          unfold freeLink. cbn [tD set_tD set_tdPolys tdLinks tLinksFree]. rewrite Hl. cbn [bind]. rewrite set_in_range by lia. cbn [bind].
          exists (upd (tdPolys (tD t)) (Z.to_nat i) (with_FirstLink p (lNext l))), (upd (tdLinks (tD t)) (Z.to_nat j) (set_lNext l (tLinksFree t))).
          split; [reflexivity|]. left. auto.
        - apply LSeg_app in Hpre. destruct Hpre as (m0 & Hs0 & Hs1). inversion Hs1 as [|? q ? ? Hpn Hq Hs2]; subst.
          inversion Hs2; subst.
          destruct (Z.eqb_spec pj nullLink); [contradiction|]. rewrite Hq. cbn [bind].
          pose proof (get_range _ _ _ Hq) as Hqr. rewrite set_in_range by lia. cbn [bind].
          pose proof (View_chain_nodup _ _ _ _ _ HV Hc) as Hnd. rewrite !slots_app in Hnd. cbn [slots map fst] in Hnd.
          rewrite <- app_assoc in Hnd. apply NoDup_app_iff' in Hnd. destruct Hnd as (_ & Hnd & _). cbn [app] in Hnd.
          apply NoDup_cons_iff in Hnd. destruct Hnd as (Hnd & _).
          assert (lNext q <> pj) by (intros Heq; apply Hnd; left; auto).
          unfold freeLink. cbn [tD set_tD set_tdLinks tdLinks tLinksFree].
          assert (get (upd (tdLinks (tD t)) (Z.to_nat pj) (set_lNext q (lNext l))) (lNext q) = Ok l) as ->.
          { rewrite get_upd by lia. destruct (Z.eqb_spec (lNext q) pj); [contradiction|]. exact Hl. }
          cbn [bind]. rewrite set_in_range by (rewrite zlen_upd; lia). cbn [bind].
          exists (tdPolys (tD t)), (upd (upd (tdLinks (tD t)) (Z.to_nat pj) (set_lNext q (lNext l))) (Z.to_nat (lNext q)) (set_lNext l (tLinksFree t))).
          split; [reflexivity|]. right. exists pre0, pj, q. repeat (split; [reflexivity || assumption|]). reflexivity. }
      destruct Hstep as (P' & L' & Hstep & Hcase).
      destruct (if pj =? nullLink then _ else _) as [t0| | |] eqn:E0; cbn [bind] in Hstep |- *; try discriminate.
      rewrite Hstep. cbn [bind].
      pose proof (unlink_view t fl cs i p pre j l rest L' P' HV Hp Hl Hc Hcase) as HV'.
      set (t1 := set_tLinksFree (set_tD t (set_tdPolys (set_tdLinks (tD t) L') P')) j) in *.
      assert (Hcn : nth_error (upd cs (Z.to_nat i) (pre ++ rest)) (Z.to_nat i) = Some (pre ++ rest)).
      { apply nth_error_upd_eq. apply nth_error_Some. congruence. }
      assert (Hfr : frame t t1).
      { apply get_ok in Hp. destruct Hp as [_ Hp].
        unfold frame, t1. split; [reflexivity|]. cbn [tD set_tD set_tdPolys set_tdLinks tdLinks tdPolys tdVerts set_tLinksFree].
        split; [|split; [|repeat (split; [reflexivity|]); reflexivity]].
        - destruct Hcase as [(_ & -> & _)|(? & ? & ? & _ & _ & -> & _)]; auto. now apply static_upd_first.
        - destruct Hcase as [(_ & _ & ->)|(? & ? & ? & _ & _ & _ & ->)]; now rewrite ?upd_length. }
      assert (exists p1, get (tdPolys (tD t1)) i = Ok p1) as (p1 & Hp1).
      { apply get_in_range. destruct Hfr as (_ & Hm & _). apply (f_equal (@length _)) in Hm. rewrite !map_length in Hm.
        unfold zlen in *. rewrite Hm. lia. }
      assert (Hpre1 : LSeg (tdLinks (tD t1)) (pFirstLink p1) pre (lNext l)).
      { destruct HV' as (_ & HP' & _). pose proof Hp1 as Hp1'. apply get_ok in Hp1'. destruct Hp1' as [_ Hp1'].
        destruct (Forall2_nth _ _ _ _ _ HP' Hp1') as (c & Hc' & Hch). rewrite Hcn in Hc'. inversion Hc'; subst c.
        apply LSeg_app in Hch. destruct Hch as (mid & Ha & Hb). 
        assert (mid = lNext l) as <-; [|assumption].
        destruct Hcase as [(-> & EP & _)|(pre0 & pj' & q & -> & Hq & EP & EL)].
        - inversion Ha; subst. unfold t1 in Hp1. cbn [tD set_tD set_tdPolys set_tdLinks tdLinks tdPolys tdVerts set_tLinksFree] in Hp1.
          rewrite get_upd in Hp1 by lia. rewrite Z.eqb_refl in Hp1. destruct (Z.ltb_spec i (zlen (tdPolys (tD t)))); [|lia]. cbn [andb] in Hp1.
          inversion Hp1; subst. reflexivity.
        - apply LSeg_app in Ha. destruct Ha as (m1 & Ha1 & Ha2). inversion Ha2 as [|? q1 ? ? Hn1 Hq1 Hs1]; subst m1.
          inversion Hs1; subst. unfold t1 in Hq1. cbn [tD set_tD set_tdPolys set_tdLinks tdLinks tdPolys tdVerts set_tLinksFree] in Hq1.
          pose proof (View_chain_nodup _ _ _ _ _ HV Hc) as Hnd. rewrite !slots_app in Hnd. cbn [slots map fst] in Hnd.
          rewrite <- app_assoc in Hnd. apply NoDup_app_iff' in Hnd. destruct Hnd as (_ & Hnd & _). cbn [app] in Hnd.
          apply NoDup_cons_iff in Hnd. destruct Hnd as (Hnd & _).
          assert (pj' <> j) by (intros Heq; apply Hnd; left; auto).
          apply get_range in Hq. rewrite get_upd in Hq1 by lia. destruct (Z.eqb_spec pj' j); [contradiction|]. cbn [andb] in Hq1.
          rewrite get_upd in Hq1 by lia. rewrite Z.eqb_refl in Hq1. destruct (Z.ltb_spec pj' (zlen (tdLinks (tD t)))); [|lia]. cbn [andb] in Hq1.
          inversion Hq1; subst. reflexivity. }
      destruct (IH fuel t1 _ _ p1 pre (lNext l) pj HV' Hp1 Hcn Hpre1 Hpj) as (t' & fl' & E & Hfr' & HV''); [cbn in Hfuel; lia|].
      exists t', fl'. split; [exact E|]. split; [eapply frame_trans; eassumption|].
      rewrite upd_upd in HV''. exact HV''.
    + (* kept *)
      cbn [negb].
      destruct (IH fuel t fl cs p (pre ++ [(j, pay l)]) (lNext l) j HV Hp) as (t' & fl' & E & Hfr & HV').
      * rewrite <- app_assoc. exact Hc.
      * apply LSeg_app. exists j. split; auto. apply LSeg_cons; auto. constructor.
      * right. eauto.
      * cbn in Hfuel. lia.
      * exists t', fl'. split; [exact E|]. split; [exact Hfr|]. rewrite <- app_assoc in HV'. exact HV'.
Qed.

(** The whole tile: exactly the links to the target tile go. *)
Lemma map_filter_split : forall {A} (f : A -> bool) (cs : list (list A)) n c, nth_error cs n = Some c ->
  upd (map (filter f) (firstn n cs) ++ skipn n cs) n (filter f c) = map (filter f) (firstn (S n) cs) ++ skipn (S n) cs.
Proof.
  intros A f cs n c H. destruct (nth_error_split_upd _ _ _ H) as (a & b & -> & L & _). subst n.
  replace (S (length a)) with (length (a ++ [c])) by (rewrite app_length; cbn; lia).
  rewrite firstn_app, firstn_all, Nat.sub_diag. cbn [firstn]. rewrite app_nil_r.
  rewrite skipn_app, skipn_all, Nat.sub_diag. cbn [skipn app].
  rewrite <- (map_length (filter f) a) at 1. rewrite upd_app_length.
  change (a ++ c :: b) with (a ++ [c] ++ b). rewrite (app_assoc a [c] b). rewrite firstn_app, firstn_all, Nat.sub_diag. cbn [firstn]. rewrite app_nil_r.
  rewrite skipn_app, skipn_all, Nat.sub_diag. cbn [skipn app]. rewrite map_app, <- app_assoc. reflexivity.
Qed.
Lemma LSeg_slots_in : forall L s c e, LSeg L s c e -> forall k, In k (slots c) -> In k (zseq (length L)).
Proof. intros L s c e H k Hk. apply in_zseq. apply (LSeg_range _ _ _ _ _ H) in Hk. unfold zlen in Hk. tauto. Qed.
Lemma LSeg_length : forall L s c e, LSeg L s c e -> NoDup (slots c) -> (length c <= length L)%nat.
Proof.
  intros L s c e H Hn. rewrite <- (map_length fst c), <- (zseq_length (length L)).
  apply NoDup_incl_length; auto. intros k. apply (LSeg_slots_in _ _ _ _ H).
Qed.

Lemma unconnectLinks_view : forall m it itarget t h fl cs tref,
  tile_of m it = Ok t -> tHeader t = Some h -> TileRef m itarget = Ok tref -> LinkView t fl cs ->
  hPolyCount h = zlen (tdPolys (tD t)) ->
  exists t' fl', unconnectLinks m it itarget = Ok (set_tile m it t') /\ frame t t' /\
    LinkView t' fl' (map (filter (keep (mBits m) (decodePolyIDTile (mBits m) tref))) cs).
Proof.
  intros m it itarget t h fl cs tref Ht Hh Hr HV Hn. unfold unconnectLinks. rewrite Hr, Ht. cbn [bind].
  unfold hdr_of. rewrite Hh. cbn [bind of_option]. set (tg := decodePolyIDTile (mBits m) tref).
  set (kp := keep (mBits m) tg). rewrite Hn. unfold zlen. rewrite Nat2Z.id.
  assert (Hcs : length cs = length (tdPolys (tD t))) by (destruct HV as (_ & HP & _); symmetry; eapply Forall2_len; exact HP).
  set (I := fun (pre : list Z) (s : MeshTile) => frame t s /\ exists fl', LinkView s fl' (map (filter kp) (firstn (length pre) cs) ++ skipn (length pre) cs)).
  match goal with |- context [foldM ?f ?l ?s] => destruct (foldM_inv f I l s) as (t' & E & Hfr & fl' & HV') end.
  - split; [apply frame_refl|]. exists fl. exact HV.
  - intros pre i post s El (Hfr & fl' & HVs). apply zseq_split in El. destruct El as (Ei & Hlt).
    assert (Hls : length (tdPolys (tD s)) = length (tdPolys (tD t))).
    { destruct Hfr as (_ & Hm & _). apply (f_equal (@length _)) in Hm. now rewrite !map_length in Hm. }
    destruct (get_in_range (tdPolys (tD s)) i) as (p & Hp); [unfold zlen in *; lia|]. rewrite Hp. cbn [bind].
    destruct (nth_error_in_range cs (length pre)) as (c & Hc); [lia|].
    assert (Hci : nth_error (map (filter kp) (firstn (length pre) cs) ++ skipn (length pre) cs) (Z.to_nat i) = Some ([] ++ c)).
    { rewrite nth_error_app2 by (rewrite map_length, firstn_length; unfold zlen in *; lia).
      rewrite map_length, firstn_length. replace (Z.to_nat i - Nat.min (length pre) (length cs))%nat with O by (unfold zlen in *; lia).
      rewrite <- (firstn_skipn (length pre) cs) in Hc. rewrite nth_error_app2 in Hc by (rewrite firstn_length; lia).
      rewrite firstn_length in Hc. now replace (length pre - Nat.min (length pre) (length cs))%nat with O in Hc by lia. }
    destruct (unconnect_view (mBits m) tg i c (S (length (tdLinks (tD s)))) s fl' _ p [] (pFirstLink p) nullLink HVs Hp Hci)
      as (s' & fl'' & E & Hfr' & HV'').
    + constructor.
    + auto.
    + pose proof (View_chain_nodup _ _ _ _ _ HVs Hci) as Hnd. pose proof Hp as Hp'. apply get_ok in Hp'. destruct Hp' as [_ Hp'].
      destruct HVs as (_ & HP & _). destruct (Forall2_nth _ _ _ _ _ HP Hp') as (c' & Hc' & Hch). rewrite Hci in Hc'. inversion Hc'; subst c'.
      apply LSeg_length in Hch; auto. cbn [app] in Hch. lia.
    + exists s'. split; [exact E|]. split; [eapply frame_trans; eassumption|]. exists fl''.
      rewrite app_length. cbn [length]. rewrite Nat.add_1_r. rewrite <- (map_filter_split kp cs (length pre) c Hc).
      cbn [app] in HV''. replace (Z.to_nat i) with (length pre) in HV'' by (unfold zlen in *; lia). exact HV''.
  - exists t', fl'. rewrite E. cbn [bind]. split; [reflexivity|]. split; [exact Hfr|].
    rewrite zseq_length in HV'. rewrite <- Hcs, firstn_all, skipn_all, app_nil_r in HV'. exact HV'.
Qed.
