(** Proofs about the initial free list of link slots and the links inside a tile. *)
From Coq Require Import ZArith List Bool Lia Permutation.
From Verif.Base Require Import Res GoNum F32 Num Grid.
From Verif.Model Require Import Poly PolyRef Bounds Geom MeshTypes Serial MeshLinks MeshTiles.
From Verif.Spec Require Import LinkSpec.
From Verif.Proofs Require Import LinkProofs.
Import ListNotations.
Open Scope Z_scope.

(** ** The free list AddTile starts with *)
Lemma nth_combine_zseq : forall {A} (l : list A) k x, nth_error l k = Some x ->
  nth_error (combine (zseq (length l)) l) k = Some (Z.of_nat k, x).
Proof.
  intros A l k x H. unfold zseq.
  assert (forall n, nth_error (combine (map Z.of_nat (seq n (length l))) l) k = Some (Z.of_nat (n + k), x)) as G.
  { revert k x H. induction l as [|y l IH]; intros [|k] x H n; cbn in *; try discriminate.
    - inversion H; subst. now rewrite Nat.add_0_r.
    - rewrite (IH k x H (S n)). do 2 f_equal. lia. }
  apply (G O).
Qed.

Lemma free_links_length : forall ls ls', free_links ls = Ok ls' -> length ls' = length ls /\ ls <> [].
Proof.
  intros ls ls' H. unfold free_links in H. destruct ls as [|l ls]; [discriminate|]. apply Ok_inj in H. subst ls'. split; [|discriminate].
  rewrite map_length, combine_length, zseq_length. lia.
Qed.
Lemma free_links_get : forall ls ls' k, free_links ls = Ok ls' -> (k < length ls)%nat -> zlen ls < nullLink ->
  exists l, nth_error ls' k = Some l /\ lNext l = if Z.of_nat k =? zlen ls - 1 then nullLink else Z.of_nat k + 1.
Proof.
  intros ls ls' k H Hk Hlen. unfold free_links in H. destruct ls as [|l0 ls0]; [discriminate|]. set (ls := l0 :: ls0) in *.
  apply Ok_inj in H. subst ls'. destruct (nth_error_in_range ls k Hk) as (l & Hl).
  exists (set_lNext l (if Z.of_nat k =? zlen ls - 1 then nullLink else u32 (Z.of_nat k + 1))). split.
  - rewrite (map_nth_error _ _ _ (nth_combine_zseq ls k l Hl)). reflexivity.
  - cbn [lNext set_lNext]. destruct (_ =? _); auto. apply u32_id. unfold is_u32, zlen, nullLink in *. lia.
Qed.

Lemma free_links_chain : forall ls ls', free_links ls = Ok ls' -> zlen ls < nullLink ->
  exists fl, LChain ls' 0 fl /\ slots fl = zseq (length ls).
Proof.
  intros ls ls' H Hlen. destruct (free_links_length _ _ H) as (HL & Hne).
  assert (G : forall d k, (k + d = length ls)%nat -> (0 < d)%nat -> exists fl, LSeg ls' (Z.of_nat k) fl nullLink /\ slots fl = map Z.of_nat (seq k d)).
  { induction d as [|d IH]; intros k Hkd Hd; [lia|].
    destruct (free_links_get ls ls' k H) as (l & Hl & Hn); [lia|assumption|].
    assert (Hnn : Z.of_nat k <> nullLink) by (unfold zlen in Hlen; lia).
    assert (Hg : get ls' (Z.of_nat k) = Ok l) by (apply get_ok; rewrite Nat2Z.id; split; [lia|assumption]).
    destruct d as [|d].
    - exists [(Z.of_nat k, pay l)]. split; [|reflexivity]. apply LSeg_cons; auto. rewrite Hn.
      destruct (Z.eqb_spec (Z.of_nat k) (zlen ls - 1)); [constructor|]. unfold zlen in *. lia.
    - destruct (IH (S k)) as (fl & Hs & E); [lia|lia|]. exists ((Z.of_nat k, pay l) :: fl). split.
      + apply LSeg_cons; auto. rewrite Hn. destruct (Z.eqb_spec (Z.of_nat k) (zlen ls - 1)) as [E1|E1]; [unfold zlen in *; lia|].
        replace (Z.of_nat k + 1) with (Z.of_nat (S k)) by lia. exact Hs.
      + unfold slots in *. cbn [map fst]. rewrite E. reflexivity. }
  destruct (G (length ls) O) as (fl & Hs & E); [lia|destruct ls; [contradiction|cbn; lia]|]. exists fl. split; auto.
Qed.

(** ** Polygons not processed yet: their FirstLink is whatever the data says *)
Definition erase_ps (n : nat) (ps : list Poly) : list Poly :=
  firstn n ps ++ map (fun p => with_FirstLink p nullLink) (skipn n ps).
Definition erase (n : nat) (t : MeshTile) : MeshTile := set_tD t (set_tdPolys (tD t) (erase_ps n (tdPolys (tD t)))).

Lemma erase_ps_nth : forall n ps i, (i < n)%nat -> nth_error (erase_ps n ps) i = nth_error ps i.
Proof.
  intros n ps i H. unfold erase_ps. destruct (Nat.lt_ge_cases i (length ps)) as [Hi|Hi].
  - rewrite nth_error_app1 by (rewrite firstn_length; lia). rewrite <- (firstn_skipn n ps) at 2. rewrite nth_error_app1; auto.
    rewrite firstn_length; lia.
  - assert (nth_error ps i = None) as -> by (apply nth_error_None; lia). apply nth_error_None.
    rewrite app_length, firstn_length, map_length, skipn_length. lia.
Qed.
Lemma erase_ps_length : forall n ps, length (erase_ps n ps) = length ps.
Proof. intros. unfold erase_ps. rewrite app_length, firstn_length, map_length, skipn_length. lia. Qed.
Lemma skipn_upd_lt : forall {A} (l : list A) n i v, (i < n)%nat -> skipn n (upd l i v) = skipn n l.
Proof. induction l as [|x l IH]; intros [|n] [|i] v H; cbn; auto; try lia. apply IH. lia. Qed.
Lemma erase_ps_upd : forall n ps i p, (i < n)%nat -> upd (erase_ps n ps) i p = erase_ps n (upd ps i p).
Proof.
  intros n ps i p H. unfold erase_ps. rewrite (firstn_upd ps) by assumption. rewrite skipn_upd_lt by assumption.
  destruct (Nat.lt_ge_cases i (length ps)) as [Hi|Hi].
  - assert (forall (a b : list Poly), (i < length a)%nat -> upd (a ++ b) i p = upd a i p ++ b) as U.
    { clear. revert i. intros i a. revert i. induction a as [|x a IH]; intros [|i] b H; cbn in *; try lia; auto. rewrite IH; auto. lia. }
    apply U. rewrite firstn_length. lia.
  - assert (forall (l : list Poly) k, (length l <= k)%nat -> upd l k p = l) as U.
    { clear. induction l as [|x l IH]; intros [|k] H; cbn in *; auto; try lia. rewrite IH; auto. lia. }
    rewrite !U; auto.
    + rewrite firstn_length; lia.
    + rewrite app_length, firstn_length, map_length, skipn_length. lia.
Qed.
Lemma erase_ps_step : forall n ps p, nth_error ps n = Some p ->
  erase_ps (S n) (upd ps n (with_FirstLink p nullLink)) = erase_ps n ps.
Proof.
  intros n ps p H. destruct (nth_error_split_upd _ _ _ H) as (a & b & -> & L & U). rewrite U. unfold erase_ps. subst n.
  replace (S (length a)) with (length (a ++ [with_FirstLink p nullLink])) by (rewrite app_length; cbn; lia).
  rewrite (firstn_app (length a)), firstn_all, Nat.sub_diag. 
  rewrite (skipn_app (length a)), skipn_all, Nat.sub_diag. change (skipn 0 (p :: b)) with (p :: b). change (firstn 0 (p :: b)) with (@nil Poly).
  rewrite app_nil_r. cbn [app map].
  change (a ++ with_FirstLink p nullLink :: b) with (a ++ [with_FirstLink p nullLink] ++ b). rewrite app_assoc.
  rewrite firstn_app, firstn_all, Nat.sub_diag. change (firstn 0 b) with (@nil Poly). rewrite app_nil_r.
  rewrite skipn_app, skipn_all, Nat.sub_diag. change (skipn 0 b) with b. cbn [app]. rewrite <- app_assoc. reflexivity.
Qed.

Lemma push_erase : forall n t ip ref edge side b, 0 <= ip < Z.of_nat n ->
  push_link (erase n t) ip ref edge side b = let* t' := push_link t ip ref edge side b in Ok (erase n t').
Proof.
  intros n t ip ref edge side b H. unfold push_link.
  assert (allocLink (erase n t) = let* (t', i) := allocLink t in Ok (erase n t', i)) as ->.
  { unfold allocLink. change (tLinksFree (erase n t)) with (tLinksFree t). destruct (_ =? _); auto.
    change (tdLinks (tD (erase n t))) with (tdLinks (tD t)). destruct (get (tdLinks (tD t)) (tLinksFree t)); auto. }
  destruct (allocLink t) as [[t1 idx]| | |] eqn:Ea; auto. cbn [bind].
  destruct (_ =? _); auto.
  change (tdLinks (tD (erase n t1))) with (tdLinks (tD t1)).
  change (tdPolys (tD (erase n t1))) with (erase_ps n (tdPolys (tD t1))).
  assert (get (erase_ps n (tdPolys (tD t1))) ip = get (tdPolys (tD t1)) ip) as ->.
  { unfold get. rewrite erase_ps_nth by lia. reflexivity. }
  destruct (get (tdPolys (tD t1)) ip) as [p| | |] eqn:Ep; auto. cbn [bind].
  destruct (get (tdLinks (tD t1)) idx) as [l| | |]; auto. cbn [bind].
  destruct (match b with Some bb => bb | None => _ end) as [b0 b1].
  destruct (set (tdLinks (tD t1)) idx _) as [ls| | |]; auto. cbn [bind].
  apply get_range in Ep. rewrite !set_in_range by (unfold zlen in *; rewrite ?erase_ps_length; lia). cbn [bind].
  rewrite erase_ps_upd by lia. reflexivity.
Qed.

(** ** Links inside the tile *)

(** The links polygon [p] should get: one for each edge shared with another polygon. *)
Definition internal_edge (p : Poly) (j : Z) : bool :=
  match nth_error (pNeis p) (Z.to_nat j) with Some nei => negb ((nei =? 0) || negb (Z.land nei extLink =? 0)) | None => false end.
Definition int_payload (base : Z) (p : Poly) (j : Z) : payload :=
  (Z.lor base (u16 (nth (Z.to_nat j) (pNeis p) 0 - 1)), j, 255, 0, 0).
Definition int_links (base : Z) (p : Poly) : list payload :=
  if Type_ p =? polyTypeOffMeshConnection then []
  else map (int_payload base p) (filter (internal_edge p) (zseq (Z.to_nat (u8 (pVertCount p - 1) + 1)))).

Lemma connectIntPoly_view : forall base t i t' fl cs p,
  connectIntPoly base t i = Ok t' -> get (tdPolys (tD t)) i = Ok p -> nth_error cs (Z.to_nat i) = Some [] ->
  LinkView (erase (Z.to_nat i) t) fl cs ->
  frame t t' /\ exists fl' c, LinkView (erase (S (Z.to_nat i)) t') fl' (upd cs (Z.to_nat i) c) /\
    ((length (int_links base p) <= length fl)%nat ->
       map snd c = int_links base p /\ (length fl' + length (int_links base p) = length fl)%nat) /\
    (exists k, map snd c = skipn k (int_links base p)).
Proof.
  intros base t i t' fl cs p H Hp Hc HV. unfold connectIntPoly in H. rewrite Hp in H. cbn [bind] in H.
  apply bind_ok in H. destruct H as (ps & Hps & H). apply set_ok_upd in Hps. destruct Hps as [Hr ->].
  apply get_ok in Hp. destruct Hp as [Hi0 Hp].
  set (n := Z.to_nat i) in *. set (t1 := set_tD t (set_tdPolys (tD t) (upd (tdPolys (tD t)) n (with_FirstLink p nullLink)))) in *.
  assert (Hfr1 : frame t t1).
  { unfold frame, t1. split; [reflexivity|]. cbn [tD set_tD set_tdPolys tdLinks tdPolys tdVerts].
    split; [apply static_upd_first; exact Hp|]. repeat (split; [reflexivity|]). reflexivity. }
  assert (HV1 : LinkView (erase (S n) t1) fl cs).
  { assert (erase (S n) t1 = erase n t) as ->; [|assumption]. unfold erase, t1, set_tD, set_tdPolys.
    cbn [tD set_tD tdPolys set_tdPolys tdVerts tdLinks tdDMeshes tdDVerts tdDTris tdBv tdCons tSalt tLinksFree tHeader tData tDataSize tFlags tNext].
    rewrite erase_ps_step by exact Hp. reflexivity. }
  unfold int_links. destruct (Type_ p =? polyTypeOffMeshConnection).
  - inversion H; subst t'. split; auto. exists fl, []. rewrite upd_self by exact Hc. split; [exact HV1|].
    split; [intros _; cbn; split; [reflexivity|lia]|exists O; reflexivity].
  - set (ne := Z.to_nat (u8 (pVertCount p - 1) + 1)) in *.
    set (I := fun (pre : list Z) (s : MeshTile) => frame t s /\ exists fl' c,
       LinkView (erase (S n) s) fl' (upd cs n c) /\
       let want := map (int_payload base p) (filter (internal_edge p) (rev pre)) in
       (exists k, map snd c = skipn k want) /\
       ((length want <= length fl)%nat -> map snd c = want /\ (length fl' + length want = length fl)%nat) /\
       ((length fl < length want)%nat -> fl' = [])).
    apply (foldM_ok_inv _ I) in H.
    + destruct H as (Hfr & fl' & c & HV' & Hk & Hx & _). cbn zeta in *. rewrite rev_involutive in Hk, Hx. split; auto. exists fl', c. auto.
    + split; auto. exists fl, []. rewrite upd_self by exact Hc. split; [exact HV1|]. cbn. split; [exists O; reflexivity|].
      split; [intros _; split; auto; lia|intros; lia].
    + intros pre j post s s' El (Hfr & fl' & c & HVs & Hk & Hx & Hy) Hs. cbn zeta in *.
      assert (Hj : 0 <= j).
      { assert (In j (rev (zseq ne))) as Hin by (rewrite El; apply in_app_iff; right; left; reflexivity).
        apply in_rev in Hin. apply in_zseq in Hin. lia. }
      assert (Er : rev (pre ++ [j]) = j :: rev pre) by (rewrite rev_app_distr; reflexivity).
      apply bind_ok in Hs. destruct Hs as (nei & Hnei & Hs). apply get_ok in Hnei. destruct Hnei as [_ Hnei].
      assert (Hie : internal_edge p j = negb ((nei =? 0) || negb (Z.land nei extLink =? 0))) by (unfold internal_edge; now rewrite Hnei).
      destruct ((nei =? 0) || negb (Z.land nei extLink =? 0)) eqn:En.
      * inversion Hs; subst s'. split; auto. exists fl', c. split; auto. cbn zeta. rewrite Er. cbn [filter]. rewrite Hie. cbn [negb]. auto.
      * split; [eapply frame_trans; [exact Hfr|]; eapply push_frame; exact Hs|].
        assert (Hpe : push_link (erase (S n) s) i (Z.lor base (u16 (nei - 1))) j 255 (Some (0, 0)) = Ok (erase (S n) s')).
        { rewrite push_erase by (unfold n; lia). rewrite Hs. reflexivity. }
        assert (Hip : int_payload base p j = (Z.lor base (u16 (nei - 1)), j, 255, 0, 0)).
        { unfold int_payload. erewrite nth_error_nth by exact Hnei. reflexivity. }
        set (want := map (int_payload base p) (filter (internal_edge p) (rev pre))) in *.
        assert (Ew : map (int_payload base p) (filter (internal_edge p) (rev (pre ++ [j]))) = int_payload base p j :: want).
        { rewrite Er. cbn [filter]. rewrite Hie. reflexivity. }
        rewrite Ew. clear Ew.
        destruct (push_view _ _ _ _ _ _ _ _ _ HVs Hpe) as [(-> & Es)|(x & px & fl'' & p' & c' & bb & -> & Hp' & Hc' & Hbb & HV')].
        -- exists [], c. rewrite Es. split; auto. split; [|split].
           ++ destruct Hk as (k & Hk). exists (S k). exact Hk.
           ++ cbn [length]. intros Hle. destruct Hx as (_ & Hx2); [lia|]. cbn in Hx2. lia.
           ++ reflexivity.
        -- fold n in Hc', HV'. rewrite nth_error_upd_eq in Hc' by (apply nth_error_Some; congruence). inversion Hc'; subst c'.
           rewrite upd_upd in HV'. inversion Hbb; subst bb. cbn [fst snd] in HV'. rewrite <- Hip in HV'.
           destruct (Nat.lt_ge_cases (length fl) (length want)) as [Hlt|Hge]; [specialize (Hy Hlt); discriminate|].
           destruct (Hx Hge) as (Hx1 & Hx2).
           exists fl'', ((x, int_payload base p j) :: c). split; auto. cbn [map snd length]. cbn [length] in Hx2. split; [exists O; cbn; now rewrite Hx1|].
           split; [intros _; split; [now rewrite Hx1|lia]|intros; destruct fl''; auto; cbn [length] in *; lia].
Qed.
